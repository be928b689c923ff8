(** C128: the source in an orderly exchange. *)
From Coq Require Import Lia Lqa.
From Verif Require Import Outcome KernelMaterial KernelResBuf KernelBuf KernelFacts KernelBufFacts KernelMass NetworkSpec SimulationSpec SimulationProofs.
From Verif Require Import SourceModel SourceSpec SourceProofs.
Local Open Scope Q_scope.

Lemma whole_unpackaged : unpackaged whole.
Proof. intros i q. reflexivity. Qed.
Lemma loop_sound eps eg cfg fill : filler_ok fill -> sc_recipe cfg <> ""%string -> forall ts i k b b' rs,
  mats_ok (b_items b) -> Forall (fun t => 0 <= fst t) ts -> sr_trade_loop eps eg cfg fill i k ts b = Ok (b', rs) -> mats_ok (map snd rs).
Proof.
  intros F RN. induction ts as [|[amt tgt] ts IH]; intros i k b b' rs O N H.
  - cbn in H. injection H as <- <-. constructor.
  - inversion N as [|? ? Na N']; subst. cbn [fst] in Na. destruct (Z_lt_dec 0 k) as [K|K].
    2: { rewrite trade_none in H by exact K. exact (IH _ _ _ _ _ O N' H). }
    apply trade_one in H as (m & r1 & pkgs & rest & b2 & resp & k' & rs' & P & S & C & U1 & U2 & RQ & RC & _ & T & ->); [|exact K].
    pose proof (pop_qty_facts _ _ _ _ O Na P) as (P1 & P2 & P3 & P4 & P5 & _ & P7).
    pose proof (split_facts _ _ _ _ S) as (S1 & S2 & S3 & S4).
    destruct (F i (m_qty m)) as [F1 F2]; [lra|]. pose proof (fill_split _ _ S1 F1) as (G0 & G1 & _). rewrite <- RQ in G0, G1.
    assert (CR : m_comp resp = m_comp m). { rewrite RC. destruct pkgs; [exact S3|]. inversion S2; subst. assumption. }
    destruct P4 as (_ & OC & OS). assert (OS' : 0 < csum (m_comp m)) by (destruct OS as [OS|OS]; [exact OS|lra]).
    assert (RO : mat_ok rest) by (split; [lra|]; rewrite S3; split; [exact OC|left; exact OS']).
    assert (O2 : mats_ok (b_items b2)).
    { destruct (Qlt_le_dec eg (m_qty rest)) as [Y|Y]; [rewrite (U1 Y); apply Forall_app; split; auto|rewrite (U2 Y); assumption]. }
    cbn [map snd]. constructor; [|exact (IH _ _ _ _ _ O2 N' T)].
    destruct (String.eqb_spec (sc_recipe cfg) ""); [congruence|]. split; [exact G0|]. rewrite CR. split; [exact OC|left; exact OS'].
Qed.

Lemma src_works w t id id' g c s : world_ok w -> good w t id (Srce c s) -> works w t id id' g (Srce c s).
Proof.
  intros (EP & EG & RO) ((O & C) & IC & RC).
  set (e0 := {| se_fill_bids := whole; se_fill := whole; se_ship := all_of_it; se_reqs := g_wants g; se_trades := [] |}).
  destruct (bids_ok (w_eg w) (w_recipe w) c e0 s) as (q & p & BD). { destruct RC as [E|(r & _ & E & _)]; [left; exact E|right; rewrite E; discriminate]. }
  cbn [e0 se_fill_bids se_ship se_reqs] in BD.
  unfold works. cbn [publish]. rewrite BD. cbn [bind]. eexists. split; [reflexivity|]. intros S R HS HR AR _.
  pose proof (buys_none _ _ HR eq_refl) as RN. clear HR. destruct R as [|x R]; [|discriminate]. clear RN AR.
  set (ts := map (fun d => (t_amt d, Mat 0 (t_amt d) (t_want d))) S).
  pose proof (sales_pos _ _ HS) as PO.
  assert (FT : map fst ts = map t_amt S) by (unfold ts; rewrite map_map; reflexivity).
  assert (PT : Forall (fun x => 0 < fst x) ts) by (unfold ts; apply Forall_map; rewrite Forall_map in PO; exact PO).
  assert (NT : Forall (fun x => 0 <= fst x) ts) by (eapply Forall_impl; [|exact PT]; cbn; intros; lra).
  assert (LE : qsum (map fst ts) <= qty_of (b_items (ss_inv s))).
  { rewrite FT. destruct p as [b|].
    - pose proof (sales_one _ _ _ HS eq_refl) as L. cbn [of_limit] in L. unfold sr_get_bids in BD. destruct (Qltb _ (w_eg w)); [discriminate|].
      destruct (map snd _) as [|x l]; [discriminate|]. apply bind_ok in BD as (bs & _ & X). injection X as _ <-. cbn [sp_limit] in L.
      eapply Qle_trans; [exact L|]. apply Q.le_min_r.
    - rewrite (sales_none _ _ HS eq_refl). cbn. apply qtys_ok_nonneg, O. }
  pose proof (unpackaged_ok whole whole_unpackaged) as FO.
  destruct (loop_filled (w_eps w) (w_eg w) c EG whole FO ts 0 (zlen ts) (ss_inv s) O C PT LE) as (b' & rs & T & _ & FI).
  destruct (FI whole_unpackaged) as [FQ FS]; [unfold zlen; lia|].
  destruct (loop_qty _ _ _ _ EG FO _ _ _ _ _ _ O NT T) as (O' & _ & C' & SH & CON).
  assert (CV : qty_of (b_items b') + qty_of (map snd rs) == qty_of (b_items (ss_inv s))).
  { apply CON. intros j amt tgt x _ _. rewrite whole_unpackaged. cbn. split; [lia|]. left. lra. }
  assert (OM : mats_ok (map snd rs)).
  { destruct RC as [E|(r & Z & E & OI & _)].
    - apply Forall_map. rewrite Forall_forall in SH |- *. intros jr I. destruct (SH jr I) as (j & amt & tgt & _ & J & Q1 & CM). specialize (CM E).
      unfold ts in J. rewrite nth_error_map in J. destruct (nth_error S j) as [d|] eqn:D; [|discriminate]. injection J as <- <-. cbn [m_comp] in CM.
      destruct HS as [HS _]. rewrite Forall_forall in HS. destruct (HS d (nth_error_In _ _ D)) as (_ & A & B & _).
      split; [apply Q1|]. rewrite CM. split; [exact A|left; exact B].
    - exact (loop_sound _ _ _ _ FO Z _ _ _ _ _ _ OI NT T). }
  exists (Srce c {| ss_inv := b' |}), (map snd rs). cbn [fstep]. unfold sr_step, sr_get_trades. cbn [se_fill_bids se_fill se_ship se_reqs se_trades]. rewrite BD. cbn [bind]. fold ts.
  unfold all_of_it at 1. rewrite T. cbn [bind]. split; [reflexivity|].
  assert (BQ : qty_of (b_items b') + qty_of (map snd rs) == qty_of (b_items (ss_inv s)) + qty_of (map snd (@nil (trade * mat)))) by (cbn [map]; rewrite qty_of_nil; lra).
  split; [|split].
  - refine (sold_shape S _ _ eq_refl _ OM). rewrite <- FT. clear -FQ. revert FQ. generalize (map fst ts). induction rs as [|x rs IH]; intros l H; inversion H; subst; constructor; auto.
  - split; [split; [exact O'|exact (C' C)]|]. split.
    { cbn [inside ss_inv] in *. pose proof (mats_qty_nonneg _ OM). lra. }
    destruct RC as [E|(r & Z & E & OI & MD)]; [left; exact E|right]. exists r. split; [exact Z|]. split; [exact E|].
    destruct (loop_made _ _ _ r whole FO Z _ _ _ _ _ _ OI MD NT T) as (A & B & _). split; assumption.
  - split; [cbn; tauto|]. cbn [inside ss_inv]. split; [exact BQ|]. intros NE n. cbn [inert] in NE. destruct RC as [E|(r & Z & E & OI & MD)]; [contradiction|].
    destruct (loop_made _ _ _ r whole FO Z _ _ _ _ _ _ OI MD NT T) as (_ & B & D). rewrite <- (Forall_map snd) in D. cbn [map].
    rewrite (mass_in_made _ _ n B), (mass_in_made _ _ n D), (mass_in_made _ _ n MD), mass_in_nil. rewrite <- CV. ring.
Qed.
