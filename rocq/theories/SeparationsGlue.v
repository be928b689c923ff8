(** The tick, the exchange and histories of the separations model. *)
From Coq Require Import Lia Lqa.
From Verif Require Import Outcome KernelMaterial KernelResBuf KernelBuf KernelFacts KernelMass
  KernelBufFacts SeparationsModel SeparationsSpec SeparationsProofs.
Local Open Scope Q_scope.

(** ** Totals *)
Lemma qty_flat bm : qty_of (flat_map (fun e => b_items (snd e)) bm) == bm_qty bm.
Proof.
  induction bm as [|e bm IH]; simpl; [unfold bm_qty; simpl; rewrite qty_of_nil; lra|].
  rewrite qty_of_app, bm_qty_cons, IH. reflexivity.
Qed.
Lemma mass_flat n bm : mass_in n (flat_map (fun e => b_items (snd e)) bm) == bm_mass n bm.
Proof.
  induction bm as [|e bm IH]; simpl; [unfold bm_mass; simpl; rewrite mass_in_nil; lra|].
  rewrite mass_in_app, bm_mass_cons, IH. reflexivity.
Qed.
Lemma flat_all (P : mat -> Prop) bm :
  Forall P (flat_map (fun e => b_items (snd e)) bm) <-> bm_all (Forall P) bm.
Proof.
  unfold bm_all. induction bm as [|e bm IH]; simpl; [split; constructor|].
  rewrite Forall_app, IH. split; [intros (A & B); constructor; auto|intro H; inversion H; auto].
Qed.
Lemma parcels_qty s : qty_of (parcels s) == b_qty (ps_feed s) + b_qty (ps_left s) + bm_qty (ps_streams s).
Proof. unfold parcels. rewrite !qty_of_app, qty_flat. unfold b_qty. lra. Qed.
Lemma parcels_mass n s :
  mass_in n (parcels s) == mass_in n (b_items (ps_feed s)) + mass_in n (b_items (ps_left s)) + bm_mass n (ps_streams s).
Proof. unfold parcels. rewrite !mass_in_app, mass_flat. lra. Qed.
Lemma parcels_all (P : mat -> Prop) s : Forall P (parcels s) <->
  Forall P (b_items (ps_feed s)) /\ Forall P (b_items (ps_left s)) /\ bm_all (Forall P) (ps_streams s).
Proof. unfold parcels. rewrite !Forall_app, flat_all. tauto. Qed.

(** ** Inversion of the tick *)
Record tick_run (eps : Q) (cfg : sp_cfg) (s s' : sp_state) (lg : option sp_log)
  (m : mat) (feed1 : buf) (staged : list (string * mat)) (f : Q)
  (mat1 mat2 : mat) (bm : bmap) (seps series : list (string * Q)) (feed2 left : buf) : Prop := {
  tr_pop : b_pop_tol (ps_feed s) (Qmin (pc_throughput cfg) (b_qty (ps_feed s))) eps = Ok (m, feed1);
  tr_stage : loop (stage_one s m) (pc_streams cfg) ([], 1) = Ok (staged, f);
  tr_ext : loop (extract_one eps f) staged (m, ps_streams s, [], []) = Ok (mat1, bm, seps, series);
  tr_back : (f == 1 /\ mat2 = mat1 /\ feed2 = feed1) \/
            (~ f == 1 /\ exists back, extract_qty ((1 - f) * m_qty m) mat1 = Ok (back, mat2) /\
                                      b_push eps feed1 back = Ok feed2);
  tr_left : (0 < m_qty mat2 /\ b_push eps (ps_left s) mat2 = Ok left) \/
            (m_qty mat2 <= 0 /\ left = ps_left s);
  tr_s : s' = {| ps_feed := feed2; ps_left := left; ps_streams := bm |};
  tr_lg : lg = Some {| lg_processed := m_qty m; lg_separated := seps;
                       lg_supply := series ++ [(pc_leftover_commod cfg, b_qty left)] |} }.
Lemma tick_inv eps cfg s s' lg : sp_tick eps cfg s = Ok (s', lg) ->
  (b_items (ps_feed s) = [] /\ s' = s /\ lg = None) \/
  (b_items (ps_feed s) <> [] /\ exists m feed1 staged f mat1 mat2 bm seps series feed2 left,
    tick_run eps cfg s s' lg m feed1 staged f mat1 mat2 bm seps series feed2 left).
Proof.
  unfold sp_tick. destruct (b_items (ps_feed s)) as [|i0 is] eqn:Ei.
  - intro H. injection H as <- <-. auto.
  - intro H. right. split; [discriminate|].
    apply bind_ok in H as ([m feed1] & P & H). cbv zeta in H.
    apply bind_ok in H as ([staged f] & St & H).
    apply bind_ok in H as ([[[mat1 bm] seps] series] & Ex & H).
    apply bind_ok in H as ([mat2 feed2] & B & H).
    apply bind_ok in H as (left & L & H). injection H as <- <-.
    exists m, feed1, staged, f, mat1, mat2, bm, seps, series, feed2, left.
    constructor; auto.
    + destruct (Qeq_bool f 1) eqn:E.
      * apply Qeq_bool_iff in E. injection B as <- <-. auto.
      * apply Qeq_bool_false in E. right. split; auto.
        apply bind_ok in B as ([back rest] & X & B). apply bind_ok in B as (f2 & Y & B).
        injection B as <- <-. eauto.
    + destruct (Qltb 0 (m_qty mat2)) eqn:E; [apply Qltb_true in E|apply Qltb_false in E]; [auto|].
      injection L as <-. auto.
Qed.
Lemma pop_tol_inv b q tol m b' : b_pop_tol b q tol = Ok (m, b') ->
  b_cap b' = b_cap b /\ items_pop_tol (b_items b) q tol = Ok (m, b_items b').
Proof.
  unfold b_pop_tol. intro H. apply bind_ok in H as ([m' r] & P & E). injection E as <- <-. auto.
Qed.
Lemma extract_qty_inv q m a b : extract_qty q m = Ok (a, b) ->
  q <= m_qty m /\ a = Mat (m_id m) q (m_comp m) /\ b = Mat (m_id m) (m_qty m - q) (m_comp m).
Proof.
  unfold extract_qty. destruct (Qltb (m_qty m) q) eqn:E; [discriminate|]. apply Qltb_false in E.
  intro H. injection H as <- <-. auto.
Qed.
Lemma Qmin_self a b : Qmin (Qmin a b) b == Qmin a b.
Proof. apply Q.min_l. apply Q.le_min_r. Qed.

(** The staged materials. *)
Lemma run_staged s m strs staged f : loop (stage_one s m) strs ([], 1) = Ok (staged, f) ->
  map fst staged = map st_name strs /\ 0 <= f <= 1 /\
  Forall2 (fun st nm => fst nm = st_name st /\ staged_ok m (st_effs st) (snd nm)) strs staged /\
  Forall2 (limits s f) strs staged /\
  (f = 1 \/ exists st x sp, In st strs /\ staged_ok m (st_effs st) x /\
       b_space (stream_buf s (st_name st)) = Some sp /\ 0 < m_qty x /\ f * m_qty x == sp).
Proof.
  intro H. apply stage_loop in H as (l & -> & A & B & C & D & E); [|discriminate].
  simpl. assert (C' : Forall2 (fun st nm => fst nm = st_name st /\ staged_ok m (st_effs st) (snd nm)) strs l).
  { clear - C. induction C as [|st nm strs l (X & Y) _ IH]; constructor; auto. split; auto. apply sep_facts; auto. }
  split; [|split; [auto|split; [auto|split; [auto|]]]].
  - clear -C. induction C as [|st nm strs l (X & _) _ IH]; simpl; [auto|]. rewrite X, IH. auto.
  - destruct E as [E|(st & x & sp & I & Y & Z)]; [auto|]. right. exists st, x, sp.
    split; auto. split; [apply sep_facts; auto|auto].
Qed.
Lemma forall2_in_l {A B} (R : A -> B -> Prop) la lb a : Forall2 R la lb -> In a la ->
  exists b, In b lb /\ R a b.
Proof.
  induction 1 as [|x y la lb Hxy _ IH]; intros I; [destruct I|].
  destruct I as [->|I]; [exists y; simpl; auto|]. destruct (IH I) as (b & X & Y). exists b; simpl; auto.
Qed.
Lemma forall2_in_r {A B} (R : A -> B -> Prop) la lb b : Forall2 R la lb -> In b lb ->
  exists a, In a la /\ R a b.
Proof.
  induction 1 as [|x y la lb Hxy _ IH]; intros I; [destruct I|].
  destruct I as [->|I]; [exists x; simpl; auto|]. destruct (IH I) as (a & X & Y). exists a; simpl; auto.
Qed.
Lemma forall2_both {A B} (R S : A -> B -> Prop) la lb : Forall2 R la lb -> Forall2 S la lb ->
  Forall2 (fun a b => R a b /\ S a b) la lb.
Proof.
  induction 1; intro H1; inversion H1; subst; constructor; auto.
Qed.
Lemma staged_sum m strs (staged : list (string * mat)) :
  Forall2 (fun st nm => fst nm = st_name st /\ staged_ok m (st_effs st) (snd nm)) strs staged ->
  qsum (map (fun nm => m_qty (snd nm)) staged) == qsum (map (fun st => share (st_effs st) m) strs).
Proof.
  induction 1 as [|st nm strs staged (_ & S1) _ IH]; simpl; [lra|].
  rewrite IH, (staged_share m (st_effs st) (snd nm) S1). reflexivity.
Qed.
Lemma staged_cget m strs (staged : list (string * mat)) n :
  Forall2 (fun st nm => fst nm = st_name st /\ staged_ok m (st_effs st) (snd nm)) strs staged ->
  qsum (map (fun nm => cget n (m_comp (snd nm))) staged) ==
  mass_of m n * qsum (map (fun st => efficiency (st_effs st) n) strs).
Proof.
  induction 1 as [|st nm strs staged (_ & S1) _ IH]; simpl; [lra|].
  destruct S1 as (_ & _ & G & _). rewrite IH, (G n). ring.
Qed.
Lemma staged_nonneg m strs (staged : list (string * mat)) :
  Forall2 (fun st nm => fst nm = st_name st /\ staged_ok m (st_effs st) (snd nm)) strs staged ->
  Forall (fun nm => 0 <= m_qty (snd nm)) staged.
Proof.
  induction 1 as [|st nm strs staged (_ & (C & E & _)) _ IH]; constructor; auto.
  rewrite E. apply csum_nonneg; auto.
Qed.
Lemma run_processable cfg s m staged f :
  (forall st e, In st (pc_streams cfg) -> In e (st_effs st) -> 0 <= snd e) -> mat_qok m ->
  loop (stage_one s m) (pc_streams cfg) ([], 1) = Ok (staged, f) -> processable cfg s m f.
Proof.
  intros He Hm H. apply run_staged in H as (_ & F & C & D & E). split; [auto|]. split.
  - intros st sp I Sp. pose proof (forall2_both _ _ _ _ C D) as CD.
    destruct (forall2_in_l _ _ _ _ CD I) as (nm & _ & (_ & S1) & L).
    rewrite <- (staged_share m _ _ S1).
    destruct (Qlt_le_dec 0 (m_qty (snd nm))) as [P|P]; [apply (L sp Sp P)|].
    pose proof (b_space_nonneg _ _ Sp). nra.
  - destruct E as [->|(st & x & sp & I & S1 & Sp & P & Q1)]; [left; reflexivity|right].
    exists st, sp. rewrite <- (staged_share m _ _ S1). auto.
Qed.
Lemma processable_unique cfg s m f g : processable cfg s m f -> processable cfg s m g -> f == g.
Proof.
  assert (K : forall a b, processable cfg s m a -> processable cfg s m b -> ~ a < b).
  { intros a b (A1 & A2 & A3) (B1 & B2 & B3) L. destruct A3 as [A3|(st & sp & I & Sp & P & E)]; [lra|].
    pose proof (B2 st sp I Sp). nra. }
  intros F G. pose proof (K f g F G). pose proof (K g f G F). lra.
Qed.

(** ** The tick: totals for any configuration *)
Definition sane_qtys (s : sp_state) : Prop := qtys_ok (parcels s).
Lemma push_qty eps b m b' : b_push eps b m = Ok b' -> b_qty b' == b_qty b + m_qty m.
Proof.
  intro H. apply b_push_facts in H as (_ & E & _). unfold b_qty.
  rewrite E, qty_of_app, qty_of_cons, qty_of_nil. lra.
Qed.
Lemma tick_total eps cfg s s' lg : 0 <= pc_throughput cfg -> sane_qtys s ->
  sp_tick eps cfg s = Ok (s', lg) ->
  qty_of (parcels s') == qty_of (parcels s) /\ sane_qtys s' /\
  b_qty (ps_feed s) - pc_throughput cfg <= b_qty (ps_feed s') /\
  (forall l, lg = Some l -> lg_processed l == Qmin (pc_throughput cfg) (b_qty (ps_feed s))).
Proof.
  intros Ht Sq H. apply tick_inv in H as [(E0 & -> & ->)|(_ & m & feed1 & staged & f & mat1 & mat2 & bm & seps & series & feed2 & left & R)].
  - split; [lra|]. split; [auto|]. split; [lra|discriminate].
  - destruct R as [P St Ex Bk Lf -> ->].
    apply parcels_all in Sq as (Sf & Sl & Ss).
    apply pop_tol_inv in P as (Pc & P).
    assert (Nq : 0 <= Qmin (pc_throughput cfg) (b_qty (ps_feed s))).
    { apply Q.min_glb; auto. apply qtys_ok_nonneg; auto. }
    apply pop_tol_q in P as (P1 & P2 & P3); auto. change (qty_of (b_items (ps_feed s))) with (b_qty (ps_feed s)) in P1. rewrite Qmin_self in P1.
    assert (Nm : 0 <= m_qty m) by (rewrite P1; auto).
    apply run_staged in St as (_ & F & _).
    destruct (extract_total _ _ _ _ _ _ _ _ _ _ _ Ex) as (X1 & X2 & X3 & X4 & _); auto; [tauto|].
    assert (B : b_qty feed2 + m_qty mat2 == b_qty feed1 + m_qty mat1 /\ b_qty feed1 <= b_qty feed2 /\
                qtys_ok (b_items feed2) /\ 0 <= m_qty mat2).
    { destruct Bk as [(_ & -> & ->)|(_ & back & X & Y)].
      - repeat split; auto; lra.
      - apply extract_qty_inv in X as (L1 & -> & ->). simpl.
        assert (0 <= (1 - f) * m_qty m) by (apply Qmult_le_0_compat; lra).
        pose proof (push_qty _ _ _ _ Y) as Y1. simpl in Y1.
        apply b_push_facts in Y as (_ & Y2 & _).
        split; [lra|]. split; [lra|]. split; [|lra].
        rewrite Y2. apply Forall_app. split; auto. }
    destruct B as (B1 & B2 & B3 & B4).
    assert (L : b_qty left == b_qty (ps_left s) + m_qty mat2 /\ qtys_ok (b_items left)).
    { destruct Lf as [(_ & Y)|(Z & ->)].
      - pose proof (push_qty _ _ _ _ Y) as Y1. apply b_push_facts in Y as (_ & Y2 & _). split; auto.
        rewrite Y2. apply Forall_app. split; auto.
      - split; auto. assert (m_qty mat2 == 0) by lra. lra. }
    destruct L as (L1 & L2).
    assert (Qf1 : b_qty feed1 == b_qty (ps_feed s) - m_qty m) by (unfold b_qty; exact P2).
    rewrite !parcels_qty. simpl. split; [lra|]. split.
    { apply parcels_all. simpl. auto. }
    split.
    + assert (m_qty m <= pc_throughput cfg) by (rewrite P1; apply Q.le_min_l). lra.
    + intros l E. injection E as <-. simpl. exact P1.
Qed.

(** ** The tick: nuclides *)
Lemma mass_qzero m n : comp_ok (m_comp m) -> m_qty m == 0 -> mass_of m n == 0.
Proof.
  intros H Z. unfold mass_of. destruct (Qlt_le_dec 0 (csum (m_comp m))) as [P|P].
  - rewrite cget_cnorm by auto. rewrite Z. ring.
  - pose proof (csum_nonneg _ H). rewrite cnorm_zero by lra. apply csum_zero_cget; auto. lra.
Qed.
Lemma push_mass eps b m b' n : b_push eps b m = Ok b' ->
  mass_in n (b_items b') == mass_in n (b_items b) + mass_of m n.
Proof.
  intro H. apply b_push_facts in H as (_ & E & _).
  rewrite E, mass_in_app, mass_in_cons, mass_in_nil. lra.
Qed.
(** After the second loop, masses move exactly. *)
Lemma tail_mass eps f m mat1 mat2 feed1 feed2 left0 left n :
  mat_qok mat1 -> 0 <= f <= 1 -> 0 <= m_qty m ->
  ((f == 1 /\ mat2 = mat1 /\ feed2 = feed1) \/
   (~ f == 1 /\ exists back, extract_qty ((1 - f) * m_qty m) mat1 = Ok (back, mat2) /\ b_push eps feed1 back = Ok feed2)) ->
  ((0 < m_qty mat2 /\ b_push eps left0 mat2 = Ok left) \/ (m_qty mat2 <= 0 /\ left = left0)) ->
  mass_in n (b_items feed2) + mass_in n (b_items left) ==
    mass_in n (b_items feed1) + mass_in n (b_items left0) + mass_of mat1 n.
Proof.
  intros (Q1 & C1) Hf Hm Bk Lf.
  assert (B : mass_in n (b_items feed2) + mass_of mat2 n == mass_in n (b_items feed1) + mass_of mat1 n /\ mat_qok mat2).
  { destruct Bk as [(_ & -> & ->)|(_ & back & X & Y)].
    - split; [lra|split; auto].
    - apply extract_qty_inv in X as (L1 & -> & ->). rewrite (push_mass _ _ _ _ n Y).
      pose proof (mass_split (m_id mat1) (m_id mat1) (m_id mat1) ((1 - f) * m_qty m) (m_qty mat1 - (1 - f) * m_qty m)
                   (m_qty mat1) (m_comp mat1) n C1 ltac:(ring)) as E.
      replace {| m_id := m_id mat1; m_qty := m_qty mat1; m_comp := m_comp mat1 |} with mat1 in E by (destruct mat1; auto).
      split; [lra|]. split; simpl; auto. lra. }
  destruct B as (B1 & Q2 & C2). destruct Lf as [(_ & Y)|(Z & ->)].
  - rewrite (push_mass _ _ _ _ n Y). lra.
  - rewrite (mass_qzero mat2 n C2) in B1 by lra. lra.
Qed.
Lemma staged_tracked m strs (staged : list (string * mat)) :
  Forall2 (fun st nm => fst nm = st_name st /\ staged_ok m (st_effs st) (snd nm)) strs staged ->
  Forall (tracked m) staged.
Proof.
  induction 1 as [|st nm strs staged (_ & (A & B & _ & D)) _ IH]; constructor; auto. split; auto.
Qed.
Lemma tick_drift eps cfg s s' lg n : 0 <= eps -> 0 <= pc_throughput cfg -> mats_ok (b_items (ps_feed s)) ->
  sp_tick eps cfg s = Ok (s', lg) ->
  exists m rest, m_qty m <= pc_throughput cfg /\
    (b_items (ps_feed s) = [] /\ s' = s \/
     b_pop_tol (ps_feed s) (Qmin (pc_throughput cfg) (b_qty (ps_feed s))) eps = Ok (m, rest)) /\
  Qabs (mass_in n (parcels s') - mass_in n (parcels s)) <=
    eps * inject_Z (zlen (pc_streams cfg)) * inject_Z (zlen (nuclides m)).
Proof.
  intros He Ht Of H. apply tick_inv in H as [(E0 & -> & ->)|(_ & m & feed1 & staged & f & mat1 & mat2 & bm & seps & series & feed2 & left & R)].
  - exists (Mat 0 0 []), (ps_feed s). split; [exact Ht|]. split; [auto|].
    assert (Z : mass_in n (parcels s) - mass_in n (parcels s) == 0) by lra. rewrite Z.
    change (inject_Z (zlen (nuclides (Mat 0 0 [])))) with 0. rewrite Qmult_0_r. discriminate.
  - destruct R as [P St Ex Bk Lf -> _]. exists m, feed1.
    pose proof P as P0. apply pop_tol_inv in P as (Pc & P).
    assert (Nq : 0 <= Qmin (pc_throughput cfg) (b_qty (ps_feed s))).
    { apply Q.min_glb; auto. apply mats_qty_nonneg; auto. }
    apply pop_tol_facts in P as (P1 & P2 & _ & P4 & P5 & P6); auto. change (qty_of (b_items (ps_feed s))) with (b_qty (ps_feed s)) in P1. rewrite Qmin_self in P1.
    split; [rewrite P1; apply Q.le_min_l|]. split; [auto|].
    assert (Nm : 0 <= m_qty m) by (rewrite P1; auto).
    apply run_staged in St as (Sn & F & C & _).
    assert (Ln : zlen staged = zlen (pc_streams cfg)).
    { unfold zlen. rewrite <- (map_length fst staged), Sn, map_length. auto. }
    destruct (extract_drift _ _ _ n _ _ _ _ _ _ _ _ Ex He) as (X1 & X2); auto; [tauto|apply mat_ok_qok; auto|eapply staged_tracked; eauto|].
    pose proof (tail_mass eps f m mat1 mat2 feed1 feed2 (ps_left s) left n X1 F Nm Bk Lf) as T.
    rewrite !parcels_mass. cbn [ps_feed ps_left ps_streams].
    specialize (P6 n). rewrite Ln in X2.
    set (A := inject_Z (zlen (pc_streams cfg))) in *. set (B := inject_Z (zlen (nuclides m))) in *.
    assert (Z : eps * A * B == A * (eps * B)) by ring. rewrite Z.
    set (D := A * (eps * B)) in *.
    rewrite Qabs_Qle_condition in X2 |- *. destruct X2. split; lra.
Qed.

(** ** The tick with sane efficiencies *)
Lemma mats_ok_qok m : mat_ok m -> mat_qok m. Proof. apply mat_ok_qok. Qed.
Lemma gain_gained id f x effs m before after : staged_ok m effs x -> 0 <= f ->
  after = before ++ stream_gain id f x ->
  gained before after (f * share effs m) (fun n => f * efficiency effs n * mass_of m n).
Proof.
  intros S1 Hf ->. pose proof (staged_share _ _ _ S1) as Sh. destruct S1 as (C & E & G & _).
  unfold stream_gain, gained. destruct (Qltb 0 (m_qty x)) eqn:P.
  - apply Qltb_true in P. right. eexists. split; [reflexivity|]. simpl. split; [rewrite Sh; ring|].
    intro n. unfold mass_of at 1. simpl. rewrite cget_cnorm by (rewrite <- E; auto).
    rewrite (G n), E. field. rewrite <- E. lra.
  - apply Qltb_false in P. left. rewrite app_nil_r. split; [auto|].
    assert (Z : m_qty x == 0) by (pose proof (csum_nonneg _ C); rewrite <- E in *; lra).
    split; [rewrite <- Sh, Z; ring|]. intro n.
    assert (efficiency effs n * mass_of m n == 0).
    { rewrite <- (G n). apply csum_zero_cget; auto. rewrite <- E; auto. }
    rewrite <- Qmult_assoc, H. ring.
Qed.
Lemma tick_streams eps cfg s s' lg m feed1 staged f mat1 mat2 bm seps series feed2 left :
  0 <= eps -> 0 <= pc_throughput cfg -> NoDup (map st_name (pc_streams cfg)) -> efficiencies_sane cfg ->
  mats_ok (b_items (ps_feed s)) ->
  tick_run eps cfg s s' lg m feed1 staged f mat1 mat2 bm seps series feed2 left ->
  processable cfg s m f /\ mat_ok m /\ mats_ok (b_items feed1) /\
  m_qty m == Qmin (pc_throughput cfg) (b_qty (ps_feed s)) /\
  b_qty feed1 == b_qty (ps_feed s) - m_qty m /\
  (forall n, mass_of m n + mass_in n (b_items feed1) == mass_in n (b_items (ps_feed s))) /\
  (forall st, In st (pc_streams cfg) ->
     b_cap (stream_buf s' (st_name st)) = b_cap (stream_buf s (st_name st)) /\
     exists x, In (st_name st, x) staged /\ staged_ok m (st_effs st) x /\
     stream_items s' (st_name st) = stream_items s (st_name st) ++ stream_gain (m_id m) f x) /\
  (forall name, ~ In name (map st_name (pc_streams cfg)) -> stream_buf s' name = stream_buf s name) /\
  m_qty mat1 == m_qty m - f * qsum (map (fun st => share (st_effs st) m) (pc_streams cfg)) /\
  b_qty feed2 == b_qty (ps_feed s) - f * m_qty m /\
  b_qty left == b_qty (ps_left s) +
    f * (m_qty m - qsum (map (fun st => share (st_effs st) m) (pc_streams cfg))) /\
  seps = flat_map (fun nm => map (fun y => (fst nm, m_qty y)) (stream_gain (m_id m) f (snd nm))) staged /\
  series = map (fun st => (st_name st, b_qty (stream_buf s' (st_name st)))) (pc_streams cfg).
Proof.
  intros He Ht ND Es Of R. destruct R as [P St Ex Bk Lf -> _].
  apply pop_tol_inv in P as (Pc & P).
  assert (Nq : 0 <= Qmin (pc_throughput cfg) (b_qty (ps_feed s))).
  { apply Q.min_glb; auto. apply mats_qty_nonneg; auto. }
  apply pop_tol_facts in P as (P1 & P2 & _ & P4 & P5 & P6); auto. change (qty_of (b_items (ps_feed s))) with (b_qty (ps_feed s)) in P1. rewrite Qmin_self in P1.
  assert (Nm : 0 <= m_qty m) by (rewrite P1; auto).
  pose proof (run_processable _ _ _ _ _ (proj1 Es) (mat_ok_qok _ P4) St) as Pr.
  pose proof (shares_le cfg m Es P4) as Sh.
  apply run_staged in St as (Sn & F & C & _).
  pose proof (staged_sum _ _ _ C) as Ss. rewrite <- Ss in Sh.
  destruct (extract_streams _ _ _ _ _ _ _ _ _ _ _ Ex F) as (X1 & X2 & X3 & X4 & X5 & X6); auto.
  { rewrite Sn; auto. }
  { eapply staged_nonneg; eauto. }
  rewrite Ss in X1, Sh.
  set (T := qsum (map (fun st => share (st_effs st) m) (pc_streams cfg))) in *.
  assert (Qf1 : b_qty feed1 == b_qty (ps_feed s) - m_qty m) by (unfold b_qty; exact P2).
  assert (B : b_qty feed2 == b_qty (ps_feed s) - f * m_qty m /\ m_qty mat2 == f * (m_qty m - T)).
  { destruct Bk as [(F1 & -> & ->)|(_ & back & X & Y)].
    - rewrite X1, F1, Qf1. split; ring.
    - apply extract_qty_inv in X as (L1 & -> & ->). rewrite (push_qty _ _ _ _ Y). simpl.
      rewrite X1, Qf1. split; ring. }
  destruct B as (B1 & B2).
  split; [exact Pr|]. split; [exact P4|]. split; [exact P5|]. split; [exact P1|]. split; [exact Qf1|]. split; [exact P6|]. split.
  { intros st I. destruct (forall2_in_l _ _ _ _ C I) as ([k x] & I2 & Ek & S1). simpl in Ek, S1. subst k.
    unfold stream_items, stream_buf. simpl. destruct (X4 _ _ I2) as (A1 & A2). split; [exact A1|].
    exists x. auto. }
  split.
  { intros name N. unfold stream_buf. simpl. apply X3. rewrite Sn. auto. }
  split; [exact X1|]. split; [exact B1|]. split.
  { destruct Lf as [(_ & Y)|(Z & ->)].
    - rewrite (push_qty _ _ _ _ Y), B2. reflexivity.
    - assert (0 <= f * (m_qty m - T)) by (apply Qmult_le_0_compat; lra).
      rewrite <- B2 in *. lra. }
  split; [exact X5|].
  rewrite X6. simpl. unfold stream_buf. simpl. clear - Sn.
  revert Sn. generalize (pc_streams cfg). induction staged as [|nm l IH]; intros [|st strs]; simpl; try discriminate; auto.
  intro H. injection H as -> H. rewrite (IH strs H). reflexivity.
Qed.

(** The tick succeeds, exactly, when no traces arise and the leftover has room. *)
Lemma Qmax_room c q eps f x : 0 <= eps -> f * x <= Qmax 0 (c - q) -> x * f <= Qmax 0 (c - q) + eps.
Proof. intros. assert (x * f == f * x) by ring. lra. Qed.
Lemma fits_left eps (b : buf) q : match b_space b with None => True | Some sp => q <= sp + eps end ->
  match b_cap b with None => True | Some c => q <= Qmax 0 (c - b_qty b) + eps end.
Proof. unfold b_space. destruct (b_cap b); auto. Qed.
Lemma stage_ext eps cfg s m staged g :
  0 <= eps -> NoDup (map st_name (pc_streams cfg)) -> efficiencies_sane cfg -> mat_ok m ->
  loop (stage_one s m) (pc_streams cfg) ([], 1) = Ok (staged, g) -> no_traces eps cfg m g ->
  exists mat1 bm seps series,
    loop (extract_one eps g) staged (m, ps_streams s, [], []) = Ok (mat1, bm, seps, series) /\ mat_ok mat1 /\
    (forall n, mass_of mat1 n == mass_of m n * (1 - g * qsum (map (fun st => efficiency (st_effs st) n) (pc_streams cfg)))) /\
    (forall n, mass_of mat1 n + bm_mass n bm == mass_of m n + bm_mass n (ps_streams s)).
Proof.
  intros He ND Es P4 St Nt.
  pose proof (shares_le cfg m Es P4) as Sh.
  pose proof (run_staged _ _ _ _ _ St) as (Sn & F & C & D & _).
  pose proof (staged_sum _ _ _ C) as Ss. rewrite <- Ss in Sh.
  destruct (extract_exact eps g staged m (ps_streams s) [] []) as (mat1 & bm & seps & series & Ex & O1 & M1 & C1); auto.
  { rewrite Sn; auto. }
  { clear - C. induction C as [|st nm strs l (_ & (A & B & _)) _ IH]; constructor; auto. }
  { pose proof (forall2_both _ _ _ _ C D) as CD. clear - CD He.
    induction CD as [|st nm strs l ((En & _) & L) _ IH]; constructor; auto. intro Pn.
    unfold limits, stream_buf, b_space in L. rewrite <- En in L.
    destruct (b_cap (bm_get (fst nm) (ps_streams s))) as [c|]; auto.
    apply Qmax_room; auto. }
  { intros l1 l2 n El.
    assert (Sp : exists s1 s2, pc_streams cfg = s1 ++ s2 /\
       Forall2 (fun st nm => fst nm = st_name st /\ staged_ok m (st_effs st) (snd nm)) s1 l1).
    { rewrite El in C. apply Forall2_app_inv_r in C as (s1 & s2 & A & _ & ->). exists s1, s2. auto. }
    destruct Sp as (s1 & s2 & Es12 & C1). cbv zeta.
    pose proof (staged_cget _ _ _ n C1) as G.
    assert (Z : mass_of m n - g * qsum (map (fun nm => cget n (m_comp (snd nm))) l1) ==
                mass_of m n * (1 - g * qsum (map (fun st => efficiency (st_effs st) n) s1))).
    { rewrite G. ring. }
    rewrite Z. split; [|apply (Nt s1 s2 n Es12)].
    apply Qmult_le_0_compat; [apply mass_nonneg; auto|].
    destruct Es as (En & Es'). specialize (Es' n). rewrite Es12, map_app, qsum_app in Es'.
    assert (N2 : 0 <= qsum (map (fun st => efficiency (st_effs st) n) s2)).
    { apply qsum_nonneg. rewrite Forall_map, Forall_forall. intros st I. apply eff_nonneg.
      intros e Ie. apply (En st e); auto. rewrite Es12. apply in_or_app; auto. }
    assert (N1 : 0 <= qsum (map (fun st => efficiency (st_effs st) n) s1)).
    { apply qsum_nonneg. rewrite Forall_map, Forall_forall. intros st I. apply eff_nonneg.
      intros e Ie. apply (En st e); auto. rewrite Es12. apply in_or_app; auto. }
    nra. }
  do 4 eexists. split; [exact Ex|]. split; [exact O1|]. split; [|exact C1].
  intro n. rewrite M1, (staged_cget _ _ _ n C). ring.
Qed.
Lemma no_traces_eq eps cfg m f g : f == g -> no_traces eps cfg m f -> no_traces eps cfg m g.
Proof.
  intros E H first rest n Ef. specialize (H first rest n Ef). cbv zeta in *. rewrite E in H. exact H.
Qed.
(** A successful tick without traces is exact. *)
Lemma run_exact eps cfg s s' lg m feed1 staged f mat1 mat2 bm seps series feed2 left :
  0 <= eps -> 0 <= pc_throughput cfg -> NoDup (map st_name (pc_streams cfg)) -> efficiencies_sane cfg ->
  mats_ok (b_items (ps_feed s)) ->
  tick_run eps cfg s s' lg m feed1 staged f mat1 mat2 bm seps series feed2 left ->
  no_traces eps cfg m f ->
  mat_ok mat1 /\
  (forall n, mass_of mat1 n == mass_of m n * (1 - f * qsum (map (fun st => efficiency (st_effs st) n) (pc_streams cfg)))) /\
  (forall n, mass_in n (parcels s') == mass_in n (parcels s)).
Proof.
  intros He Ht ND Es Of R Nt.
  pose proof (tick_streams _ _ _ _ _ _ _ _ _ _ _ _ _ _ _ _ He Ht ND Es Of R) as (Pr & Om & _ & _ & _ & P6 & _).
  destruct R as [P St Ex Bk Lf -> _].
  destruct (stage_ext eps cfg s m staged f He ND Es Om St Nt) as (a & b & c & d & Ex' & O1 & M1 & C1).
  rewrite Ex in Ex'. injection Ex' as <- <- <- <-.
  split; [exact O1|]. split; [exact M1|]. intro n.
  pose proof (tail_mass eps f m mat1 mat2 feed1 feed2 (ps_left s) left n (mat_ok_qok _ O1) (proj1 Pr) (proj1 Om) Bk Lf) as T.
  rewrite !parcels_mass. cbn [ps_feed ps_left ps_streams]. specialize (P6 n). specialize (C1 n). lra.
Qed.
Lemma tick_succeeds eps cfg s m feed1 f :
  0 <= eps -> 0 <= pc_throughput cfg -> NoDup (map st_name (pc_streams cfg)) -> efficiencies_sane cfg ->
  mats_ok (b_items (ps_feed s)) -> b_items (ps_feed s) <> [] ->
  b_pop_tol (ps_feed s) (Qmin (pc_throughput cfg) (b_qty (ps_feed s))) eps = Ok (m, feed1) ->
  processable cfg s m f -> no_traces eps cfg m f ->
  match b_cap (ps_feed s) with None => True | Some c => b_qty (ps_feed s) <= c + eps end ->
  match b_space (ps_left s) with
  | None => True
  | Some sp => f * (m_qty m - qsum (map (fun st => share (st_effs st) m) (pc_streams cfg))) <= sp + eps
  end ->
  exists s' lg, sp_tick eps cfg s = Ok (s', Some lg).
Proof.
  intros He Ht ND Es Of Ne P Pr Nt Hfeed Hleft.
  pose proof P as P0. apply pop_tol_inv in P as (Pc & P).
  assert (Nq : 0 <= Qmin (pc_throughput cfg) (b_qty (ps_feed s))).
  { apply Q.min_glb; auto. apply mats_qty_nonneg; auto. }
  apply pop_tol_facts in P as (P1 & P2 & _ & P4 & P5 & P6); auto.
  change (qty_of (b_items (ps_feed s))) with (b_qty (ps_feed s)) in P1. rewrite Qmin_self in P1.
  assert (Nm : 0 <= m_qty m) by (rewrite P1; auto).
  destruct (stage_loop_ok s m (pc_streams cfg) ([], 1) (proj1 Es) (mat_ok_qok _ P4)) as ([staged g] & St).
  pose proof (run_processable _ _ _ _ _ (proj1 Es) (mat_ok_qok _ P4) St) as Prg.
  pose proof (processable_unique _ _ _ _ _ Prg Pr) as Egf.
  assert (Ntg : no_traces eps cfg m g) by (apply (no_traces_eq _ _ _ f); auto; symmetry; auto).
  destruct (stage_ext eps cfg s m staged g He ND Es P4 St Ntg) as (mat1 & bm & seps & series & Ex & O1 & M1 & C1).
  pose proof (shares_le cfg m Es P4) as Sh.
  pose proof (run_staged _ _ _ _ _ St) as (Sn & F & C & D & _).
  pose proof (staged_sum _ _ _ C) as Ss. rewrite <- Ss in Sh.
  destruct (extract_streams _ _ _ _ _ _ _ _ _ _ _ Ex F) as (X1 & _); auto.
  { rewrite Sn; auto. }
  { eapply staged_nonneg; eauto. }
  rewrite Ss in X1, Sh.
  set (T := qsum (map (fun st => share (st_effs st) m) (pc_streams cfg))) in *.
  assert (Qf1 : b_qty feed1 == b_qty (ps_feed s) - m_qty m) by (unfold b_qty; exact P2).
  assert (BK : exists mat2 feed2,
     (if Qeq_bool g 1 then Ok (mat1, feed1)
       else let* '(back, rest) := extract_qty ((1 - g) * m_qty m) mat1 in
            let* f2 := b_push eps feed1 back in Ok (rest, f2)) = Ok (mat2, feed2) /\ m_qty mat2 == g * (m_qty m - T)).
  { destruct (Qeq_bool g 1) eqn:E.
    - apply Qeq_bool_iff in E. do 2 eexists. split; [reflexivity|]. rewrite X1, E. ring.
    - unfold extract_qty. destruct (Qltb (m_qty mat1) ((1 - g) * m_qty m)) eqn:L.
      + apply Qltb_true in L. rewrite X1 in L. nra.
      + cbn [bind]. rewrite b_push_ok.
        * cbn [bind]. do 2 eexists. split; [reflexivity|]. simpl. rewrite X1. ring.
        * rewrite Pc. destruct (b_cap (ps_feed s)) as [c|]; auto. simpl. rewrite Qf1.
          pose proof (Q.le_max_r 0 (c - (b_qty (ps_feed s) - m_qty m))). nra. }
  destruct BK as (mat2 & feed2 & BK & Q2).
  assert (LF : exists left, (if Qltb 0 (m_qty mat2) then b_push eps (ps_left s) mat2 else Ok (ps_left s)) = Ok left).
  { destruct (Qltb 0 (m_qty mat2)); [|eauto]. eexists. apply b_push_ok. apply fits_left.
    destruct (b_space (ps_left s)); auto. rewrite Q2, Egf. exact Hleft. }
  destruct LF as (left & LF).
  do 2 eexists. unfold sp_tick. destruct (b_items (ps_feed s)) as [|i0 is] eqn:Ei; [congruence|].
  rewrite P0. cbn [bind]. rewrite St. cbn [bind]. rewrite Ex. cbn [bind]. rewrite BK. cbn [bind].
  rewrite LF. reflexivity.
Qed.
(** The feed can always be popped. *)
Lemma tick_pop eps cfg s : 0 <= eps -> 0 < pc_throughput cfg -> b_items (ps_feed s) <> [] ->
  mats_ok (b_items (ps_feed s)) ->
  exists m feed1, b_pop_tol (ps_feed s) (Qmin (pc_throughput cfg) (b_qty (ps_feed s))) eps = Ok (m, feed1).
Proof.
  intros He Ht Ne Om. unfold b_pop_tol.
  set (q := Qmin (pc_throughput cfg) (b_qty (ps_feed s))).
  assert (Lq : q <= qty_of (b_items (ps_feed s))) by apply Q.le_min_r.
  unfold items_pop_tol. destruct (Qltb (qty_of (b_items (ps_feed s)) + eps) q) eqn:E; [apply Qltb_true in E; lra|].
  destruct (Qle_bool (qty_of (b_items (ps_feed s))) q) eqn:E2.
  - destruct (squash_nonempty _ Ne) as [x Hx]. rewrite Hx. simpl. eauto.
  - apply Qle_bool_false in E2.
    assert (Pq : 0 < q).
    { unfold q in *. destruct (Q.min_spec (pc_throughput cfg) (b_qty (ps_feed s))) as [(_ & Z)|(_ & Z)]; rewrite Z in *; auto.
      unfold b_qty in E2. lra. }
    destruct (pop_qty_ok (b_items (ps_feed s)) q Pq Lq) as (x & r & Hx). rewrite Hx. simpl. eauto.
Qed.

(** ** Statements used by the property file *)
Lemma tick_split eps cfg s s' lg m feed1 :
  0 <= eps -> 0 <= pc_throughput cfg -> NoDup (map st_name (pc_streams cfg)) -> efficiencies_sane cfg ->
  mats_ok (b_items (ps_feed s)) -> b_items (ps_feed s) <> [] ->
  b_pop_tol (ps_feed s) (Qmin (pc_throughput cfg) (b_qty (ps_feed s))) eps = Ok (m, feed1) ->
  (forall st sp, In st (pc_streams cfg) -> b_space (stream_buf s (st_name st)) = Some sp -> share (st_effs st) m <= sp) ->
  no_traces eps cfg m 1 -> sp_tick eps cfg s = Ok (s', lg) ->
  ps_feed s' = feed1 /\
  (forall st, In st (pc_streams cfg) ->
     gained (stream_items s (st_name st)) (stream_items s' (st_name st))
            (share (st_effs st) m) (fun n => efficiency (st_effs st) n * mass_of m n)) /\
  gained (b_items (ps_left s)) (b_items (ps_left s'))
     (m_qty m - qsum (map (fun st => share (st_effs st) m) (pc_streams cfg)))
     (fun n => mass_of m n * (1 - qsum (map (fun st => efficiency (st_effs st) n) (pc_streams cfg)))).
Proof.
  intros He Ht ND Es Of Ne P Room Nt H.
  apply tick_inv in H as [(E0 & _)|(_ & m' & feed1' & staged & f & mat1 & mat2 & bm & seps & series & feed2 & left & R)]; [contradiction|].
  assert (Em : m' = m /\ feed1' = feed1) by (destruct R as [P' _ _ _ _ _ _]; rewrite P in P'; injection P' as <- <-; auto).
  destruct Em as (-> & ->).
  pose proof (tick_streams _ _ _ _ _ _ _ _ _ _ _ _ _ _ _ _ He Ht ND Es Of R) as
    (Pr & Om & _ & _ & _ & _ & Ss & _ & Q1 & _).
  assert (F1 : f == 1).
  { apply (processable_unique cfg s m); auto. split; [lra|]. split; [|left; reflexivity].
    intros st sp I Sp. specialize (Room st sp I Sp). lra. }
  assert (Ntf : no_traces eps cfg m f) by (apply (no_traces_eq _ _ _ 1); auto; symmetry; auto).
  destruct (run_exact _ _ _ _ _ _ _ _ _ _ _ _ _ _ _ _ He Ht ND Es Of R Ntf) as (O1 & M1 & _).
  destruct R as [_ _ _ Bk Lf -> _]. destruct Bk as [(_ & -> & ->)|(N & _)]; [|contradiction].
  cbn [ps_feed ps_left]. split; [auto|]. split.
  - intros st I. destruct (Ss st I) as (_ & x & _ & S1 & G).
    pose proof (gain_gained _ _ _ _ _ _ _ S1 (proj1 (proj1 Pr)) G) as K. unfold gained in *.
    destruct K as [(A & B & C)|(y & A & B & C)]; [left|right; exists y].
    + split; [auto|]. rewrite F1 in B. split; [lra|]. intro n. specialize (C n). rewrite F1 in C. lra.
    + split; [auto|]. rewrite F1 in B. split; [lra|]. intro n. specialize (C n). rewrite F1 in C. lra.
  - unfold gained. destruct Lf as [(_ & Y)|(Z & ->)].
    + right. apply b_push_facts in Y as (_ & Y & _). exists mat1. split; [auto|].
      split; [rewrite Q1, F1; ring|]. intro n. rewrite M1, F1. ring.
    + left. split; [auto|]. pose proof (proj1 O1) as N1.
      assert (Z1 : m_qty mat1 == 0) by lra. split; [rewrite Q1, F1 in Z1; lra|].
      intro n. pose proof (mass_qzero mat1 n (proj1 (proj2 O1)) Z1) as Mz. rewrite M1, F1 in Mz. lra.
Qed.
Lemma tick_limited eps cfg s s' lg :
  0 <= eps -> 0 <= pc_throughput cfg -> NoDup (map st_name (pc_streams cfg)) -> efficiencies_sane cfg ->
  mats_ok (b_items (ps_feed s)) -> b_items (ps_feed s) <> [] -> sp_tick eps cfg s = Ok (s', lg) ->
  exists m feed1 f,
    b_pop_tol (ps_feed s) (Qmin (pc_throughput cfg) (b_qty (ps_feed s))) eps = Ok (m, feed1) /\
    m_qty m == Qmin (pc_throughput cfg) (b_qty (ps_feed s)) /\
    (forall n, mass_of m n + mass_in n (b_items feed1) == mass_in n (b_items (ps_feed s))) /\
    processable cfg s m f /\
    (forall st, In st (pc_streams cfg) ->
     gained (stream_items s (st_name st)) (stream_items s' (st_name st))
            (f * share (st_effs st) m) (fun n => f * efficiency (st_effs st) n * mass_of m n)) /\
    (forall name, ~ In name (map st_name (pc_streams cfg)) -> stream_items s' name = stream_items s name) /\
    b_qty (ps_feed s') == b_qty (ps_feed s) - f * m_qty m /\
    b_qty (ps_left s') == b_qty (ps_left s) +
      f * (m_qty m - qsum (map (fun st => share (st_effs st) m) (pc_streams cfg))).
Proof.
  intros He Ht ND Es Of Ne H.
  apply tick_inv in H as [(E0 & _)|(_ & m & feed1 & staged & f & mat1 & mat2 & bm & seps & series & feed2 & left & R)]; [contradiction|].
  pose proof (tick_streams _ _ _ _ _ _ _ _ _ _ _ _ _ _ _ _ He Ht ND Es Of R) as
    (Pr & Om & _ & P1 & _ & P6 & Ss & So & Q1 & B1 & L1 & _).
  exists m, feed1, f. split; [destruct R; auto|]. split; [exact P1|]. split; [exact P6|]. split; [exact Pr|]. split.
  { intros st I. destruct (Ss st I) as (_ & x & _ & S1 & G). exact (gain_gained _ _ _ _ _ _ _ S1 (proj1 (proj1 Pr)) G). }
  split. { intros name N. unfold stream_items. rewrite So; auto. }
  destruct R as [_ _ _ _ _ -> _]. cbn [ps_feed ps_left]. split; auto.
Qed.
Lemma tick_nuclides_exact eps cfg s s' lg :
  0 <= eps -> 0 <= pc_throughput cfg -> NoDup (map st_name (pc_streams cfg)) -> efficiencies_sane cfg ->
  mats_ok (b_items (ps_feed s)) -> sp_tick eps cfg s = Ok (s', lg) ->
  (forall m feed1 f, b_pop_tol (ps_feed s) (Qmin (pc_throughput cfg) (b_qty (ps_feed s))) eps = Ok (m, feed1) ->
     processable cfg s m f -> no_traces eps cfg m f) ->
  forall n, mass_in n (parcels s') == mass_in n (parcels s).
Proof.
  intros He Ht ND Es Of H Nt n.
  apply tick_inv in H as [(_ & -> & _)|(_ & m & feed1 & staged & f & mat1 & mat2 & bm & seps & series & feed2 & left & R)]; [lra|].
  pose proof (tick_streams _ _ _ _ _ _ _ _ _ _ _ _ _ _ _ _ He Ht ND Es Of R) as (Pr & _).
  assert (Ntf : no_traces eps cfg m f) by (apply (Nt m feed1 f); auto; destruct R; auto).
  apply (run_exact _ _ _ _ _ _ _ _ _ _ _ _ _ _ _ _ He Ht ND Es Of R Ntf).
Qed.
(** Records written by the tick. *)
Lemma sum_pairs name (l : list (string * Q)) (f : string * mat -> list Q) (staged : list (string * mat)) x :
  NoDup (map fst staged) -> In (name, x) staged ->
  qsum (map snd (filter (fun e => String.eqb (fst e) name)
     (flat_map (fun nm => map (fun q => (fst nm, q)) (f nm)) staged))) == qsum (f (name, x)).
Proof.
  assert (F : forall k (qs : list Q), filter (fun e : string * Q => String.eqb (fst e) name) (map (fun q => (k, q)) qs) =
       if String.eqb k name then map (fun q => (k, q)) qs else []).
  { intros k. induction qs as [|q qs IHq]; simpl; [destruct (String.eqb k name); auto|].
    rewrite IHq. destruct (String.eqb k name); auto. }
  assert (Z : forall st, ~ In name (map fst st) -> filter (fun e => String.eqb (fst e) name)
     (flat_map (fun nm : string * mat => map (fun q => (fst nm, q)) (f nm)) st) = []).
  { induction st as [|[k y] st IH]; simpl; auto. intro N. rewrite filter_app, F, IH by tauto.
    destruct (String.eqb_spec k name) as [->|]; auto. exfalso; auto. }
  induction staged as [|[k y] staged IH]; intros ND I; [destruct I|].
  inversion ND as [|? ? N ND']; subst. cbn [flat_map fst]. rewrite filter_app, F.
  destruct I as [E|I].
  - injection E as -> ->. rewrite String.eqb_refl, Z by exact N. rewrite app_nil_r, map_map. simpl. rewrite map_id. reflexivity.
  - destruct (String.eqb_spec k name) as [->|]; [|simpl; auto].
    exfalso. apply N. apply in_map_iff. exists (name, x). auto.
Qed.
Lemma tick_records eps cfg s s' lg :
  0 <= eps -> 0 <= pc_throughput cfg -> NoDup (map st_name (pc_streams cfg)) -> efficiencies_sane cfg ->
  mats_ok (b_items (ps_feed s)) -> sp_tick eps cfg s = Ok (s', Some lg) ->
  lg_processed lg == Qmin (pc_throughput cfg) (b_qty (ps_feed s)) /\
  (forall st, In st (pc_streams cfg) ->
    qsum (map snd (filter (fun e => String.eqb (fst e) (st_name st)) (lg_separated lg))) ==
    b_qty (stream_buf s' (st_name st)) - b_qty (stream_buf s (st_name st))) /\
  lg_supply lg = map (fun st => (st_name st, b_qty (stream_buf s' (st_name st)))) (pc_streams cfg) ++
                 [(pc_leftover_commod cfg, b_qty (ps_left s'))].
Proof.
  intros He Ht ND Es Of H.
  apply tick_inv in H as [(_ & _ & X)|(_ & m & feed1 & staged & f & mat1 & mat2 & bm & seps & series & feed2 & left & R)]; [discriminate|].
  pose proof (tick_streams _ _ _ _ _ _ _ _ _ _ _ _ _ _ _ _ He Ht ND Es Of R) as
    (Pr & Om & _ & P1 & _ & P6 & Ss & So & Q1 & B1 & L1 & Sp & Se).
  assert (Sn : NoDup (map fst staged)).
  { destruct R as [_ St _ _ _ _ _]. apply run_staged in St as (-> & _). auto. }
  pose proof (tr_s _ _ _ _ _ _ _ _ _ _ _ _ _ _ _ _ R) as Es'.
  pose proof (tr_lg _ _ _ _ _ _ _ _ _ _ _ _ _ _ _ _ R) as El. injection El as ->. cbn [lg_processed lg_separated lg_supply].
  split; [exact P1|]. split.
  - intros st I. destruct (Ss st I) as (_ & x & I2 & S1 & G).
    assert (Gq : b_qty (stream_buf s' (st_name st)) - b_qty (stream_buf s (st_name st)) == qty_of (stream_gain (m_id m) f x)).
    { unfold b_qty. fold (stream_items s' (st_name st)). fold (stream_items s (st_name st)). rewrite G, qty_of_app. lra. }
    rewrite Gq, Sp.
    assert (Eq : flat_map (fun nm : string * mat => map (fun y : mat => (fst nm, m_qty y)) (stream_gain (m_id m) f (snd nm))) staged =
       flat_map (fun nm : string * mat => map (fun q => (fst nm, q)) (map m_qty (stream_gain (m_id m) f (snd nm)))) staged).
    { apply flat_map_ext. intro nm. rewrite map_map. reflexivity. }
    rewrite Eq, (sum_pairs (st_name st) [] (fun nm => map m_qty (stream_gain (m_id m) f (snd nm))) staged x Sn I2).
    reflexivity.
  - rewrite Se, Es'. reflexivity.
Qed.
