(** Lists of trades, deliveries and histories of FuelFab. *)
From Coq Require Import Lia Lqa.
From Verif Require Import Outcome KernelMaterial KernelResBuf KernelFacts KernelMass KernelBuf KernelBufFacts
  FuelFabModel FuelFabSpec FuelFabMath FuelFabProofs.
Local Open Scope Q_scope.

(** ** Awards within the constraints *)
Lemma charges_inv conv B a l t : charges conv B (a :: l) t ->
  exists x t', charge conv B a = Some x /\ charges conv B l t' /\ t = x + t'.
Proof. intro H. inversion H; subst. eauto. Qed.
Lemma charges_nil_inv conv B t : charges conv B [] t -> t = 0.
Proof. intro H. inversion H; auto. Qed.

Section AWARDS.
Context (eps nz : Q) (D : nucdata) (recipe : string -> option comp) (cfg : ff_cfg) (s0 : ff_state)
        (reqs : list (comp * Q)) (B : ff_bids).
Context (EP : 0 <= eps) (NZ : 0 <= nz) (NZ1 : nz <= 1) (AW : forall n, 0 < d_aw D n).
Context (HO : ff_homogeneous s0) (RO : recipes_ok recipe) (QO : reqs_ok reqs)
        (BID : ff_get_bids nz D recipe cfg s0 reqs = Ok (Some B)).
Local Notation w := (cosi_weight D (fc_spectrum cfg)).
Local Notation sp := (fc_spectrum cfg).

Lemma wd_B : weighed D cfg s0 (fo_streams B).
Proof. exact (proj1 (bids_facts _ _ _ _ _ _ _ HO RO BID)). Qed.

Lemma plan_range t wo kf kl kt :
  plan1 nz D cfg (fo_streams B) t wo kf kl kt \/ plan2 nz D cfg s0 (fo_streams B) t wo kf kl kt ->
  0 <= kf /\ 0 <= kl /\ 0 <= kt.
Proof.
  destruct wd_B as [Rl Rf Rt _ _ _ _ _ _].
  intros [(V & f & R & _ & A & C & E)|(_ & _ & V & f & R & _ & A & C & E)];
    pose proof (hf_range _ _ _ _ _ NZ V R) as [F0 F1].
  - pose proof (a2m_nonneg D AW f _ _ Rf Rl F0 F1). pose proof (a2m_le D AW f _ _ Rf Rl F0 F1). unfold mf1 in *. lra.
  - pose proof (a2m_nonneg D AW f _ _ Rt Rf F0 F1). pose proof (a2m_le D AW f _ _ Rt Rf F0 F1). unfold mf2 in *. lra.
Qed.

Lemma award_plan a m : 0 < snd a -> offer_for B (fst a) = Some m ->
  exists tgt q kf kl kt, nth_error reqs (fst a) = Some (tgt, q) /\
    m_qty m == q /\ real_comp (m_comp m) /\
    charge (conv_fiss nz D sp) B a = Some (kf * snd a) /\ charge (conv_fill nz D sp) B a = Some (kl * snd a) /\
    charge (conv_topup nz D sp) B a = Some (kt * snd a) /\
    (plan1 nz D cfg (fo_streams B) (w tgt) (w (m_comp m)) kf kl kt \/
     plan2 nz D cfg s0 (fo_streams B) (w tgt) (w (m_comp m)) kf kl kt).
Proof.
  intros P OF. destruct (bids_facts _ _ _ _ _ _ _ HO RO BID) as (WD & OS & _).
  pose proof (offer_for_in _ _ _ OF) as I. apply (proj1 (offers_facts _ _ _ _ _ _ _ _ OS _ _)) in I.
  destruct I as (k & tgt & q & E & N & F). simpl in E. subst k.
  assert (Q0 : 0 < q). { unfold reqs_ok in QO. rewrite Forall_forall in QO. apply nth_error_In in N. apply (QO _ N). }
  destruct (offer_facts nz D cfg s0 (fo_streams B) NZ NZ1 AW WD tgt q m Q0 F) as (MQ & RM & xf & xl & xt & C1 & C2 & C3 & PL).
  exists tgt, q, (xf / m_qty m), (xl / m_qty m), (xt / m_qty m). unfold charge. rewrite OF, C1, C2, C3. auto 8.
Qed.
Lemma charge_offer conv a x : charge conv B a = Some x -> exists m, offer_for B (fst a) = Some m.
Proof. unfold charge. destruct (offer_for B (fst a)); [eauto|discriminate]. Qed.

Definition fine (a : nat * Q) (m : mat) : Prop :=
  m_qty m == snd a /\ forall o, offer_for B (fst a) = Some o -> w (m_comp m) == w (m_comp o).

Lemma awards_ok l : forall s tot u, during s0 s -> uses nz D sp B l u ->
  Forall (fun a => 0 < snd a) l -> Forall (servable nz D cfg s0 B reqs) l ->
  u_fiss u <= b_qty (fb_fiss s) -> u_fill u <= b_qty (fb_fill s) -> u_topup u <= b_qty (fb_topup s) ->
  tot + u_total u <= fc_throughput cfg ->
  exists s' ms, ff_trade_loop eps nz D cfg (ff_bweight D cfg (fb_fill s0)) (ff_bweight D cfg (fb_topup s0))
      (ff_bweight D cfg (fb_fiss s0)) tot s (ff_targets reqs l) = Ok (s', ms) /\
    b_qty (fb_fiss s') == b_qty (fb_fiss s) - u_fiss u /\ b_qty (fb_fill s') == b_qty (fb_fill s) - u_fill u /\
    b_qty (fb_topup s') == b_qty (fb_topup s) - u_topup u /\ Forall2 fine l ms.
Proof.
  induction l as [|a l IH]; intros s tot u DU (U1 & U2 & U3 & U4) POS SV L1 L2 L3 L4.
  - simpl. apply charges_nil_inv in U1, U2, U3. rewrite U1, U2, U3. exists s, [].
    split; [reflexivity|]. split; [ring|]. split; [ring|]. split; [ring|constructor].
  - apply charges_inv in U1 as (x1 & t1 & X1 & U1 & E1). apply charges_inv in U2 as (x2 & t2 & X2 & U2 & E2).
    apply charges_inv in U3 as (x3 & t3 & X3 & U3 & E3).
    inversion POS as [|? ? P POS']; subst. inversion SV as [|? ? V SV']; subst.
    destruct (charge_offer _ _ _ X1) as (m & OF).
    destruct (award_plan a m P OF) as (tgt & q & kf & kl & kt & N & MQ & RM & Y1 & Y2 & Y3 & PL).
    rewrite X1 in Y1. injection Y1 as ->. rewrite X2 in Y2. injection Y2 as ->. rewrite X3 in Y3. injection Y3 as ->.
    destruct V as (tgt' & q' & xf & xt & N' & Z1 & Z2 & C1 & C2 & C3).
    rewrite N in N'. injection N' as <- <-. rewrite X1 in Z1. injection Z1 as <-. rewrite X3 in Z2. injection Z2 as <-.
    assert (TN : 0 <= t1 /\ 0 <= t2 /\ 0 <= t3 /\ 0 <= qsum (map snd l)).
    { clear - U1 U2 U3 POS' AW HO RO QO BID NZ NZ1. revert t1 t2 t3 U1 U2 U3. induction l as [|b l IHl]; intros.
      - apply charges_nil_inv in U1, U2, U3. subst. simpl. repeat split; apply Qle_refl.
      - apply charges_inv in U1 as (x1 & r1 & X1 & U1 & ->). apply charges_inv in U2 as (x2 & r2 & X2 & U2 & ->).
        apply charges_inv in U3 as (x3 & r3 & X3 & U3 & ->). inversion POS' as [|? ? P P']; subst.
        destruct (charge_offer _ _ _ X1) as (m & OF).
        destruct (award_plan b m P OF) as (tgt & q & kf & kl & kt & N & MQ & RM & Y1 & Y2 & Y3 & PL).
        rewrite X1 in Y1. injection Y1 as ->. rewrite X2 in Y2. injection Y2 as ->. rewrite X3 in Y3. injection Y3 as ->.
        destruct (IHl P' r1 r2 r3 U1 U2 U3) as (A1 & A2 & A3 & A4). destruct (plan_range _ _ _ _ _ PL) as (K1 & K2 & K3).
        pose proof (Qmult_le_0_compat _ (snd b) K1 ltac:(lra)). pose proof (Qmult_le_0_compat _ (snd b) K2 ltac:(lra)).
        pose proof (Qmult_le_0_compat _ (snd b) K3 ltac:(lra)). cbn [map qsum fold_right]. fold (qsum (map snd l)).
        repeat split; lra. }
    rewrite E1 in L1. rewrite E2 in L2. rewrite E3 in L3. rewrite U4 in L4.
    cbn [map qsum fold_right] in L4. fold (qsum (map snd l)) in L4. destruct TN as (T1 & T2 & T3 & T4).
    assert (CD : cond D cfg s0 (fo_streams B) (w tgt) kf kt).
    { split; [|split].
      - destruct C1 as [C1|[C1 C1']]; [left|right].
        + destruct (Qlt_le_dec 0 kf) as [K|K]; [auto|]. destruct (plan_range _ _ _ _ _ PL) as (K1 & _).
          assert (KZ : kf == 0) by lra. rewrite KZ in C1. lra.
        + split; [auto|]. destruct (plan_range _ _ _ _ _ PL) as (_ & _ & K3).
          destruct (Qlt_le_dec 0 kt) as [K|K]; [|lra]. pose proof (Qmult_lt_0_compat _ _ K P). lra.
      - rewrite <- (wd_wfill _ _ _ _ wd_B), <- (wd_wfiss _ _ _ _ wd_B). destruct C2 as [C2|C2]; [auto|right].
        destruct (Qlt_le_dec 0 kt) as [K|K]; [auto|]. destruct (plan_range _ _ _ _ _ PL) as (_ & _ & K3).
        assert (KZ : kt == 0) by lra. rewrite KZ in C2. lra.
      - exact C3. }
    destruct (trade_ok eps nz D cfg s0 (fo_streams B) EP NZ NZ1 AW wd_B s tgt (snd a) (w (m_comp m)) kf kl kt DU P PL CD
      ltac:(lra) ltac:(lra) ltac:(lra)) as (s1 & m1 & TR & DU1 & B1 & B2 & B3 & Q1 & W1).
    destruct (IH s1 (tot + snd a) {| u_fiss := t1; u_fill := t2; u_topup := t3; u_total := qsum (map snd l) |} DU1
      ltac:(split; [exact U1|split; [exact U2|split; [exact U3|reflexivity]]]) POS' SV'
      ltac:(simpl; lra) ltac:(simpl; lra) ltac:(simpl; lra) ltac:(simpl; lra))
      as (s2 & ms & LP & A1 & A2 & A3 & A4). cbn [u_fiss u_fill u_topup u_total] in *.
    destruct a as [j amt]. cbn [fst snd] in *. cbn [ff_targets]. rewrite N. cbn [ff_trade_loop].
    destruct (Qltb (fc_throughput cfg + eps) (tot + amt)) eqn:TH; [apply Qltb_true in TH; lra|].
    change (ff_bweight D cfg (fb_fill s0)) with (wl D cfg s0) in *.
    change (ff_bweight D cfg (fb_topup s0)) with (wt D cfg s0) in *.
    change (ff_bweight D cfg (fb_fiss s0)) with (wf D cfg s0) in *.
    rewrite TR. cbn [bind]. rewrite LP. cbn [bind]. exists s2, (m1 :: ms). split; [reflexivity|].
    rewrite E1, E2, E3. split; [lra|]. split; [lra|]. split; [lra|]. constructor; [|exact A4].
    split; [exact Q1|]. cbn [fst]. intros o OF'. rewrite OF in OF'. injection OF' as <-. exact W1.
Qed.
End AWARDS.
Theorem awards_final eps nz D recipe cfg s reqs B l u :
  0 <= eps -> 0 <= nz -> nz <= 1 -> data_ok D (fc_spectrum cfg) -> ff_homogeneous s -> recipes_ok recipe ->
  reqs_ok reqs -> ff_get_bids nz D recipe cfg s reqs = Ok (Some B) ->
  respects nz D (fc_spectrum cfg) B l u -> Forall (servable nz D cfg s B reqs) l ->
  u_fiss u <= b_qty (fb_fiss s) -> u_fill u <= b_qty (fb_fill s) -> u_topup u <= b_qty (fb_topup s) ->
  exists s' ms, ff_trades eps nz D cfg s (ff_targets reqs l) = Ok (s', ms) /\
    b_qty (fb_fiss s') == b_qty (fb_fiss s) - u_fiss u /\ b_qty (fb_fill s') == b_qty (fb_fill s) - u_fill u /\
    b_qty (fb_topup s') == b_qty (fb_topup s) - u_topup u /\
    Forall2 (fun a m => m_qty m == snd a /\
      forall o, offer_for B (fst a) = Some o -> weight D cfg (m_comp m) == weight D cfg (m_comp o)) l ms.
Proof.
  intros EP NZ NZ1 (AW & _) HO RO QO BID (POS & U & _ & _ & _ & T) SV L1 L2 L3.
  destruct (bids_facts _ _ _ _ _ _ _ HO RO BID) as (WD & _ & _ & _ & _ & CAP). rewrite CAP in T.
  unfold ff_trades. apply (awards_ok eps nz D recipe cfg s reqs B EP NZ NZ1 AW HO RO QO BID l s 0 u); auto.
  - apply during_start. exact HO.
  - lra.
Qed.

(** ** Offers *)
Theorem offers_final nz D recipe cfg s reqs B : 0 <= nz -> nz <= 1 -> data_ok D (fc_spectrum cfg) ->
  ff_homogeneous s -> recipes_ok recipe -> reqs_ok reqs -> ff_get_bids nz D recipe cfg s reqs = Ok (Some B) ->
  forall j m, In (j, m) (fo_offers B) ->
  exists tgt q, nth_error reqs j = Some (tgt, q) /\ m_qty m == q /\
    exists lo hi, between lo (weight D cfg tgt) hi /\
      ((lo = fs_wfill (fo_streams B) /\ hi = fs_wfiss (fo_streams B)) \/
       (b_items (fb_topup s) <> [] /\ lo = fs_wfiss (fo_streams B) /\ hi = fs_wtopup (fo_streams B))) /\
      Qabs (weight D cfg (m_comp m) - weight D cfg tgt) <= nz * (hi - lo) /\
      (nz * (hi - lo) <= weight D cfg tgt - lo -> nz * (hi - lo) <= hi - weight D cfg tgt ->
       weight D cfg (m_comp m) == weight D cfg tgt).
Proof.
  intros NZ NZ1 (AW & _) HO RO QO BID j m I.
  destruct (bids_facts _ _ _ _ _ _ _ HO RO BID) as (WD & OS & _).
  apply (proj1 (offers_facts _ _ _ _ _ _ _ _ OS _ _)) in I. destruct I as (k & tgt & q & E & N & F). simpl in E. subst k.
  assert (Q0 : 0 < q). { unfold reqs_ok in QO. rewrite Forall_forall in QO. apply nth_error_In in N. apply (QO _ N). }
  destruct (offer_facts nz D cfg s (fo_streams B) NZ NZ1 AW WD tgt q m Q0 F) as (MQ & RM & xf & xl & xt & C1 & C2 & C3 & PL).
  exists tgt, q. split; [auto|]. split; [auto|].
  assert (FIN : forall lo hi f, between lo (weight D cfg tgt) hi -> hfrel nz lo (weight D cfg tgt) hi f ->
    weight D cfg (m_comp m) == f * hi + (1 - f) * lo ->
    Qabs (weight D cfg (m_comp m) - weight D cfg tgt) <= nz * (hi - lo) /\
      (nz * (hi - lo) <= weight D cfg tgt - lo -> nz * (hi - lo) <= hi - weight D cfg tgt ->
       weight D cfg (m_comp m) == weight D cfg tgt)).
  { intros lo hi f V R W. split.
    - rewrite W. apply hf_close; auto.
    - intros X Y. rewrite W. destruct (Qlt_le_dec lo hi) as [L|L]; [apply (hf_exact nz); auto|].
      destruct V. assert (lo == weight D cfg tgt) by lra. assert (hi == weight D cfg tgt) by lra. rewrite H1, H2. ring. }
  destruct PL as [(V & f & R & W & _)|(_ & NE & V & f & R & W & _)].
  - exists (fs_wfill (fo_streams B)), (fs_wfiss (fo_streams B)).
    rewrite (wd_wfill _ _ _ _ WD), (wd_wfiss _ _ _ _ WD).
    split; [exact V|]. split; [left; auto|]. exact (FIN _ _ f V R W).
  - exists (fs_wfiss (fo_streams B)), (fs_wtopup (fo_streams B)).
    rewrite (wd_wfiss _ _ _ _ WD), (wd_wtopup _ _ _ _ WD NE).
    split; [exact V|]. split; [right; auto|]. exact (FIN _ _ f V R W).
Qed.
Theorem offered_final nz D recipe cfg s reqs B : ff_homogeneous s -> recipes_ok recipe ->
  ff_get_bids nz D recipe cfg s reqs = Ok (Some B) ->
  forall j, (exists m, In (j, m) (fo_offers B)) <->
    exists tgt q, nth_error reqs j = Some (tgt, q) /\
      (between (fs_wfill (fo_streams B)) (weight D cfg tgt) (fs_wfiss (fo_streams B)) \/
       (b_items (fb_topup s) <> [] /\ between (fs_wfiss (fo_streams B)) (weight D cfg tgt) (fs_wtopup (fo_streams B)))).
Proof.
  intros HO RO BID j. destruct (bids_facts _ _ _ _ _ _ _ HO RO BID) as (WD & OS & _).
  pose proof (offers_facts _ _ _ _ _ _ _ _ OS) as OF.
  assert (EQ : forall tgt, (between (fs_wfill (fo_streams B)) (weight D cfg tgt) (fs_wfiss (fo_streams B)) \/
       (b_items (fb_topup s) <> [] /\ between (fs_wfiss (fo_streams B)) (weight D cfg tgt) (fs_wtopup (fo_streams B)))) <->
      (between (weight D cfg (fs_cfill (fo_streams B))) (weight D cfg tgt) (weight D cfg (fs_cfiss (fo_streams B))) \/
       (b_items (fb_topup s) <> [] /\ between (weight D cfg (fs_cfiss (fo_streams B))) (weight D cfg tgt) (weight D cfg (fs_ctopup (fo_streams B)))))).
  { intro tgt. rewrite (wd_wfill _ _ _ _ WD), (wd_wfiss _ _ _ _ WD). pose proof (wd_wtopup _ _ _ _ WD) as WT.
    split; (intros [X|[X Y]]; [left; auto|right; split; [auto|]]); [rewrite <- (WT X)|rewrite (WT X)]; auto. }
  split.
  - intros (m & I). apply OF in I as (k & tgt & q & E & N & F). simpl in E. subst k. exists tgt, q. split; [auto|].
    apply EQ. destruct (offer_iff nz D cfg s (fo_streams B) WD tgt q) as (o & O & X). rewrite F in O. injection O as <-.
    apply X. discriminate.
  - intros (tgt & q & N & X). apply EQ in X.
    destruct (offer_iff nz D cfg s (fo_streams B) WD tgt q) as (o & O & Y). apply Y in X.
    destruct o as [m|]; [|congruence]. exists m. apply OF. exists j, tgt, q. auto.
Qed.

(** ** Whatever the trades are *)
Lemma pop_any eps b o x b' q : 0 <= eps -> (forall c, o = Some c -> real_comp c) -> holds b o ->
  b_pop_tol b q eps = Ok (x, b') ->
  exists c, o = Some c /\ m_comp x = c /\ 0 < m_qty x /\ m_qty x <= q /\
    (m_qty x == q \/ (b_items b' = [] /\ q - eps <= m_qty x)) /\
    holds b' o /\ b_cap b' = b_cap b /\ b_qty b' == b_qty b - m_qty x /\
    (forall n, mass_of x n + mass_in n (b_items b') == mass_in n (b_items b)).
Proof.
  intros EP RC H PP. destruct (b_items b) as [|m [|m2 r]] eqn:E.
  - exfalso. unfold b_pop_tol, items_pop_tol in PP. rewrite E in PP. destruct (Qltb _ _); [discriminate|].
    destruct (Qle_bool _ _); [discriminate|]. unfold items_pop_qty in PP. destruct (Qltb _ _); discriminate.
  - destruct H as [H|(m' & c & O & I & C & MP)]; [congruence|]. rewrite E in I. injection I as <-.
    exists c. split; [auto|]. specialize (RC c O). pose proof (one_qty b m E) as BQ.
    assert (QE : qty_of [m] == m_qty m) by (unfold qty_of; simpl; ring).
    unfold b_pop_tol, items_pop_tol in PP. rewrite E in PP.
    destruct (Qltb (qty_of [m] + eps) q) eqn:T; [discriminate|]. apply Qltb_false in T.
    destruct (Qle_bool (qty_of [m]) q) eqn:A.
    + apply Qle_bool_iff in A. cbn [squash fold_left bind] in PP. injection PP as <- <-. cbn [b_items b_cap].
      split; [auto|]. split; [auto|]. split; [lra|]. split; [right; split; [auto|lra]|]. split; [left; auto|].
      split; [auto|]. split; [unfold b_qty at 1; cbn [b_items]; rewrite qty_of_nil; lra|].
      intro n. rewrite mass_in_nil, mass_in_cons, mass_in_nil. ring.
    + apply Qle_bool_false in A. unfold items_pop_qty in PP. destruct (Qltb (qty_of [m]) q) eqn:T2; [discriminate|].
      simpl take_qty in PP. destruct (Qle_bool q 0) eqn:T3; [discriminate|]. apply Qle_bool_false in T3.
      destruct (Qltb q (m_qty m)) eqn:T4; [|apply Qltb_false in T4; lra]. apply Qltb_true in T4.
      cbn [squash fold_left bind] in PP. injection PP as <- <-. cbn [b_items b_cap m_qty m_comp].
      split; [auto|]. split; [lra|]. split; [lra|]. split; [left; reflexivity|].
      split; [right; eexists; exists c; split; [auto|]; split; [reflexivity|]; simpl; split; [auto|lra]|].
      split; [auto|]. split; [unfold b_qty at 1; cbn [b_items]; rewrite qty_of_cons, qty_of_nil; simpl; lra|].
      intro n. destruct m as [i qm cm]. simpl in *. rewrite !mass_in_cons, mass_in_nil.
      rewrite <- (mass_split i i i q (qm - q) qm cm n); [ring|subst; apply RC|lra].
  - exfalso. destruct H as [H|(m' & c & O & I & _)]; [congruence|]. rewrite E in I. discriminate.
Qed.
Lemma real_mat_ok x : 0 < m_qty x -> real_comp (m_comp x) -> mat_ok x.
Proof. intros P [O S]. split; [lra|]. split; [exact O|]. left. exact S. Qed.

Definition hd_real (s0 : ff_state) : Prop :=
  (forall c, hd_comp (fb_fill s0) = Some c -> real_comp c) /\ (forall c, hd_comp (fb_fiss s0) = Some c -> real_comp c) /\
  (forall c, hd_comp (fb_topup s0) = Some c -> real_comp c).
Lemma homogeneous_real s0 : ff_homogeneous s0 -> hd_real s0.
Proof.
  intros (A & B & C). assert (H : forall b, homogeneous b -> forall c, hd_comp b = Some c -> real_comp c).
  { intros b [E|(m & E & _ & R)] c; unfold hd_comp; rewrite E; [discriminate|]. intro X. injection X as <-. auto. }
  split; [|split]; eapply H; eauto.
Qed.
Definition ff_caps (s s' : ff_state) : Prop :=
  b_cap (fb_fill s') = b_cap (fb_fill s) /\ b_cap (fb_fiss s') = b_cap (fb_fiss s) /\ b_cap (fb_topup s') = b_cap (fb_topup s).
Lemma ff_held_mass n s : mass_in n (ff_held s) ==
  mass_in n (b_items (fb_fill s)) + mass_in n (b_items (fb_fiss s)) + mass_in n (b_items (fb_topup s)).
Proof. unfold ff_held. rewrite !mass_in_app. ring. Qed.
Lemma ff_held_qty s : qty_of (ff_held s) == b_qty (fb_fill s) + b_qty (fb_fiss s) + b_qty (fb_topup s).
Proof. unfold ff_held. rewrite !qty_of_app. unfold b_qty. ring. Qed.

(** A trade removes what it delivers. *)
Definition moved (s s' : ff_state) (m : mat) : Prop :=
  ff_caps s s' /\ 0 < m_qty m /\ real_comp (m_comp m) /\
  b_qty (fb_fill s') <= b_qty (fb_fill s) /\ b_qty (fb_fiss s') <= b_qty (fb_fiss s) /\ b_qty (fb_topup s') <= b_qty (fb_topup s) /\
  qty_of (ff_held s') + m_qty m == qty_of (ff_held s) /\
  (forall n, mass_in n (ff_held s') + mass_of m n == mass_in n (ff_held s)).

Lemma trade_any eps nz D cfg s0 wl wt wf s tgt q s' m : 0 <= eps -> hd_real s0 -> during s0 s ->
  ff_trade1 eps nz D cfg wl wt wf s tgt q = Ok (s', m) -> during s0 s' /\ moved s s' m.
Proof.
  intros EP (RL & RF & RT) (HL & HF & HT) H. unfold ff_trade1 in H.
  destruct (Nat.eqb (b_count (fb_fiss s)) 0).
  { apply bind_ok in H as ([x b'] & PP & H). injection H as <- <-.
    destruct (pop_any _ _ _ _ _ _ EP RL HL PP) as (c & O & C & P & _ & _ & HB & CB & BQ & MM).
    split; [split; [|split]; auto|]. split; [repeat split; auto|]. split; [auto|]. split; [rewrite C; auto|].
    rewrite !ff_held_qty. cbn [fb_fill fb_fiss fb_topup].
    split; [lra|]. split; [lra|]. split; [lra|]. split; [lra|].
    intro n. rewrite !ff_held_mass. cbn [fb_fill fb_fiss fb_topup]. rewrite <- (MM n). ring. }
  destruct (Nat.eqb (b_count (fb_fill s)) 0 && valid_weights wl (cosi_weight D (fc_spectrum cfg) tgt) wf).
  { apply bind_ok in H as ([x b'] & PP & H). injection H as <- <-.
    destruct (pop_any _ _ _ _ _ _ EP RF HF PP) as (c & O & C & P & _ & _ & HB & CB & BQ & MM).
    split; [split; [|split]; auto|]. split; [repeat split; auto|]. split; [auto|]. split; [rewrite C; auto|].
    rewrite !ff_held_qty. cbn [fb_fill fb_fiss fb_topup].
    split; [lra|]. split; [lra|]. split; [lra|]. split; [lra|].
    intro n. rewrite !ff_held_mass. cbn [fb_fill fb_fiss fb_topup]. rewrite <- (MM n). ring. }
  assert (TWO : forall x y, 0 < m_qty x -> real_comp (m_comp x) -> 0 < m_qty y -> real_comp (m_comp y) ->
     0 < m_qty (absorb x y) /\ real_comp (m_comp (absorb x y)) /\ forall n, mass_of (absorb x y) n == mass_of x n + mass_of y n).
  { intros x y PX RX PY RY. split; [rewrite qty_absorb; lra|]. split.
    - destruct x as [i qx cx], y as [j qy cy]. apply blend_real; simpl in *; auto; lra.
    - intro n. apply mass_absorb; apply real_mat_ok; auto. }
  destruct (valid_weights wl (cosi_weight D (fc_spectrum cfg) tgt) wf).
  - apply bind_ok in H as (f0 & _ & H). apply bind_ok in H as (l0 & _ & H).
    apply bind_ok in H as (pf & _ & H). apply bind_ok in H as (pl & _ & H).
    apply bind_ok in H as ([x b1] & PP & H).
    destruct (pop_any _ _ _ _ _ _ EP RF HF PP) as (c & O & C & P & _ & _ & HB & CB & BQ & MM).
    destruct (Qltb 0 _).
    + apply bind_ok in H as ([y b2] & PP2 & H). injection H as <- <-.
      destruct (pop_any _ _ _ _ _ _ EP RL HL PP2) as (c2 & O2 & C2 & P2 & _ & _ & HB2 & CB2 & BQ2 & MM2).
      assert (RX : real_comp (m_comp x)) by (rewrite C; auto). assert (RY : real_comp (m_comp y)) by (rewrite C2; auto).
      destruct (TWO x y P RX P2 RY) as (T1 & T2 & T3).
      split; [split; [|split]; auto|]. split; [repeat split; auto|]. split; [auto|]. split; [auto|].
      rewrite !ff_held_qty, qty_absorb. cbn [fb_fill fb_fiss fb_topup].
      split; [lra|]. split; [lra|]. split; [lra|]. split; [lra|].
      intro n. rewrite !ff_held_mass, T3. cbn [fb_fill fb_fiss fb_topup]. rewrite <- (MM n), <- (MM2 n). ring.
    + injection H as <- <-.
      split; [split; [|split]; auto|]. split; [repeat split; auto|]. split; [auto|]. split; [rewrite C; auto|].
      rewrite !ff_held_qty. cbn [fb_fill fb_fiss fb_topup].
      split; [lra|]. split; [lra|]. split; [lra|]. split; [lra|].
      intro n. rewrite !ff_held_mass. cbn [fb_fill fb_fiss fb_topup]. rewrite <- (MM n). ring.
  - apply bind_ok in H as (t0 & _ & H). apply bind_ok in H as (pt & _ & H). apply bind_ok in H as (pf & _ & H).
    apply bind_ok in H as ([x b1] & PP & H).
    destruct (pop_any _ _ _ _ _ _ EP RF HF PP) as (c & O & C & P & _ & _ & HB & CB & BQ & MM).
    destruct (Qltb 0 _).
    + apply bind_ok in H as ([y b2] & PP2 & H). injection H as <- <-.
      destruct (pop_any _ _ _ _ _ _ EP RT HT PP2) as (c2 & O2 & C2 & P2 & _ & _ & HB2 & CB2 & BQ2 & MM2).
      assert (RX : real_comp (m_comp x)) by (rewrite C; auto). assert (RY : real_comp (m_comp y)) by (rewrite C2; auto).
      destruct (TWO x y P RX P2 RY) as (T1 & T2 & T3).
      split; [split; [|split]; auto|]. split; [repeat split; auto|]. split; [auto|]. split; [auto|].
      rewrite !ff_held_qty, qty_absorb. cbn [fb_fill fb_fiss fb_topup].
      split; [lra|]. split; [lra|]. split; [lra|]. split; [lra|].
      intro n. rewrite !ff_held_mass, T3. cbn [fb_fill fb_fiss fb_topup]. rewrite <- (MM n), <- (MM2 n). ring.
    + injection H as <- <-.
      split; [split; [|split]; auto|]. split; [repeat split; auto|]. split; [auto|]. split; [rewrite C; auto|].
      rewrite !ff_held_qty. cbn [fb_fill fb_fiss fb_topup].
      split; [lra|]. split; [lra|]. split; [lra|]. split; [lra|].
      intro n. rewrite !ff_held_mass. cbn [fb_fill fb_fiss fb_topup]. rewrite <- (MM n). ring.
Qed.
Definition moveds (s s' : ff_state) (ms : list mat) : Prop :=
  ff_caps s s' /\ Forall (fun m => 0 < m_qty m /\ real_comp (m_comp m)) ms /\
  b_qty (fb_fill s') <= b_qty (fb_fill s) /\ b_qty (fb_fiss s') <= b_qty (fb_fiss s) /\ b_qty (fb_topup s') <= b_qty (fb_topup s) /\
  qty_of (ff_held s') + qty_of ms == qty_of (ff_held s) /\
  (forall n, mass_in n (ff_held s') + mass_in n ms == mass_in n (ff_held s)).
Lemma trades_any eps nz D cfg s0 wl wt wf l : forall tot s s' ms, 0 <= eps -> hd_real s0 -> during s0 s ->
  ff_trade_loop eps nz D cfg wl wt wf tot s l = Ok (s', ms) ->
  during s0 s' /\ moveds s s' ms /\ List.length ms = List.length l.
Proof.
  induction l as [|[tgt q] l IH]; intros tot s s' ms EP RR DU H; simpl in H.
  - injection H as <- <-. split; [auto|]. split; [|auto]. split; [repeat split|]. split; [constructor|].
    rewrite qty_of_nil. split; [lra|]. split; [lra|]. split; [lra|]. split; [lra|].
    intro n. rewrite mass_in_nil. ring.
  - destruct (Qltb _ _); [discriminate|]. apply bind_ok in H as ([s1 m] & T & H).
    apply bind_ok in H as ([s2 ms'] & R & H). injection H as <- <-.
    destruct (trade_any _ _ _ _ _ _ _ _ _ _ _ _ _ EP RR DU T) as (D1 & (C1 & C2 & C3) & M1 & M2 & M3 & M4 & M5 & M6 & M7).
    destruct (IH _ _ _ _ EP RR D1 R) as (D2 & ((E1 & E2 & E3) & N1 & N3 & N4 & N5 & N6 & N7) & LN).
    split; [auto|]. split; [|simpl; congruence]. split; [repeat split; congruence|]. split; [constructor; auto|].
    rewrite qty_of_cons. split; [lra|]. split; [lra|]. split; [lra|]. split; [lra|].
    intro n. rewrite mass_in_cons, <- (M7 n), <- (N7 n). ring.
Qed.
Lemma loop_split eps nz D cfg wl wt wf pre : forall tot s post s' ms,
  ff_trade_loop eps nz D cfg wl wt wf tot s (pre ++ post) = Ok (s', ms) ->
  exists tot1 s1 ms1 ms2, ff_trade_loop eps nz D cfg wl wt wf tot s pre = Ok (s1, ms1) /\
    ff_trade_loop eps nz D cfg wl wt wf tot1 s1 post = Ok (s', ms2) /\ ms = ms1 ++ ms2 /\
    forall post' s'' ms', ff_trade_loop eps nz D cfg wl wt wf tot1 s1 post' = Ok (s'', ms') ->
      ff_trade_loop eps nz D cfg wl wt wf tot s (pre ++ post') = Ok (s'', ms1 ++ ms').
Proof.
  induction pre as [|[t q] pre IH]; intros tot s post s' ms H.
  - exists tot, s, [], ms. auto.
  - cbn [app ff_trade_loop] in *. destruct (Qltb _ _); [discriminate|]. apply bind_ok in H as ([s1 m] & T & H).
    apply bind_ok in H as ([s2 ms'] & R & H). injection H as <- <-.
    apply IH in R as (tot1 & s3 & ms1 & ms2 & A & B & -> & C). exists tot1, s3, (m :: ms1), ms2. rewrite T. cbn [bind].
    rewrite A. cbn [bind]. split; [auto|]. split; [auto|]. split; [auto|]. intros post' s'' ms' H.
    rewrite (C _ _ _ H). reflexivity.
Qed.

(** ** What a single trade delivers *)
Lemma pop_snap eps b c q x b' : 0 <= eps -> real_comp c -> holds b (Some c) ->
  b_pop_tol b (ff_snap eps q (b_qty b)) eps = Ok (x, b') ->
  m_comp x = c /\ 0 < m_qty x /\ m_qty x <= q /\ (m_qty x == q \/ (b_items b' = [] /\ q - eps <= m_qty x)).
Proof.
  intros EP RC H PP.
  assert (RC' : forall c', Some c = Some c' -> real_comp c') by (intros c' X; injection X as <-; exact RC).
  destruct (pop_any _ _ _ _ _ _ EP RC' H PP)
    as (c' & O & C & P & L & A & HB & _ & BQ & _). injection O as <-. split; [auto|]. split; [auto|].
  unfold ff_snap in *. destruct (Qltb (Qabs (q - b_qty b)) eps) eqn:T; [|auto].
  apply Qltb_true in T. apply Qabs_Qlt_condition in T as [T1 T2].
  destruct (Q.min_spec (b_qty b) q) as [[M1 M2]|[M1 M2]]; rewrite M2 in L, A; [|auto].
  split; [lra|]. right.
  assert (ZB : b_items b' = [] -> m_qty x == b_qty b).
  { intro Z. unfold b_qty at 1 in BQ. rewrite Z, qty_of_nil in BQ. lra. }
  destruct A as [A|[A1 A2]].
  - assert (Z : b_items b' = []).
    { destruct (b_items b') as [|y r] eqn:I; [auto|]. exfalso.
      destruct (holds_zero _ _ HB ltac:(congruence)) as (y' & cy & _ & IY & _ & PY). 
      pose proof (one_qty b' y' IY). lra. }
    split; [auto|]. rewrite (ZB Z). lra.
  - split; [auto|]. rewrite (ZB A1). lra.
Qed.

Section BLEND.
Context (eps nz : Q) (D : nucdata) (cfg : ff_cfg).
Context (EP : 0 <= eps) (NZ : 0 <= nz) (NZ1 : nz <= 1) (AW : forall n, 0 < d_aw D n).
Local Notation w := (cosi_weight D (fc_spectrum cfg)).
(** Two streams blended at fraction [f] of the heavy one [c1]. *)
Lemma two_pops b1 b2 b1' b2' c1 c2 f g h q x y :
  real_comp c1 -> real_comp c2 -> 0 <= f -> f <= 1 -> g == atom_to_mass D f c1 c2 -> h == 1 - g ->
  0 < q -> holds b1 (Some c1) -> holds b2 (Some c2) ->
  b_pop_tol b1 (ff_snap eps (g * q) (b_qty b1)) eps = Ok (x, b1') ->
  b_pop_tol b2 (ff_snap eps (h * q) (b_qty b2)) eps = Ok (y, b2') ->
  (m_qty (absorb x y) == q /\ w (m_comp (absorb x y)) == f * w c1 + (1 - f) * w c2) \/
  ((b_items b1' = [] \/ b_items b2' = []) /\ q - 2 * eps <= m_qty (absorb x y) /\ m_qty (absorb x y) <= q).
Proof.
  intros R1 R2 F0 F1 G H P H1 H2 P1 P2.
  destruct (pop_snap _ _ _ _ _ _ EP R1 H1 P1) as (C1 & Q1 & L1 & A1).
  destruct (pop_snap _ _ _ _ _ _ EP R2 H2 P2) as (C2 & Q2 & L2 & A2).
  assert (SUM : h * q == (1 - g) * q) by (rewrite H; reflexivity).
  rewrite qty_absorb.
  destruct A1 as [A1|[A1 A1']]; destruct A2 as [A2|[A2 A2']].
  - left. split; [lra|]. destruct x as [i qx cx], y as [j qy cy]. cbn [m_qty m_comp] in *. subst cx cy.
    apply (frac_weight D AW (fc_spectrum cfg) i j f q qx qy c1 c2 R1 R2 F0 F1 P); rewrite <- G; [exact A1|].
    rewrite A2. exact SUM.
  - right. split; [auto|]. split; lra.
  - right. split; [auto|]. split; lra.
  - right. split; [auto|]. split; lra.
Qed.
Lemma one_pop_blend b1 b1' c1 c2 f g h q x :
  real_comp c1 -> real_comp c2 -> 0 <= f -> f <= 1 -> g == atom_to_mass D f c1 c2 -> h == 1 - g ->
  0 < q -> holds b1 (Some c1) ->
  b_pop_tol b1 (ff_snap eps (g * q) (b_qty b1)) eps = Ok (x, b1') -> h <= 0 ->
  (m_qty x == q /\ w (m_comp x) == f * w c1 + (1 - f) * w c2) \/
  (b_items b1' = [] /\ q - 2 * eps <= m_qty x /\ m_qty x <= q).
Proof.
  intros R1 R2 F0 F1 G H P H1 P1 Z.
  destruct (pop_snap _ _ _ _ _ _ EP R1 H1 P1) as (C1 & Q1 & L1 & A1).
  assert (F11 : f == 1).
  { destruct (Qlt_le_dec f 1) as [X|X]; [|lra]. exfalso.
    pose proof (a2m_pos D AW (1 - f) _ _ R2 R1 ltac:(lra) ltac:(lra)) as A.
    rewrite (a2m_flip D AW f c1 c2 R1 R2 F0 F1), <- G in A. lra. }
  assert (A : g * q == q) by (rewrite G, (a2m_one D AW f c1 c2 R1 R2 F11); ring).
  destruct A1 as [A1|[A1 A1']].
  - left. split; [lra|]. rewrite C1, F11. ring.
  - right. split; [auto|]. split; lra.
Qed.

Local Notation good := (meets nz D cfg).
Lemma good_frac lo t hi q m f : between lo t hi -> hfrel nz lo t hi f -> m_qty m == q ->
  w (m_comp m) == f * hi + (1 - f) * lo -> good lo t hi q m.
Proof.
  intros V R MQ W. split; [auto|]. split.
  - rewrite W. apply hf_close; auto.
  - intros X Y. rewrite W. destruct (Qlt_le_dec lo hi) as [L|L]; [apply (hf_exact nz); auto|].
    destruct V. assert (E1 : lo == t) by lra. assert (E2 : hi == t) by lra. rewrite E1, E2. ring.
Qed.

Lemma trade_blend s0 s tgt q s' m cf cl : ff_homogeneous s0 -> during s0 s -> 0 < q ->
  ff_trade1 eps nz D cfg (wl D cfg s0) (wt D cfg s0) (wf D cfg s0) s tgt q = Ok (s', m) ->
  content (fb_fiss s) cf ->
  (content (fb_fill s) cl -> between (w cl) (w tgt) (w cf) ->
   good (w cl) (w tgt) (w cf) q m \/
   ((b_items (fb_fiss s') = [] \/ b_items (fb_fill s') = []) /\ q - 2 * eps <= m_qty m /\ m_qty m <= q)) /\
  (forall ct, content (fb_topup s) ct -> w cf < w tgt ->
   good (w cf) (w tgt) (w ct) q m \/
   ((b_items (fb_fiss s') = [] \/ b_items (fb_topup s') = []) /\ q - 2 * eps <= m_qty m /\ m_qty m <= q)).
Proof.
  intros HO (HL & HF & HT) P TR (mf & IF & CF). destruct (homogeneous_real _ HO) as (RL & RF & RT).
  assert (HD : forall b0 b x c, holds b (hd_comp b0) -> b_items b = [x] -> m_comp x = c ->
     hd_comp b0 = Some c /\ ff_bweight D cfg b0 = w c).
  { intros b0 b x c [E|(x' & c' & O & I & CX & _)] IB CB; [congruence|]. rewrite I in IB. injection IB as <-.
    rewrite <- CB, CX. split; [auto|]. apply bw_some. auto. }
  destruct (HD _ _ _ _ HF IF CF) as [OF WF]. specialize (RF cf OF). rewrite OF in HF.
  unfold ff_trade1 in TR. unfold wl, wt, wf in TR. rewrite WF in TR.
  assert (CNZ : Nat.eqb (b_count (fb_fiss s)) 0 = false) by (unfold b_count; rewrite IF; reflexivity). rewrite CNZ in TR.
  split.
  - intros (ml & IL & CL) V. destruct (HD _ _ _ _ HL IL CL) as [OL WL]. specialize (RL cl OL). rewrite OL in HL.
    rewrite WL in TR. assert (CLZ : Nat.eqb (b_count (fb_fill s)) 0 = false) by (unfold b_count; rewrite IL; reflexivity).
    rewrite CLZ, (proj2 (valid_iff _ _ _) V) in TR. cbn [andb] in TR. unfold low_frac in TR.
    destruct (high_frac_ok nz _ _ _ V) as (g & HG & RG). rewrite HG in TR. cbn [bind] in TR.
    pose proof (hf_range _ _ _ _ _ NZ V RG) as [F0 F1].
    unfold b_peek in TR. rewrite IF, IL in TR. cbn [bind] in TR. rewrite CF, CL in TR.
    apply bind_ok in TR as ([x b1] & P1 & TR). destruct (Qltb 0 _) eqn:LP.
    + apply bind_ok in TR as ([y b2] & P2 & TR). injection TR as <- <-. cbn [fb_fiss fb_fill].
      destruct (two_pops _ _ _ _ _ _ _ _ _ _ _ _ RF RL F0 F1 (Qeq_refl _) (a2m_flip D AW g cf cl RF RL F0 F1) P HF HL P1 P2) as [[A B]|A]; [left|right; exact A].
      exact (good_frac _ _ _ _ _ g V RG A B).
    + apply Qltb_false in LP. injection TR as <- <-. cbn [fb_fiss fb_fill].
      destruct (one_pop_blend _ _ _ _ _ _ _ _ _ RF RL F0 F1 (Qeq_refl _) (a2m_flip D AW g cf cl RF RL F0 F1) P HF P1 LP) as [[A B]|(A1 & A2)]; [left|right; auto].
      exact (good_frac _ _ _ _ _ g V RG A B).
  - intros ct (mt & IT & CT) LT.
    destruct (HD _ _ _ _ HT IT CT) as [OT WT]. specialize (RT ct OT). rewrite OT in HT.
    assert (V : ~ between (ff_bweight D cfg (fb_fill s0)) (w tgt) (w cf)) by (intros [_ X]; lra).
    rewrite WT in TR. rewrite (proj2 (valid_false _ _ _) V), andb_false_r in TR.
    apply bind_ok in TR as (g & HG & TR).
    assert (V2 : between (w cf) (w tgt) (w ct)).
    { destruct (valid_weights (w cf) (w tgt) (w ct)) eqn:VW; [apply valid_iff; auto|].
      unfold high_frac in HG. rewrite VW in HG. discriminate. }
    destruct (high_frac_ok nz _ _ _ V2) as (g' & HG' & RG). rewrite HG in HG'. injection HG' as <-.
    pose proof (hf_range _ _ _ _ _ NZ V2 RG) as [F0 F1].
    assert (G0 : 0 <= 1 - g) by lra. assert (G1 : 1 - g <= 1) by lra.
    assert (H : atom_to_mass D g ct cf == 1 - atom_to_mass D (1 - g) cf ct)
      by (rewrite (a2m_flip D AW g ct cf RT RF F0 F1); ring).
    unfold b_peek in TR. rewrite IF, IT in TR. cbn [bind] in TR. rewrite CF, CT in TR.
    apply bind_ok in TR as ([x b1] & P1 & TR). destruct (Qltb 0 _) eqn:LP.
    + apply bind_ok in TR as ([y b2] & P2 & TR). injection TR as <- <-. cbn [fb_fiss fb_topup].
      destruct (two_pops _ _ _ _ _ _ _ _ _ _ _ _ RF RT G0 G1 (Qeq_refl _) H P HF HT P1 P2) as [[A B]|A]; [left|right; exact A].
      apply (good_frac _ _ _ _ _ g V2 RG A). rewrite B. ring.
    + apply Qltb_false in LP. injection TR as <- <-. cbn [fb_fiss fb_topup].
      destruct (one_pop_blend _ _ _ _ _ _ _ _ _ RF RT G0 G1 (Qeq_refl _) H P HF P1 LP) as [[A B]|(A1 & A2)]; [left|right; auto].
      apply (good_frac _ _ _ _ _ g V2 RG A). rewrite B. ring.
Qed.
End BLEND.

(** C36 for a trade in the middle of a round of trades. *)
Theorem trade_final eps nz D cfg s0 pre tgt q post s' ms : 0 <= eps -> 0 <= nz -> nz <= 1 ->
  (forall n, 0 < d_aw D n) -> ff_homogeneous s0 -> 0 < q ->
  ff_trades eps nz D cfg s0 (pre ++ (tgt, q) :: post) = Ok (s', ms) ->
  exists s1 ms1 m s2, ff_trades eps nz D cfg s0 pre = Ok (s1, ms1) /\
    ff_trades eps nz D cfg s0 (pre ++ [(tgt, q)]) = Ok (s2, ms1 ++ [m]) /\ nth_error ms (List.length pre) = Some m /\
    (forall cf cl, content (fb_fiss s1) cf -> content (fb_fill s1) cl ->
      between (weight D cfg cl) (weight D cfg tgt) (weight D cfg cf) ->
      meets nz D cfg (weight D cfg cl) (weight D cfg tgt) (weight D cfg cf) q m \/
      ((b_items (fb_fiss s2) = [] \/ b_items (fb_fill s2) = []) /\ q - 2 * eps <= m_qty m /\ m_qty m <= q)) /\
    (forall cf ct, content (fb_fiss s1) cf -> content (fb_topup s1) ct -> weight D cfg cf < weight D cfg tgt ->
      meets nz D cfg (weight D cfg cf) (weight D cfg tgt) (weight D cfg ct) q m \/
      ((b_items (fb_fiss s2) = [] \/ b_items (fb_topup s2) = []) /\ q - 2 * eps <= m_qty m /\ m_qty m <= q)).
Proof.
  intros EP NZ NZ1 AW HO P H. unfold ff_trades in *.
  destruct (loop_split _ _ _ _ _ _ _ _ _ _ _ _ _ H) as (tot1 & s1 & ms1 & ms2 & A & B & -> & J).
  pose proof (homogeneous_real _ HO) as HR.
  destruct (trades_any _ _ _ _ _ _ _ _ _ _ _ _ _ EP HR (during_start s0 HO) A) as (DU & _ & LN).
  cbn [ff_trade_loop] in B. destruct (Qltb _ _) eqn:TH; [discriminate|]. apply bind_ok in B as ([s2 m] & T & B).
  apply bind_ok in B as ([s3 ms'] & R & B). injection B as <- <-.
  exists s1, ms1, m, s2. split; [exact A|]. split.
  { apply J. cbn [ff_trade_loop]. rewrite TH, T. reflexivity. }
  split; [rewrite nth_error_app2 by lia; rewrite LN, Nat.sub_diag; reflexivity|].
  split.
  - intros cf cl CF CL V. exact (proj1 (trade_blend eps nz D cfg EP NZ AW s0 s1 tgt q s2 m cf cl HO DU P T CF) CL V).
  - intros cf ct CF CT V. exact (proj2 (trade_blend eps nz D cfg EP NZ AW s0 s1 tgt q s2 m cf [] HO DU P T CF) ct CT V).
Qed.

(** ** Requests *)
Lemma req1_facts eps recipe inv b rec items rs : ff_req1 eps recipe inv b rec items = Ok rs ->
  (eps < ff_space b /\ exists c, rs = [ {| fr_inv := inv; fr_qty := ff_space b; fr_comp := c; fr_items := items |} ] /\
     (if String.eqb rec "" then c = None else c = recipe rec /\ c <> None)) \/
  (ff_space b <= eps /\ rs = []).
Proof.
  unfold ff_req1. destruct (Qltb eps (ff_space b)) eqn:T.
  - apply Qltb_true in T. intro H. left. split; [auto|]. apply bind_ok in H as (c & C & H). injection H as <-.
    exists c. split; [auto|]. destruct (String.eqb rec "") eqn:E.
    + injection C as <-. auto.
    + unfold get_recipe in C. destruct (recipe rec); [|discriminate]. cbn [bind] in C. injection C as <-. split; [auto|discriminate].
  - apply Qltb_false in T. intro H. injection H as <-. right. auto.
Qed.
Lemma prefs_facts commods prefs r : ff_prefs commods prefs = Ok r ->
  map fst (combine commods r) = commods /\
  (prefs = [] /\ Forall (fun e => snd e = 1) (combine commods r) \/ prefs <> [] /\ map snd (combine commods r) = prefs).
Proof.
  assert (CB : forall (A B : Type) (l : list A) (k : list B), List.length l = List.length k ->
    map fst (combine l k) = l /\ map snd (combine l k) = k).
  { intros A B l. induction l as [|x l IH]; intros [|y k] L; simpl in *; try discriminate; auto.
    injection L as L. destruct (IH k L) as [-> ->]. auto. }
  unfold ff_prefs. destruct prefs as [|p ps].
  - intro H. injection H as <-. split; [apply CB; rewrite map_length; auto|]. left. split; [auto|].
    induction commods; simpl; constructor; auto.
  - destruct (Nat.eqb _ _) eqn:E; [|discriminate]. apply Nat.eqb_eq in E. intro H. injection H as <-.
    split; [apply CB; auto|]. right. split; [discriminate|]. apply CB; auto.
Qed.
Lemma enter_facts cfg prefs : ff_enter cfg = Ok prefs ->
  ff_prefs (fc_fiss_commods cfg) (fc_fiss_prefs cfg) = Ok (fst prefs) /\
  ff_prefs (fc_fill_commods cfg) (fc_fill_prefs cfg) = Ok (snd prefs).
Proof.
  unfold ff_enter. intro H. apply bind_ok in H as (a & A & H). apply bind_ok in H as (b & B & H). injection H as <-. auto.
Qed.
Lemma space_diff eps b c : b_cap b = Some c -> 0 <= eps -> eps < ff_space b -> ff_space b == c - b_qty b.
Proof.
  unfold ff_space, b_space. intros -> E H. destruct (Q.max_spec 0 (c - b_qty b)) as [[M1 M2]|[M1 M2]]; rewrite M2 in H |- *; lra.
Qed.
Lemma space_none eps b c : b_cap b = Some c -> ff_space b <= eps -> c - b_qty b <= eps.
Proof.
  unfold ff_space, b_space. intros -> H. destruct (Q.max_spec 0 (c - b_qty b)) as [[M1 M2]|[M1 M2]]; rewrite M2 in H; lra.
Qed.
Lemma requests_facts eps recipe cfg prefs s reqs : 0 <= eps -> ff_enter cfg = Ok prefs ->
  (forall i, b_cap (inventory s i) = Some (inv_size cfg i)) ->
  ff_requests eps recipe cfg prefs s = Ok reqs ->
  Forall (fun p => eps < fr_qty p /\ req_of recipe cfg s p) reqs /\ NoDup (map fr_inv reqs) /\
  forall i, In i (map fr_inv reqs) <-> eps < inv_size cfg i - b_qty (inventory s i).
Proof.
  intros EP EN CAP H. destruct (enter_facts _ _ EN) as [P1 P2]. unfold ff_requests in H.
  apply bind_ok in H as (a & A & H). apply bind_ok in H as (b & B & H). apply bind_ok in H as (c & C & H).
  injection H as <-. apply req1_facts in A, B, C.
  assert (ONE : forall inv rs items, items = items ->
    (eps < ff_space (inventory s inv) /\ (exists c, rs = [ {| fr_inv := inv; fr_qty := ff_space (inventory s inv); fr_comp := c; fr_items := items |} ] /\
     (if String.eqb (inv_recipe cfg inv) "" then c = None else c = recipe (inv_recipe cfg inv) /\ c <> None))) \/
    (ff_space (inventory s inv) <= eps /\ rs = []) -> inv_commods cfg inv items ->
    Forall (fun p => eps < fr_qty p /\ req_of recipe cfg s p) rs /\
    ((map fr_inv rs = [inv] /\ eps < inv_size cfg inv - b_qty (inventory s inv)) \/
     (map fr_inv rs = [] /\ inv_size cfg inv - b_qty (inventory s inv) <= eps))).
  { intros inv rs items _ [(S & c0 & -> & R)|(S & ->)] IC.
    - pose proof (space_diff _ _ _ (CAP inv) EP S) as SD. split.
      + constructor; [|constructor]. simpl. split; [auto|]. split; [exact SD|]. simpl. auto.
      + left. split; [auto|]. lra.
    - split; [constructor|]. right. split; [auto|]. exact (space_none _ _ _ (CAP inv) S). }
  destruct (ONE InvFiss a _ eq_refl A (prefs_facts _ _ _ P1)) as (A1 & A2).
  destruct (ONE InvFill b _ eq_refl B (prefs_facts _ _ _ P2)) as (B1 & B2).
  destruct (ONE InvTopup c _ eq_refl C eq_refl) as (C1 & C2).
  split; [rewrite !Forall_app; auto|]. rewrite !map_app.
  destruct A2 as [[-> A2]|[-> A2]], B2 as [[-> B2]|[-> B2]], C2 as [[-> C2]|[-> C2]]; simpl;
    (split; [repeat constructor; simpl; intuition discriminate|]);
    intros [| |]; (split; [intro X; try (intuition discriminate); auto|intro X; auto; lra]).
Qed.

(** ** Deliveries *)
Lemma invs_asked reqs : ff_req_inventories reqs = map fst (ff_asked reqs).
Proof.
  unfold ff_req_inventories, ff_asked. induction reqs as [|p l IH]; simpl; [auto|].
  rewrite map_app, IH. f_equal. rewrite map_map. simpl. auto.
Qed.
Lemma nth_invs reqs j : nth_error (ff_req_inventories reqs) j = option_map fst (nth_error (ff_asked reqs) j).
Proof. rewrite invs_asked. apply nth_error_map. Qed.
Lemma same_inv_eq i j : same_inv i j = true <-> i = j.
Proof. destruct i, j; simpl; split; congruence. Qed.
Lemma deliveries_cons reqs jm rs i : ff_deliveries reqs (jm :: rs) i =
  match nth_error (ff_req_inventories reqs) (fst jm) with
  | Some i' => if same_inv i' i then snd jm :: ff_deliveries reqs rs i else ff_deliveries reqs rs i
  | None => ff_deliveries reqs rs i end.
Proof.
  rewrite nth_invs. unfold ff_deliveries at 1. cbn [flat_map]. fold (ff_deliveries reqs rs i).
  destruct (nth_error (ff_asked reqs) (fst jm)) as [[i' c]|]; simpl; auto. destruct (same_inv i' i); auto.
Qed.
Lemma accept1_facts eps invs s jm s' : ff_accept1 eps invs s jm = Ok s' ->
  exists i, nth_error invs (fst jm) = Some i /\ b_push eps (inventory s i) (snd jm) = Ok (inventory s' i) /\
    forall k, k <> i -> inventory s' k = inventory s k.
Proof.
  unfold ff_accept1. destruct (nth_error invs (fst jm)) as [[| |]|]; [| | |discriminate];
    intro H; apply bind_ok in H as (b & B & H); injection H as <-; eexists; (split; [reflexivity|]); simpl;
    (split; [exact B|]); intros [| |] N; simpl; congruence.
Qed.
Lemma accept1_ok eps invs s jm i b : nth_error invs (fst jm) = Some i -> b_push eps (inventory s i) (snd jm) = Ok b ->
  exists s', ff_accept1 eps invs s jm = Ok s' /\ inventory s' i = b /\ forall k, k <> i -> inventory s' k = inventory s k.
Proof.
  unfold ff_accept1. intros -> H. destruct i; simpl in H; rewrite H; cbn [bind]; eexists; (split; [reflexivity|]);
    (split; [reflexivity|]); intros [| |] N; simpl; congruence.
Qed.
Lemma loop_accept_facts eps reqs rs : forall s s', loop (ff_accept1 eps (ff_req_inventories reqs)) rs s = Ok s' ->
  forall i, b_cap (inventory s' i) = b_cap (inventory s i) /\
    b_items (inventory s' i) = b_items (inventory s i) ++ ff_deliveries reqs rs i /\
    (forall c m, b_cap (inventory s i) = Some c -> b_items (inventory s i) = [] -> ff_deliveries reqs rs i = [m] ->
       m_qty m <= Qmax 0 c + eps).
Proof.
  induction rs as [|jm rs IH]; intros s s' H i.
  - simpl in H. injection H as <-. rewrite app_nil_r. split; [auto|]. split; [auto|]. discriminate.
  - simpl in H. apply bind_ok in H as (s1 & A & H). apply accept1_facts in A as (k & N & P & O).
    apply b_push_facts in P as (C & I & Q). destruct (IH _ _ H i) as (C2 & I2 & Q2).
    rewrite deliveries_cons, N. destruct (same_inv k i) eqn:E.
    + apply same_inv_eq in E. subst k. rewrite C2, I2, I, C, <- app_assoc. split; [auto|]. split; [auto|].
      intros c m CC II DD. injection DD as DD _. rewrite <- DD. rewrite CC in Q. unfold b_qty in Q. rewrite II, qty_of_nil in Q.
      revert Q. destruct (Q.max_spec 0 (c - 0)) as [[M1 M2]|[M1 M2]]; destruct (Q.max_spec 0 c) as [[N1 N2]|[N1 N2]];
        rewrite M2, N2; lra.
    + assert (NE : i <> k) by (intros ->; destruct k; discriminate).
      rewrite (O i NE) in *. auto.
Qed.
Lemma loop_accept_ok eps reqs rs : forall s, 0 <= eps ->
  Forall (fun jm => (fst jm < List.length (ff_asked reqs))%nat) rs ->
  Forall (fun jm => 0 <= m_qty (snd jm)) rs ->
  (forall i c, b_cap (inventory s i) = Some c ->
     ff_deliveries reqs rs i = [] \/ b_qty (inventory s i) + qty_of (ff_deliveries reqs rs i) <= c) ->
  exists s', loop (ff_accept1 eps (ff_req_inventories reqs)) rs s = Ok s'.
Proof.
  induction rs as [|jm rs IH]; intros s EP RG POS H; [simpl; eauto|].
  inversion RG as [|? ? R1 R2]; subst. inversion POS as [|? ? P1 P2]; subst. simpl.
  assert (DN : forall i, 0 <= qty_of (ff_deliveries reqs rs i)).
  { clear - P2. intro i. induction rs as [|x l IHl]; [apply Qle_refl|]. inversion P2; subst. rewrite deliveries_cons.
    specialize (IHl H2). destruct (nth_error _ _); [|auto]. destruct (same_inv _ _); [|auto]. rewrite qty_of_cons. lra. }
  destruct (nth_error (ff_asked reqs) (fst jm)) as [[k cm]|] eqn:N; [|apply nth_error_None in N; lia].
  assert (NI : nth_error (ff_req_inventories reqs) (fst jm) = Some k) by (rewrite nth_invs, N; reflexivity).
  assert (PK : b_push eps (inventory s k) (snd jm) = Ok {| b_cap := b_cap (inventory s k); b_items := b_items (inventory s k) ++ [snd jm] |}).
  { apply b_push_ok. destruct (b_cap (inventory s k)) as [c|] eqn:CC; [|auto].
    specialize (H k c CC). rewrite deliveries_cons, NI, (proj2 (same_inv_eq k k) eq_refl) in H.
    destruct H as [H|H]; [discriminate|]. rewrite qty_of_cons in H. specialize (DN k).
    destruct (Q.max_spec 0 (c - b_qty (inventory s k))) as [[M1 M2]|[M1 M2]]; rewrite M2; lra. }
  destruct (accept1_ok eps _ _ _ _ _ NI PK) as (s1 & A & I1 & O1). rewrite A. cbn [bind]. apply IH; auto.
  intros i c CC. destruct (same_inv k i) eqn:E.
  - apply same_inv_eq in E. subst k. rewrite I1 in *. cbn [b_cap] in CC. specialize (H i c CC).
    rewrite deliveries_cons, NI, (proj2 (same_inv_eq i i) eq_refl) in H. destruct H as [H|H]; [discriminate|].
    right. unfold b_qty in *. cbn [b_items]. rewrite qty_of_app, qty_of_cons, qty_of_nil. rewrite qty_of_cons in H. lra.
  - assert (NE : i <> k) by (intros ->; destruct k; discriminate). rewrite (O1 i NE) in *.
    specialize (H i c CC). rewrite deliveries_cons, NI, E in H. exact H.
Qed.
Lemma squash_real ms m : Forall (fun m => 0 < m_qty m /\ real_comp (m_comp m)) ms -> squash ms = Ok m ->
  0 < m_qty m /\ real_comp (m_comp m).
Proof.
  destruct ms as [|x ms]; simpl; [discriminate|]. intros F H. injection H as <-. inversion F as [|? ? Fx Fm]; subst.
  clear F. revert x Fx. induction ms as [|y ms IH]; intros x Fx; simpl; [auto|]. inversion Fm as [|? ? [P R] Fm']; subst.
  apply IH; auto. destruct Fx as [Px Rx]. split; [rewrite qty_absorb; lra|].
  destruct x as [i qx cx], y as [j qy cy]. apply blend_real; simpl in *; auto; lra.
Qed.
Definition reals (ms : list mat) : Prop := Forall (fun m => 0 < m_qty m /\ real_comp (m_comp m)) ms.
Lemma reals_ok ms : reals ms -> mats_ok ms.
Proof. intro H. unfold mats_ok. eapply Forall_impl; [|exact H]. intros m [P R]. apply real_mat_ok; auto. Qed.
Lemma ff_squash_facts eps b b' : reals (b_items b) -> ff_squash eps b = Ok b' ->
  b_cap b' = b_cap b /\ homogeneous b' /\ b_qty b' == b_qty b /\
  (forall n, mass_in n (b_items b') == mass_in n (b_items b)) /\
  (b' = b /\ (List.length (b_items b) <= 1)%nat \/ forall c, b_cap b = Some c -> b_qty b' <= Qmax 0 c + eps).
Proof.
  intros R. unfold ff_squash, b_count. destruct (Nat.ltb 1 (List.length (b_items b))) eqn:L.
  - intro H. apply bind_ok in H as (m & S & H). apply b_push_facts in H as (C & I & Q). cbn [b_cap b_items] in *.
    destruct (squash_real _ _ R S) as [P RC]. apply squash_facts in S as (SQ & SM). destruct (SM (reals_ok _ R)) as (_ & SM').
    split; [auto|]. split; [right; exists m; rewrite I; auto|].
    assert (BQ : b_qty b' == m_qty m) by (apply one_qty; rewrite I; reflexivity).
    split; [rewrite BQ; exact SQ|]. split.
    { intro n. rewrite I. cbn [app]. rewrite mass_in_cons, mass_in_nil, SM'. ring. }
    right. intros c CC. rewrite BQ. rewrite CC in Q. unfold b_qty in Q. cbn [b_items] in Q. rewrite qty_of_nil in Q.
    revert Q. destruct (Q.max_spec 0 (c - 0)) as [[M1 M2]|[M1 M2]]; destruct (Q.max_spec 0 c) as [[N1 N2]|[N1 N2]];
        rewrite M2, N2; lra.
  - intro H. injection H as <-. apply Nat.ltb_ge in L. split; [auto|].
    split; [|split; [reflexivity|split; [reflexivity|auto]]].
    destruct (b_items b) as [|x [|y r]] eqn:E; simpl in L; [left; auto| |lia]. right. exists x.
    inversion R; subst. destruct H1. auto.
Qed.
Lemma ff_squash_ok eps b c : b_cap b = Some c -> reals (b_items b) -> 
  ((List.length (b_items b) <= 1)%nat \/ b_qty b <= Qmax 0 c + eps) -> exists b', ff_squash eps b = Ok b'.
Proof.
  intros CC R H. unfold ff_squash, b_count. destruct (Nat.ltb 1 (List.length (b_items b))) eqn:L; [|eauto].
  apply Nat.ltb_lt in L. destruct H as [H|H]; [lia|].
  destruct (squash_nonempty (b_items b)) as (m & S); [intro Z; rewrite Z in L; simpl in L; lia|]. rewrite S. cbn [bind].
  eexists. apply b_push_ok. cbn [b_cap]. rewrite CC. unfold b_qty at 1. cbn [b_items]. rewrite qty_of_nil.
  apply squash_facts in S as (SQ & _). unfold b_qty in H. rewrite SQ.
  destruct (Q.max_spec 0 (c - 0)) as [[M1 M2]|[M1 M2]]; rewrite M2;
  destruct (Q.max_spec 0 c) as [[N1 N2]|[N1 N2]]; rewrite N2 in H; lra.
Qed.
Lemma accept_split eps invs rs s s' : ff_accept eps invs rs s = Ok s' <->
  exists s1, loop (ff_accept1 eps invs) rs s = Ok s1 /\ forall i, ff_squash eps (inventory s1 i) = Ok (inventory s' i).
Proof.
  unfold ff_accept. split.
  - intro H. apply bind_ok in H as (s1 & L & H). apply bind_ok in H as (a & A & H). apply bind_ok in H as (b & B & H).
    apply bind_ok in H as (c & C & H). injection H as <-. exists s1. split; [auto|]. intros [| |]; auto.
  - intros (s1 & L & H). rewrite L. cbn [bind]. pose proof (H InvFill) as A. pose proof (H InvFiss) as B. pose proof (H InvTopup) as C.
    simpl in A, B, C. rewrite A, B, C. cbn [bind]. destruct s'; reflexivity.
Qed.
(** What receipts do. *)
Lemma homogeneous_reals b : homogeneous b -> reals (b_items b).
Proof. intros [->|(m & -> & P & R)]; repeat constructor; auto; apply R. Qed.
Lemma ff_hom_all s : ff_homogeneous s <-> forall i, homogeneous (inventory s i).
Proof. split; [intros (A & B & C) [| |]; auto|intro H; split; [apply (H InvFill)|split; [apply (H InvFiss)|apply (H InvTopup)]]]. Qed.
Lemma deliveries_reals reqs rs i : Forall (fun jm => 0 < m_qty (snd jm) /\ real_comp (m_comp (snd jm))) rs ->
  reals (ff_deliveries reqs rs i).
Proof.
  induction 1 as [|x l Hx Hl IH]; [constructor|]. rewrite deliveries_cons. destruct (nth_error _ _); [|auto].
  destruct (same_inv _ _); [constructor; auto|auto].
Qed.
Lemma accept_facts eps reqs rs s s' : 0 <= eps -> ff_homogeneous s ->
  Forall (fun jm => 0 < m_qty (snd jm) /\ real_comp (m_comp (snd jm))) rs ->
  ff_accept eps (ff_req_inventories reqs) rs s = Ok s' ->
  ff_homogeneous s' /\ forall i, b_cap (inventory s' i) = b_cap (inventory s i) /\
    b_qty (inventory s' i) == b_qty (inventory s i) + qty_of (ff_deliveries reqs rs i) /\
    (forall n, mass_in n (b_items (inventory s' i)) == mass_in n (b_items (inventory s i)) + mass_in n (ff_deliveries reqs rs i)) /\
    (forall c, b_cap (inventory s i) = Some c -> b_qty (inventory s' i) <= Qmax 0 c + eps \/
       (inventory s' i = inventory s i /\ ff_deliveries reqs rs i = [])).
Proof.
  intros EP HO PR H. apply accept_split in H as (s1 & L & SQ).
  assert (ALL : forall i, homogeneous (inventory s' i) /\ b_cap (inventory s' i) = b_cap (inventory s i) /\
    b_qty (inventory s' i) == b_qty (inventory s i) + qty_of (ff_deliveries reqs rs i) /\
    (forall n, mass_in n (b_items (inventory s' i)) == mass_in n (b_items (inventory s i)) + mass_in n (ff_deliveries reqs rs i)) /\
    (forall c, b_cap (inventory s i) = Some c -> b_qty (inventory s' i) <= Qmax 0 c + eps \/
       (inventory s' i = inventory s i /\ ff_deliveries reqs rs i = []))).
  { intro i. destruct (loop_accept_facts _ _ _ _ _ L i) as (C & I & Q).
    assert (R : reals (b_items (inventory s1 i))).
    { rewrite I. apply Forall_app. split; [apply homogeneous_reals; apply ff_hom_all; auto|apply deliveries_reals; auto]. }
    destruct (ff_squash_facts _ _ _ R (SQ i)) as (C' & HM & BQ & MS & BD).
    split; [auto|]. split; [congruence|]. split.
    { rewrite BQ. unfold b_qty. rewrite I, qty_of_app. reflexivity. }
    split; [intro n; rewrite MS, I, mass_in_app; reflexivity|].
    intros c CC. destruct BD as [[E LN]|BD]; [|left; apply BD; congruence].
    destruct (ff_deliveries reqs rs i) as [|m [|m2 r]] eqn:DD.
    - right. split; [|auto]. rewrite E. rewrite app_nil_r in I. destruct (inventory s1 i), (inventory s i). simpl in *. congruence.
    - left. rewrite E. rewrite I in LN. destruct (b_items (inventory s i)) as [|z zz] eqn:IZ.
      + specialize (Q c m CC eq_refl eq_refl). unfold b_qty. rewrite I. cbn [app]. rewrite qty_of_cons, qty_of_nil. lra.
      + exfalso. rewrite app_length in LN. simpl in LN. lia.
    - exfalso. rewrite I, app_length in LN. simpl in LN. lia. }
  split; [apply ff_hom_all; intro i; apply ALL|intro i; apply ALL].
Qed.

(** ** Steps and histories *)
Definition ff_live (eps : Q) (cfg : ff_cfg) (s : ff_state) : Prop :=
  ff_homogeneous s /\ forall i, b_cap (inventory s i) = Some (inv_size cfg i) /\
    b_qty (inventory s i) <= Qmax 0 (inv_size cfg i) + eps.
Lemma live_new eps cfg : 0 <= eps -> ff_live eps cfg (ff_new cfg).
Proof.
  intro E. split; [repeat split; left; reflexivity|]. intros i. split; [destruct i; reflexivity|].
  assert (Z : b_qty (inventory (ff_new cfg) i) == 0) by (destruct i; reflexivity). rewrite Z.
  pose proof (Q.le_max_l 0 (inv_size cfg i)). lra.
Qed.
Lemma during_hom s0 s : ff_homogeneous s0 -> during s0 s -> ff_homogeneous s.
Proof.
  intros HO (A & B & C). destruct (homogeneous_real _ HO) as (RL & RF & RT).
  assert (H : forall b0 b, (forall c, hd_comp b0 = Some c -> real_comp c) -> holds b (hd_comp b0) -> homogeneous b).
  { intros b0 b R [E|(m & c & O & I & CC & P)]; [left; auto|right]. exists m. split; [auto|]. split; [auto|].
    rewrite CC. apply R. auto. }
  split; [exact (H _ _ RL A)|split; [exact (H _ _ RF B)|exact (H _ _ RT C)]].
Qed.
Lemma step_parts eps nz D recipe cfg prefs s e s' o : 0 <= eps -> ff_homogeneous s ->
  Forall (fun jm => 0 < m_qty (snd jm) /\ real_comp (m_comp (snd jm))) (fe_receipts e) ->
  ff_step eps nz D recipe cfg prefs s e = Ok (s', o) ->
  exists s1, ff_requests eps recipe cfg prefs s = Ok (fo_requests o) /\
    ff_get_bids nz D recipe cfg s (fe_reqs e) = Ok (fo_bids o) /\
    ff_trades eps nz D cfg s (ff_targets (fe_reqs e) (fe_trades e)) = Ok (s1, fo_shipped o) /\
    ff_accept eps (ff_req_inventories (fo_requests o)) (fe_receipts e) s1 = Ok s' /\
    ff_homogeneous s1 /\ moveds s s1 (fo_shipped o).
Proof.
  intros EP HO PR H. unfold ff_step in H. apply bind_ok in H as (reqs & R & H). apply bind_ok in H as (bids & B & H).
  apply bind_ok in H as ([s1 ms] & T & H). apply bind_ok in H as (s2 & A & H). injection H as <- <-.
  exists s1. cbn [fo_requests fo_bids fo_shipped]. split; [auto|]. split; [auto|]. split; [auto|]. split; [auto|].
  unfold ff_trades in T.
  destruct (trades_any _ _ _ _ _ _ _ _ _ _ _ _ _ EP (homogeneous_real _ HO) (during_start s HO) T) as (DU & MV & _).
  split; [exact (during_hom _ _ HO DU)|exact MV].
Qed.
Lemma moveds_inv s s1 ms i : moveds s s1 ms -> b_cap (inventory s1 i) = b_cap (inventory s i) /\
  b_qty (inventory s1 i) <= b_qty (inventory s i).
Proof. intros ((A & B & C) & _ & D & E & F & _). destruct i; simpl; auto. Qed.
Lemma live_step eps nz D recipe cfg prefs s e s' o : 0 <= eps -> ff_live eps cfg s ->
  Forall (fun jm => 0 < m_qty (snd jm) /\ real_comp (m_comp (snd jm))) (fe_receipts e) ->
  ff_step eps nz D recipe cfg prefs s e = Ok (s', o) -> ff_live eps cfg s'.
Proof.
  intros EP (HO & LI) PR H. destruct (step_parts _ _ _ _ _ _ _ _ _ _ EP HO PR H) as (s1 & _ & _ & _ & A & H1 & MV).
  destruct (accept_facts _ _ _ _ _ EP H1 PR A) as (H2 & F). split; [auto|]. intro i.
  destruct (F i) as (C & Q & _ & B). destruct (moveds_inv _ _ _ i MV) as [C1 Q1]. destruct (LI i) as [C0 Q0].
  assert (CC : b_cap (inventory s1 i) = Some (inv_size cfg i)) by congruence.
  split; [congruence|]. destruct (B _ CC) as [B'|[B' _]]; [auto|]. rewrite B'. lra.
Qed.
Lemma sane_cons e es : ff_sane (e :: es) ->
  Forall (fun jm => 0 < m_qty (snd jm) /\ real_comp (m_comp (snd jm))) (fe_receipts e) /\ ff_sane es.
Proof. intro H. inversion H as [|? ? [A _] B]; subst. auto. Qed.
Lemma run_app eps nz D recipe cfg prefs es1 es2 : forall s s' os,
  ff_run eps nz D recipe cfg prefs s (es1 ++ es2) = Ok (s', os) <->
  exists s1 os1 os2, ff_run eps nz D recipe cfg prefs s es1 = Ok (s1, os1) /\
    ff_run eps nz D recipe cfg prefs s1 es2 = Ok (s', os2) /\ os = os1 ++ os2.
Proof.
  induction es1 as [|e es IH]; intros s s' os; simpl.
  - split; [intro H; exists s, [], os; auto|intros (s1 & o1 & o2 & A & B & ->); injection A as <- <-; auto].
  - split.
    + intro H. apply bind_ok in H as ([s1 o] & A & H). apply bind_ok in H as ([s2 os'] & B & H). injection H as <- <-.
      apply IH in B as (s3 & o1 & o2 & X & Y & ->). rewrite A. cbn [bind]. exists s3, (o :: o1), o2. rewrite X. auto.
    + intros (s1 & o1 & o2 & A & B & ->). apply bind_ok in A as ([s2 o] & A & H). rewrite A. cbn [bind].
      apply bind_ok in H as ([s3 os'] & X & H). injection H as <- <-.
      rewrite (proj2 (IH s2 s' (os' ++ o2)) ltac:(eauto 8)). reflexivity.
Qed.
Lemma live_run eps nz D recipe cfg prefs es : 0 <= eps -> forall s s' os, ff_sane es -> ff_live eps cfg s ->
  ff_run eps nz D recipe cfg prefs s es = Ok (s', os) -> ff_live eps cfg s'.
Proof.
  intro EP. induction es as [|e es IH]; intros s s' os SA LI H; simpl in H.
  - injection H as <- <-. auto.
  - apply bind_ok in H as ([s1 o] & A & H). apply bind_ok in H as ([s2 os'] & B & H). injection H as <- <-.
    apply sane_cons in SA as [PR SA]. exact (IH _ _ _ SA (live_step _ _ _ _ _ _ _ _ _ _ EP LI PR A) B).
Qed.
Lemma live_final eps nz D recipe cfg es s os : 0 <= eps -> ff_sane es -> ff_lived eps nz D recipe cfg es s os -> ff_live eps cfg s.
Proof. intros EP SA (prefs & _ & R). eapply live_run; eauto. apply live_new; auto. Qed.

Theorem homogeneous_final eps nz D recipe cfg es s os : 0 <= eps -> ff_sane es ->
  ff_lived eps nz D recipe cfg es s os ->
  ff_homogeneous s /\ forall i, b_qty (inventory s i) <= Qmax 0 (inv_size cfg i) + eps.
Proof. intros EP SA L. destruct (live_final _ _ _ _ _ _ _ _ EP SA L) as [A B]. split; [auto|]. intro i. apply B. Qed.

Theorem requests_final eps nz D recipe cfg es e s os prefs s' o : 0 <= eps -> ff_sane (es ++ [e]) ->
  ff_lived eps nz D recipe cfg es s os -> ff_enter cfg = Ok prefs ->
  ff_step eps nz D recipe cfg prefs s e = Ok (s', o) ->
  Forall (fun p => eps < fr_qty p /\ req_of recipe cfg s p) (fo_requests o) /\ NoDup (map fr_inv (fo_requests o)) /\
  forall i, In i (map fr_inv (fo_requests o)) <-> eps < inv_size cfg i - b_qty (inventory s i).
Proof.
  intros EP SA L EN H. apply Forall_app in SA as [SA SB]. apply sane_cons in SB as [PR _].
  destruct (live_final _ _ _ _ _ _ _ _ EP SA L) as [HO LI].
  destruct (step_parts _ _ _ _ _ _ _ _ _ _ EP HO PR H) as (s1 & R & _).
  apply (requests_facts eps recipe cfg prefs s); auto. intro i. apply LI.
Qed.
Theorem routing_final eps nz D recipe cfg es e s os prefs s' o : 0 <= eps -> ff_sane (es ++ [e]) ->
  ff_lived eps nz D recipe cfg es s os -> ff_enter cfg = Ok prefs ->
  ff_step eps nz D recipe cfg prefs s e = Ok (s', o) ->
  exists s1, ff_trades eps nz D cfg s (ff_targets (fe_reqs e) (fe_trades e)) = Ok (s1, fo_shipped o) /\
    forall i n, mass_in n (b_items (inventory s' i)) ==
      mass_in n (b_items (inventory s1 i)) + mass_in n (ff_deliveries (fo_requests o) (fe_receipts e) i).
Proof.
  intros EP SA L EN H. apply Forall_app in SA as [SA SB]. apply sane_cons in SB as [PR _].
  destruct (live_final _ _ _ _ _ _ _ _ EP SA L) as [HO LI].
  destruct (step_parts _ _ _ _ _ _ _ _ _ _ EP HO PR H) as (s1 & _ & _ & T & A & H1 & MV).
  exists s1. split; [auto|]. intros i n. destruct (accept_facts _ _ _ _ _ EP H1 PR A) as (_ & F). apply F.
Qed.
(** Deliveries within the requests: never refused, sizes kept. *)
Lemma deliveries_asked reqs rs i : ff_deliveries reqs rs i <> [] -> exists p, In p reqs /\ fr_inv p = i.
Proof.
  induction rs as [|jm rs IH]; [contradiction|]. rewrite deliveries_cons, nth_invs.
  destruct (nth_error (ff_asked reqs) (fst jm)) as [[k c]|] eqn:N; simpl; [|auto].
  destruct (same_inv k i) eqn:E; [|auto]. intros _. apply same_inv_eq in E. subst k. apply nth_error_In in N.
  unfold ff_asked in N. apply in_flat_map in N as (p & I & M). apply in_map_iff in M as (x & X & _). injection X as X _. eauto.
Qed.
Lemma orderly_fits eps recipe cfg prefs s s1 ms reqs rs : 0 <= eps -> ff_live eps cfg s -> ff_enter cfg = Ok prefs ->
  ff_requests eps recipe cfg prefs s = Ok reqs -> moveds s s1 ms -> ff_orderly reqs rs ->
  forall i, ff_deliveries reqs rs i = [] \/ b_qty (inventory s1 i) + qty_of (ff_deliveries reqs rs i) <= inv_size cfg i.
Proof.
  intros EP [HO LI] EN R MV [_ OR] i.
  destruct (requests_facts eps recipe cfg prefs s reqs EP EN ltac:(intro; apply LI) R) as (F & _).
  destruct (ff_deliveries reqs rs i) eqn:DD; [auto|right]. rewrite <- DD.
  destruct (deliveries_asked reqs rs i ltac:(congruence)) as (p & I & <-).
  rewrite Forall_forall in F. destruct (F p I) as (_ & Q & _). specialize (OR p I).
  destruct (moveds_inv _ _ _ (fr_inv p) MV). lra.
Qed.
Lemma orderly_accept eps recipe cfg prefs s s1 ms reqs rs : 0 <= eps -> ff_live eps cfg s -> ff_enter cfg = Ok prefs ->
  ff_requests eps recipe cfg prefs s = Ok reqs -> moveds s s1 ms -> ff_homogeneous s1 -> ff_orderly reqs rs ->
  Forall (fun jm => 0 < m_qty (snd jm) /\ real_comp (m_comp (snd jm))) rs ->
  exists s', ff_accept eps (ff_req_inventories reqs) rs s1 = Ok s'.
Proof.
  intros EP LI EN R MV H1 OR PR. pose proof (orderly_fits _ _ _ _ _ _ _ _ _ EP LI EN R MV OR) as FT.
  destruct (loop_accept_ok eps reqs rs s1 EP (proj1 OR)) as (s2 & L).
  { eapply Forall_impl; [|exact PR]. simpl. intros a [P _]. lra. }
  { intros i c CC. destruct (moveds_inv _ _ _ i MV) as [C1 _]. destruct (proj2 LI i) as [C0 _]. rewrite C1, C0 in CC.
    injection CC as <-. apply FT. }
  assert (SQ : forall i, exists b, ff_squash eps (inventory s2 i) = Ok b).
  { intro i. destruct (loop_accept_facts _ _ _ _ _ L i) as (C & I & _).
    destruct (moveds_inv _ _ _ i MV) as [C1 _]. destruct (proj2 LI i) as [C0 _].
    apply (ff_squash_ok eps _ (inv_size cfg i)); [congruence| |].
    - rewrite I. apply Forall_app. split; [apply homogeneous_reals; apply ff_hom_all; auto|apply deliveries_reals; auto].
    - destruct (FT i) as [Z|Z].
      + left. rewrite I, Z, app_nil_r. destruct (proj1 (ff_hom_all s1) H1 i) as [->|(m & -> & _)]; simpl; lia.
      + right. unfold b_qty in *. rewrite I, qty_of_app. pose proof (Q.le_max_r 0 (inv_size cfg i)). lra. }
  destruct (SQ InvFill) as (a & A), (SQ InvFiss) as (b & B), (SQ InvTopup) as (c & C).
  exists {| fb_fill := a; fb_fiss := b; fb_topup := c |}. apply accept_split. exists s2. split; [auto|]. intros [| |]; auto.
Qed.
Theorem accepted_final eps nz D recipe cfg es s os prefs reqs bids reqs' trades s1 ms rs : 0 <= eps -> ff_sane es ->
  ff_lived eps nz D recipe cfg es s os -> ff_enter cfg = Ok prefs ->
  ff_requests eps recipe cfg prefs s = Ok reqs -> ff_get_bids nz D recipe cfg s reqs' = Ok bids ->
  ff_trades eps nz D cfg s (ff_targets reqs' trades) = Ok (s1, ms) ->
  ff_orderly reqs rs -> Forall (fun jm => 0 < m_qty (snd jm) /\ real_comp (m_comp (snd jm))) rs ->
  exists s' o, ff_step eps nz D recipe cfg prefs s {| fe_reqs := reqs'; fe_trades := trades; fe_receipts := rs |} = Ok (s', o).
Proof.
  intros EP SA L EN R B T OR PR. pose proof (live_final _ _ _ _ _ _ _ _ EP SA L) as LI. destruct LI as [HO LI'] eqn:LE. clear LE.
  unfold ff_step. rewrite R. cbn [bind fe_reqs fe_trades fe_receipts]. rewrite B. cbn [bind]. rewrite T. cbn [bind].
  unfold ff_trades in T.
  destruct (trades_any _ _ _ _ _ _ _ _ _ _ _ _ _ EP (homogeneous_real _ HO) (during_start s HO) T) as (DU & MV & _).
  destruct (orderly_accept _ _ _ _ _ _ _ _ _ EP (conj HO LI') EN R MV (during_hom _ _ HO DU) OR PR) as (s' & A).
  rewrite A. cbn [bind]. eauto.
Qed.
(** Sizes, when deliveries are orderly. *)
Theorem sizes_final eps nz D recipe cfg es s os : 0 <= eps -> (forall i, 0 <= inv_size cfg i) -> ff_sane es ->
  ff_lived eps nz D recipe cfg es s os -> Forall2 (fun e o => ff_orderly (fo_requests o) (fe_receipts e)) es os ->
  forall i, b_qty (inventory s i) <= inv_size cfg i.
Proof.
  intros EP SZ SA (prefs & EN & R). 
  assert (G : forall es s0 s os, ff_sane es -> ff_live eps cfg s0 -> (forall i, b_qty (inventory s0 i) <= inv_size cfg i) ->
    ff_run eps nz D recipe cfg prefs s0 es = Ok (s, os) ->
    Forall2 (fun e o => ff_orderly (fo_requests o) (fe_receipts e)) es os -> forall i, b_qty (inventory s i) <= inv_size cfg i).
  { clear es s os SA R. induction es as [|e es IH]; intros s0 s os SA LI LE R OR; simpl in R.
    - injection R as <- <-. auto.
    - apply bind_ok in R as ([s1 o] & A & R). apply bind_ok in R as ([s2 os'] & B & R). injection R as <- <-.
      apply sane_cons in SA as [PR SA]. inversion OR as [|? ? ? ? O1 O2]; subst.
      apply (IH s1 s2 os'); auto; [exact (live_step _ _ _ _ _ _ _ _ _ _ EP LI PR A)|]. intro i.
      destruct (step_parts _ _ _ _ _ _ _ _ _ _ EP (proj1 LI) PR A) as (s3 & RQ & _ & _ & AC & H1 & MV).
      destruct (accept_facts _ _ _ _ _ EP H1 PR AC) as (_ & F). destruct (F i) as (_ & Q & _).
      destruct (orderly_fits _ _ _ _ _ _ _ _ _ EP LI EN RQ MV O1 i) as [Z|Z].
      + rewrite Z, qty_of_nil in Q. destruct (moveds_inv _ _ _ i MV). specialize (LE i). lra.
      + lra. }
  intros OR. apply (G es (ff_new cfg) s os); auto; [apply live_new; auto|].
  intro i. assert (Z : b_qty (inventory (ff_new cfg) i) == 0) by (destruct i; reflexivity). rewrite Z. auto.
Qed.
(** Conservation. *)
Lemma deliveries_mass reqs rs n : Forall (fun jm => (fst jm < List.length (ff_asked reqs))%nat) rs ->
  mass_in n (map snd rs) == mass_in n (ff_deliveries reqs rs InvFill) + mass_in n (ff_deliveries reqs rs InvFiss) +
    mass_in n (ff_deliveries reqs rs InvTopup).
Proof.
  induction 1 as [|jm rs L F IH]; [unfold ff_deliveries; simpl; rewrite mass_in_nil; ring|].
  rewrite !deliveries_cons. rewrite nth_invs. destruct (nth_error (ff_asked reqs) (fst jm)) as [[k c]|] eqn:N;
    [|apply nth_error_None in N; lia]. cbn [option_map fst map]. rewrite mass_in_cons, IH.
  destruct k; cbn [same_inv]; rewrite mass_in_cons; ring.
Qed.
Lemma loop_inrange eps reqs rs : forall s s', loop (ff_accept1 eps (ff_req_inventories reqs)) rs s = Ok s' ->
  Forall (fun jm => (fst jm < List.length (ff_asked reqs))%nat) rs.
Proof.
  induction rs as [|jm rs IH]; intros s s' H; [constructor|]. simpl in H. apply bind_ok in H as (s1 & A & H).
  constructor; [|eapply IH; eauto]. apply accept1_facts in A as (i & N & _). rewrite nth_invs in N.
  destruct (nth_error (ff_asked reqs) (fst jm)) eqn:E; [|discriminate]. apply nth_error_Some. congruence.
Qed.
Lemma held_inv n s : mass_in n (ff_held s) == mass_in n (b_items (inventory s InvFill)) +
  mass_in n (b_items (inventory s InvFiss)) + mass_in n (b_items (inventory s InvTopup)).
Proof. apply ff_held_mass. Qed.
Lemma step_mass eps nz D recipe cfg prefs s e s' o n : 0 <= eps -> ff_homogeneous s ->
  Forall (fun jm => 0 < m_qty (snd jm) /\ real_comp (m_comp (snd jm))) (fe_receipts e) ->
  ff_step eps nz D recipe cfg prefs s e = Ok (s', o) ->
  mass_in n (ff_held s') + mass_in n (fo_shipped o) == mass_in n (ff_held s) + mass_in n (map snd (fe_receipts e)).
Proof.
  intros EP HO PR H. destruct (step_parts _ _ _ _ _ _ _ _ _ _ EP HO PR H) as (s1 & _ & _ & _ & A & H1 & MV).
  assert (RG : Forall (fun jm => (fst jm < List.length (ff_asked (fo_requests o)))%nat) (fe_receipts e)).
  { destruct (proj1 (accept_split _ _ _ _ _) A) as (s2 & L & _). eapply loop_inrange; eauto. }
  destruct (accept_facts _ _ _ _ _ EP H1 PR A) as (_ & F).
  destruct (F InvFill) as (_ & _ & F1 & _), (F InvFiss) as (_ & _ & F2 & _), (F InvTopup) as (_ & _ & F3 & _).
  rewrite (deliveries_mass _ _ n RG). rewrite (held_inv n s'), F1, F2, F3.
  destruct MV as (_ & _ & _ & _ & _ & _ & M). rewrite <- (M n), (held_inv n s1). ring.
Qed.
Theorem conserved_final eps nz D recipe cfg es s os : 0 <= eps -> ff_sane es -> ff_lived eps nz D recipe cfg es s os ->
  forall n, mass_in n (ff_held s) + mass_in n (ff_shipped os) == mass_in n (ff_received es).
Proof.
  intros EP SA (prefs & EN & R) n.
  assert (G : forall es s0 s os, ff_sane es -> ff_live eps cfg s0 -> ff_run eps nz D recipe cfg prefs s0 es = Ok (s, os) ->
    mass_in n (ff_held s) + mass_in n (ff_shipped os) == mass_in n (ff_held s0) + mass_in n (ff_received es)).
  { clear es s os SA R. induction es as [|e es IH]; intros s0 s os SA LI R; simpl in R.
    - injection R as <- <-. reflexivity.
    - apply bind_ok in R as ([s1 o] & A & R). apply bind_ok in R as ([s2 os'] & B & R). injection R as <- <-.
      apply sane_cons in SA as [PR SA]. specialize (IH _ _ _ SA (live_step _ _ _ _ _ _ _ _ _ _ EP LI PR A) B).
      pose proof (step_mass _ _ _ _ _ _ _ _ _ _ n EP (proj1 LI) PR A) as M.
      unfold ff_shipped, ff_received in *. cbn [flat_map]. rewrite !mass_in_app.
      rewrite (Qplus_comm (mass_in n (fo_shipped o))), Qplus_assoc, IH. 
      rewrite <- (Qplus_assoc (mass_in n (ff_held s1))), (Qplus_comm _ (mass_in n (fo_shipped o))), Qplus_assoc, M. ring. }
  rewrite (G es (ff_new cfg) s os SA (live_new _ _ EP) R). unfold ff_held; simpl. rewrite mass_in_nil. ring.
Qed.

(** ** Checkers, for the worked examples *)
Definition real_compb (c : comp) : bool := forallb (fun e => Qle_bool 0 (snd e)) c && Qltb 0 (csum c).
Lemma real_compb_sound c : real_compb c = true -> real_comp c.
Proof.
  unfold real_compb. intro H. apply andb_prop in H as [A B]. rewrite forallb_forall in A. split; [|apply Qltb_true; auto].
  apply Forall_forall. intros x X. apply Qle_bool_iff. auto.
Qed.
Definition real_matb (m : mat) : bool := Qltb 0 (m_qty m) && real_compb (m_comp m).
Lemma real_matb_sound m : real_matb m = true -> 0 < m_qty m /\ real_comp (m_comp m).
Proof. unfold real_matb. intro H. apply andb_prop in H as [A B]. split; [apply Qltb_true; auto|apply real_compb_sound; auto]. Qed.
Definition ff_saneb (es : list ff_env) : bool :=
  forallb (fun e => forallb (fun jm => real_matb (snd jm)) (fe_receipts e) && forallb (fun a => Qltb 0 (snd a)) (fe_trades e)) es.
Lemma ff_saneb_sound es : ff_saneb es = true -> ff_sane es.
Proof.
  unfold ff_saneb. intro H. rewrite forallb_forall in H. apply Forall_forall. intros e E. specialize (H e E).
  apply andb_prop in H as [H1 H2]. rewrite forallb_forall in H1, H2.
  split; apply Forall_forall; intros x X; [apply real_matb_sound|apply Qltb_true]; auto.
Qed.
Definition homogeneousb (b : buf) : bool := match b_items b with [] => true | [m] => real_matb m | _ => false end.
Lemma homogeneousb_sound b : homogeneousb b = true -> homogeneous b.
Proof.
  unfold homogeneousb, homogeneous. destruct (b_items b) as [|m [|m2 r]]; [auto| |discriminate]. intro H. right. exists m.
  apply real_matb_sound in H. tauto.
Qed.
Definition ff_homogeneousb (s : ff_state) : bool := homogeneousb (fb_fill s) && homogeneousb (fb_fiss s) && homogeneousb (fb_topup s).
Lemma ff_homogeneousb_sound s : ff_homogeneousb s = true -> ff_homogeneous s.
Proof.
  unfold ff_homogeneousb. intro H. apply andb_prop in H as [H C]. apply andb_prop in H as [A B].
  split; [|split]; apply homogeneousb_sound; auto.
Qed.
Definition reqs_okb (reqs : list (comp * Q)) : bool := forallb (fun r => real_compb (fst r) && Qltb 0 (snd r)) reqs.
Lemma reqs_okb_sound reqs : reqs_okb reqs = true -> reqs_ok reqs.
Proof.
  unfold reqs_okb. intro H. rewrite forallb_forall in H. apply Forall_forall. intros x X. specialize (H x X).
  apply andb_prop in H as [A B]. split; [apply real_compb_sound; auto|apply Qltb_true; auto].
Qed.
(** The charges of a list of awards, computed. *)
Fixpoint total_charge (conv : ff_streams -> mat -> option Q) (B : ff_bids) (l : list (nat * Q)) : option Q :=
  match l with
  | [] => Some 0
  | a :: l' => match charge conv B a, total_charge conv B l' with Some x, Some t => Some (x + t) | _, _ => None end
  end.
Lemma total_charge_sound conv B l : forall t, total_charge conv B l = Some t -> charges conv B l t.
Proof.
  induction l as [|a l IH]; simpl; intros t H; [injection H as <-; constructor|].
  destruct (charge conv B a) as [x|] eqn:C; [|discriminate]. destruct (total_charge conv B l) as [y|]; [|discriminate].
  injection H as <-. constructor; auto.
Qed.
Definition usage_of (nz : Q) (D : nucdata) (sp : string) (B : ff_bids) (l : list (nat * Q)) : option usage :=
  match total_charge (conv_fiss nz D sp) B l, total_charge (conv_fill nz D sp) B l, total_charge (conv_topup nz D sp) B l with
  | Some a, Some b, Some c => Some {| u_fiss := a; u_fill := b; u_topup := c; u_total := qsum (map snd l) |}
  | _, _, _ => None
  end.
Definition respectsb (B : ff_bids) (l : list (nat * Q)) (u : usage) : bool :=
  forallb (fun a => Qltb 0 (snd a)) l && Qle_bool (u_fiss u) (fo_cap_fiss B) && Qle_bool (u_fill u) (fo_cap_fill B) &&
  Qle_bool (u_topup u) (fo_cap_topup B) && Qle_bool (u_total u) (fo_cap B).
Lemma respectsb_sound nz D sp B l u : usage_of nz D sp B l = Some u -> respectsb B l u = true -> respects nz D sp B l u.
Proof.
  unfold usage_of, respectsb. destruct (total_charge (conv_fiss nz D sp) B l) eqn:A; [|discriminate].
  destruct (total_charge (conv_fill nz D sp) B l) eqn:E; [|discriminate].
  destruct (total_charge (conv_topup nz D sp) B l) eqn:C; [|discriminate]. intro X. injection X as <-. simpl.
  intro H. apply andb_prop in H as [H H5]. apply andb_prop in H as [H H4]. apply andb_prop in H as [H H3]. apply andb_prop in H as [H1 H2].
  apply Qle_bool_iff in H2, H3, H4, H5. rewrite forallb_forall in H1.
  split; [apply Forall_forall; intros x X; apply Qltb_true; auto|].
  split; [split; [apply total_charge_sound; auto|split; [apply total_charge_sound; auto|split; [apply total_charge_sound; auto|reflexivity]]]|auto].
Qed.
Definition servableb (nz : Q) (D : nucdata) (cfg : ff_cfg) (s : ff_state) (B : ff_bids) (reqs : list (comp * Q)) (a : nat * Q) : bool :=
  match nth_error reqs (fst a), charge (conv_fiss nz D (fc_spectrum cfg)) B a, charge (conv_topup nz D (fc_spectrum cfg)) B a with
  | Some (tgt, _), Some xf, Some xt =>
      (Qltb 0 xf || (match b_items (fb_fiss s) with [] => true | _ => false end && Qeq_bool xt 0)) &&
      (valid_weights (fs_wfill (fo_streams B)) (weight D cfg tgt) (fs_wfiss (fo_streams B)) || Qltb 0 xt) &&
      (match b_items (fb_fill s) with [] => Qle_bool 0 (weight D cfg tgt) | _ => true end)
  | _, _, _ => false
  end.
Lemma servableb_sound nz D cfg s B reqs a : servableb nz D cfg s B reqs a = true -> servable nz D cfg s B reqs a.
Proof.
  unfold servableb, servable. destruct (nth_error reqs (fst a)) as [[tgt q]|]; [|discriminate].
  destruct (charge (conv_fiss nz D (fc_spectrum cfg)) B a) as [xf|]; [|discriminate].
  destruct (charge (conv_topup nz D (fc_spectrum cfg)) B a) as [xt|]; [|discriminate].
  intro H. apply andb_prop in H as [H H3]. apply andb_prop in H as [H1 H2]. exists tgt, q, xf, xt.
  split; [auto|]. split; [auto|]. split; [auto|]. split.
  - apply orb_prop in H1 as [H1|H1]; [left; apply Qltb_true; auto|right]. apply andb_prop in H1 as [X Y].
    split; [destruct (b_items (fb_fiss s)); [auto|discriminate]|apply Qeq_bool_iff; auto].
  - split; [apply orb_prop in H2 as [H2|H2]; [left; apply valid_iff; auto|right; apply Qltb_true; auto]|].
    intro Z. rewrite Z in H3. apply Qle_bool_iff. auto.
Qed.
Definition orderlyb (reqs : list ff_request) (rs : list (nat * mat)) : bool :=
  forallb (fun jm => Nat.ltb (fst jm) (List.length (ff_asked reqs))) rs &&
  forallb (fun p => Qle_bool (qty_of (ff_deliveries reqs rs (fr_inv p))) (fr_qty p)) reqs.
Lemma orderlyb_sound reqs rs : orderlyb reqs rs = true -> ff_orderly reqs rs.
Proof.
  unfold orderlyb. intro H. apply andb_prop in H as [A B]. rewrite forallb_forall in A, B.
  split; [apply Forall_forall; intros x X; apply Nat.ltb_lt; auto|]. intros p P. apply Qle_bool_iff. auto.
Qed.
Lemma p_of_production D sp n : production D sp n (p_of D sp n).
Proof.
  unfold production, p_of. destruct (d_xs D n "fission" sp) as [f|]; [|reflexivity].
  destruct (d_xs D n "absorption" sp) as [a|]; [|reflexivity].
  assert (T : sp = "thermal"%string -> String.eqb sp "thermal" = true) by (intro; apply String.eqb_eq; auto).
  assert (F : sp <> "thermal"%string -> String.eqb sp "thermal" = false) by (intro; apply String.eqb_neq; auto).
  unfold nu_of. destruct (Z.eqb_spec n 922350000) as [->|N1].
  { left. exists (243 # 100), (258 # 100). split; [simpl; tauto|]. split; intro X; [rewrite (T X)|rewrite (F X)]; reflexivity. }
  destruct (Z.eqb_spec n 922330000) as [->|N2].
  { left. exists (250 # 100), (263 # 100). split; [simpl; tauto|].
    split; intro X; [rewrite (T X)|rewrite (F X)]; ring. }
  destruct (Z.eqb_spec n 942390000) as [->|N3].
  { left. exists (285 # 100), (310 # 100). split; [simpl; tauto|].
    split; intro X; [rewrite (T X)|rewrite (F X)]; ring. }
  destruct (Z.eqb_spec n 942410000) as [->|N4].
  { left. exists (285 # 100), (310 # 100). split; [simpl; tauto|].
    split; intro X; [rewrite (T X)|rewrite (F X)]; ring. }
  right. split; [simpl; intuition|]. ring.
Qed.
Theorem streams_final nz D recipe cfg s reqs B : ff_homogeneous s -> recipes_ok recipe ->
  ff_get_bids nz D recipe cfg s reqs = Ok (Some B) ->
  (forall m, b_items (fb_fill s) = [m] -> fs_wfill (fo_streams B) = weight D cfg (m_comp m)) /\
  (forall m, b_items (fb_fiss s) = [m] -> fs_wfiss (fo_streams B) = weight D cfg (m_comp m)) /\
  (forall m, b_items (fb_topup s) = [m] -> fs_wtopup (fo_streams B) = weight D cfg (m_comp m)) /\
  (b_items (fb_fill s) = [] -> exists c, recipe (fc_fill_recipe cfg) = Some c /\ fs_wfill (fo_streams B) = weight D cfg c) /\
  (b_items (fb_fiss s) = [] -> fc_fiss_recipe cfg <> ""%string ->
     exists c, recipe (fc_fiss_recipe cfg) = Some c /\ fs_wfiss (fo_streams B) = weight D cfg c) /\
  (b_items (fb_fiss s) = [] -> fc_fiss_recipe cfg = ""%string -> fs_wfiss (fo_streams B) = fs_wfill (fo_streams B)) /\
  fo_cap_fiss B = Qmax (b_qty (fb_fiss s)) nz /\ fo_cap_fill B = Qmax (b_qty (fb_fill s)) nz /\
  fo_cap_topup B = Qmax (b_qty (fb_topup s)) nz /\ fo_cap B = fc_throughput cfg.
Proof.
  intros HO RO H. destruct (bids_facts _ _ _ _ _ _ _ HO RO H) as (WD & _ & C).
  assert (W : ff_weigh D recipe cfg s = Ok (fo_streams B)).
  { unfold ff_get_bids in H. destruct (Qeq_bool _ _); [discriminate|]. destruct reqs as [|r reqs]; [discriminate|].
    apply bind_ok in H as (st & W & H). apply bind_ok in H as (os & O & H). injection H as <-. exact W. }
  split; [intros m E; rewrite (wd_wfill _ _ _ _ WD), (wd_hfill _ _ _ _ WD _ _ E); auto|].
  split; [intros m E; rewrite (wd_wfiss _ _ _ _ WD), (wd_hfiss _ _ _ _ WD _ _ E); auto|].
  split; [intros m E; rewrite (wd_wtopup _ _ _ _ WD), (wd_htopup _ _ _ _ WD _ _ E) by congruence; auto|].
  unfold ff_weigh in W.
  apply bind_ok in W as (cfill & F1 & W). apply bind_ok in W as ([ctop wtop] & F2 & W).
  apply bind_ok in W as ([cfis wfis] & F3 & W). injection W as <-. cbn [fs_wfill fs_wfiss fst snd].
  split; [intro E; rewrite E in F1; unfold get_recipe in F1; destruct (recipe (fc_fill_recipe cfg)); [|discriminate];
          injection F1 as <-; eauto|].
  split.
  { intros E N. rewrite E in F3. apply String.eqb_neq in N. rewrite N in F3. apply bind_ok in F3 as (c & G & F3).
    injection F3 as <- <-. unfold get_recipe in G. destruct (recipe (fc_fiss_recipe cfg)); [|discriminate].
    injection G as <-. eauto. }
  split; [|exact C]. intros E N. rewrite E, N in F3. simpl in F3. injection F3 as <- <-. auto.
Qed.
(** What an offer is made of, and that the converters charge exactly that. *)
Lemma blended_absorb x c1 y c2 : 0 <= x -> 0 <= y -> real_comp c1 -> real_comp c2 ->
  blended (absorb (Mat 0 x c1) (Mat 0 y c2)) x c1 y c2.
Proof.
  intros X Y [O1 S1] [O2 S2]. split; [exact X|]. split; [exact Y|]. split; [rewrite qty_absorb; reflexivity|].
  intro n. rewrite mass_absorb by (split; [assumption|split; [assumption|left; assumption]]).
  unfold mass_of; cbn [m_qty m_comp]. rewrite !cget_cnorm by auto. reflexivity.
Qed.
Lemma offer_made nz D cfg s st tgt q m : 0 <= nz -> nz <= 1 -> (forall n, 0 < d_aw D n) -> weighed D cfg s st -> 0 < q ->
  ff_offer nz D cfg st (b_count (fb_topup s)) tgt q = Ok (Some m) ->
  m_qty m == q /\
  exists xf xl xt, conv_fiss nz D (fc_spectrum cfg) st m = Some xf /\
    conv_fill nz D (fc_spectrum cfg) st m = Some xl /\ conv_topup nz D (fc_spectrum cfg) st m = Some xt /\
    ((between (fs_wfill st) (weight D cfg tgt) (fs_wfiss st) /\ xt == 0 /\
      exists a b, a == xf /\ b == xl /\ blended m a (fs_cfiss st) b (fs_cfill st)) \/
     (b_items (fb_topup s) <> [] /\ between (fs_wfiss st) (weight D cfg tgt) (fs_wtopup st) /\ xl == 0 /\
      exists a b, a == xt /\ b == xf /\ blended m a (fs_ctopup st) b (fs_cfiss st))).
Proof.
  intros NZ NZ1 AW WD P H.
  destruct (offer_facts nz D cfg s st NZ NZ1 AW WD tgt q m P H) as (MQ & _ & xf & xl & xt & C1 & C2 & C3 & PL).
  split; [exact MQ|]. exists xf, xl, xt. split; [exact C1|]. split; [exact C2|]. split; [exact C3|].
  clear C1 C2 C3. destruct WD as [Rl Rf Rt Wl Wf Wt _ _ _]. unfold ff_offer in H. rewrite Wl, Wf in *.
  change (weight D cfg tgt) with (cosi_weight D (fc_spectrum cfg) tgt).
  set (w := cosi_weight D (fc_spectrum cfg)) in *.
  destruct (valid_weights (w (fs_cfill st)) (w tgt) (w (fs_cfiss st))) eqn:V1.
  - apply valid_iff in V1. left. split; [exact V1|]. apply bind_ok in H as (f & HF & H). apply high_ok in HF; [|exact V1].
    injection H as H. destruct PL as [(_ & f' & R & _ & K1 & K2 & K3)|(N & _)]; [|contradiction].
    pose proof (hf_range _ _ _ _ _ NZ V1 HF) as [F0 F1].
    pose proof (hf_det _ _ _ _ _ _ _ _ _ (Qeq_refl _) (Qeq_refl _) (Qeq_refl _) R HF) as FF.
    pose proof (a2m_flip D AW f _ _ Rf Rl F0 F1) as FL.
    pose proof (a2m_nonneg D AW f _ _ Rf Rl F0 F1) as A0. pose proof (a2m_le D AW f _ _ Rf Rl F0 F1) as A1.
    unfold mf1 in K1, K2. rewrite (a2m_ext D AW f' f) in K1, K2 by (auto; rewrite ?FF; lra).
    assert (M0 : ~ m_qty m == 0) by lra.
    split; [assert (Z : xt == xt / m_qty m * m_qty m) by (field; exact M0); rewrite Z, K3; ring|].
    exists (atom_to_mass D f (fs_cfiss st) (fs_cfill st) * q), (atom_to_mass D (1 - f) (fs_cfill st) (fs_cfiss st) * q).
    split; [assert (Z : xf == xf / m_qty m * m_qty m) by (field; exact M0); rewrite Z, K1, MQ; reflexivity|].
    split; [assert (Z : xl == xl / m_qty m * m_qty m) by (field; exact M0); rewrite Z, K2, MQ, FL; reflexivity|].
    rewrite <- H. apply blended_absorb; auto; apply Qmult_le_0_compat; lra.
  - destruct (Nat.ltb 0 (b_count (fb_topup s))) eqn:NT; [|discriminate]. cbn [andb] in H.
    assert (NE : b_items (fb_topup s) <> []). { intro E. unfold b_count in NT. rewrite E in NT. discriminate. }
    rewrite (Wt NE) in *.
    destruct (valid_weights (w (fs_cfiss st)) (w tgt) (w (fs_ctopup st))) eqn:V2; [|discriminate].
    apply valid_iff in V2. apply valid_false in V1. right. split; [exact NE|]. split; [exact V2|].
    apply bind_ok in H as (f & HF & H). apply high_ok in HF; [|exact V2].
    injection H as H. destruct PL as [(N & _)|(_ & _ & _ & f' & R & _ & K1 & K2 & K3)]; [contradiction|].
    pose proof (hf_range _ _ _ _ _ NZ V2 HF) as [F0 F1].
    pose proof (hf_det _ _ _ _ _ _ _ _ _ (Qeq_refl _) (Qeq_refl _) (Qeq_refl _) R HF) as FF.
    pose proof (a2m_flip D AW f _ _ Rt Rf F0 F1) as FL.
    pose proof (a2m_nonneg D AW f _ _ Rt Rf F0 F1) as A0. pose proof (a2m_le D AW f _ _ Rt Rf F0 F1) as A1.
    unfold mf2 in K1, K3. rewrite (a2m_ext D AW f' f) in K1, K3 by (auto; rewrite ?FF; lra).
    assert (M0 : ~ m_qty m == 0) by lra.
    split; [assert (Z : xl == xl / m_qty m * m_qty m) by (field; exact M0); rewrite Z, K2; ring|].
    exists (atom_to_mass D f (fs_ctopup st) (fs_cfiss st) * q), (atom_to_mass D (1 - f) (fs_cfiss st) (fs_ctopup st) * q).
    split; [assert (Z : xt == xt / m_qty m * m_qty m) by (field; exact M0); rewrite Z, K3, MQ; reflexivity|].
    split; [assert (Z : xf == xf / m_qty m * m_qty m) by (field; exact M0); rewrite Z, K1, MQ, FL; reflexivity|].
    rewrite <- H. apply blended_absorb; auto; apply Qmult_le_0_compat; lra.
Qed.
Theorem blend_final nz D recipe cfg s reqs B : 0 <= nz -> nz <= 1 -> (forall n, 0 < d_aw D n) ->
  ff_homogeneous s -> recipes_ok recipe -> reqs_ok reqs -> ff_get_bids nz D recipe cfg s reqs = Ok (Some B) ->
  forall j m, In (j, m) (fo_offers B) ->
  exists tgt q xf xl xt cf, nth_error reqs j = Some (tgt, q) /\ m_qty m == q /\
    conv_fiss nz D (fc_spectrum cfg) (fo_streams B) m = Some xf /\
    conv_fill nz D (fc_spectrum cfg) (fo_streams B) m = Some xl /\
    conv_topup nz D (fc_spectrum cfg) (fo_streams B) m = Some xt /\
    fiss_material recipe cfg s cf /\
    ((exists cl, fill_material recipe cfg s cl /\ blended m xf cf xl cl /\ xt == 0) \/
     (exists t, b_items (fb_topup s) = [t] /\ blended m xt (m_comp t) xf cf /\ xl == 0)).
Proof.
  intros NZ NZ1 AW HO RO QO BID j m I.
  destruct (bids_facts _ _ _ _ _ _ _ HO RO BID) as (WD & OS & _).
  apply (proj1 (offers_facts _ _ _ _ _ _ _ _ OS _ _)) in I. destruct I as (k & tgt & q & E & N & F). simpl in E. subst k.
  assert (Q0 : 0 < q). { unfold reqs_ok in QO. rewrite Forall_forall in QO. apply nth_error_In in N. apply (QO _ N). }
  destruct (offer_made nz D cfg s (fo_streams B) tgt q m NZ NZ1 AW WD Q0 F) as (MQ & xf & xl & xt & C1 & C2 & C3 & PL).
  assert (W : ff_weigh D recipe cfg s = Ok (fo_streams B)).
  { unfold ff_get_bids in BID. destruct (Qeq_bool _ _); [discriminate|]. destruct reqs as [|r reqs]; [discriminate|].
    apply bind_ok in BID as (st & W & H). apply bind_ok in H as (os & O & H). injection H as <-. exact W. }
  assert (ONE : forall b x r, homogeneous b -> b_items b = x :: r -> b_items b = [x]).
  { intros b x r HB EB. destruct (homogeneous_head _ _ _ HB EB) as (-> & _). exact EB. }
  destruct HO as (H1 & H2 & H3). unfold ff_weigh in W.
  apply bind_ok in W as (cfill & F1 & W). apply bind_ok in W as ([ctop wtop] & F2 & W).
  apply bind_ok in W as ([cfis wfis] & F3 & W). injection W as W.
  assert (FILL : fill_material recipe cfg s cfill).
  { destruct (b_items (fb_fill s)) as [|x r] eqn:EB.
    - right. split; [exact EB|]. unfold get_recipe in F1. destruct (recipe (fc_fill_recipe cfg)); congruence.
    - injection F1 as <-. left. exists x. split; [exact (ONE _ _ _ H1 EB)|reflexivity]. }
  assert (FISS : fiss_material recipe cfg s cfis).
  { destruct (b_items (fb_fiss s)) as [|x r] eqn:EB.
    - destruct (String.eqb (fc_fiss_recipe cfg) "") eqn:ES.
      + apply String.eqb_eq in ES. injection F3 as <- _. right; right. auto.
      + apply String.eqb_neq in ES. apply bind_ok in F3 as (c & G & F3). injection F3 as <- _. right; left.
        split; [exact EB|]. split; [exact ES|]. unfold get_recipe in G. destruct (recipe (fc_fiss_recipe cfg)); congruence.
    - injection F3 as <- _. left. exists x. split; [exact (ONE _ _ _ H2 EB)|reflexivity]. }
  assert (COR : forall a a' b b' c1 c2, a == a' -> b == b' -> blended m a c1 b c2 -> blended m a' c1 b' c2).
  { intros a a' b b' c1 c2 EA EB (B1 & B2 & B3 & B4). split; [lra|]. split; [lra|]. split; [lra|].
    intro n. rewrite B4, EA, EB. reflexivity. }
  rewrite <- W in *. cbn [fs_cfill fs_cfiss fs_ctopup fst snd] in PL.
  exists tgt, q, xf, xl, xt, cfis. split; [exact N|]. split; [exact MQ|]. split; [exact C1|]. split; [exact C2|].
  split; [exact C3|]. split; [exact FISS|].
  destruct PL as [(_ & Z & a & b & EA & EB & BL)|(NE & _ & Z & a & b & EA & EB & BL)].
  - left. exists cfill. split; [exact FILL|]. split; [exact (COR _ _ _ _ _ _ EA EB BL)|exact Z].
  - right. destruct (b_items (fb_topup s)) as [|t r] eqn:ET; [contradiction|].
    injection F2 as <- _. exists t. split; [rewrite <- ET; exact (ONE _ _ _ H3 ET)|].
    split; [exact (COR _ _ _ _ _ _ EA EB BL)|exact Z].
Qed.
(** Checking a computed result without printing it. *)
Lemma ok_check {A} (x : outcome A) (P : A -> bool) :
  match x with Ok v => P v | _ => false end = true -> exists v, x = Ok v /\ P v = true.
Proof. destruct x; try discriminate. eauto. Qed.
Definition qeqs (l k : list Q) : bool := Nat.eqb (List.length l) (List.length k) && forallb (fun p => Qeq_bool (fst p) (snd p)) (combine l k).
Lemma qeqs_sound l : forall k, qeqs l k = true -> Forall2 Qeq l k.
Proof.
  unfold qeqs. induction l as [|x l IH]; intros [|y k] H; simpl in H; try discriminate; [constructor|].
  apply andb_prop in H as [L H]. apply andb_prop in H as [E H]. constructor; [apply Qeq_bool_iff; auto|].
  apply IH. rewrite L, H. reflexivity.
Qed.
Lemma awards_check nz D recipe cfg s reqs l (P : ff_bids -> usage -> bool) :
  match ff_get_bids nz D recipe cfg s reqs with
  | Ok (Some B) => match usage_of nz D (fc_spectrum cfg) B l with Some u => respectsb B l u && P B u | None => false end
  | _ => false end = true ->
  exists B u, ff_get_bids nz D recipe cfg s reqs = Ok (Some B) /\ respects nz D (fc_spectrum cfg) B l u /\ P B u = true.
Proof.
  destruct (ff_get_bids nz D recipe cfg s reqs) as [[B|]| | |]; try discriminate.
  destruct (usage_of nz D (fc_spectrum cfg) B l) as [u|] eqn:U; [|discriminate]. intro H. apply andb_prop in H as [H1 H2].
  exists B, u. split; [auto|]. split; [apply respectsb_sound; auto|auto].
Qed.
(** The charges are covered by the stocks. *)
Definition coveredb (s : ff_state) (u : usage) : bool :=
  Qle_bool (u_fiss u) (b_qty (fb_fiss s)) && Qle_bool (u_fill u) (b_qty (fb_fill s)) && Qle_bool (u_topup u) (b_qty (fb_topup s)).
Lemma coveredb_sound s u : coveredb s u = true ->
  u_fiss u <= b_qty (fb_fiss s) /\ u_fill u <= b_qty (fb_fill s) /\ u_topup u <= b_qty (fb_topup s).
Proof. unfold coveredb. intro H. apply andb_prop in H as [H C]. apply andb_prop in H as [A B]. apply Qle_bool_iff in A, B, C. auto. Qed.
