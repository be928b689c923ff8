(** Bids, charges and fabrication. *)
From Coq Require Import Lia Lqa.
From Verif Require Import Outcome KernelMaterial KernelResBuf KernelFacts KernelMass KernelBuf KernelBufFacts
  FuelFabModel FuelFabSpec FuelFabMath.
Local Open Scope Q_scope.

(** ** Weighing the streams *)
Lemma homogeneous_head b m r : homogeneous b -> b_items b = m :: r -> r = [] /\ 0 < m_qty m /\ real_comp (m_comp m).
Proof.
  intros [E|(x & E & P & R)] H; rewrite E in H; [discriminate|]. injection H as <- <-. auto.
Qed.
Record weighed (D : nucdata) (cfg : ff_cfg) (s : ff_state) (st : ff_streams) : Prop := {
  wd_fill : real_comp (fs_cfill st); wd_fiss : real_comp (fs_cfiss st); wd_topup : real_comp (fs_ctopup st);
  wd_wfill : fs_wfill st = cosi_weight D (fc_spectrum cfg) (fs_cfill st);
  wd_wfiss : fs_wfiss st = cosi_weight D (fc_spectrum cfg) (fs_cfiss st);
  wd_wtopup : b_items (fb_topup s) <> [] -> fs_wtopup st = cosi_weight D (fc_spectrum cfg) (fs_ctopup st);
  wd_hfill : forall m r, b_items (fb_fill s) = m :: r -> fs_cfill st = m_comp m;
  wd_hfiss : forall m r, b_items (fb_fiss s) = m :: r -> fs_cfiss st = m_comp m;
  wd_htopup : forall m r, b_items (fb_topup s) = m :: r -> fs_ctopup st = m_comp m }.
Lemma get_recipe_real recipe k c : recipes_ok recipe -> get_recipe recipe k = Ok c -> real_comp c.
Proof. unfold get_recipe. intros R H. destruct (recipe k) eqn:E; [|discriminate]. injection H as <-. eauto. Qed.
Lemma weigh_facts D recipe cfg s st : ff_homogeneous s -> recipes_ok recipe ->
  ff_weigh D recipe cfg s = Ok st -> weighed D cfg s st.
Proof.
  intros (H1 & H2 & H3) RO W. unfold ff_weigh in W.
  apply bind_ok in W as (cfill & F1 & W). apply bind_ok in W as ([ctop wtop] & F2 & W).
  apply bind_ok in W as ([cfis wfis] & F3 & W). injection W as <-.
  assert (R1 : real_comp cfill).
  { destruct (b_items (fb_fill s)) as [|m r] eqn:E; [eapply get_recipe_real; eauto|].
    injection F1 as <-. exact (proj2 (proj2 (homogeneous_head _ _ _ H1 E))). }
  constructor; cbn [fs_cfill fs_cfiss fs_ctopup fs_wfill fs_wfiss fs_wtopup fst snd]; auto.
  - destruct (b_items (fb_fiss s)) as [|m r] eqn:E.
    + destruct (String.eqb (fc_fiss_recipe cfg) ""); [injection F3 as <- <-; auto|]. apply bind_ok in F3 as (c & G & F3).
      injection F3 as <- <-. eapply get_recipe_real; eauto.
    + injection F3 as <- <-. exact (proj2 (proj2 (homogeneous_head _ _ _ H2 E))).
  - destruct (b_items (fb_topup s)) as [|m r] eqn:E.
    + destruct (String.eqb (fc_topup_recipe cfg) ""); [injection F2 as <- <-; auto|]. apply bind_ok in F2 as (c & G & F2).
      injection F2 as <- <-. eapply get_recipe_real; eauto.
    + injection F2 as <- <-. exact (proj2 (proj2 (homogeneous_head _ _ _ H3 E))).
  - destruct (b_items (fb_fiss s)) as [|m r].
    + destruct (String.eqb (fc_fiss_recipe cfg) ""); [injection F3 as <- <-; auto|]. apply bind_ok in F3 as (c & G & F3).
      injection F3 as <- <-. auto.
    + injection F3 as <- <-. auto.
  - intro NE. destruct (b_items (fb_topup s)) as [|m r]; [congruence|]. injection F2 as <- <-. auto.
  - intros m r E. rewrite E in F1. injection F1 as <-. auto.
  - intros m r E. rewrite E in F3. injection F3 as <- _. auto.
  - intros m r E. rewrite E in F2. injection F2 as <- _. auto.
Qed.

(** ** An offer and what the converters charge for it *)
Section OFFER.
Context (nz : Q) (D : nucdata) (cfg : ff_cfg) (s : ff_state) (st : ff_streams).
Context (NZ : 0 <= nz) (NZ1 : nz <= 1) (AW : forall n, 0 < d_aw D n) (WD : weighed D cfg s st).
Let w := cosi_weight D (fc_spectrum cfg).

Definition mf1 (f : Q) : Q := atom_to_mass D f (fs_cfiss st) (fs_cfill st).
Definition mf2 (f : Q) : Q := atom_to_mass D f (fs_ctopup st) (fs_cfiss st).

(** Charges per unit [kf kl kt] of an offer for a target of weight [t], and the weight
    [wo] of what will be made. *)
Definition plan1 (t wo kf kl kt : Q) : Prop :=
  between (w (fs_cfill st)) t (w (fs_cfiss st)) /\
  exists f, hfrel nz (w (fs_cfill st)) t (w (fs_cfiss st)) f /\
    wo == f * w (fs_cfiss st) + (1 - f) * w (fs_cfill st) /\ kf == mf1 f /\ kl == 1 - mf1 f /\ kt == 0.
Definition plan2 (t wo kf kl kt : Q) : Prop :=
  ~ between (w (fs_cfill st)) t (w (fs_cfiss st)) /\ b_items (fb_topup s) <> [] /\
  between (w (fs_cfiss st)) t (w (fs_ctopup st)) /\
  exists f, hfrel nz (w (fs_cfiss st)) t (w (fs_ctopup st)) f /\
    wo == f * w (fs_ctopup st) + (1 - f) * w (fs_cfiss st) /\ kf == 1 - mf2 f /\ kl == 0 /\ kt == mf2 f.

Lemma high_ok lo t hi f : high_frac nz lo t hi = Ok f -> between lo t hi -> hfrel nz lo t hi f.
Proof. intros H B. destruct (high_frac_ok nz lo t hi B) as (f' & H' & R). rewrite H in H'. injection H' as <-. auto. Qed.
Lemma between_mix lo t hi f x : between lo t hi -> hfrel nz lo t hi f -> x == f * hi + (1 - f) * lo -> between lo x hi.
Proof.
  intros B H E. pose proof (hf_range nz lo t hi f NZ B H) as [F0 F1]. destruct B as [B1 B2]. unfold between. rewrite E.
  assert (0 <= f * (hi - lo)) by (apply Qmult_le_0_compat; lra).
  assert (0 <= (1 - f) * (hi - lo)) by (apply Qmult_le_0_compat; lra). lra.
Qed.

Lemma offer_facts tgt q m : 0 < q -> ff_offer nz D cfg st (b_count (fb_topup s)) tgt q = Ok (Some m) ->
  m_qty m == q /\ real_comp (m_comp m) /\
  exists xf xl xt, conv_fiss nz D (fc_spectrum cfg) st m = Some xf /\
    conv_fill nz D (fc_spectrum cfg) st m = Some xl /\ conv_topup nz D (fc_spectrum cfg) st m = Some xt /\
    (plan1 (w tgt) (w (m_comp m)) (xf / m_qty m) (xl / m_qty m) (xt / m_qty m) \/
     plan2 (w tgt) (w (m_comp m)) (xf / m_qty m) (xl / m_qty m) (xt / m_qty m)).
Proof.
  destruct WD as [Rl Rf Rt Wl Wf Wt _ _ _]. intros P H. unfold ff_offer in H. rewrite Wl, Wf in H.
  fold (w tgt) (w (fs_cfill st)) (w (fs_cfiss st)) in H.
  destruct (valid_weights (w (fs_cfill st)) (w tgt) (w (fs_cfiss st))) eqn:V1.
  - apply valid_iff in V1. apply bind_ok in H as (f & HF & H). apply high_ok in HF; [|exact V1].
    injection H as <-. pose proof (hf_range _ _ _ _ _ NZ V1 HF) as [F0 F1].
    pose proof (a2m_flip D AW f _ _ Rf Rl F0 F1) as FL. fold (mf1 f) in *.
    set (x := mf1 f * q). set (y := atom_to_mass D (1 - f) (fs_cfill st) (fs_cfiss st) * q).
    assert (Y : y == (1 - mf1 f) * q) by (unfold y; rewrite FL; reflexivity).
    pose proof (a2m_nonneg D AW f _ _ Rf Rl F0 F1) as A0. pose proof (a2m_le D AW f _ _ Rf Rl F0 F1) as A1.
    fold (mf1 f) in A0, A1.
    assert (X0 : 0 <= x) by (apply Qmult_le_0_compat; lra).
    assert (Y0 : 0 <= y) by (rewrite Y; apply Qmult_le_0_compat; lra).
    assert (QQ : x + y == q) by (rewrite Y; unfold x; ring).
    set (m := absorb (Mat 0 x (fs_cfiss st)) (Mat 0 y (fs_cfill st))).
    assert (MQ : m_qty m == q) by exact QQ.
    assert (RM : real_comp (m_comp m)) by (apply blend_real; auto; lra).
    assert (WM : w (m_comp m) == f * w (fs_cfiss st) + (1 - f) * w (fs_cfill st)).
    { apply (frac_weight D AW (fc_spectrum cfg) 0 0 f q x y _ _ Rf Rl F0 F1 P); [reflexivity|exact Y]. }
    split; [exact MQ|]. split; [exact RM|].
    pose proof (between_mix _ _ _ _ _ V1 HF WM) as V2.
    unfold conv_fiss, conv_fill, conv_topup, low_frac. fold w. rewrite (proj2 (valid_iff _ _ _) V2).
    destruct (high_frac_ok nz _ _ _ V2) as (f' & HF' & R'). rewrite HF'. cbn [bind].
    pose proof (hf_again _ _ _ _ _ _ _ NZ NZ1 V1 HF WM R') as FF.
    eexists. eexists. eexists. split; [reflexivity|]. split; [reflexivity|]. split; [reflexivity|].
    left. split; [exact V1|]. exists f. split; [exact HF|]. split; [exact WM|].
    split; [|split].
    + rewrite (a2m_ext D AW f' f) by auto. fold (mf1 f). field. lra.
    + rewrite (a2m_ext D AW (1 - f') (1 - f)) by (auto; rewrite FF; reflexivity). rewrite FL. fold (mf1 f). field. lra.
    + unfold Qdiv. ring.
  - destruct (Nat.ltb 0 (b_count (fb_topup s))) eqn:NT; [|discriminate]. cbn [andb] in H.
    assert (NE : b_items (fb_topup s) <> []). { intro E. unfold b_count in NT. rewrite E in NT. discriminate. }
    rewrite (Wt NE) in H. fold (w (fs_ctopup st)) in H.
    destruct (valid_weights (w (fs_cfiss st)) (w tgt) (w (fs_ctopup st))) eqn:V2; [|discriminate].
    apply valid_iff in V2. apply valid_false in V1.
    apply bind_ok in H as (f & HF & H). apply high_ok in HF; [|exact V2].
    injection H as <-. pose proof (hf_range _ _ _ _ _ NZ V2 HF) as [F0 F1].
    pose proof (a2m_flip D AW f _ _ Rt Rf F0 F1) as FL. fold (mf2 f) in *.
    set (x := mf2 f * q). set (y := atom_to_mass D (1 - f) (fs_cfiss st) (fs_ctopup st) * q).
    assert (Y : y == (1 - mf2 f) * q) by (unfold y; rewrite FL; reflexivity).
    pose proof (a2m_nonneg D AW f _ _ Rt Rf F0 F1) as A0. pose proof (a2m_le D AW f _ _ Rt Rf F0 F1) as A1.
    fold (mf2 f) in A0, A1.
    assert (X0 : 0 <= x) by (apply Qmult_le_0_compat; lra).
    assert (Y0 : 0 <= y) by (rewrite Y; apply Qmult_le_0_compat; lra).
    assert (QQ : x + y == q) by (rewrite Y; unfold x; ring).
    set (m := absorb (Mat 0 x (fs_ctopup st)) (Mat 0 y (fs_cfiss st))).
    assert (MQ : m_qty m == q) by exact QQ.
    assert (RM : real_comp (m_comp m)) by (apply blend_real; auto; lra).
    assert (WM : w (m_comp m) == f * w (fs_ctopup st) + (1 - f) * w (fs_cfiss st)).
    { apply (frac_weight D AW (fc_spectrum cfg) 0 0 f q x y _ _ Rt Rf F0 F1 P); [reflexivity|exact Y]. }
    split; [exact MQ|]. split; [exact RM|].
    pose proof (between_mix _ _ _ _ _ V2 HF WM) as V3.
    assert (PL : forall kf kl kt, kf == 1 - mf2 f -> kl == 0 -> kt == mf2 f -> plan2 (w tgt) (w (m_comp m)) kf kl kt).
    { intros kf kl kt K1 K2 K3. split; [exact V1|]. split; [exact NE|]. split; [exact V2|]. exists f. auto. }
    unfold conv_fiss, conv_fill, conv_topup, low_frac. fold w.
    destruct (valid_weights (w (fs_cfill st)) (w (m_comp m)) (w (fs_cfiss st))) eqn:V4.
    + (* the offer weighs as much as the fissile stream *)
      apply valid_iff in V4. assert (WE : w (m_comp m) == w (fs_cfiss st)) by (destruct V3, V4; lra).
      destruct (high_frac_ok nz _ _ _ V4) as (g & HG & RG). rewrite HG. cbn [bind].
      assert (G1 : g == 1).
      { destruct RG as [[_ E]|[L [[_ E]|[[E1 [E2 E3]]|[E1 [E2 E3]]]]]]; auto.
        - rewrite WE in *. assert (nz * (w (fs_cfiss st) - w (fs_cfill st)) <= 1 * (w (fs_cfiss st) - w (fs_cfill st)))
            by (apply Qmult_le_compat_r; lra). exfalso. lra.
        - rewrite WE in E3. apply (Qmult_inj_r g 1 (w (fs_cfiss st) - w (fs_cfill st))); lra. }
      assert (F00 : f == 0).
      { destruct (Qlt_le_dec 0 f) as [FP|FP]; [|lra]. exfalso.
        destruct (Qlt_le_dec (w (fs_cfiss st)) (w (fs_ctopup st))) as [L|L].
        - pose proof (Qmult_lt_0_compat _ _ FP (proj1 (Qlt_minus_iff _ _) L)). lra.
        - apply V1. destruct V2, V4. split; lra. }
      eexists. eexists. eexists. split; [reflexivity|]. split; [reflexivity|]. split; [reflexivity|].
      right. assert (M0 : mf2 f == 0) by (apply (a2m_zero D AW); auto). apply PL.
      * rewrite (a2m_one D AW g) by auto. rewrite M0. field. lra.
      * rewrite (a2m_zero D AW (1 - g)) by (auto; rewrite G1; reflexivity). field. lra.
      * rewrite M0. field. lra.
    + rewrite (proj2 (valid_iff _ _ _) V3).
      destruct (high_frac_ok nz _ _ _ V3) as (f' & HF' & R'). rewrite HF'. cbn [bind].
      pose proof (hf_again _ _ _ _ _ _ _ NZ NZ1 V2 HF WM R') as FF.
      eexists. eexists. eexists. split; [reflexivity|]. split; [reflexivity|]. split; [reflexivity|].
      right. apply PL.
      * rewrite (a2m_ext D AW (1 - f') (1 - f)) by (auto; rewrite FF; reflexivity). rewrite FL. fold (mf2 f). field. lra.
      * unfold Qdiv. ring.
      * rewrite (a2m_ext D AW f' f) by auto. fold (mf2 f). field. lra.
Qed.
(** When there is an offer. *)
Lemma offer_iff tgt q : 
  (exists o, ff_offer nz D cfg st (b_count (fb_topup s)) tgt q = Ok o /\
     (o <> None <-> between (w (fs_cfill st)) (w tgt) (w (fs_cfiss st)) \/
        (b_items (fb_topup s) <> [] /\ between (w (fs_cfiss st)) (w tgt) (w (fs_ctopup st))))).
Proof.
  destruct WD as [Rl Rf Rt Wl Wf Wt _ _ _]. unfold ff_offer. rewrite Wl, Wf.
  fold (w tgt) (w (fs_cfill st)) (w (fs_cfiss st)).
  destruct (valid_weights (w (fs_cfill st)) (w tgt) (w (fs_cfiss st))) eqn:V1.
  - apply valid_iff in V1. destruct (high_frac_ok nz _ _ _ V1) as (f & HF & _). rewrite HF. cbn [bind].
    eexists. split; [reflexivity|]. split; [auto|discriminate].
  - apply valid_false in V1. unfold b_count. destruct (b_items (fb_topup s)) as [|x r] eqn:E.
    + cbn [List.length Nat.ltb Nat.leb andb]. exists None. split; [reflexivity|]. split; [congruence|].
      intros [B|[B _]]; [contradiction|congruence].
    + change (Nat.ltb 0 (List.length (x :: r))) with true. cbn [andb].
      rewrite (Wt ltac:(congruence)). fold (w (fs_ctopup st)).
      destruct (valid_weights (w (fs_cfiss st)) (w tgt) (w (fs_ctopup st))) eqn:V2.
      * apply valid_iff in V2. destruct (high_frac_ok nz _ _ _ V2) as (f & HF & _). rewrite HF. cbn [bind].
        eexists. split; [reflexivity|]. split; [|discriminate]. intros _. right. split; [discriminate|auto].
      * apply valid_false in V2. exists None. split; [reflexivity|]. split; [congruence|].
        intros [B|[_ B]]; contradiction.
Qed.
End OFFER.

(** ** The list of offers *)
Lemma offers_facts nz D cfg st nt reqs : forall j os, ff_offers nz D cfg st nt j reqs = Ok os ->
  forall i m, In (i, m) os <-> exists k tgt q, i = (j + k)%nat /\ nth_error reqs k = Some (tgt, q) /\
     ff_offer nz D cfg st nt tgt q = Ok (Some m).
Proof.
  induction reqs as [|[tgt q] reqs IH]; intros j os H i m; simpl in H.
  - injection H as <-. split; [intros []|]. intros (k & t & q & _ & E & _). destruct k; discriminate.
  - apply bind_ok in H as (o & O & H). apply bind_ok in H as (r & R & H). injection H as <-.
    specialize (IH (S j) r R i m).
    assert (REC : In (i, m) r <-> exists k t0 q0, i = (j + S k)%nat /\ nth_error reqs k = Some (t0, q0) /\
       ff_offer nz D cfg st nt t0 q0 = Ok (Some m)).
    { rewrite IH. split; intros (k & t0 & q0 & E & X); exists k, t0, q0; (split; [lia|exact X]). }
    split.
    + intro I. assert (C : (o = Some m /\ i = j) \/ In (i, m) r).
      { destruct o as [m0|]; [|auto]. destruct I as [I|I]; [injection I as <- <-; auto|auto]. }
      destruct C as [[-> ->]|C].
      * exists 0%nat, tgt, q. split; [lia|]. auto.
      * apply REC in C as (k & t0 & q0 & E & X). exists (S k), t0, q0. split; [exact E|exact X].
    + intros (k & t0 & q0 & E & N & F). destruct k as [|k]; simpl in N.
      * injection N as <- <-. rewrite O in F. injection F as ->. left. f_equal. lia.
      * assert (In (i, m) r) by (apply REC; exists k, t0, q0; auto). destruct o; [right; auto|auto].
Qed.
Lemma offers_total nz D cfg s st reqs : weighed D cfg s st ->
  forall j, exists os, ff_offers nz D cfg st (b_count (fb_topup s)) j reqs = Ok os.
Proof.
  intro WD. induction reqs as [|[tgt q] reqs IH]; intro j; simpl; [eauto|].
  destruct (offer_iff nz D cfg s st WD tgt q) as (o & O & _). rewrite O. cbn [bind].
  destruct (IH (S j)) as (r & R). rewrite R. cbn [bind]. eauto.
Qed.
Lemma offer_for_in B j m : offer_for B j = Some m -> In (j, m) (fo_offers B).
Proof.
  unfold offer_for. destruct (find _ _) as [[i x]|] eqn:F; [|discriminate]. intro H. injection H as <-.
  apply find_some in F as [I E]. apply Nat.eqb_eq in E. simpl in *. subst. exact I.
Qed.
Lemma bids_facts nz D recipe cfg s reqs B : ff_homogeneous s -> recipes_ok recipe ->
  ff_get_bids nz D recipe cfg s reqs = Ok (Some B) ->
  weighed D cfg s (fo_streams B) /\
  ff_offers nz D cfg (fo_streams B) (b_count (fb_topup s)) 0 reqs = Ok (fo_offers B) /\
  fo_cap_fiss B = Qmax (b_qty (fb_fiss s)) nz /\ fo_cap_fill B = Qmax (b_qty (fb_fill s)) nz /\
  fo_cap_topup B = Qmax (b_qty (fb_topup s)) nz /\ fo_cap B = fc_throughput cfg.
Proof.
  intros HO RO H. unfold ff_get_bids in H. destruct (Qeq_bool _ _); [discriminate|].
  destruct reqs as [|r reqs]; [discriminate|]. apply bind_ok in H as (st & W & H). apply bind_ok in H as (os & O & H).
  injection H as <-. cbn [fo_streams fo_offers fo_cap_fiss fo_cap_fill fo_cap_topup fo_cap].
  split; [eapply weigh_facts; eauto|]. auto.
Qed.

(** ** Popping from homogeneous inventories *)
Definition holds (b : buf) (o : option comp) : Prop :=
  b_items b = [] \/ exists m c, o = Some c /\ b_items b = [m] /\ m_comp m = c /\ 0 < m_qty m.
Lemma holds_zero b o : holds b o -> b_items b <> [] -> exists m c, o = Some c /\ b_items b = [m] /\ m_comp m = c /\ 0 < m_qty m.
Proof. intros [E|H] N; [contradiction|exact H]. Qed.
Lemma holds_qty b o : holds b o -> 0 < b_qty b -> exists m c, o = Some c /\ b_items b = [m] /\ m_comp m = c /\ 0 < m_qty m.
Proof. intros H P. apply holds_zero; auto. intro E. unfold b_qty in P. rewrite E in P. unfold qty_of in P. simpl in P. lra. Qed.
Lemma one_qty b m : b_items b = [m] -> b_qty b == m_qty m.
Proof. intro E. unfold b_qty. rewrite E. unfold qty_of. simpl. ring. Qed.
Lemma one_pop eps b m q : b_items b = [m] -> 0 <= eps -> 0 < q -> q <= m_qty m ->
  exists q' b', b_pop_tol b q eps = Ok (Mat (m_id m) q' (m_comp m), b') /\ q' == q /\ b_cap b' = b_cap b /\
    b_qty b' == b_qty b - q /\
    (b_items b' = [] \/ exists r, b_items b' = [r] /\ m_comp r = m_comp m /\ 0 < m_qty r).
Proof.
  intros E EP P L. pose proof (one_qty b m E) as BQ. unfold b_pop_tol, items_pop_tol. rewrite E.
  assert (QE : qty_of [m] == m_qty m) by (unfold qty_of; simpl; ring).
  destruct (Qltb (qty_of [m] + eps) q) eqn:T; [apply Qltb_true in T; lra|].
  destruct (Qle_bool (qty_of [m]) q) eqn:A.
  - apply Qle_bool_iff in A. cbn [squash fold_left bind]. destruct m as [i qm c]. simpl m_id; simpl m_comp.
    exists qm. eexists. split; [reflexivity|]. simpl in *. split; [lra|]. split; [auto|].
    split; [|left; reflexivity]. unfold b_qty at 1. simpl. rewrite qty_of_nil. lra.
  - apply Qle_bool_false in A. unfold items_pop_qty.
    destruct (Qltb (qty_of [m]) q) eqn:T2; [apply Qltb_true in T2; lra|].
    simpl take_qty. destruct (Qle_bool q 0) eqn:T3; [apply Qle_bool_iff in T3; lra|].
    destruct (Qltb q (m_qty m)) eqn:T4; [|apply Qltb_false in T4; lra].
    cbn [squash fold_left bind]. exists q. eexists. split; [reflexivity|]. split; [reflexivity|]. split; [reflexivity|].
    split.
    + unfold b_qty at 1. simpl. unfold qty_of. simpl. rewrite BQ. ring.
    + right. eexists. split; [reflexivity|]. simpl. split; [auto|]. lra.
Qed.
Lemma holds_pop eps b o q : holds b o -> 0 <= eps -> 0 < q -> q <= b_qty b ->
  exists i q' b' c, o = Some c /\ b_pop_tol b q eps = Ok (Mat i q' c, b') /\ q' == q /\ holds b' o /\ b_qty b' == b_qty b - q.
Proof.
  intros H EP P L. destruct (holds_qty b o H ltac:(lra)) as (m & c & O & E & C & MP).
  pose proof (one_qty b m E) as BQ.
  destruct (one_pop eps b m q E EP P ltac:(lra)) as (q' & b' & R & Q' & _ & BQ' & HB).
  exists (m_id m), q', b', c. rewrite C in R. split; [auto|]. split; [exact R|]. split; [auto|]. split; [|auto].
  destruct HB as [X|(r & X & Y & Z)]; [left; auto|right]. exists r, c. split; [auto|]. split; [auto|]. split; [congruence|auto].
Qed.
Lemma snap_eq eps q stock : q <= stock -> ff_snap eps q stock == q.
Proof. intro L. unfold ff_snap. destruct (Qltb _ _); [apply Q.min_r; auto|reflexivity]. Qed.

(** ** One trade *)
Section TRADE.
Context (eps nz : Q) (D : nucdata) (cfg : ff_cfg) (s0 : ff_state) (st : ff_streams).
Context (EP : 0 <= eps) (NZ : 0 <= nz) (NZ1 : nz <= 1) (AW : forall n, 0 < d_aw D n).
Context (HO : ff_homogeneous s0) (WD : weighed D cfg s0 st).
Local Notation w := (cosi_weight D (fc_spectrum cfg)).
Definition hd_comp (b : buf) : option comp := match b_items b with [] => None | m :: _ => Some (m_comp m) end.

(** During the trades the inventories shrink but keep their compositions. *)
Definition during (s : ff_state) : Prop :=
  holds (fb_fill s) (hd_comp (fb_fill s0)) /\ holds (fb_fiss s) (hd_comp (fb_fiss s0)) /\
  holds (fb_topup s) (hd_comp (fb_topup s0)).
Lemma during_start : during s0.
Proof.
  destruct HO as (A & B & C).
  assert (H : forall b, homogeneous b -> holds b (hd_comp b)).
  { intros b [E|(m & E & P & R)]; [left; auto|right]. exists m, (m_comp m). unfold hd_comp. rewrite E. auto. }
  split; [auto|split; auto].
Qed.
Lemma start_fill c : hd_comp (fb_fill s0) = Some c -> c = fs_cfill st.
Proof. unfold hd_comp. destruct (b_items (fb_fill s0)) as [|m r] eqn:E; [discriminate|]. intro H. injection H as <-.
  symmetry. exact (wd_hfill _ _ _ _ WD m r E). Qed.
Lemma start_fiss c : hd_comp (fb_fiss s0) = Some c -> c = fs_cfiss st.
Proof. unfold hd_comp. destruct (b_items (fb_fiss s0)) as [|m r] eqn:E; [discriminate|]. intro H. injection H as <-.
  symmetry. exact (wd_hfiss _ _ _ _ WD m r E). Qed.
Lemma start_topup c : hd_comp (fb_topup s0) = Some c -> c = fs_ctopup st.
Proof. unfold hd_comp. destruct (b_items (fb_topup s0)) as [|m r] eqn:E; [discriminate|]. intro H. injection H as <-.
  symmetry. exact (wd_htopup _ _ _ _ WD m r E). Qed.
Lemma bw_none b : hd_comp b = None -> ff_bweight D cfg b = 0.
Proof. unfold hd_comp, ff_bweight. destruct (b_items b); [auto|discriminate]. Qed.
Lemma bw_some b c : hd_comp b = Some c -> ff_bweight D cfg b = w c.
Proof. unfold hd_comp, ff_bweight. destruct (b_items b); [discriminate|]. intro H. injection H as <-. auto. Qed.
Lemma holds_none b : holds b None -> b_items b = [].
Proof. intros [E|(m & c & X & _)]; [auto|discriminate]. Qed.
Lemma hd_none_items b : hd_comp b = None <-> b_items b = [].
Proof. unfold hd_comp. destruct (b_items b); split; congruence. Qed.

(** Conditions on the trade, see [servable]. *)
Definition cond (tw kf kt : Q) : Prop :=
  (0 < kf \/ (b_items (fb_fiss s0) = [] /\ kt == 0)) /\
  (between (w (fs_cfill st)) tw (w (fs_cfiss st)) \/ 0 < kt) /\
  (b_items (fb_fill s0) = [] -> 0 <= tw).

Definition wl := ff_bweight D cfg (fb_fill s0).
Definition wt := ff_bweight D cfg (fb_topup s0).
Definition wf := ff_bweight D cfg (fb_fiss s0).

Lemma trade_ok s tgt q wo kf kl kt : during s -> 0 < q ->
  plan1 nz D cfg st (w tgt) wo kf kl kt \/ plan2 nz D cfg s0 st (w tgt) wo kf kl kt -> cond (w tgt) kf kt ->
  kf * q <= b_qty (fb_fiss s) -> kl * q <= b_qty (fb_fill s) -> kt * q <= b_qty (fb_topup s) ->
  exists s' m, ff_trade1 eps nz D cfg wl wt wf s tgt q = Ok (s', m) /\ during s' /\
    b_qty (fb_fiss s') == b_qty (fb_fiss s) - kf * q /\ b_qty (fb_fill s') == b_qty (fb_fill s) - kl * q /\
    b_qty (fb_topup s') == b_qty (fb_topup s) - kt * q /\
    m_qty m == q /\ w (m_comp m) == wo.
Proof.
  intros (HL & HF & HT) P PL (C1 & C2 & C3) LF LL LT.
  destruct WD as [Rl Rf Rt _ _ _ _ _ _].
  unfold ff_trade1. fold (w tgt).
  destruct (b_items (fb_fiss s0)) as [|m0 r0] eqn:I0.
  - (* no fissile material at the start: straight filler *)
    assert (HN : hd_comp (fb_fiss s0) = None) by (apply hd_none_items; auto).
    rewrite HN in HF. pose proof (holds_none _ HF) as FE.
    assert (CZ : Nat.eqb (b_count (fb_fiss s)) 0 = true) by (unfold b_count; rewrite FE; reflexivity). rewrite CZ.
    assert (BZ : b_qty (fb_fiss s) == 0) by (unfold b_qty; rewrite FE; reflexivity).
    destruct PL as [(V & f & R & WO & KF & KL & KT)|(V & NE & V2 & f & R & WO & KF & KL & KT)].
    + pose proof (hf_range _ _ _ _ _ NZ V R) as [F0 F1].
      assert (F00 : f == 0).
      { destruct (Qlt_le_dec 0 f) as [FP|FP]; [|lra]. exfalso.
        pose proof (a2m_pos D AW f _ _ Rf Rl FP F1) as AP. fold (mf1 D st f) in AP. rewrite <- KF in AP.
        pose proof (Qmult_lt_0_compat _ _ AP P). lra. }
      assert (M0 : mf1 D st f == 0) by (apply (a2m_zero D AW); auto).
      rewrite M0 in KF, KL. assert (KLq : kl * q == q) by (rewrite KL; ring). assert (KFq : kf * q == 0) by (rewrite KF; ring).
      assert (KTq : kt * q == 0) by (rewrite KT; ring).
      pose proof (snap_eq eps q (b_qty (fb_fill s)) ltac:(lra)) as SN.
      destruct (holds_pop eps _ _ (ff_snap eps q (b_qty (fb_fill s))) HL EP ltac:(lra) ltac:(lra)) as (i & q' & b' & c & O & PP & Q' & HB & BQ).
      rewrite PP. cbn [bind]. eexists. eexists. split; [reflexivity|]. cbn [fb_fill fb_fiss fb_topup m_qty m_comp].
      split; [split; [exact HB|]; cbn [fb_fill fb_fiss fb_topup]; rewrite HN; auto|]. cbn [fb_fill fb_fiss fb_topup].
      split; [lra|]. split; [lra|]. split; [lra|]. split; [lra|].
      rewrite (start_fill c O), WO, F00. ring.
    + exfalso. destruct C2 as [C2|C2]; [contradiction|]. destruct C1 as [C1|[_ C1]]; [|lra].
      pose proof (Qmult_lt_0_compat _ _ C1 P). lra.
  - assert (C1' : 0 < kf) by (destruct C1 as [C1|[C1 _]]; [auto|discriminate]). clear C1.
    assert (KFP : 0 < kf * q) by (apply Qmult_lt_0_compat; auto).
    destruct (holds_qty _ _ HF ltac:(lra)) as (mf & cf & OF & IF & CF & _). pose proof (start_fiss cf OF) as CF'.
    assert (WF : wf = w (fs_cfiss st)) by (unfold wf; rewrite (bw_some _ _ OF); congruence).
    assert (CNZ : Nat.eqb (b_count (fb_fiss s)) 0 = false) by (unfold b_count; rewrite IF; reflexivity). rewrite CNZ.
    destruct PL as [(V & f & R & WO & KF & KL & KT)|(V & NE & V2 & f & R & WO & KF & KL & KT)].
    + pose proof (hf_range _ _ _ _ _ NZ V R) as [F0 F1]. assert (KTq : kt * q == 0) by (rewrite KT; ring).
      assert (VV : valid_weights wl (w tgt) wf = true).
      { apply valid_iff. rewrite WF. destruct V as [V1 V2]. split; [|exact V2].
        unfold wl. destruct (hd_comp (fb_fill s0)) as [cl|] eqn:OL.
        - rewrite (bw_some _ _ OL), (start_fill cl OL). exact V1.
        - rewrite (bw_none _ OL). apply C3. apply hd_none_items; auto. }
      rewrite VV, andb_true_r.
      destruct (b_items (fb_fill s)) as [|ml rl] eqn:IL.
      * (* filler used up (or never there): straight fissile *)
        assert (CL : Nat.eqb (b_count (fb_fill s)) 0 = true) by (unfold b_count; rewrite IL; reflexivity). rewrite CL.
        assert (BZ : b_qty (fb_fill s) == 0) by (unfold b_qty; rewrite IL; reflexivity).
        assert (M1 : mf1 D st f == 1).
        { pose proof (a2m_le D AW f _ _ Rf Rl F0 F1) as A1. fold (mf1 D st f) in A1.
          destruct (Qlt_le_dec (mf1 D st f) 1) as [X|X]; [|lra]. exfalso.
          assert (0 < kl) by (rewrite KL; lra). pose proof (Qmult_lt_0_compat _ _ H P). lra. }
        assert (F11 : f == 1).
        { destruct (Qlt_le_dec f 1) as [X|X]; [|lra]. exfalso.
          pose proof (a2m_pos D AW (1 - f) _ _ Rl Rf ltac:(lra) ltac:(lra)) as A.
          rewrite (a2m_flip D AW f _ _ Rf Rl F0 F1) in A. fold (mf1 D st f) in A. lra. }
        rewrite M1 in KF, KL. assert (KFq : kf * q == q) by (rewrite KF; ring). assert (KLq : kl * q == 0) by (rewrite KL; ring).
        pose proof (snap_eq eps q (b_qty (fb_fiss s)) ltac:(lra)) as SN.
        destruct (holds_pop eps _ _ (ff_snap eps q (b_qty (fb_fiss s))) HF EP ltac:(lra) ltac:(lra)) as (i & q' & b' & c & O & PP & Q' & HB & BQ).
        rewrite PP. cbn [bind]. eexists. eexists. split; [reflexivity|]. cbn [fb_fill fb_fiss fb_topup m_qty m_comp].
        split; [split; [|split]; cbn [fb_fill fb_fiss fb_topup]; auto|]. cbn [fb_fill fb_fiss fb_topup].
        split; [lra|]. split; [lra|]. split; [lra|]. split; [lra|].
        rewrite (start_fiss c O), WO, F11. ring.
      * assert (CL : Nat.eqb (b_count (fb_fill s)) 0 = false) by (unfold b_count; rewrite IL; reflexivity). rewrite CL.
        assert (HL' := HL). destruct (holds_zero _ _ HL' ltac:(congruence)) as (ml' & cl & OL & IL' & CLc & _).
        rewrite IL in IL'. injection IL' as -> ->. pose proof (start_fill cl OL) as CL'.
        assert (WL : wl = w (fs_cfill st)) by (unfold wl; rewrite (bw_some _ _ OL); congruence).
        rewrite WL, WF. unfold low_frac. destruct (high_frac_ok nz _ _ _ V) as (g & HG & RG). rewrite HG. cbn [bind].
        assert (GF : g == f) by (apply (hf_det nz (w (fs_cfill st)) (w tgt) (w (fs_cfiss st)) g
           (w (fs_cfill st)) (w tgt) (w (fs_cfiss st)) f); auto; reflexivity).
        unfold b_peek. rewrite IL, IF. cbn [bind]. rewrite CF, CLc, CF', CL'.
        set (fr := atom_to_mass D g (fs_cfiss st) (fs_cfill st)).
        set (lr := atom_to_mass D (1 - g) (fs_cfill st) (fs_cfiss st)).
        assert (FR : fr == mf1 D st f) by (apply (a2m_ext D AW); auto).
        assert (LR : lr == 1 - mf1 D st f).
        { unfold lr. rewrite (a2m_ext D AW (1 - g) (1 - f)) by (auto; rewrite GF; reflexivity). apply (a2m_flip D AW); auto. }
        assert (FQ : fr * q == kf * q) by (rewrite FR, KF; reflexivity).
        assert (LQ : lr * q == kl * q) by (rewrite LR, KL; reflexivity).
        pose proof (snap_eq eps (fr * q) (b_qty (fb_fiss s)) ltac:(lra)) as SF.
        destruct (holds_pop eps _ _ (ff_snap eps (fr * q) (b_qty (fb_fiss s))) HF EP ltac:(lra) ltac:(lra))
          as (i & q1 & b1 & c1 & O1 & PP1 & Q1 & HB1 & BQ1).
        rewrite PP1. cbn [bind]. pose proof (start_fiss c1 O1) as C1e.
        destruct (Qltb 0 lr) eqn:LP.
        -- apply Qltb_true in LP. assert (KLP : 0 < lr * q) by (apply Qmult_lt_0_compat; auto).
           pose proof (snap_eq eps (lr * q) (b_qty (fb_fill s)) ltac:(lra)) as SL.
           destruct (holds_pop eps _ _ (ff_snap eps (lr * q) (b_qty (fb_fill s))) HL EP ltac:(lra) ltac:(lra))
             as (j & q2 & b2 & c2 & O2 & PP2 & Q2 & HB2 & BQ2).
           rewrite PP2. cbn [bind]. pose proof (start_fill c2 O2) as C2e.
           eexists. eexists. split; [reflexivity|]. cbn [fb_fill fb_fiss fb_topup].
           split; [split; [|split]; cbn [fb_fill fb_fiss fb_topup]; auto|]. cbn [fb_fill fb_fiss fb_topup].
           split; [lra|]. split; [lra|]. split; [lra|].
           split.
           { rewrite qty_absorb. cbn [m_qty]. rewrite Q1, Q2, SF, SL, FR, LR. ring. }
           rewrite C1e, C2e. rewrite WO.
           apply (frac_weight D AW (fc_spectrum cfg) i j f q q1 q2 _ _ Rf Rl F0 F1 P).
           ++ rewrite Q1, SF, FR. reflexivity.
           ++ rewrite Q2, SL, LR. reflexivity.
        -- apply Qltb_false in LP.
           assert (M1 : mf1 D st f == 1).
           { pose proof (a2m_le D AW f _ _ Rf Rl F0 F1) as A1. fold (mf1 D st f) in A1. lra. }
           assert (F11 : f == 1).
           { destruct (Qlt_le_dec f 1) as [X|X]; [|lra]. exfalso.
             pose proof (a2m_pos D AW (1 - f) _ _ Rl Rf ltac:(lra) ltac:(lra)) as A.
             rewrite (a2m_flip D AW f _ _ Rf Rl F0 F1) in A. fold (mf1 D st f) in A. lra. }
           assert (KL0 : kl * q == 0) by (rewrite KL, M1; ring).
           assert (KF0 : kf * q == q) by (rewrite KF, M1; ring).
           eexists. eexists. split; [reflexivity|]. cbn [fb_fill fb_fiss fb_topup m_qty m_comp].
           split; [split; [|split]; cbn [fb_fill fb_fiss fb_topup]; auto|]. cbn [fb_fill fb_fiss fb_topup].
           split; [lra|]. split; [lra|]. split; [lra|]. split; [lra|]. rewrite C1e, WO, F11. ring.
    + (* top-up *)
      pose proof (hf_range _ _ _ _ _ NZ V2 R) as [F0 F1]. assert (KLq : kl * q == 0) by (rewrite KL; ring).
      assert (C2' : 0 < kt) by (destruct C2 as [C2|C2]; [contradiction|auto]).
      assert (KTP : 0 < kt * q) by (apply Qmult_lt_0_compat; auto).
      destruct (holds_qty _ _ HT ltac:(lra)) as (mt & ct & OT & IT & CT & _). pose proof (start_topup ct OT) as CT'.
      assert (WT : wt = w (fs_ctopup st)) by (unfold wt; rewrite (bw_some _ _ OT); congruence).
      assert (VV : valid_weights wl (w tgt) wf = false).
      { apply valid_false. rewrite WF. unfold wl. destruct (hd_comp (fb_fill s0)) as [cl|] eqn:OL.
        - rewrite (bw_some _ _ OL), (start_fill cl OL). exact V.
        - rewrite (bw_none _ OL). intros [_ X]. destruct V2 as [V2 V3].
          assert (E : w tgt == w (fs_cfiss st)) by lra.
          destruct R as [[R1 R2]|[R1 R2]].
          + unfold mf2 in KF. rewrite (a2m_one D AW f (fs_ctopup st) (fs_cfiss st) Rt Rf R2) in KF. lra.
          + destruct R2 as [[R2 _]|R2].
            * rewrite E in R2. assert (nz * (w (fs_ctopup st) - w (fs_cfiss st)) <= 1 * (w (fs_ctopup st) - w (fs_cfiss st)))
                by (apply Qmult_le_compat_r; lra). lra.
            * assert (FZ : f == 0).
              { destruct R2 as [[_ [_ R2]]|[_ [_ R2]]]; [auto|]. rewrite E in R2.
                apply (Qmult_inj_r f 0 (w (fs_ctopup st) - w (fs_cfiss st))); lra. }
              unfold mf2 in KT. rewrite (a2m_zero D AW f (fs_ctopup st) (fs_cfiss st) Rt Rf FZ) in KT. lra. }
      rewrite VV, andb_false_r.
      rewrite WF, WT. destruct (high_frac_ok nz _ _ _ V2) as (g & HG & RG). rewrite HG. cbn [bind].
      assert (GF : g == f) by (apply (hf_det nz (w (fs_cfiss st)) (w tgt) (w (fs_ctopup st)) g
           (w (fs_cfiss st)) (w tgt) (w (fs_ctopup st)) f); auto; reflexivity).
      unfold b_peek. rewrite IT, IF. cbn [bind]. rewrite CF, CT, CF', CT'.
      set (tr := atom_to_mass D g (fs_ctopup st) (fs_cfiss st)).
      set (fr := atom_to_mass D (1 - g) (fs_cfiss st) (fs_ctopup st)).
      assert (TR : tr == mf2 D st f) by (apply (a2m_ext D AW); auto).
      assert (FR : fr == 1 - mf2 D st f).
      { unfold fr. rewrite (a2m_ext D AW (1 - g) (1 - f)) by (auto; rewrite GF; reflexivity). apply (a2m_flip D AW); auto. }
      assert (FQ : fr * q == kf * q) by (rewrite FR, KF; reflexivity).
      assert (TQ : tr * q == kt * q) by (rewrite TR, KT; reflexivity).
      pose proof (snap_eq eps (fr * q) (b_qty (fb_fiss s)) ltac:(lra)) as SF.
      destruct (holds_pop eps _ _ (ff_snap eps (fr * q) (b_qty (fb_fiss s))) HF EP ltac:(lra) ltac:(lra))
        as (i & q1 & b1 & c1 & O1 & PP1 & Q1 & HB1 & BQ1).
      rewrite PP1. cbn [bind]. pose proof (start_fiss c1 O1) as C1e.
      assert (TP : 0 < tr) by (rewrite TR, <- KT; auto).
      rewrite (proj2 (Qltb_true 0 tr) TP).
      pose proof (snap_eq eps (tr * q) (b_qty (fb_topup s)) ltac:(lra)) as SL.
      destruct (holds_pop eps _ _ (ff_snap eps (tr * q) (b_qty (fb_topup s))) HT EP ltac:(lra) ltac:(lra))
        as (j & q2 & b2 & c2 & O2 & PP2 & Q2 & HB2 & BQ2).
      rewrite PP2. cbn [bind]. pose proof (start_topup c2 O2) as C2e.
      eexists. eexists. split; [reflexivity|]. cbn [fb_fill fb_fiss fb_topup].
      split; [split; [|split]; cbn [fb_fill fb_fiss fb_topup]; auto|]. cbn [fb_fill fb_fiss fb_topup].
      split; [lra|]. split; [lra|]. split; [lra|].
      split.
      { rewrite qty_absorb. cbn [m_qty]. rewrite Q1, Q2, SF, SL, FR, TR. ring. }
      rewrite C1e, C2e. rewrite WO.
      assert (FP : fr == atom_to_mass D (1 - f) (fs_cfiss st) (fs_ctopup st)).
      { rewrite FR. symmetry. apply (a2m_flip D AW); auto. }
      transitivity ((1 - f) * w (fs_cfiss st) + (1 - (1 - f)) * w (fs_ctopup st)); [|ring].
      apply (frac_weight D AW (fc_spectrum cfg) i j (1 - f) q q1 q2 _ _ Rf Rt ltac:(lra) ltac:(lra) P).
      * rewrite Q1, SF, FP. reflexivity.
      * rewrite Q2, SL, TR. rewrite <- FP, FR. ring.
Qed.
End TRADE.
