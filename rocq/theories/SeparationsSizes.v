(** Feed and leftover sizes of the separations facility over histories, and
    operation with room for the products (C101, C102). *)
From Coq Require Import Lia Lqa.
From Verif Require Import Outcome KernelMaterial KernelResBuf KernelBuf KernelFacts KernelMass
  KernelBufFacts SeparationsModel SeparationsSpec SeparationsProofs SeparationsGlue SeparationsRun.
Local Open Scope Q_scope.

Definition caps (cfg : sp_cfg) (s : sp_state) : Prop :=
  b_cap (ps_feed s) = Some (pc_feed_size cfg) /\ b_cap (ps_left s) = Some (pc_leftover_size cfg).

Lemma push_left eps b m b' c : 0 <= eps -> b_cap b = Some c -> b_push eps b m = Ok b' ->
  b_cap b' = Some c /\ b_qty b' <= Qmax c (b_qty b) + eps.
Proof.
  intros He Hc H. pose proof (push_qty _ _ _ _ H) as Q1. unfold b_push in H.
  destruct (b_fits eps b (m_qty m)) eqn:F; [|discriminate]. injection H as <-. simpl. split; [auto|].
  unfold b_fits, b_space in F. rewrite Hc in F. apply Qle_bool_iff in F.
  assert (K : Qmax 0 (c - b_qty b) + b_qty b <= Qmax c (b_qty b)).
  { pose proof (Q.le_max_l c (b_qty b)). pose proof (Q.le_max_r c (b_qty b)).
    destruct (Q.max_spec 0 (c - b_qty b)) as [(_ & ->)|(_ & ->)]; lra. }
  rewrite Q1. lra.
Qed.

Lemma tick_sizes eps cfg s s' lg : 0 <= eps -> 0 <= pc_throughput cfg -> sane_qtys s -> caps cfg s ->
  sp_tick eps cfg s = Ok (s', lg) ->
  caps cfg s' /\ b_qty (ps_feed s') <= b_qty (ps_feed s) /\
  b_qty (ps_left s') <= Qmax (pc_leftover_size cfg) (b_qty (ps_left s)) + eps.
Proof.
  intros He Ht Sq (C1 & C2) H.
  pose proof (Q.le_max_r (pc_leftover_size cfg) (b_qty (ps_left s))) as Mr.
  apply tick_inv in H as [(E0 & -> & ->)|(_ & m & feed1 & staged & f & mat1 & mat2 & bm & seps & series & feed2 & left & R)].
  - split; [split; auto|]. split; [lra|lra].
  - destruct R as [P St Ex Bk Lf -> ->]. unfold caps. cbn [ps_feed ps_left].
    apply parcels_all in Sq as (Sf & Sl & Ss).
    apply pop_tol_inv in P as (Pc & P).
    assert (Nq : 0 <= Qmin (pc_throughput cfg) (b_qty (ps_feed s))).
    { apply Q.min_glb; auto. apply qtys_ok_nonneg; auto. }
    apply pop_tol_q in P as (P1 & P2 & P3); auto.
    change (qty_of (b_items (ps_feed s))) with (b_qty (ps_feed s)) in P1. rewrite Qmin_self in P1.
    assert (Nm : 0 <= m_qty m) by (rewrite P1; auto).
    apply run_staged in St as (_ & F & _).
    assert (Qf1 : b_qty feed1 == b_qty (ps_feed s) - m_qty m) by (unfold b_qty; exact P2).
    assert (B : b_cap feed2 = b_cap feed1 /\ b_qty feed2 <= b_qty (ps_feed s)).
    { destruct Bk as [(_ & -> & ->)|(_ & back & X & Y)]; [split; [auto|lra]|].
      apply extract_qty_inv in X as (L1 & -> & ->).
      pose proof (push_qty _ _ _ _ Y) as Y1. simpl in Y1. apply b_push_facts in Y as (Y2 & _).
      split; [auto|]. rewrite Y1, Qf1. assert (0 <= f * m_qty m) by (apply Qmult_le_0_compat; tauto). lra. }
    destruct B as (B1 & B2). split; [|split; [exact B2|]].
    + split; [congruence|]. destruct Lf as [(_ & Y)|(_ & ->)]; [|auto]. apply (push_left _ _ _ _ _ He C2) in Y. tauto.
    + destruct Lf as [(_ & Y)|(_ & ->)]; [|lra]. apply (push_left _ _ _ _ _ He C2) in Y. tauto.
Qed.

Lemma trades_left eps cfg trades : forall s resp s' resp', Forall (fun t => 0 <= snd t) trades -> sane_qtys s ->
  loop (trade_one eps cfg) trades (s, resp) = Ok (s', resp') -> b_qty (ps_left s') <= b_qty (ps_left s).
Proof.
  induction trades as [|[c q] trades IH]; intros s resp s' resp' Hq Sq H; simpl in H.
  - injection H as <- <-. lra.
  - inversion Hq as [|? ? Hq0 Hq']; subst. apply bind_ok in H as ([s1 r1] & H1 & H2).
    pose proof H1 as H1'. apply trade_total in H1 as (m & -> & A1 & _); auto.
    apply IH in H2; auto. enough (b_qty (ps_left s1) <= b_qty (ps_left s)) by lra.
    apply parcels_all in Sq as (_ & Sl & _). clear - H1' Sl Hq0. cbn in Hq0. unfold trade_one in H1'.
    destruct (String.eqb c (pc_leftover_commod cfg)).
    + apply bind_ok in H1' as ([m' b] & P & H). injection H as <- _. cbn [ps_left].
      apply pop_tol_inv in P as (_ & P). apply pop_tol_q in P as (P1 & P2 & _); auto.
      * unfold b_qty. rewrite P2, P1.
        assert (0 <= Qmin (Qmin (b_qty (ps_left s)) q) (qty_of (b_items (ps_left s)))); [|lra].
        pose proof (qtys_ok_nonneg _ Sl). unfold b_qty. repeat apply Q.min_glb; auto.
      * pose proof (qtys_ok_nonneg _ Sl). unfold b_qty. apply Q.min_glb; auto.
    + destruct (bm_find c (ps_streams s)); [|discriminate].
      apply bind_ok in H1' as ([m' b'] & P & H). injection H as <- _. cbn [ps_left]. lra.
Qed.

Lemma step_sizes eps recipe cfg prefs s e s' o : 0 <= eps -> 0 <= pc_throughput cfg -> env_sane e ->
  sane_qtys s -> caps cfg s -> sp_step eps recipe cfg prefs s e = Ok (s', o) ->
  caps cfg s' /\ b_qty (ps_left s') <= Qmax (pc_leftover_size cfg) (b_qty (ps_left s)) + eps /\
  (b_qty (ps_feed s) <= pc_feed_size cfg -> feed_within e o -> b_qty (ps_feed s') <= pc_feed_size cfg).
Proof.
  intros He Ht (Et & Er) Sq C H. unfold sp_step in H.
  apply bind_ok in H as ([s1 lg] & T & H). apply bind_ok in H as ([dem rq] & Rq & H).
  apply bind_ok in H as ([s2 sh] & Tr & H). apply bind_ok in H as (s3 & Ac & H). injection H as <- <-.
  pose proof (tick_sizes _ _ _ _ _ He Ht Sq C T) as ((C1 & C2) & F1 & L1).
  apply tick_total in T as (_ & T2 & _); auto.
  pose proof (trades_left _ _ _ _ _ _ _ Et T2 Tr) as L2.
  apply trades_total in Tr as (ms & _ & _ & Fd & _ & _ & _ & Cl); auto.
  unfold sp_accept in Ac. apply bind_ok in Ac as (f & Af & Ac). injection Ac as <-.
  apply accept_facts in Af as (Cf & Af). unfold caps. cbn [ps_feed ps_left].
  split; [split; congruence|]. split; [lra|].
  intros Lf W. unfold b_qty. rewrite Af, qty_of_app, Fd. change (qty_of (b_items (ps_feed s1))) with (b_qty (ps_feed s1)).
  unfold feed_within in W. cbn [po_request] in W. unfold sp_requests in Rq.
  apply bind_ok in Rq as (dn & _ & Rq). cbv zeta in Rq.
  assert (Nil : rq = None -> b_qty (ps_feed s1) + qty_of (pe_receipts e) <= pc_feed_size cfg).
  { intros ->. rewrite W, qty_of_nil. lra. }
  destruct (_ && _)%bool; [injection Rq as _ <-; auto|].
  destruct (Qltb _ eps); [injection Rq as _ <-; auto|].
  apply bind_ok in Rq as (c & _ & Rq). apply bind_ok in Rq as (items & _ & Rq). injection Rq as _ <-.
  cbn [rq_qty] in W. destruct (Q.max_spec 0 (pc_feed_size cfg - b_qty (ps_feed s1))) as [(_ & Z)|(_ & Z)]; rewrite Z in W; clear - W F1 Lf; lra.
Qed.
Lemma run_sizes eps recipe cfg prefs es : forall s s' os, 0 <= eps -> 0 <= pc_throughput cfg -> Forall env_sane es ->
  sane_qtys s -> caps cfg s -> sp_run eps recipe cfg prefs s es = Ok (s', os) ->
  caps cfg s' /\ b_qty (ps_left s') <= Qmax (pc_leftover_size cfg) (b_qty (ps_left s)) + inject_Z (zlen es) * eps /\
  (b_qty (ps_feed s) <= pc_feed_size cfg -> Forall2 feed_within es os -> b_qty (ps_feed s') <= pc_feed_size cfg).
Proof.
  induction es as [|e es IH]; intros s s' os He Ht En Sq C H; simpl in H.
  - injection H as <- <-. split; [auto|]. split; [|auto].
    pose proof (Q.le_max_r (pc_leftover_size cfg) (b_qty (ps_left s))). change (inject_Z (zlen (@nil sp_env))) with 0. lra.
  - inversion En as [|? ? He0 He']; subst. apply bind_ok in H as ([s1 o] & H1 & H). apply bind_ok in H as ([s2 os'] & H2 & H).
    injection H as <- <-. pose proof (step_sizes _ _ _ _ _ _ _ _ He Ht He0 Sq C H1) as (A1 & A2 & A3).
    apply step_total in H1 as (B1 & _); auto.
    apply IH in H2 as (C1 & C2 & C3); auto. split; [auto|]. split.
    + unfold zlen. simpl List.length. rewrite Nat2Z.inj_succ. unfold Z.succ. rewrite inject_Z_plus.
      fold (zlen es). change (inject_Z 1) with 1.
      assert (K : Qmax (pc_leftover_size cfg) (b_qty (ps_left s1)) <= Qmax (pc_leftover_size cfg) (b_qty (ps_left s)) + eps).
      { pose proof (Q.le_max_l (pc_leftover_size cfg) (b_qty (ps_left s))). apply Q.max_lub; lra. }
      lra.
    + intros L W. inversion W; subst. apply C3; auto.
Qed.
Lemma history_store_sizes eps recipe cfg es s0 prefs s' os : NoDup (map st_name (pc_streams cfg)) ->
  0 <= eps -> 0 <= pc_throughput cfg -> 0 <= pc_feed_size cfg -> 0 <= pc_leftover_size cfg -> Forall env_sane es ->
  sp_enter eps cfg (sp_new cfg) = Ok (s0, prefs) -> sp_run eps recipe cfg prefs s0 es = Ok (s', os) ->
  b_qty (ps_left s') <= pc_leftover_size cfg + inject_Z (zlen es) * eps /\
  (Forall2 feed_within es os -> b_qty (ps_feed s') <= pc_feed_size cfg).
Proof.
  intros ND He Ht Nf Nl Hes En R. destruct (enter_new_within _ _ _ _ ND En) as (W & P).
  apply enter_facts in En as (F & L & _); auto.
  assert (S0 : sane_qtys s0) by (unfold sane_qtys; rewrite P; constructor).
  assert (C0 : caps cfg s0) by (unfold caps; rewrite F, L; auto).
  destruct (run_sizes _ _ _ _ _ _ _ _ He Ht Hes S0 C0 R) as (_ & A & B).
  assert (Z1 : b_qty (ps_left s0) == 0) by (rewrite L; unfold b_qty; simpl; apply qty_of_nil).
  assert (Z2 : b_qty (ps_feed s0) == 0) by (rewrite F; unfold b_qty; simpl; apply qty_of_nil).
  split; [|intro X; apply B; auto; lra].
  destruct (Q.max_spec (pc_leftover_size cfg) (b_qty (ps_left s0))) as [(K & Z)|(_ & Z)]; rewrite Z in A; lra.
Qed.

(** ** With room for the products *)
Lemma no_traces_zero cfg m f : efficiencies_sane cfg -> mat_ok m -> 0 <= f <= 1 -> no_traces 0 cfg m f.
Proof.
  intros (Es & Sum) Om F first rest n E r. right. unfold r.
  pose proof (mass_nonneg m n Om) as Nm.
  assert (N1 : forall l, (forall st, In st l -> In st (pc_streams cfg)) -> 0 <= qsum (map (fun st => efficiency (st_effs st) n) l)).
  { intros l Il. apply qsum_nonneg. rewrite Forall_map, Forall_forall. intros st I. apply eff_nonneg.
    intros x Ix. apply (Es st x); auto. }
  assert (L1 : qsum (map (fun st => efficiency (st_effs st) n) first) <= 1).
  { specialize (Sum n). rewrite E, map_app, qsum_app in Sum.
    assert (0 <= qsum (map (fun st => efficiency (st_effs st) n) rest)).
    { apply N1. intros st I. rewrite E. apply in_or_app; auto. }
    lra. }
  assert (L0 : 0 <= qsum (map (fun st => efficiency (st_effs st) n) first)).
  { apply N1. intros st I. rewrite E. apply in_or_app; auto. }
  set (x := qsum _) in *. apply Qmult_le_0_compat; [exact Nm|].
  assert (f * x <= 1 * 1); [|lra]. apply Qle_trans with (1 * x); [apply Qmult_le_compat_r; tauto|lra].
Qed.

Lemma accept_size ms : forall f f' c, loop (b_push 0) ms f = Ok f' -> b_cap f = Some c -> b_qty f <= c -> b_qty f' <= c.
Proof.
  induction ms as [|m ms IH]; intros f f' c H Hc L; simpl in H.
  - injection H as <-. auto.
  - apply bind_ok in H as (f1 & H1 & H2). apply (push_left _ _ _ _ _ (Qle_refl 0) Hc) in H1 as (C & Q1).
    apply (IH f1 f' c); auto. destruct (Q.max_spec c (b_qty f)) as [(K & Z)|(K & Z)]; rewrite Z in Q1; lra.
Qed.
Lemma accept_ok ms : forall f c, b_cap f = Some c -> Forall mat_ok ms -> b_qty f + qty_of ms <= c ->
  exists f', loop (b_push 0) ms f = Ok f'.
Proof.
  induction ms as [|m ms IH]; intros f c Hc O L; simpl; [eauto|].
  inversion O as [|? ? O1 O2]; subst. rewrite qty_of_cons in L. pose proof (mats_qty_nonneg ms O2) as N.
  assert (F : b_fits 0 f (m_qty m) = true).
  { unfold b_fits, b_space. rewrite Hc. apply Qle_bool_iff. pose proof (Q.le_max_r 0 (c - b_qty f)). lra. }
  unfold b_push. rewrite F. cbn [bind]. apply (IH _ c); [exact Hc|auto|]. unfold b_qty. simpl.
  rewrite qty_of_app, qty_of_cons, qty_of_nil. unfold b_qty in L. lra.
Qed.
Lemma run_feed0 recipe cfg prefs es : forall s s' os, 0 <= pc_throughput cfg -> Forall env_sane es ->
  sane_qtys s -> caps cfg s -> b_qty (ps_feed s) <= pc_feed_size cfg -> sp_run 0 recipe cfg prefs s es = Ok (s', os) ->
  caps cfg s' /\ b_qty (ps_feed s') <= pc_feed_size cfg.
Proof.
  induction es as [|e es IH]; intros s s' os Ht En Sq C L H; simpl in H.
  - injection H as <- <-. auto.
  - inversion En as [|? ? He0 He']; subst. apply bind_ok in H as ([s1 o] & H1 & H). apply bind_ok in H as ([s2 os'] & H2 & H).
    injection H as <- <-. pose proof (step_sizes _ _ _ _ _ _ _ _ (Qle_refl 0) Ht He0 Sq C H1) as (A1 & _).
    pose proof (step_total _ _ _ _ _ _ _ _ Ht He0 Sq H1) as (B1 & _).
    refine (IH _ _ _ Ht He' B1 A1 _ H2).
    unfold sp_step in H1. destruct He0 as (Et & _).
    apply bind_ok in H1 as ([t1 lg] & T & H1). apply bind_ok in H1 as ([dem rq] & _ & H1).
    apply bind_ok in H1 as ([t2 sh] & Tr & H1). apply bind_ok in H1 as (t3 & Ac & H1). injection H1 as <- <-.
    pose proof (tick_sizes _ _ _ _ _ (Qle_refl 0) Ht Sq C T) as ((C1 & C2) & F1 & _).
    apply tick_total in T as (_ & T2 & _); auto.
    apply trades_total in Tr as (ms & _ & _ & Fd & _); auto.
    unfold sp_accept in Ac. apply bind_ok in Ac as (f & Af & Ac). injection Ac as <-. cbn [ps_feed].
    apply (accept_size _ _ _ _ Af); [congruence|]. rewrite Fd. lra.
Qed.

Lemma tick_room cfg s : 0 < pc_throughput cfg -> NoDup (map st_name (pc_streams cfg)) -> efficiencies_sane cfg ->
  mats_ok (parcels s) -> caps cfg s -> b_qty (ps_feed s) <= pc_feed_size cfg ->
  (forall st, In st (pc_streams cfg) -> st_cap st < 0 -> b_cap (stream_buf s (st_name st)) = None) ->
  within cfg s -> room cfg s ->
  exists s1 lg, sp_tick 0 cfg s = Ok (s1, lg) /\
    b_qty (ps_feed s1) == b_qty (ps_feed s) - Qmin (pc_throughput cfg) (b_qty (ps_feed s)).
Proof.
  intros Ht ND Es Om (C1 & C2) Lf Un Wi (Rl & Rs).
  apply parcels_all in Om as (Of & Ol & Os).
  destruct (b_items (ps_feed s)) as [|i0 is] eqn:Ei.
  { exists s, None. split; [unfold sp_tick; rewrite Ei; reflexivity|].
    assert (Z : b_qty (ps_feed s) == 0) by (unfold b_qty; rewrite Ei; apply qty_of_nil).
    rewrite Q.min_r by lra. lra. }
  rewrite <- Ei in Of. assert (Ne : b_items (ps_feed s) <> []) by (rewrite Ei; discriminate).
  assert (Ht' : 0 <= pc_throughput cfg) by lra.
  destruct (tick_pop 0 cfg s (Qle_refl 0) Ht Ne Of) as (m & feed1 & P).
  pose proof P as P0. apply pop_tol_inv in P as (_ & P).
  assert (Nq : 0 <= Qmin (pc_throughput cfg) (b_qty (ps_feed s))).
  { apply Q.min_glb; [lra|]. apply mats_qty_nonneg; auto. }
  apply pop_tol_facts in P as (P1 & _ & _ & P4 & _); auto.
  change (qty_of (b_items (ps_feed s))) with (b_qty (ps_feed s)) in P1. rewrite Qmin_self in P1.
  assert (Lm : m_qty m <= pc_throughput cfg) by (rewrite P1; apply Q.le_min_l).
  pose proof (shares_le cfg m Es P4) as Sh.
  assert (Sh1 : forall st, In st (pc_streams cfg) -> share (st_effs st) m <= m_qty m).
  { intros st I. apply Qle_trans with (2 := Sh). destruct Es as (En & _). clear - I En P4.
    induction (pc_streams cfg) as [|x l IH]; [destruct I|]. simpl.
    assert (N : 0 <= qsum (map (fun st => share (st_effs st) m) l)).
    { apply qsum_nonneg. rewrite Forall_map, Forall_forall. intros y Iy. apply share_nonneg.
      - intros e Ie. apply (En y e); simpl; auto.
      - apply mat_ok_qok; auto. }
    assert (Nx : 0 <= share (st_effs x) m).
    { apply share_nonneg; [intros e Ie; apply (En x e); simpl; auto|apply mat_ok_qok; auto]. }
    destruct I as [->|I]; [lra|]. assert (share (st_effs st) m <= qsum (map (fun st => share (st_effs st) m) l)).
    { apply IH; auto. intros y e Iy Ie. apply (En y e); simpl; auto. }
    lra. }
  assert (Room : forall st sp, In st (pc_streams cfg) -> b_space (stream_buf s (st_name st)) = Some sp -> share (st_effs st) m <= sp).
  { intros st sp I Sp. specialize (Sh1 st I). unfold b_space in Sp.
    destruct (Qlt_le_dec (st_cap st) 0) as [K|K]; [rewrite (Un st I K) in Sp; discriminate|].
    destruct (Wi st I K) as (W1 & _). rewrite W1 in Sp. injection Sp as <-.
    specialize (Rs st I K). pose proof (Q.le_max_r 0 (st_cap st - b_qty (stream_buf s (st_name st)))). lra. }
  assert (Pr : processable cfg s m 1).
  { split; [lra|]. split; [|left; reflexivity]. intros st sp I Sp. specialize (Room st sp I Sp). lra. }
  assert (Nt : no_traces 0 cfg m 1) by (apply no_traces_zero; auto; lra).
  assert (Nn : 0 <= qsum (map (fun st => share (st_effs st) m) (pc_streams cfg))).
  { apply qsum_nonneg. rewrite Forall_map, Forall_forall. intros y Iy. apply share_nonneg.
    - intros e Ie. apply (proj1 Es y e); auto.
    - apply mat_ok_qok; auto. }
  destruct (tick_succeeds 0 cfg s m feed1 1 (Qle_refl 0) Ht' ND Es Of Ne P0 Pr Nt) as (s1 & lg & T).
  { rewrite C1. lra. }
  { unfold b_space. rewrite C2. pose proof (Q.le_max_r 0 (pc_leftover_size cfg - b_qty (ps_left s))). lra. }
  exists s1, (Some lg). split; [exact T|].
  destruct (tick_limited _ _ _ _ _ (Qle_refl 0) Ht' ND Es Of Ne T) as (m' & feed1' & f & P0' & _ & _ & Pr' & _ & _ & Q1 & _).
  rewrite P0 in P0'. injection P0' as <- <-.
  assert (F1 : f == 1) by (apply (processable_unique cfg s m); auto).
  rewrite Q1, F1, P1. lra.
Qed.

Lemma step_caps eps recipe cfg prefs s e s' o : NoDup (map st_name (pc_streams cfg)) -> env_sane e ->
  0 <= pc_throughput cfg -> sane_qtys s ->
  sp_step eps recipe cfg prefs s e = Ok (s', o) ->
  forall k, b_cap (stream_buf s' k) = b_cap (stream_buf s k).
Proof.
  intros ND (Et & _) Ht Sq H k. unfold sp_step in H.
  apply bind_ok in H as ([s1 lg] & T & H). apply bind_ok in H as ([dem rq] & _ & H).
  apply bind_ok in H as ([s2 sh] & Tr & H). apply bind_ok in H as (s3 & Ac & H). injection H as <- <-.
  assert (K1 : b_cap (stream_buf s1 k) = b_cap (stream_buf s k)).
  { pose proof T as T0. apply tick_inv in T as [(_ & -> & _)|(_ & m & feed1 & staged & f & mat1 & mat2 & bm & seps & series & feed2 & left & R)]; auto.
    destruct R as [P St Ex Bk Lf -> _]. apply run_staged in St as (Sn & F & _).
    destruct (extract_sizes _ _ _ _ _ _ _ _ _ _ _ Ex) as (X1 & _); [tauto|rewrite Sn; auto|].
    unfold stream_buf. simpl. apply X1. }
  apply tick_total in T as (_ & T2 & _); auto.
  apply trades_total in Tr as (ms & _ & _ & _ & _ & _ & B5 & _); auto. destruct (B5 k) as (V & _).
  unfold sp_accept in Ac. apply bind_ok in Ac as (f & Af & Ac). injection Ac as <-.
  unfold stream_buf in *. simpl. congruence.
Qed.
Lemma run_caps eps recipe cfg prefs es : forall s s' os, NoDup (map st_name (pc_streams cfg)) -> Forall env_sane es ->
  0 <= pc_throughput cfg -> sane_qtys s -> sp_run eps recipe cfg prefs s es = Ok (s', os) ->
  forall k, b_cap (stream_buf s' k) = b_cap (stream_buf s k).
Proof.
  induction es as [|e es IH]; intros s s' os ND En Ht Sq H k; simpl in H.
  - injection H as <- <-. auto.
  - inversion En as [|? ? He0 He']; subst. apply bind_ok in H as ([s1 o] & H1 & H). apply bind_ok in H as ([s2 os'] & H2 & H).
    injection H as <- <-. pose proof (step_caps _ _ _ _ _ _ _ _ ND He0 Ht Sq H1 k) as A.
    apply step_total in H1 as (B1 & _); auto. rewrite (IH _ _ _ ND He' Ht B1 H2 k). exact A.
Qed.

Lemma keeps_working recipe cfg es e s0 prefs s os : NoDup (map st_name (pc_streams cfg)) ->
  0 < pc_throughput cfg -> 0 <= pc_feed_size cfg -> efficiencies_sane cfg -> pc_feed_commods cfg <> [] ->
  (pc_feed_prefs cfg = [] \/ List.length (pc_feed_prefs cfg) = List.length (pc_feed_commods cfg)) ->
  (pc_feed_recipe cfg = ""%string \/ exists c, recipe (pc_feed_recipe cfg) = Some c) ->
  Forall env_sane es -> sp_enter 0 cfg (sp_new cfg) = Ok (s0, prefs) ->
  sp_run 0 recipe cfg prefs s0 es = Ok (s, os) -> room cfg s ->
  exists s1 lg, sp_tick 0 cfg s = Ok (s1, lg) /\
    b_qty (ps_feed s1) == b_qty (ps_feed s) - Qmin (pc_throughput cfg) (b_qty (ps_feed s)) /\
    (Forall (fun t => 0 < snd t) (pe_trades e) -> (forall c, sold c (pe_trades e) <= qty_of (stock cfg s1 c)) ->
     Forall mat_ok (pe_receipts e) -> qty_of (pe_receipts e) <= pc_feed_size cfg - b_qty (ps_feed s1) ->
     exists s' o, sp_step 0 recipe cfg prefs s e = Ok (s', o) /\ po_ticked o = s1 /\
       Forall2 (fun t m => m_qty m == snd t) (pe_trades e) (po_shipped o) /\
       b_items (ps_feed s') = b_items (ps_feed s1) ++ pe_receipts e).
Proof.
  intros ND Ht Nf Es Ne Lp Rc Hes En R Rm. destruct (enter_new_within _ _ _ _ ND En) as (W0 & P).
  assert (Ht' : 0 <= pc_throughput cfg) by lra.
  assert (Lprefs : List.length prefs = List.length (pc_feed_commods cfg)).
  { destruct (enter_prefs _ _ _ _ _ En) as (E1 & E2).
    destruct (pc_feed_prefs cfg) as [|p0 pr] eqn:Ep.
    - rewrite E1 by auto. apply repeat_length.
    - rewrite E2 by discriminate. destruct Lp as [Lp|Lp]; [discriminate|exact Lp]. }
  apply enter_facts in En as (F & L & _ & _ & Un & _); auto.
  assert (S0 : sane_qtys s0) by (unfold sane_qtys; rewrite P; constructor).
  assert (M0 : mats_ok (parcels s0)) by (rewrite P; constructor).
  assert (C0 : caps cfg s0) by (unfold caps; rewrite F, L; auto).
  assert (Z2 : b_qty (ps_feed s0) <= pc_feed_size cfg) by (rewrite F; unfold b_qty; simpl; rewrite qty_of_nil; auto).
  destruct (run_feed0 _ _ _ _ _ _ _ Ht' Hes S0 C0 Z2 R) as (C & Lf).
  destruct (run_mass0 _ _ _ _ _ _ _ Ht' Hes M0 R) as (Om & _).
  destruct (run_within _ _ _ _ _ _ _ _ ND Ht' Hes S0 W0 R) as (W & _).
  pose proof (run_caps _ _ _ _ _ _ _ _ ND Hes Ht' S0 R) as Cs.
  assert (Un' : forall st, In st (pc_streams cfg) -> st_cap st < 0 -> b_cap (stream_buf s (st_name st)) = None).
  { intros st I K. rewrite Cs, Un; auto. }
  destruct (tick_room cfg s Ht ND Es Om C Lf Un' W Rm) as (s1 & lg & T & Q1).
  exists s1, lg. split; [exact T|]. split; [exact Q1|].
  intros Pt Sold Or Lr. pose proof (tick_ok0 _ _ _ _ Ht' Om T) as O1.
  assert (Sq : sane_qtys s) by (apply mats_qtys; exact Om).
  pose proof (tick_sizes _ _ _ _ _ (Qle_refl 0) Ht' Sq C T) as ((C1 & _) & _).
  destruct (requests_ok 0 recipe cfg prefs (pe_time e) s1 Ne Lprefs Rc) as (dn & rq & Rq & _).
  destruct (trades_ok 0 cfg (pe_trades e) (Qle_refl 0) s1 [] Pt O1) as (s2 & ms & Tr & A1 & _ & A3 & _).
  { intros [c q] I. destruct (String.eqb_spec c (pc_leftover_commod cfg)) as [E|E]; [left; exact E|right]. simpl.
    destruct (bm_find c (ps_streams s1)) as [b|] eqn:Fb.
    - destruct (in_dec string_dec c (map fst (ps_streams s1))) as [Y|N]; [exact Y|].
      apply bm_find_none in N. congruence.
    - exfalso. specialize (Sold c). unfold stock in Sold. destruct (String.eqb_spec c (pc_leftover_commod cfg)); [contradiction|].
      unfold stream_items, stream_buf, bm_get in Sold. rewrite Fb in Sold. simpl in Sold. rewrite qty_of_nil in Sold.
      clear - I Pt Sold. induction (pe_trades e) as [|[c0 q0] ts IH]; [destruct I|].
      inversion Pt as [|? ? P0 P']; subst. rewrite sold_cons in Sold. pose proof (sold_nonneg c ts P') as N.
      simpl in P0. destruct I as [E|I].
      + injection E as -> ->. rewrite String.eqb_refl in Sold. lra.
      + apply IH; auto. destruct (String.eqb c0 c); lra. }
  { exact Sold. }
  destruct (accept_ok (pe_receipts e) (ps_feed s2) (pc_feed_size cfg)) as (f' & Af); [congruence|auto|rewrite A3; lra|].
  do 2 eexists. unfold sp_step. rewrite T. cbn [bind]. rewrite Rq. cbn [bind].
  unfold sp_trades. rewrite Tr. cbn [bind]. unfold sp_accept. rewrite Af. cbn [bind].
  split; [reflexivity|]. split; [reflexivity|]. split; [exact A1|]. cbn [ps_feed].
  apply accept_facts in Af as (_ & Af). rewrite Af, A3. reflexivity.
Qed.
