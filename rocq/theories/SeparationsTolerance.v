(** Separations with a positive resource tolerance: steps with room for the
    products, when no traces below the tolerance arise (proofs of C102). *)
From Coq Require Import Lia Lqa.
From Verif Require Import Outcome KernelMaterial KernelResBuf KernelBuf KernelFacts KernelMass
  KernelBufFacts SeparationsModel SeparationsSpec SeparationsProofs SeparationsGlue SeparationsRun SeparationsSizes.
Local Open Scope Q_scope.

(** ** Trades, quantities only *)
Lemma trade_stock eps cfg s resp c q s' resp' : 0 <= q -> sane_qtys s ->
  trade_one eps cfg (s, resp) (c, q) = Ok (s', resp') ->
  exists m, resp' = resp ++ [m] /\ sane_qtys s' /\ ps_feed s' = ps_feed s /\
   (forall k, qty_of (stock cfg s' k) + (if String.eqb c k then m_qty m else 0) == qty_of (stock cfg s k)) /\
   m_qty m == Qmin (qty_of (stock cfg s c)) q /\
   (forall k, In k (map fst (ps_streams s')) <-> In k (map fst (ps_streams s))).
Proof.
  intros Hq Sq H. pose proof H as H0. apply trade_inv in H as (m & b & b' & -> & P & D). exists m. split; [auto|].
  pose proof (trade_total _ _ _ _ _ _ _ _ Hq Sq H0) as (m' & _ & Sq' & Fd & _ & _ & _ & Ks & _).
  split; [auto|]. split; [auto|].
  apply parcels_all in Sq as (Sf & Sl & Ss).
  apply pop_tol_inv in P as (Pc & P).
  assert (Sb : qtys_ok (b_items b)).
  { destruct D as [(_ & -> & _)|(_ & F & _)]; auto. rewrite <- (find_get _ _ _ F).
    apply (bm_all_get qtys_ok); auto. constructor. }
  assert (Nb : 0 <= b_qty b) by (apply qtys_ok_nonneg; auto).
  assert (Nq : 0 <= Qmin (b_qty b) q) by (apply Q.min_glb; auto).
  apply pop_tol_q in P as (P1 & P2 & _); auto.
  assert (P1' : m_qty m == Qmin (b_qty b) q).
  { rewrite P1. apply Q.min_l. apply Q.le_min_l. }
  unfold stock, stream_items, stream_buf.
  destruct D as [(-> & -> & ->)|(Nc & F & ->)]; simpl.
  - split.
    { intro k. rewrite (String.eqb_sym (pc_leftover_commod cfg) k). destruct (String.eqb k _); lra. }
    split; [rewrite String.eqb_refl; exact P1'|tauto].
  - pose proof (find_get _ _ _ F) as G. split.
    { intros k. destruct (String.eqb_spec k (pc_leftover_commod cfg)) as [->|Nk].
      - destruct (String.eqb_spec c (pc_leftover_commod cfg)); [contradiction|lra].
      - destruct (String.eqb_spec c k) as [->|Nck].
        + rewrite bm_get_set_same, G. lra.
        + rewrite bm_get_set_other by auto. lra. }
    split; [|exact Ks]. destruct (String.eqb_spec c (pc_leftover_commod cfg)); [contradiction|]. rewrite G. exact P1'.
Qed.
Lemma trades_stock eps cfg trades : 0 <= eps -> forall s resp,
  Forall (fun t => 0 < snd t) trades -> sane_qtys s ->
  (forall t, In t trades -> fst t = pc_leftover_commod cfg \/ In (fst t) (map fst (ps_streams s))) ->
  (forall c, sold c trades <= qty_of (stock cfg s c)) ->
  exists s' ms, loop (trade_one eps cfg) trades (s, resp) = Ok (s', resp ++ ms) /\
    Forall2 (fun t m => m_qty m == snd t) trades ms /\ ps_feed s' = ps_feed s.
Proof.
  intro He. induction trades as [|[c q] trades IH]; intros s resp Hq Om Hk Hs.
  - simpl. exists s, []. rewrite app_nil_r. split; [auto|]. split; [constructor|auto].
  - inversion Hq as [|? ? Hq0 Hq']; subst. simpl in Hq0.
    pose proof (Hs c) as Hc. rewrite sold_cons, String.eqb_refl in Hc.
    pose proof (sold_nonneg c trades Hq') as Nc.
    assert (ST : exists s1 r1, trade_one eps cfg (s, resp) (c, q) = Ok (s1, r1)).
    { unfold trade_one. unfold stock in Hc. destruct (String.eqb_spec c (pc_leftover_commod cfg)) as [E|E].
      - cbv zeta. destruct (pop_tol_ok (b_items (ps_left s)) (Qmin (b_qty (ps_left s)) q) eps) as (m & r & P); auto.
        + apply Q.min_glb_lt; auto. unfold b_qty. lra.
        + apply Q.le_min_l.
        + unfold b_pop_tol. rewrite P. simpl. eauto.
      - destruct (Hk (c, q) (or_introl eq_refl)) as [K|K]; [contradiction|]. simpl in K.
        destruct (bm_find c (ps_streams s)) as [sb|] eqn:F; [|apply bm_find_none in F; contradiction].
        cbv zeta. unfold stream_items, stream_buf in Hc. rewrite (find_get _ _ _ F) in Hc.
        destruct (pop_tol_ok (b_items sb) (Qmin (b_qty sb) q) eps) as (m & r & P); auto.
        + apply Q.min_glb_lt; auto. unfold b_qty. lra.
        + apply Q.le_min_l.
        + unfold b_pop_tol. rewrite P. simpl. eauto. }
    destruct ST as (s1 & r1 & ST).
    assert (Hq0' : 0 <= q) by lra.
    pose proof (trade_stock _ _ _ _ _ _ _ _ Hq0' Om ST) as (m & -> & Om1 & Fd & Qs & Qm & Ks).
    assert (Qm' : m_qty m == q) by (rewrite Qm; apply Q.min_r; lra).
    destruct (IH s1 (resp ++ [m]) Hq' Om1) as (s' & ms & L & A1 & A3).
    { intros t I. rewrite Ks. apply Hk. simpl; auto. }
    { intro k. specialize (Hs k). rewrite sold_cons in Hs. specialize (Qs k).
      destruct (String.eqb c k); lra. }
    exists s', (m :: ms). cbn [loop]. rewrite ST. cbn [bind]. rewrite L, <- app_assoc. split; [auto|].
    split; [constructor; auto|congruence].
Qed.

Lemma accept_ok_tol eps ms : 0 <= eps -> forall f c, b_cap f = Some c -> Forall mat_ok ms -> b_qty f + qty_of ms <= c ->
  exists f', loop (b_push eps) ms f = Ok f'.
Proof.
  intro He. induction ms as [|m ms IH]; intros f c Hc O L; simpl; [eauto|].
  inversion O as [|? ? O1 O2]; subst. rewrite qty_of_cons in L. pose proof (mats_qty_nonneg ms O2) as N.
  assert (F : b_fits eps f (m_qty m) = true).
  { unfold b_fits, b_space. rewrite Hc. apply Qle_bool_iff. pose proof (Q.le_max_r 0 (c - b_qty f)). lra. }
  unfold b_push. rewrite F. cbn [bind]. apply (IH _ c); [exact Hc|auto|]. unfold b_qty. simpl.
  rewrite qty_of_app, qty_of_cons, qty_of_nil. unfold b_qty in L. lra.
Qed.
Lemma tick_room_tol eps cfg s : 0 <= eps -> 0 < pc_throughput cfg -> NoDup (map st_name (pc_streams cfg)) -> efficiencies_sane cfg ->
  mats_ok (b_items (ps_feed s)) -> caps cfg s -> b_qty (ps_feed s) <= pc_feed_size cfg ->
  (forall st, In st (pc_streams cfg) -> st_cap st < 0 -> b_cap (stream_buf s (st_name st)) = None) ->
  within cfg s -> room cfg s -> quiet eps cfg s ->
  exists s1 lg, sp_tick eps cfg s = Ok (s1, lg) /\
    b_qty (ps_feed s1) == b_qty (ps_feed s) - Qmin (pc_throughput cfg) (b_qty (ps_feed s)).
Proof.
  intros He Ht ND Es Of (C1 & C2) Lf Un Wi (Rl & Rs) Qt.
  assert (D : b_items (ps_feed s) = [] \/ b_items (ps_feed s) <> []) by (destruct (b_items (ps_feed s)); [auto|right; discriminate]).
  destruct D as [Ei|Ne].
  { exists s, None. split; [unfold sp_tick; rewrite Ei; reflexivity|].
    assert (Z : b_qty (ps_feed s) == 0) by (unfold b_qty; rewrite Ei; apply qty_of_nil).
    rewrite Q.min_r by lra. lra. }
  assert (Ht' : 0 <= pc_throughput cfg) by lra.
  destruct (tick_pop eps cfg s He Ht Ne Of) as (m & feed1 & P).
  pose proof P as P0. apply pop_tol_inv in P as (_ & P).
  assert (Nq : 0 <= Qmin (pc_throughput cfg) (b_qty (ps_feed s))).
  { apply Q.min_glb; [lra|]. apply mats_qty_nonneg; auto. }
  apply pop_tol_facts in P as (P1 & _ & _ & P4 & _); auto.
  change (qty_of (b_items (ps_feed s))) with (b_qty (ps_feed s)) in P1. rewrite Qmin_self in P1.
  assert (Lm : m_qty m <= pc_throughput cfg) by (rewrite P1; apply Q.le_min_l).
  pose proof (shares_le cfg m Es P4) as Sh.
  assert (Sh1 : forall st, In st (pc_streams cfg) -> share (st_effs st) m <= m_qty m).
  { intros st I. apply Qle_trans with (2 := Sh). destruct Es as (En & _). clear - I En P4.
    induction (pc_streams cfg) as [|x l IH]; [destruct I|]. simpl.
    assert (N : 0 <= qsum (map (fun st => share (st_effs st) m) l)).
    { apply qsum_nonneg. rewrite Forall_map, Forall_forall. intros y Iy. apply share_nonneg.
      - intros e Ie. apply (En y e); simpl; auto.
      - apply mat_ok_qok; auto. }
    assert (Nx : 0 <= share (st_effs x) m).
    { apply share_nonneg; [intros e Ie; apply (En x e); simpl; auto|apply mat_ok_qok; auto]. }
    destruct I as [->|I]; [lra|]. assert (share (st_effs st) m <= qsum (map (fun st => share (st_effs st) m) l)).
    { apply IH; auto. intros y e Iy Ie. apply (En y e); simpl; auto. }
    lra. }
  assert (Room : forall st sp, In st (pc_streams cfg) -> b_space (stream_buf s (st_name st)) = Some sp -> share (st_effs st) m <= sp).
  { intros st sp I Sp. specialize (Sh1 st I). unfold b_space in Sp.
    destruct (Qlt_le_dec (st_cap st) 0) as [K|K]; [rewrite (Un st I K) in Sp; discriminate|].
    destruct (Wi st I K) as (W1 & _). rewrite W1 in Sp. injection Sp as <-.
    specialize (Rs st I K). pose proof (Q.le_max_r 0 (st_cap st - b_qty (stream_buf s (st_name st)))). lra. }
  assert (Pr : processable cfg s m 1).
  { split; [lra|]. split; [|left; reflexivity]. intros st sp I Sp. specialize (Room st sp I Sp). lra. }
  pose proof (Qt m feed1 P0) as Nt.
  assert (Nn : 0 <= qsum (map (fun st => share (st_effs st) m) (pc_streams cfg))).
  { apply qsum_nonneg. rewrite Forall_map, Forall_forall. intros y Iy. apply share_nonneg.
    - intros e Ie. apply (proj1 Es y e); auto.
    - apply mat_ok_qok; auto. }
  destruct (tick_succeeds eps cfg s m feed1 1 He Ht' ND Es Of Ne P0 Pr Nt) as (s1 & lg & T).
  { rewrite C1. lra. }
  { unfold b_space. rewrite C2. pose proof (Q.le_max_r 0 (pc_leftover_size cfg - b_qty (ps_left s))). lra. }
  exists s1, (Some lg). split; [exact T|].
  destruct (tick_limited _ _ _ _ _ He Ht' ND Es Of Ne T) as (m' & feed1' & f & P0' & _ & _ & Pr' & _ & _ & Q1 & _).
  rewrite P0 in P0'. injection P0' as <- <-.
  assert (F1 : f == 1) by (apply (processable_unique cfg s m); auto).
  rewrite Q1, F1, P1. lra.
Qed.

Lemma keeps_working_tol eps recipe cfg es e s0 prefs s os : 0 <= eps -> NoDup (map st_name (pc_streams cfg)) ->
  0 < pc_throughput cfg -> 0 <= pc_feed_size cfg -> efficiencies_sane cfg -> pc_feed_commods cfg <> [] ->
  (pc_feed_prefs cfg = [] \/ List.length (pc_feed_prefs cfg) = List.length (pc_feed_commods cfg)) ->
  (pc_feed_recipe cfg = ""%string \/ exists c, recipe (pc_feed_recipe cfg) = Some c) ->
  Forall env_sane es -> sp_enter eps cfg (sp_new cfg) = Ok (s0, prefs) ->
  sp_run eps recipe cfg prefs s0 es = Ok (s, os) -> Forall2 feed_within es os ->
  room cfg s -> mats_ok (b_items (ps_feed s)) -> quiet eps cfg s ->
  exists s1 lg, sp_tick eps cfg s = Ok (s1, lg) /\
    b_qty (ps_feed s1) == b_qty (ps_feed s) - Qmin (pc_throughput cfg) (b_qty (ps_feed s)) /\
    (Forall (fun t => 0 < snd t) (pe_trades e) -> (forall c, sold c (pe_trades e) <= qty_of (stock cfg s1 c)) ->
     Forall mat_ok (pe_receipts e) -> qty_of (pe_receipts e) <= pc_feed_size cfg - b_qty (ps_feed s1) ->
     exists s' o, sp_step eps recipe cfg prefs s e = Ok (s', o) /\ po_ticked o = s1 /\
       Forall2 (fun t m => m_qty m == snd t) (pe_trades e) (po_shipped o) /\
       b_items (ps_feed s') = b_items (ps_feed s1) ++ pe_receipts e).
Proof.
  intros He ND Ht Nf Es Ne Lp Rc Hes En R Fw Rm Of Qt. destruct (enter_new_within _ _ _ _ ND En) as (W0 & P).
  assert (Ht' : 0 <= pc_throughput cfg) by lra.
  assert (Lprefs : List.length prefs = List.length (pc_feed_commods cfg)).
  { destruct (enter_prefs _ _ _ _ _ En) as (E1 & E2).
    destruct (pc_feed_prefs cfg) as [|p0 pr] eqn:Ep.
    - rewrite E1 by auto. apply repeat_length.
    - rewrite E2 by discriminate. destruct Lp as [Lp|Lp]; [discriminate|exact Lp]. }
  apply enter_facts in En as (F & L & _ & _ & Un & _); auto.
  assert (S0 : sane_qtys s0) by (unfold sane_qtys; rewrite P; constructor).
  assert (C0 : caps cfg s0) by (unfold caps; rewrite F, L; auto).
  assert (Z2 : b_qty (ps_feed s0) <= pc_feed_size cfg) by (rewrite F; unfold b_qty; simpl; rewrite qty_of_nil; auto).
  destruct (run_sizes _ _ _ _ _ _ _ _ He Ht' Hes S0 C0 R) as (C & _ & Lf). specialize (Lf Z2 Fw).
  destruct (run_total _ _ _ _ _ _ _ _ Ht' Hes S0 R) as (Sq & _).
  destruct (run_within _ _ _ _ _ _ _ _ ND Ht' Hes S0 W0 R) as (W & _).
  pose proof (run_caps _ _ _ _ _ _ _ _ ND Hes Ht' S0 R) as Cs.
  assert (Un' : forall st, In st (pc_streams cfg) -> st_cap st < 0 -> b_cap (stream_buf s (st_name st)) = None).
  { intros st I K. rewrite Cs, Un; auto. }
  destruct (tick_room_tol eps cfg s He Ht ND Es Of C Lf Un' W Rm Qt) as (s1 & lg & T & Q1).
  exists s1, lg. split; [exact T|]. split; [exact Q1|].
  intros Pt Sold Or Lr. destruct (tick_total _ _ _ _ _ Ht' Sq T) as (_ & O1 & _).
  pose proof (tick_sizes _ _ _ _ _ He Ht' Sq C T) as ((C1 & _) & _).
  destruct (requests_ok eps recipe cfg prefs (pe_time e) s1 Ne Lprefs Rc) as (dn & rq & Rq & _).
  destruct (trades_stock eps cfg (pe_trades e) He s1 [] Pt O1) as (s2 & ms & Tr & A1 & A3).
  { intros [c q] I. destruct (String.eqb_spec c (pc_leftover_commod cfg)) as [E|E]; [left; exact E|right]. simpl.
    destruct (bm_find c (ps_streams s1)) as [b|] eqn:Fb.
    - destruct (in_dec string_dec c (map fst (ps_streams s1))) as [Y|N]; [exact Y|].
      apply bm_find_none in N. congruence.
    - exfalso. specialize (Sold c). unfold stock in Sold. destruct (String.eqb_spec c (pc_leftover_commod cfg)); [contradiction|].
      unfold stream_items, stream_buf, bm_get in Sold. rewrite Fb in Sold. simpl in Sold. rewrite qty_of_nil in Sold.
      clear - I Pt Sold. induction (pe_trades e) as [|[c0 q0] ts IH]; [destruct I|].
      inversion Pt as [|? ? P0 P']; subst. rewrite sold_cons in Sold. pose proof (sold_nonneg c ts P') as N.
      simpl in P0. destruct I as [E|I].
      + injection E as -> ->. rewrite String.eqb_refl in Sold. lra.
      + apply IH; auto. destruct (String.eqb c0 c); lra. }
  { exact Sold. }
  destruct (accept_ok_tol eps (pe_receipts e) He (ps_feed s2) (pc_feed_size cfg)) as (f' & Af); [congruence|auto|rewrite A3; lra|].
  do 2 eexists. unfold sp_step. rewrite T. cbn [bind]. rewrite Rq. cbn [bind].
  unfold sp_trades. rewrite Tr. cbn [bind]. unfold sp_accept. rewrite Af. cbn [bind].
  split; [reflexivity|]. split; [reflexivity|]. split; [exact A1|]. cbn [ps_feed].
  apply accept_facts in Af as (_ & Af). rewrite Af, A3. reflexivity.
Qed.
