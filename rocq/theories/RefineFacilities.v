(** Exact and double-precision models of the same facility agree (C124). *)
From Coq Require Import ZArith Reals QArith Qreals List Lia Lqa Lra.
From Flocq Require Import Core.Core IEEE754.BinarySingleNaN.
From Verif Require Import Outcome KernelMaterial KernelResBuf KernelBuf KernelFacts KernelMass DoubleModel DoubleProofs DoubleFacts MixerDoubleModel SourceDoubleModel
  SinkDoubleModel StorageDoubleModel ConversionDoubleModel RefineSpec RefineProofs.
From Verif Require ConversionModel ConversionProofs SourceModel SourceProofs SinkModel SinkProofs StorageModel.
Import ListNotations.
Local Open Scope R_scope.

Lemma q2r_nonneg q : (0 <= q)%Q -> 0 <= Q2R q.
Proof. intro H. apply Qle_Rle in H. rewrite zero_val in H. exact H. Qed.
Lemma q2r_le a b : (a <= b)%Q -> Q2R a <= Q2R b. Proof. apply Qle_Rle. Qed.
Lemma r2q_nonneg q : 0 <= Q2R q -> (0 <= q)%Q.
Proof. rewrite <- zero_val. apply Rle_Qle. Qed.
Section GRID.
Variable e : Z.
Hypothesis E : (-1074 <= e <= 900)%Z.

Lemma pop_agree ms q stock amt : mats_ok ms -> stands_for stock (qty_of ms) -> plain_amount e (qty_of ms) -> stands_for amt q -> multiple_of e q ->
  agree (fun mr d => stands_for d (qty_of (snd mr)) /\ plain_amount e (qty_of (snd mr)) /\ mats_ok (snd mr) /\ mat_ok (fst mr) /\ (m_qty (fst mr) == q)%Q /\
           (qty_of (snd mr) == qty_of ms - q)%Q /\ (0 < q)%Q) (items_pop_qty ms q) (pop_plain_d stock amt).
Proof.
  intros O S P A M. unfold pop_plain_d. rewrite (sf_ltb _ _ _ _ S A), (sf_leb _ _ _ _ A sf_zero). destruct (Qltb (qty_of ms) q) eqn:L.
  - unfold items_pop_qty. rewrite L. reflexivity.
  - apply Qltb_false in L. destruct (Qle_bool q 0) eqn:Z.
    + apply Qle_bool_iff in Z. unfold items_pop_qty. apply Qltb_false in L. rewrite L, (take_qty_zero q ms Z). reflexivity.
    + assert (Pq : (0 < q)%Q) by (apply Qnot_le_lt; intro X; apply Qle_bool_iff in X; congruence). destruct (pop_qty_ok ms q Pq L) as (m & r & H). rewrite H.
      destruct (pop_qty_facts ms q m r O (Qlt_le_weak _ _ Pq) H) as (F1 & F2 & F3 & F4 & F5 & _). cbn [agree fst snd].
      assert (B : 0 <= Q2R (qty_of r) <= pw (e + 53)).
      { rewrite (Qeq_eqR _ _ F2), q2r_minus. pose proof (q2r_le _ _ L). apply Qlt_Rlt in Pq. rewrite zero_val in Pq. destruct P as [_ P]. lra. }
      assert (Mr : multiple_of e (qty_of r)) by (eapply mo_eq; [apply mo_minus; [apply P|exact M]|symmetry; exact F2]).
      assert (Sr : stands_for (dminus stock amt) (qty_of r)).
      { eapply sf_eq; [|symmetry; exact F2]. apply (sf_minus e); auto; [apply P|]. rewrite <- q2r_minus, <- (Qeq_eqR _ _ F2), Rabs_pos_eq by apply B. apply B. }
      split; [exact Sr|]. split; [split; auto|]. split; [exact F5|]. split; [exact F4|]. split; [exact F1|]. split; [exact F2|exact Pq].
Qed.

(** A delivery into a buffer of limited capacity: the test of ResBuf::Push. *)
Lemma room_agree eps cap q m eps_d cap_d q_d m_d : stands_for eps_d eps -> stands_for cap_d cap -> stands_for q_d q -> stands_for m_d m ->
  plain_amount e cap -> plain_amount e q -> plain_amount e m ->
  stands_for (sink_space_d cap_d q_d) (Qmax 0 (cap - q)) /\ plain_amount e (Qmax 0 (cap - q)) /\
  Bltb eps_d (dminus m_d (sink_space_d cap_d q_d)) = Qltb eps (m - Qmax 0 (cap - q)).
Proof.
  intros Se Sc Sq Sm Pc Pq Pm.
  assert (D : stands_for (dminus cap_d q_d) (cap - q)) by (apply (sf_minus e); auto; [apply Pc|apply Pq|apply pa_diff; auto]).
  assert (X : stands_for (sink_space_d cap_d q_d) (Qmax 0 (cap - q))) by (apply sf_max; [apply sf_zero|exact D]).
  assert (PX : plain_amount e (Qmax 0 (cap - q))).
  { split; [apply mo_max; [apply mo_zero|apply mo_minus; [apply Pc|apply Pq]]|]. destruct (Q.max_spec 0 (cap - q)) as [[_ H]|[_ H]]; rewrite (Qeq_eqR _ _ H).
    - rewrite <- (Qeq_eqR _ _ H). split; [apply q2r_nonneg, Q.le_max_l|]. rewrite (Qeq_eqR _ _ H), q2r_minus. destruct Pc as [_ Pc], Pq as [_ Pq]. lra.
    - rewrite zero_val. split; [lra|apply bpow_ge_0]. }
  split; [exact X|]. split; [exact PX|]. apply sf_ltb; [exact Se|]. apply (sf_minus e); auto; [apply Pm|apply PX|apply pa_diff; auto].
Qed.

(** ** Conversion *)
Section CONVERSION.
Import ConversionModel ConversionProofs.
Lemma cv_trades_agree amts : forall amts_d out out_d sh, Forall2 (like_amount e) amts amts_d -> mats_ok out -> stands_for out_d (qty_of out) -> plain_amount e (qty_of out) ->
  agree (fun r d => stands_for d (qty_of (fst r)) /\ plain_amount e (qty_of (fst r)) /\ mats_ok (fst r) /\ (List.length (fst r) <= List.length out)%nat /\
    Q2R (qty_of (fst r)) <= Q2R (qty_of out)) (cv_trades amts out sh) (trades_d amts_d out_d).
Proof.
  induction amts as [|q amts IH]; intros amts_d out out_d sh F O S P; inversion F; subst; cbn [cv_trades]; unfold trades_d; cbn [loop].
  - cbn [agree fst]. split; [exact S|]. split; [exact P|]. split; [exact O|]. split; [lia|apply Rle_refl].
  - pose proof (pop_agree out q out_d y O S P (proj1 H1) (proj2 H1)) as A. destruct (items_pop_qty out q) as [[m r]|? | |] eqn:Ei, (pop_plain_d out_d y) as [d|? | |]; cbn [agree fst snd] in A; try contradiction; [|exact A].
    destruct A as (A1 & A2 & A3 & A4 & A5 & A6 & A7). cbn [bind]. specialize (IH _ r d (sh ++ [m]) H3 A3 A1 A2). unfold trades_d in IH.
    assert (Q2R (qty_of r) <= Q2R (qty_of out)) by (apply q2r_le; rewrite A6; Lqa.lra). pose proof (pop_qty_len _ _ _ _ Ei).
    destruct (cv_trades amts r (sh ++ [m])) as [[a b]|? | |], (loop pop_plain_d _ d); cbn [agree bind fst snd] in IH |- *; try contradiction; try exact IH.
    destruct IH as (I1 & I2 & I3 & I4 & I5). split; [exact I1|]. split; [exact I2|]. split; [exact I3|]. split; [lia|eapply Rle_trans; eassumption].
Qed.
Lemma cv_accept_agree eps eps_d cfg cap_d ms : stands_for eps_d eps -> stands_for cap_d (vc_capacity cfg) -> plain_amount e (vc_capacity cfg) ->
  forall ms_d inp inp_d top, Forall mat_ok ms -> Forall2 (like_amount e) (map m_qty ms) ms_d -> mats_ok inp -> stands_for inp_d (qty_of inp) -> plain_amount e (qty_of inp) ->
  Q2R (qty_of inp) + Q2R (qsum (map m_qty ms)) <= top -> top <= pw (e + 53) ->
  agree (fun r d => stands_for d (qty_of r) /\ plain_amount e (qty_of r) /\ mats_ok r /\ ((List.length inp <= 1)%nat -> (List.length r <= 1)%nat) /\
    Q2R (qty_of r) = Q2R (qty_of inp) + Q2R (qsum (map m_qty ms))) (cv_accept eps cfg ms inp) (sink_accept_d eps_d cap_d ms_d inp_d).
Proof.
  intros Se Sc Pc. induction ms as [|m ms IH]; intros ms_d inp inp_d top O F Oi Si Pi T Top; cbn [map] in F; inversion F; subst; cbn [cv_accept]; unfold sink_accept_d; cbn [loop].
  - cbn [agree map qsum fold_right]. split; [exact Si|]. split; [exact Pi|]. split; [exact Oi|]. split; [auto|]. change (qsum []) with 0%Q. rewrite zero_val. ring.
  - inversion O; subst. cbn [map] in T. change (qsum (m_qty m :: map m_qty ms)) with (m_qty m + qsum (map m_qty ms))%Q in T. rewrite Q2R_plus in T.
    assert (Nm : 0 <= Q2R (m_qty m)) by (apply q2r_nonneg; apply H2).
    assert (Ns : 0 <= Q2R (qsum (map m_qty ms))) by (apply q2r_nonneg; apply (mats_qty_nonneg ms); exact H4).
    assert (Pm : plain_amount e (m_qty m)) by (split; [apply H1|]; destruct Pi as [_ Pi]; lra).
    destruct (room_agree eps (vc_capacity cfg) (qty_of inp) (m_qty m) eps_d cap_d inp_d y Se Sc Si (proj1 H1) Pc Pi Pm) as (R1 & R2 & R3). unfold sink_push_d at 1. rewrite R3.
    destruct (Qltb eps (m_qty m - Qmax 0 (vc_capacity cfg - qty_of inp))) eqn:L; [cbn; reflexivity|]. cbn [bind].
    destruct (bulk_push_facts inp m Oi H2) as (B1 & B2 & _ & B4).
    assert (V : Q2R (qty_of (bulk_push inp m)) = Q2R (qty_of inp) + Q2R (m_qty m)) by (rewrite (Qeq_eqR _ _ B2), Q2R_plus; reflexivity).
    assert (Sn : stands_for (dplus inp_d y) (qty_of (bulk_push inp m))).
    { eapply sf_eq; [|symmetry; exact B2]. apply (sf_plus e); auto; [apply H1|apply Pi|apply H1|]. destruct Pi as [_ Pi]. rewrite Rabs_pos_eq; lra. }
    assert (Pn : plain_amount e (qty_of (bulk_push inp m))).
    { split; [eapply mo_eq; [apply mo_plus; [apply Pi|apply H1]|symmetry; exact B2]|]. destruct Pi as [_ Pi]. rewrite V. lra. }
    specialize (IH _ (bulk_push inp m) (dplus inp_d y) top H4 H3 B1 Sn Pn ltac:(rewrite V; lra) Top). unfold sink_accept_d in IH.
    destruct (cv_accept eps cfg ms (bulk_push inp m)) as [r|? | |], (loop (sink_push_d eps_d cap_d) _ (dplus inp_d y)) as [d|? | |]; cbn [agree bind fst snd] in IH |- *; try contradiction; try exact IH.
    destruct IH as (I1 & I2 & I3 & I4 & I5). split; [exact I1|]. split; [exact I2|]. split; [exact I3|]. split; [intro X; apply I4, B4, X|]. cbn [map].
    change (qsum (m_qty m :: map m_qty ms)) with (m_qty m + qsum (map m_qty ms))%Q. rewrite I5, V, Q2R_plus. ring.
Qed.
Lemma cv_tick_agree cfg thr_d s d : stands_for thr_d (vc_throughput cfg) -> multiple_of e (vc_throughput cfg) -> conversion_like e s d -> conversion_holds s <= pw (e + 53) ->
  agree (fun s1 d1 => conversion_like e s1 (fst d1) /\ conversion_holds s1 = conversion_holds s) (cv_tick cfg s) (convert_d thr_d d).
Proof.
  intros St Mt (S1 & S2 & P1 & P2 & (O1 & O2 & L1 & L2)) H. unfold cv_tick, convert_d. rewrite (sf_ltb _ _ _ _ sf_zero S1). destruct (Qltb 0 (qty_of (vs_input s))) eqn:Z.
  - assert (Sx : stands_for (dmin (cd_in d) thr_d) (Qmin (qty_of (vs_input s)) (vc_throughput cfg))) by (apply sf_min; auto).
    assert (Mx : multiple_of e (Qmin (qty_of (vs_input s)) (vc_throughput cfg))) by (apply mo_min; [apply P1|exact Mt]).
    pose proof (pop_agree _ _ _ _ O1 S1 P1 Sx Mx) as A. destruct (items_pop_qty (vs_input s) _) as [[m r]|? | |] eqn:Ei, (pop_plain_d (cd_in d) _) as [x|? | |]; cbn [agree fst snd] in A; try contradiction; [|exact A].
    destruct A as (A1 & A2 & A3 & A4 & A5 & A6 & A7). cbn [bind agree fst]. destruct (bulk_push_facts (vs_output s) m O2 A4) as (B1 & B2 & _ & B4).
    set (q := Qmin (qty_of (vs_input s)) (vc_throughput cfg)) in *.
    assert (Vi : Q2R (qty_of r) = Q2R (qty_of (vs_input s)) - Q2R q) by (rewrite (Qeq_eqR _ _ A6), q2r_minus; reflexivity).
    assert (Eo : (qty_of (bulk_push (vs_output s) m) == qty_of (vs_output s) + q)%Q) by (rewrite B2, A5; reflexivity).
    assert (Vo : Q2R (qty_of (bulk_push (vs_output s) m)) = Q2R (qty_of (vs_output s)) + Q2R q) by (rewrite (Qeq_eqR _ _ Eo), Q2R_plus; reflexivity).
    assert (Nr := proj1 (proj2 A2)). unfold conversion_holds in H. apply Qlt_Rlt in A7. rewrite zero_val in A7. pose proof (proj1 (proj2 P2)).
    split; [|unfold conversion_holds; cbn [vs_input vs_output]; rewrite Vi, Vo; ring]. unfold conversion_like. cbn [vs_input vs_output cd_in cd_out]. split; [exact A1|]. split.
    { eapply sf_eq; [|symmetry; exact Eo]. apply (sf_plus e); auto; [apply P2|]. rewrite Rabs_pos_eq; lra. }
    split; [exact A2|]. split. { split; [eapply mo_eq; [apply mo_plus; [apply P2|exact Mx]|symmetry; exact Eo]|]. rewrite Vo. lra. }
    unfold cv_sane. cbn [vs_input vs_output]. split; [exact A3|]. split; [exact B1|]. split; [|apply B4, L2]. pose proof (pop_qty_len _ _ _ _ Ei). lia.
  - cbn [agree fst]. split; [|reflexivity]. unfold conversion_like, cv_sane. auto 8.
Qed.
Lemma cv_step_agree eps eps_d cfg thr_d cap_d s d en ed : stands_for eps_d eps -> stands_for thr_d (vc_throughput cfg) -> multiple_of e (vc_throughput cfg) ->
  stands_for cap_d (vc_capacity cfg) -> plain_amount e (vc_capacity cfg) -> conversion_like e s d -> conversion_step_like e en ed -> conversion_holds s + Q2R (qsum (map m_qty (ve_receipts en))) <= pw (e + 53) ->
  agree (fun r x => conversion_like e (fst r) (fst x) /\ conversion_out_like (snd r) (snd x) /\ conversion_holds (fst r) <= conversion_holds s + Q2R (qsum (map m_qty (ve_receipts en))))
    (cv_step eps cfg s en) (conv_step_d eps_d thr_d cap_d d ed).
Proof.
  intros Se St Mt Sc Pc R (F1 & Or & F2) T.
  assert (Nr : 0 <= Q2R (qsum (map m_qty (ve_receipts en)))) by (apply q2r_nonneg; apply (mats_qty_nonneg _ Or)).
  unfold cv_step, conv_step_d. pose proof (cv_tick_agree cfg thr_d s d St Mt R ltac:(lra)) as A.
  destruct (cv_tick cfg s) as [s1|? | |], (convert_d thr_d d) as [[d1 mv]|? | |]; cbn [agree fst snd] in A; try contradiction; [|exact A]. destruct A as [R1 Hh]. cbn [bind].
  destruct R1 as (S1 & S2 & P1 & P2 & Sn). destruct (conv_bids_ok s1 (ve_reqs en) Sn) as (b & Hb & _). rewrite Hb. cbn [bind]. destruct Sn as (O1 & O2 & L1 & L2).
  pose proof (cv_trades_agree _ _ _ _ [] F1 O2 S2 P2) as A. destruct (cv_trades (ve_sales en) (vs_output s1) []) as [[out sh]|? | |], (trades_d (ce_sales ed) (cd_out d1)) as [od|? | |];
    cbn [agree fst snd] in A; try contradiction; [|exact A]. destruct A as (A1 & A2 & A3 & A4 & A5). cbn [bind]. unfold conversion_holds in Hh, T.
  pose proof (proj1 (proj2 P2)). 
  pose proof (cv_accept_agree eps eps_d cfg cap_d _ Se Sc Pc (ce_receipts ed) (vs_input s1) (cd_in d1) (pw (e + 53)) Or F2 O1 S1 P1 ltac:(lra) ltac:(lra)) as B.
  destruct (cv_accept eps cfg (ve_receipts en) (vs_input s1)) as [inp|? | |], (sink_accept_d eps_d cap_d (ce_receipts ed) (cd_in d1)) as [id|? | |]; cbn [agree fst snd] in B; try contradiction; [|exact B].
  destruct B as (B1 & B2 & B3 & B4 & B5). cbn [bind agree fst snd]. split; [|split].
  - unfold conversion_like, cv_sane. cbn [vs_input vs_output cd_in cd_out]. split; [exact B1|]. split; [exact A1|]. split; [exact B2|]. split; [exact A2|]. split; [exact B3|]. split; [exact A3|].
    split; [apply B4, L1|lia].
  - unfold conversion_out_like. cbn [co_offer co_request vo_ticked vo_requests]. split; [exact S2|]. unfold cv_requests, conv_request_d, cv_available.
    assert (D : stands_for (dminus cap_d (cd_in d1)) (vc_capacity cfg - qty_of (vs_input s1))) by (apply (sf_minus e); auto; [apply Pc|apply P1|apply pa_diff; auto]).
    rewrite (sf_leb _ _ _ _ D sf_zero). destruct (Qle_bool (vc_capacity cfg - qty_of (vs_input s1)) 0); cbn [option_map snd like_option]; [exact I|exact D].
  - unfold conversion_holds. cbn [vs_input vs_output]. rewrite B5. lra.
Qed.
Lemma received_cons en es : Q2R (conversion_received (en :: es)) = Q2R (qsum (map m_qty (ve_receipts en))) + Q2R (conversion_received es).
Proof. unfold conversion_received. cbn [map List.concat]. rewrite map_app, (Qeq_eqR _ _ (qsum_app _ _)), Q2R_plus. reflexivity. Qed.
Lemma cv_run_agree eps eps_d cfg thr_d cap_d : stands_for eps_d eps -> stands_for thr_d (vc_throughput cfg) -> multiple_of e (vc_throughput cfg) ->
  stands_for cap_d (vc_capacity cfg) -> plain_amount e (vc_capacity cfg) -> forall es eds s d, Forall2 (conversion_step_like e) es eds -> conversion_like e s d -> conversion_holds s + Q2R (conversion_received es) <= pw (e + 53) ->
  agree (fun r x => conversion_like e (fst r) (fst x) /\ Forall2 conversion_out_like (snd r) (snd x)) (cv_run eps cfg s es) (conv_life_d eps_d thr_d cap_d d eds).
Proof.
  intros Se St Mt Sc Pc. induction es as [|en es IH]; intros eds s d F R T; inversion F; subst; cbn [cv_run conv_life_d].
  - cbn. split; [exact R|constructor].
  - rewrite received_cons in T. assert (N : 0 <= Q2R (conversion_received es)).
    { apply q2r_nonneg. unfold conversion_received. apply (mats_qty_nonneg (List.concat (map ve_receipts es))). unfold mats_ok. clear - H3. induction H3 as [|x z xs zs Hx _ IHx]; cbn; [constructor|].
      apply Forall_app. split; [apply Hx|exact IHx]. }
    pose proof (cv_step_agree eps eps_d cfg thr_d cap_d s d en y Se St Mt Sc Pc R H1 ltac:(lra)) as A.
    destruct (cv_step eps cfg s en) as [[s1 o]|? | |], (conv_step_d eps_d thr_d cap_d d y) as [[d1 od]|? | |]; cbn [agree fst snd] in A; try contradiction; [|exact A]. destruct A as (A1 & A2 & A3). cbn [bind].
    specialize (IH _ s1 d1 H3 A1 ltac:(lra)). destruct (cv_run eps cfg s1 es) as [[s2 os]|? | |], (conv_life_d eps_d thr_d cap_d d1 _) as [[d2 ods]|? | |]; cbn [agree bind fst snd] in IH |- *; try contradiction; try exact IH.
    destruct IH as [I1 I2]. split; [exact I1|constructor; auto].
Qed.
End CONVERSION.

(** ** Source *)
Section SOURCE.
Import SourceModel.
Lemma sr_trades_agree eps eg cfg fill trs : (0 <= eg)%Q -> (forall i q, fill i q = [q]) -> forall amts i k b stock, Forall2 (like_amount e) (map fst trs) amts -> (zlen trs <= k)%Z ->
  stands_for stock (b_qty b) -> plain_amount e (b_qty b) -> mats_ok (b_items b) ->
  agree (fun r d => stands_for d (b_qty (fst r)) /\ plain_amount e (b_qty (fst r)) /\ mats_ok (b_items (fst r))) (sr_trade_loop eps eg cfg fill i k trs b) (trades_d amts stock).
Proof.
  intros He Hf. induction trs as [|[amt tg] trs IH]; intros amts i k b stock F K S P O; cbn [map fst] in F; inversion F; subst; cbn [sr_trade_loop]; unfold trades_d; cbn [loop].
  - cbn [agree fst]. auto.
  - rewrite zlen_cons in K. pose proof (zlen_nonneg trs). destruct (Z.ltb 0 k) eqn:Z; [|apply Z.ltb_ge in Z; lia]. unfold b_pop_qty.
    pose proof (pop_agree (b_items b) amt stock y O S P (proj1 H1) (proj2 H1)) as A.
    destruct (items_pop_qty (b_items b) amt) as [[m r]|? | |], (pop_plain_d stock y) as [d|? | |]; cbn [agree fst snd] in A; try contradiction; [|exact A].
    destruct A as (A1 & A2 & A3 & A4 & A5 & A6 & A7). cbn [bind]. rewrite Hf. cbn [split_packages]. unfold extract_qty.
    assert (L : Qltb (m_qty m) (m_qty m) = false) by (apply Qltb_false; apply Qle_refl). rewrite L. cbn [bind m_qty].
    assert (L2 : Qltb eg (m_qty m - m_qty m) = false) by (apply Qltb_false; Lqa.lra). rewrite L2. cbn [bind].
    specialize (IH _ (Datatypes.S i) (k - 1)%Z {| b_cap := b_cap b; b_items := r |} d H3 ltac:(lia) A1 A2 A3). unfold trades_d in IH.
    destruct (sr_trade_loop eps eg cfg fill (Datatypes.S i) (k - 1) trs {| b_cap := b_cap b; b_items := r |}) as [[b3 rs]|? | |], (loop pop_plain_d _ d) as [x|? | |];
      cbn [agree bind fst snd] in IH |- *; try contradiction; exact IH.
Qed.
Lemma sr_run_agree eps eg recipe cfg thr_d : (0 <= eg)%Q -> (sc_recipe cfg = ""%string \/ recipe (sc_recipe cfg) <> None) -> stands_for thr_d (sc_throughput cfg) ->
  forall es steps s stock, Forall2 (source_step_like e) es steps -> source_like e s stock ->
  agree (fun r x => source_like e (fst r) (snd x) /\ Forall2 (fun o y => stands_for y (so_supply o)) (snd r) (fst x)) (sr_run eps eg recipe cfg s es) (source_life_d thr_d steps stock).
Proof.
  intros He Hr St. induction es as [|en es IH]; intros steps s stock F R; inversion F; subst; cbn [sr_run source_life_d].
  - cbn. split; [exact R|constructor].
  - destruct H1 as (U & Sh & F1). destruct R as (S & P & O). unfold sr_step.
    assert (B : exists p, sr_get_bids eg recipe cfg (se_fill_bids en) (se_ship en) (se_reqs en) s = Ok (Qmin (sc_throughput cfg) (b_qty (ss_inv s)), p)).
    { destruct (SourceProofs.bids_ok eg recipe cfg en s Hr) as (q & p & Hb). exists p. rewrite Hb. f_equal. f_equal. unfold sr_get_bids in Hb.
      destruct (Qltb _ eg); [injection Hb as <- _; reflexivity|]. destruct (map snd _); [injection Hb as <- _; reflexivity|]. apply bind_ok in Hb as (bs & _ & Hb). injection Hb as <- _. reflexivity. }
    destruct B as (p & ->). cbn [bind]. unfold sr_get_trades.
    pose proof (sr_trades_agree eps eg cfg (se_fill en) (se_trades en) He U y 0%nat (se_ship en (zlen (se_trades en))) (ss_inv s) stock F1 (Sh _) S P O) as A.
    destruct (sr_trade_loop eps eg cfg (se_fill en) 0 _ (se_trades en) (ss_inv s)) as [[b rs]|? | |], (trades_d y stock) as [d|? | |]; cbn [agree fst snd] in A; try contradiction; [|exact A].
    cbn [bind]. specialize (IH _ {| ss_inv := b |} d H3 A). destruct (sr_run eps eg recipe cfg {| ss_inv := b |} es) as [[s2 os]|? | |], (source_life_d thr_d _ d) as [[of rest]|? | |];
      cbn [agree bind fst snd] in IH |- *; try contradiction; try exact IH. destruct IH as [I1 I2]. split; [exact I1|]. constructor; [|exact I2]. cbn [so_supply]. apply sf_min; auto.
Qed.
End SOURCE.

(** ** Sink *)
Section SINK.
Import SinkModel.
Lemma sk_accept_agree eps eps_d cfg size_d rs : stands_for eps_d eps -> stands_for size_d (kc_max_inv cfg) -> plain_amount e (kc_max_inv cfg) ->
  forall rs_d s q_d, Forall2 (like_amount e) (map r_qty rs) rs_d -> Forall (fun r => (0 <= r_qty r)%Q) rs -> sink_like e s q_d ->
  Q2R (rsrcs_qty (ks_inv s)) + Q2R (qsum (map r_qty rs)) <= pw (e + 53) ->
  agree (fun s1 d => sink_like e s1 d) (sk_accept eps cfg rs s) (sink_accept_d eps_d size_d rs_d q_d).
Proof.
  intros Se Sc Pc. induction rs as [|r rs IH]; intros rs_d s q_d F N R T; cbn [map] in F; inversion F; subst; cbn [sk_accept]; unfold sink_accept_d; cbn [loop].
  - exact R.
  - inversion N; subst. cbn [map] in T. change (qsum (r_qty r :: map r_qty rs)) with (r_qty r + qsum (map r_qty rs))%Q in T. rewrite Q2R_plus in T.
    assert (Nm : 0 <= Q2R (r_qty r)) by (apply q2r_nonneg; auto).
    assert (Ns : 0 <= Q2R (qsum (map r_qty rs))) by (apply q2r_nonneg, SinkProofs.qsum_nonneg, Forall_map; exact H4).
    destruct R as [Si Pi]. assert (Pm : plain_amount e (r_qty r)) by (split; [apply H1|]; destruct Pi as [_ Pi]; lra).
    destruct (room_agree eps (kc_max_inv cfg) (rsrcs_qty (ks_inv s)) (r_qty r) eps_d size_d q_d y Se Sc Si (proj1 H1) Pc Pi Pm) as (R1 & R2 & R3). unfold sink_push_d at 1. rewrite R3.
    unfold sk_space. destruct (Qltb eps (r_qty r - Qmax 0 (kc_max_inv cfg - rsrcs_qty (ks_inv s)))) eqn:L; [cbn; reflexivity|]. cbn [bind].
    set (s1 := {| ks_prefs := ks_prefs s; ks_inv := ks_inv s ++ [r]; ks_amt := ks_amt s; ks_next := ks_next s |}).
    assert (Eq : (rsrcs_qty (ks_inv s1) == rsrcs_qty (ks_inv s) + r_qty r)%Q).
    { unfold s1, rsrcs_qty. cbn [ks_inv]. rewrite map_app, SinkProofs.qsum_app. cbn [map]. change (qsum [r_qty r]) with (r_qty r + 0)%Q. ring. }
    assert (V : Q2R (rsrcs_qty (ks_inv s1)) = Q2R (rsrcs_qty (ks_inv s)) + Q2R (r_qty r)) by (rewrite (Qeq_eqR _ _ Eq), Q2R_plus; reflexivity).
    apply (IH _ s1 (dplus q_d y) H3 H4); [|rewrite V; lra]. split.
    + eapply sf_eq; [|symmetry; exact Eq]. apply (sf_plus e); auto; [apply H1|apply Pi|apply H1|]. destruct Pi as [_ Pi]. rewrite Rabs_pos_eq; lra.
    + split; [eapply mo_eq; [apply mo_plus; [apply Pi|apply H1]|symmetry; exact Eq]|]. destruct Pi as [_ Pi]. rewrite V. lra.
Qed.
Lemma sk_available_agree cfg cap_d size_d s q_d : stands_for cap_d (kc_capacity cfg) -> stands_for size_d (kc_max_inv cfg) -> plain_amount e (kc_max_inv cfg) -> sink_like e s q_d ->
  stands_for (sink_available_d cap_d size_d q_d) (sk_available cfg s).
Proof.
  intros Sc Ss Ps [Si Pi]. unfold sink_available_d, sk_available. apply sf_min; [exact Sc|]. apply sf_max; [apply sf_zero|]. unfold sk_space, sink_space_d. apply sf_max; [apply sf_zero|].
  apply (sf_minus e); auto; [apply Ps|apply Pi|apply pa_diff; auto].
Qed.
Lemma sk_accept_total eps cfg rs s s' : sk_accept eps cfg rs s = Ok s' ->
  ks_prefs s' = ks_prefs s /\ ks_next s' = ks_next s /\ ks_amt s' = ks_amt s /\ Q2R (rsrcs_qty (ks_inv s')) = Q2R (rsrcs_qty (ks_inv s)) + Q2R (qsum (map r_qty rs)).
Proof.
  intro H. destruct (SinkProofs.accept_facts eps cfg rs s s' H) as (A & B & C & D). split; [exact A|]. split; [exact C|]. split; [exact B|].
  unfold rsrcs_qty. rewrite D, map_app, (Qeq_eqR _ _ (SinkProofs.qsum_app _ _)), Q2R_plus. reflexivity.
Qed.
Lemma sk_step_agree eps eps_d eg eg_d recipe cfg cap_d size_d t s q_d en ed :
  stands_for eps_d eps -> stands_for eg_d eg -> stands_for cap_d (kc_capacity cfg) -> stands_for size_d (kc_max_inv cfg) -> plain_amount e (kc_max_inv cfg) ->
  kc_size_type cfg = "None"%string -> kc_commods cfg <> [] -> (kc_recipe cfg = ""%string \/ recipe (kc_recipe cfg) <> None) ->
  sink_ready cfg s -> sink_like e s q_d -> sink_step_like e en ed ->
  Q2R (rsrcs_qty (ks_inv s)) + Q2R (qsum (map m_qty (ke_mats en))) + Q2R (qsum (ke_prods en)) <= pw (e + 53) ->
  agree (fun r x => sink_ready cfg (fst r) /\ sink_like e (fst r) (fst x) /\ sink_out_like (snd r) (snd x) /\
    Q2R (rsrcs_qty (ks_inv (fst r))) = Q2R (rsrcs_qty (ks_inv s)) + Q2R (qsum (map m_qty (ke_mats en))) + Q2R (qsum (ke_prods en)))
    (sk_step eps eg recipe cfg t s en) (sink_step_d eps_d eg_d cap_d size_d q_d ed).
Proof.
  intros Se Sg Sc Ss Ps Ht Hc Hr [Hn Hl] R (Hb & Hd & F1 & F2 & O1 & O2) T.
  pose proof (sk_available_agree cfg cap_d size_d s q_d Sc Ss Ps R) as Sa.
  set (s1 := {| ks_prefs := ks_prefs s; ks_inv := ks_inv s; ks_amt := sk_available cfg s; ks_next := ks_next s |}).
  assert (A1 : exists dm, sk_tick eg cfg (ke_rng en) t s = Ok (s1, dm)).
  { unfold sk_tick, sk_request_amt. rewrite Hn, Ht. cbn [Z.eqb String.eqb Ascii.eqb Bool.eqb ks_amt Pos.eqb]. rewrite <- Hn. destruct (Qltb eg (sk_available cfg s)); [|eexists; reflexivity].
    destruct (kc_commods cfg) as [|c cs] eqn:Ec; [contradiction|]. eexists. reflexivity. }
  destruct A1 as (dm & A1).
  assert (A2 : exists mr, sk_mat_requests eg recipe cfg (ke_rng2 en) s1 = Ok (s1, mr) /\ option_map mq_qty mr = (if Qltb eg (sk_available cfg s) then Some (sk_available cfg s) else None)).
  { unfold sk_mat_requests. change (sk_available cfg s1) with (sk_available cfg s). cbn [ks_amt s1].
    assert (L : Qltb (sk_available cfg s) (sk_available cfg s) = false) by (apply Qltb_false; apply Qle_refl). rewrite L.
    assert (C : exists c, (if String.eqb (kc_recipe cfg) "" then Ok None else match recipe (kc_recipe cfg) with Some c => Ok (Some c) | None => Throw KeyError end) = Ok c).
    { destruct (String.eqb (kc_recipe cfg) "") eqn:Es; [eauto|]. destruct Hr as [Hr|Hr]; [rewrite Hr in Es; discriminate|]. destruct (recipe (kc_recipe cfg)); [eauto|contradiction]. }
    destruct C as (c & ->). cbn [bind]. change (ks_amt s1) with (sk_available cfg s). destruct (Qltb eg (sk_available cfg s)); [|eexists; split; reflexivity].
    change (ks_prefs s1) with (ks_prefs s). rewrite (SinkProofs.requests_items _ (ks_prefs s) (kc_commods cfg) Hl). cbn [bind]. eexists. split; reflexivity. }
  destruct A2 as (mr & A2 & A3). unfold sk_step, sink_step_d. rewrite A1. cbn [bind]. rewrite A2. cbn [bind].
  assert (Q1 : qsum (map r_qty (map rsrc_of_mat (ke_mats en))) = qsum (map m_qty (ke_mats en))) by (rewrite map_map; reflexivity).
  assert (Q2 : qsum (map r_qty (map rsrc_of_prod (ke_prods en))) = qsum (ke_prods en)) by (rewrite map_map; cbn [rsrc_of_prod r_qty]; rewrite map_id; reflexivity).
  assert (N2 : 0 <= Q2R (qsum (ke_prods en))) by (apply q2r_nonneg, SinkProofs.qsum_nonneg; exact O2).
  pose proof (sk_accept_agree eps eps_d cfg size_d (map rsrc_of_mat (ke_mats en)) Se Ss Ps (sd_mats ed) s1 q_d ltac:(rewrite map_map; exact F1)
    ltac:(apply Forall_map; exact O1) R ltac:(rewrite Q1; change (ks_inv s1) with (ks_inv s); lra)) as B.
  destruct (sk_accept eps cfg (map rsrc_of_mat (ke_mats en)) s1) as [s3|? | |] eqn:Ea, (sink_accept_d eps_d size_d (sd_mats ed) q_d) as [q1|? | |]; cbn [agree] in B; try contradiction; [|exact B].
  cbn [bind]. destruct (sk_accept_total _ _ _ _ _ Ea) as (T1 & T2 & T3 & T4). rewrite Q1 in T4. change (ks_inv s1) with (ks_inv s) in T4.
  pose proof (sk_accept_agree eps eps_d cfg size_d (map rsrc_of_prod (ke_prods en)) Se Ss Ps (sd_prods ed) s3 q1 ltac:(rewrite map_map; cbn [rsrc_of_prod r_qty]; rewrite map_id; exact F2)
    ltac:(apply Forall_map; exact O2) B ltac:(rewrite Q2, T4; lra)) as C.
  destruct (sk_accept eps cfg (map rsrc_of_prod (ke_prods en)) s3) as [s4|? | |] eqn:Eb, (sink_accept_d eps_d size_d (sd_prods ed) q1) as [q2|? | |]; cbn [agree] in C; try contradiction; [|exact C].
  destruct (sk_accept_total _ _ _ _ _ Eb) as (U1 & U2 & U3 & U4). rewrite Q2, T4 in U4. cbn [bind agree fst snd]. split; [|split; [exact C|split; [|exact U4]]].
  - split; [rewrite U2, T2; exact Hn|]. rewrite U1, T1. exact Hl.
  - unfold sink_out_like, sink_request_d, sink_amt_d. cbn [so_request ko_mat ko_gen]. rewrite Hb, Hd, A3, (sf_ltb _ _ _ _ Sg Sa). unfold sk_gen_requests. rewrite T3. change (ks_amt s1) with (sk_available cfg s).
    destruct (Qltb eg (sk_available cfg s)); cbn [like_option option_map snd]; auto.
Qed.
Lemma sk_run_agree eps eps_d eg eg_d recipe cfg cap_d size_d :
  stands_for eps_d eps -> stands_for eg_d eg -> stands_for cap_d (kc_capacity cfg) -> stands_for size_d (kc_max_inv cfg) -> plain_amount e (kc_max_inv cfg) ->
  kc_size_type cfg = "None"%string -> kc_commods cfg <> [] -> (kc_recipe cfg = ""%string \/ recipe (kc_recipe cfg) <> None) ->
  forall es eds t s q_d, Forall2 (sink_step_like e) es eds -> sink_ready cfg s -> sink_like e s q_d -> Q2R (rsrcs_qty (ks_inv s)) + Q2R (sink_received es) <= pw (e + 53) ->
  agree (fun r x => sink_like e (fst r) (fst x) /\ Forall2 sink_out_like (snd r) (snd x)) (sk_run eps eg recipe cfg t s es) (sink_life_d eps_d eg_d cap_d size_d q_d eds).
Proof.
  intros Se Sg Sc Ss Ps Ht Hc Hr. induction es as [|en es IH]; intros eds t s q_d F Rd R T; inversion F; subst; cbn [sk_run sink_life_d].
  - cbn. split; [exact R|constructor].
  - assert (V : Q2R (sink_received (en :: es)) = Q2R (qsum (map m_qty (ke_mats en))) + Q2R (qsum (ke_prods en)) + Q2R (sink_received es)).
    { unfold sink_received. cbn [map List.concat]. rewrite (Qeq_eqR _ _ (SinkProofs.qsum_app _ _)), Q2R_plus, (Qeq_eqR _ _ (SinkProofs.qsum_app _ _)), Q2R_plus. reflexivity. }
    assert (N : 0 <= Q2R (sink_received es)).
    { apply q2r_nonneg, SinkProofs.qsum_nonneg. clear - H3. induction H3 as [|x z xs zs Hx _ IHx]; cbn [map List.concat]; [constructor|]. apply Forall_app. split; [|exact IHx].
      destruct Hx as (_ & _ & _ & _ & O1 & O2). apply Forall_app. split; [apply Forall_map; exact O1|exact O2]. }
    pose proof (sk_step_agree eps eps_d eg eg_d recipe cfg cap_d size_d t s q_d en y Se Sg Sc Ss Ps Ht Hc Hr Rd R H1 ltac:(lra)) as A.
    destruct (sk_step eps eg recipe cfg t s en) as [[s1 o]|? | |], (sink_step_d eps_d eg_d cap_d size_d q_d y) as [[d1 od]|? | |]; cbn [agree fst snd] in A; try contradiction; [|exact A].
    destruct A as (A1 & A2 & A3 & A4). cbn [bind]. specialize (IH _ (t + 1)%Z s1 d1 H3 A1 A2 ltac:(lra)).
    destruct (sk_run eps eg recipe cfg (t + 1) s1 es) as [[s2 os]|? | |], (sink_life_d eps_d eg_d cap_d size_d d1 _) as [[d2 ods]|? | |]; cbn [agree bind fst snd] in IH |- *; try contradiction; try exact IH.
    destruct IH as [I1 I2]. split; [exact I1|constructor; auto].
Qed.
End SINK.

(** ** Storage *)
Section STORAGE.
Import StorageModel.
Lemma discrete_agree ready : forall cap cap_d mx mx_d ready_d moved moved_d, stands_for cap_d cap -> multiple_of e cap -> stands_for mx_d mx ->
  Forall2 (like_amount e) (map m_qty ready) ready_d -> Forall2 (like_amount e) (map m_qty moved) moved_d -> Forall mat_ok ready ->
  0 <= Q2R cap -> Q2R cap + Q2R (qty_of (tl ready)) <= pw (e + 53) ->
  Forall2 (like_amount e) (map m_qty (fst (discrete_loop cap mx ready moved))) (fst (discrete_loop_d cap_d mx_d ready_d moved_d)) /\
  Forall2 (like_amount e) (map m_qty (snd (discrete_loop cap mx ready moved))) (snd (discrete_loop_d cap_d mx_d ready_d moved_d)).
Proof.
  induction ready as [|m ready IH]; intros cap cap_d mx mx_d ready_d moved moved_d Sc Mc Sm F Fm O N T; cbn [map] in F; inversion F; subst; cbn [discrete_loop discrete_loop_d].
  - cbn [fst snd]. split; [exact Fm|constructor].
  - rewrite (sf_leb _ _ _ _ Sc Sm). destruct (Qle_bool cap mx) eqn:L; [|cbn [fst snd]; split; auto]. inversion O; subst. cbn [tl] in T.
    assert (Fm' : Forall2 (like_amount e) (map m_qty (moved ++ [m])) (moved_d ++ [y])) by (rewrite map_app; apply Forall2_app; [exact Fm|constructor; [exact H1|constructor]]).
    destruct ready as [|m2 ready].
    + cbn [map] in H3. inversion H3; subst. cbn [discrete_loop discrete_loop_d fst snd]. split; [exact Fm'|constructor].
    + cbn [map] in H3. inversion H3 as [|? y2 ? l2 H6 H7]; subst. inversion H4 as [|? ? O2 O3]; subst. rewrite (Qeq_eqR _ _ (qty_of_cons m2 ready)), Q2R_plus in T.
      pose proof (q2r_nonneg _ (proj1 O2)). pose proof (q2r_nonneg _ (mats_qty_nonneg _ O3)).
      apply IH; auto.
      * apply (sf_plus e); auto; [apply H6|apply H6|]. rewrite Rabs_pos_eq; lra.
      * apply mo_plus; [exact Mc|apply H6].
      * rewrite Q2R_plus. lra.
      * cbn [tl]. rewrite Q2R_plus. lra.
Qed.
Lemma release_agree eps cfg cap cap_d s ready_q ready_d : sc_discrete cfg = true -> stands_for cap_d cap -> stands_for ready_q (qty_of (ss_ready s)) ->
  Forall2 (like_amount e) (map m_qty (ss_ready s)) ready_d -> Forall mat_ok (ss_ready s) -> Q2R (qty_of (ss_ready s)) <= pw (e + 53) ->
  exists s' moved, process_mat eps cfg cap s = Ok (s', moved) /\
  Forall2 (like_amount e) (map m_qty moved) (fst (release_d cap_d ready_q ready_d)) /\
  Forall2 (like_amount e) (map m_qty (ss_ready s')) (snd (release_d cap_d ready_q ready_d)).
Proof.
  intros D Sc Sr F O T. unfold process_mat, release_d. destruct (ss_ready s) as [|m ready] eqn:Er.
  - inversion F; subst. exists s, []. rewrite Er. cbn. split; [reflexivity|]. split; constructor.
  - rewrite <- Er in Sr. cbn [map] in F. inversion F as [|? y ? l H1 H3]; subst. rewrite D. rewrite Er in Sr.
    pose proof (sf_min _ _ _ _ Sc Sr) as Sx. cbv zeta. rewrite (sf_eqb _ _ _ _ Sx Sr). destruct (Qeq_bool (Qmin cap (qty_of (m :: ready))) (qty_of (m :: ready))).
    + cbn [bind]. eexists. eexists. split; [reflexivity|]. cbn [ss_ready fst snd map]. split; [constructor; auto|constructor].
    + inversion O as [|? ? O1 O2]; subst. rewrite (Qeq_eqR _ _ (qty_of_cons m ready)), Q2R_plus in T. pose proof (q2r_nonneg _ (proj1 O1)).
      destruct (discrete_agree (m :: ready) (m_qty m) y (Qmin cap (qty_of (m :: ready))) (dmin cap_d ready_q) (y :: l) [] [] (proj1 H1) (proj2 H1) Sx F (Forall2_nil _) O ltac:(lra) ltac:(cbn [tl]; lra)) as [A B].
      destruct (discrete_loop (m_qty m) (Qmin cap (qty_of (m :: ready))) (m :: ready) []) as [mv rest] eqn:Ed. cbn [bind]. eexists. eexists. split; [reflexivity|]. cbn [ss_ready]. split; [exact A|exact B].
Qed.
End STORAGE.
End GRID.
Section LIFE.
Import ConversionModel.
Lemma conversion_refines e eps eps_d cfg thr_d cap_d es eds : (-1074 <= e <= 900)%Z ->
  stands_for eps_d eps -> stands_for thr_d (vc_throughput cfg) -> multiple_of e (vc_throughput cfg) ->
  stands_for cap_d (vc_capacity cfg) -> plain_amount e (vc_capacity cfg) ->
  Forall2 (conversion_step_like e) es eds -> Q2R (conversion_received es) <= bpow radix2 (e + 53) ->
  agree (fun r x => conversion_like e (fst r) (fst x) /\ Forall2 conversion_out_like (snd r) (snd x))
    (cv_run eps cfg cv_empty es) (conv_life_d eps_d thr_d cap_d conv_empty_d eds).
Proof.
  intros E Se St Mt Sc Pc F T. apply cv_run_agree; auto.
  - assert (P : plain_amount e (qty_of [])) by (split; [apply mo_zero|]; change (qty_of []) with 0%Q; rewrite zero_val; split; [apply Rle_refl|apply bpow_ge_0]).
    unfold conversion_like. cbn [cv_empty vs_input vs_output conv_empty_d cd_in cd_out]. split; [apply sf_zero|]. split; [apply sf_zero|]. split; [exact P|]. split; [exact P|].
    split; [constructor|]. split; [constructor|]. split; cbn; lia.
  - unfold conversion_holds. cbn [cv_empty vs_input vs_output]. change (qty_of []) with 0%Q. rewrite zero_val. lra.
Qed.
End LIFE.
