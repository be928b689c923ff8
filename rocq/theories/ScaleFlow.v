(** Source, Mixer and Separations on two scales (C126). *)
From Coq Require Import Lia Lqa.
From Verif Require Import Outcome KernelMaterial KernelResBuf KernelBuf KernelFacts KernelMass KernelBufFacts ScaleSpec ScaleProofs ScaleSimple.
From Verif Require SourceModel MixerModel SeparationsModel SeparationsProofs DivisionProofs DivisionComp DivisionSeparations.
Local Open Scope Q_scope.

Section Scale.
Variable k : Q.
Hypothesis K : 0 < k.
Notation mqty := (more_qty k).

Section Source.
Import SourceModel.
Variable recipe : string -> option comp.
Hypothesis Rc : forall n c, recipe n = Some c -> ~ csum c == 0.
Lemma sr_build_more eps eps' c c' : times k eps eps' -> sr_cfg_more k c c' -> likewise (sr_more k) (sr_build eps recipe c) (sr_build eps' recipe c').
Proof.
  intros E (_ & R & Sz & _). unfold sr_build. rewrite <- R. eapply (like_bind (fun x y => x = y /\ mix k x y)).
  - destruct (String.eqb (sc_recipe c) ""); [split; [reflexivity|apply (mix_nil k K)]|]. destruct (recipe (sc_recipe c)) eqn:X; [|reflexivity]. split; [reflexivity|]. apply mix_refl; eauto.
  - intros x y [_ M]. eapply like_bind; [apply ms_push; [exact K|exact E|apply ms_new|apply mix_cut; eauto]|]. intros b b' B. exact B.
Qed.
Lemma cut_more sh sh' l l' : (forall n, sh n = sh' n) -> Forall2 (times k) l l' -> Forall2 (times k) (cut_to_shippable sh l) (cut_to_shippable sh' l').
Proof.
  intros Sh F. unfold cut_to_shippable. cbv zeta. assert (Z : zlen l = zlen l') by (unfold zlen; rewrite (forall2_len _ _ _ F); reflexivity). rewrite <- Z, <- Sh. destruct (_ && _)%bool; [apply forall2_firstn, F|exact F].
Qed.
Lemma bids_for_more c c' j t t' : sr_cfg_more k c c' -> more k t t' -> forall l l', Forall2 (times k) l l' -> likewise (Forall2 (bid_more k)) (sr_bids_for recipe c j t l) (sr_bids_for recipe c' j t' l').
Proof.
  intros (_ & R & _) T l l' F. induction F as [|x y l l' Hx F IH]; cbn [sr_bids_for]; [constructor|]. rewrite <- R. eapply (like_bind (mix k)).
  - destruct (String.eqb (sc_recipe c) ""); [apply T|]. destruct (recipe (sc_recipe c)) eqn:X; [|reflexivity]. apply mix_refl; eauto.
  - intros a b M. eapply like_bind; [exact IH|]. intros r r' Hr. cbn. constructor; [|exact Hr]. split; [reflexivity|]. cbn. apply mix_cut; auto.
Qed.
Lemma bids_loop_more c c' f f' sh sh' mq mq' : sr_cfg_more k c c' -> fill_more k f f' -> (forall n, sh n = sh' n) -> times k mq mq' ->
  forall l l', Forall2 (more k) l l' -> forall j, likewise (Forall2 (bid_more k)) (sr_bids_loop recipe c f sh mq j l) (sr_bids_loop recipe c' f' sh' mq' j l').
Proof.
  intros C Fi Sh Mq l l' F. induction F as [|x y l l' Hx F IH]; intro j; cbn [sr_bids_loop]; [constructor|].
  eapply like_bind; [apply bids_for_more; [exact C|exact Hx|apply cut_more; [exact Sh|apply Fi, t_min; [exact K|apply Hx|exact Mq]]]|]. intros a b A. eapply like_bind; [apply IH|]. intros r r' Hr. cbn. apply Forall2_app; auto.
Qed.
Lemma filter_more com (l l' : list (string * mat)) : Forall2 (fun x y => fst x = fst y /\ more k (snd x) (snd y)) l l' ->
  Forall2 (more k) (map snd (filter (fun r => String.eqb (fst r) com) l)) (map snd (filter (fun r => String.eqb (fst r) com) l')).
Proof. induction 1 as [|x y l l' [E M] F IH]; cbn; [constructor|]. rewrite <- E. destruct (String.eqb (fst x) com); cbn; [constructor; auto|exact IH]. Qed.
Lemma get_bids_more eg eg' c c' f f' sh sh' rs rs' s s' : times k eg eg' -> sr_cfg_more k c c' -> fill_more k f f' -> (forall n, sh n = sh' n) ->
  Forall2 (fun x y => fst x = fst y /\ more k (snd x) (snd y)) rs rs' -> sr_more k s s' ->
  likewise (fun x y => times k (fst x) (fst y) /\ agree (port_more k) (snd x) (snd y)) (sr_get_bids eg recipe c f sh rs s) (sr_get_bids eg' recipe c' f' sh' rs' s').
Proof.
  intros E C Fi Sh Rs S. pose proof C as (Cc & _ & _ & Ct). unfold sr_get_bids. cbv zeta. pose proof (t_min k K _ _ _ _ Ct (ms_qty k _ _ S)) as M. rewrite (t_ltb k K _ _ _ _ M E). destruct (Qltb _ eg); [split; [exact M|exact I]|].
  rewrite <- Cc. pose proof (filter_more (sc_commod c) _ _ Rs) as F. destruct F as [|x y l l' X F]; [split; [exact M|exact I]|].
  eapply like_bind; [apply bids_loop_more; [exact C|exact Fi|exact Sh|exact M|constructor; eauto]|]. intros a b A. cbn. split; [exact M|]. split; [exact A|exact M].
Qed.
Lemma split_more : forall l l', Forall2 (times k) l l' -> forall m m', more k m m' -> likewise (fun x y => Forall2 (more k) (fst x) (fst y) /\ more k (snd x) (snd y)) (split_packages l m) (split_packages l' m').
Proof.
  intros l l' F. induction F as [|x y l l' X F IH]; intros m m' M; cbn [split_packages]; [split; [constructor|exact M]|]. eapply like_bind; [apply more_extract_qty; eauto|]. intros [p r] [p' r'] [P R].
  eapply like_bind; [apply IH, R|]. intros [ps z] [ps' z'] [Ps Z]. cbn in *. split; [constructor; auto|exact Z].
Qed.
Lemma trade_loop_more eps eps' eg eg' c c' f f' : times k eps eps' -> times k eg eg' -> sr_cfg_more k c c' -> fill_more k f f' ->
  forall ts ts', Forall2 (fun x y => times k (fst x) (fst y) /\ more k (snd x) (snd y)) ts ts' -> forall i n b b', more_store k b b' ->
  likewise (fun x y => more_store k (fst x) (fst y) /\ Forall2 (more_for k) (snd x) (snd y)) (sr_trade_loop eps eg c f i n ts b) (sr_trade_loop eps' eg' c' f' i n ts' b').
Proof.
  intros E Eg C Fi ts ts' F. induction F as [|[a t] [a' t'] l l' [A T] F IH]; intros i n b b' B; cbn [sr_trade_loop]; [split; [exact B|constructor]|]. cbn [fst snd] in *. destruct (Z.ltb 0 n); [|apply IH, B].
  eapply like_bind; [apply ms_pop_qty; eauto|]. intros [m b1] [m' b1'] [M B1]. cbn [fst snd] in *. eapply like_bind; [apply split_more; [apply Fi, M|exact M]|]. intros [ps r] [ps' r'] [Ps R]. cbn [fst snd] in *.
  eapply (like_bind (more_store k)); [rewrite (t_ltb k K _ _ _ _ Eg (proj1 R)); destruct (Qltb eg (m_qty r)); [apply ms_push; auto|exact B1]|]. intros b2 b2' B2. destruct C as (_ & Rn & _). rewrite <- Rn.
  destruct Ps as [|p p' ps ps' P Ps].
  - eapply like_bind; [apply IH, B2|]. intros [b3 rs] [b3' rs'] [B3 Rs]. cbn in *. split; [exact B3|]. constructor; [|exact Rs]. split; [reflexivity|]. cbn.
    destruct (String.eqb (sc_recipe c) ""); (split; cbn; [apply t_0|]); [apply T|apply R].
  - eapply like_bind; [apply IH, B2|]. intros [b3 rs] [b3' rs'] [B3 Rs]. cbn in *. split; [exact B3|]. constructor; [|exact Rs]. split; [reflexivity|]. cbn.
    destruct (String.eqb (sc_recipe c) ""); [|exact P]. split; cbn; [apply P|apply T].
Qed.
Lemma sr_step_more eps eps' eg eg' c c' s s' e e' : times k eps eps' -> times k eg eg' -> sr_cfg_more k c c' -> sr_more k s s' -> sr_env_more k e e' ->
  likewise (fun x y => sr_more k (fst x) (fst y) /\ sr_out_more k (snd x) (snd y)) (sr_step eps eg recipe c s e) (sr_step eps' eg' recipe c' s' e').
Proof.
  intros E Eg C S (F1 & F2 & Sh & Rs & Ts). unfold sr_step, sr_get_trades. eapply like_bind; [apply get_bids_more; eauto|]. intros [q p] [q' p'] [Hq P]. cbn [fst snd] in *.
  eapply (like_bind (fun x y => sr_more k (fst x) (fst y) /\ Forall2 (more_for k) (snd x) (snd y))).
  - assert (Z : zlen (se_trades e) = zlen (se_trades e')) by (unfold zlen; rewrite (forall2_len _ _ _ Ts); reflexivity). rewrite <- Z, <- Sh. eapply like_bind; [apply trade_loop_more; eauto|]. intros [b r] [b' r'] [B R]. split; auto.
  - intros [s1 r] [s1' r'] [H1 R]. cbn in *. split; [exact H1|]. repeat split; auto.
Qed.
Lemma sr_run_more eps eps' eg eg' c c' : times k eps eps' -> times k eg eg' -> sr_cfg_more k c c' -> forall es es', Forall2 (sr_env_more k) es es' -> forall s s', sr_more k s s' ->
  likewise (fun x y => sr_more k (fst x) (fst y) /\ Forall2 (sr_out_more k) (snd x) (snd y)) (sr_run eps eg recipe c s es) (sr_run eps' eg' recipe c' s' es').
Proof.
  intros E Eg C es es' F. induction F as [|e e' l l' He F IH]; intros s s' H; cbn [sr_run]; [split; [exact H|constructor]|].
  eapply like_bind; [apply sr_step_more; eauto|]. intros [s1 o] [s1' o'] [H1 O]. eapply like_bind; [apply IH, H1|]. intros [s2 os] [s2' os'] [H2 Os]. cbn in *. split; [exact H2|]. constructor; auto.
Qed.
End Source.

Section Mixer.
Import MixerModel.
Notation stream2 := (fun x y => xs_ratio x = xs_ratio y /\ times k (xs_size x) (xs_size y) /\ xs_commods x = xs_commods y).
Lemma mx_new_more c c' : mx_cfg_more k c c' -> mx_more k (mx_new c) (mx_new c').
Proof.
  intros (St & _ & O & _). split; [reflexivity|]. split; [|split; [split; [exact O|constructor]|exact I]]. cbn. eapply forall2_map; [exact St|]. intros. apply ms_new.
Qed.
Lemma mx_caps_more eps eps' : times k eps eps' -> forall l l', Forall2 stream2 l l' -> forall bs bs', Forall2 (more_store k) bs bs' -> likewise (Forall2 (more_store k)) (mx_caps eps l bs) (mx_caps eps' l' bs').
Proof.
  intros E l l' F. induction F as [|x y l l' (R & Sz & Co) F IH]; intros bs bs' B; cbn [mx_caps]; [exact B|]. destruct B as [|b b' bs bs' Hb B]; [constructor|].
  eapply (like_bind (more_store k)).
  - rewrite (t_leb k K 0 0 _ _ (t_0 k) Sz). destruct (Qle_bool 0 (xs_size x)); [|exact Hb]. unfold mx_set_cap. rewrite (t_ltb k K _ _ _ _ E (t_minus k _ _ _ _ (ms_qty k _ _ Hb) Sz)). destruct (Qltb eps _); [reflexivity|]. split; [exact Sz|apply Hb].
  - intros b1 b1' B1. eapply like_bind; [apply IH, B|]. intros r r' Hr. cbn. constructor; auto.
Qed.
Lemma ratios_more l l' : Forall2 stream2 l l' -> map xs_ratio l = map xs_ratio l'.
Proof. induction 1 as [|x y l l' (R & _) F IH]; cbn; congruence. Qed.
Lemma mx_enter_more eps eps' c c' s s' : times k eps eps' -> mx_cfg_more k c c' -> mx_more k s s' -> likewise (mx_more k) (mx_enter eps c s) (mx_enter eps' c' s').
Proof.
  intros E (St & _) (R & B & O & X). unfold mx_enter. eapply like_bind; [apply mx_caps_more; eauto|]. intros b b' Hb. cbn. split; [cbn; rewrite (ratios_more _ _ St); reflexivity|]. repeat split; auto; apply O.
Qed.
Lemma mx_target_more rs : forall bs bs' t t', Forall2 (more_store k) bs bs' -> times k t t' -> times k (mx_target t rs bs) (mx_target t' rs bs').
Proof.
  induction rs as [|r rs IH]; intros bs bs' t t' B T; cbn [mx_target]; [exact T|]. destruct B as [|b b' bs bs' Hb B]; [exact T|]. cbv zeta. apply IH; [exact B|]. destruct (Qeq_bool r 0); [exact T|].
  pose proof (t_div k r r _ _ (Qeq_refl r) (ms_qty k _ _ Hb)) as D. rewrite (t_ltb k K _ _ _ _ D T). destruct (Qltb (b_qty b / r) t); auto.
Qed.
Lemma mx_blend_more eps eps' t t' : times k eps eps' -> times k t t' -> forall rs bs bs' a a', Forall2 (more_store k) bs bs' -> agree (more k) a a' ->
  likewise (fun x y => agree (more k) (fst x) (fst y) /\ Forall2 (more_store k) (snd x) (snd y)) (mx_blend eps t a rs bs) (mx_blend eps' t' a' rs bs').
Proof.
  intros E T rs. induction rs as [|r rs IH]; intros bs bs' a a' B A; cbn [mx_blend]; [split; auto|]. destruct B as [|b b' bs bs' Hb B]; [split; [exact A|constructor]|].
  eapply like_bind; [apply ms_pop_tol; [exact K|exact Hb|apply t_mult; [reflexivity|exact T]|exact E]|]. intros [m b1] [m' b1'] [M B1]. cbn [fst snd] in *. cbv zeta.
  eapply like_bind; [apply IH; [exact B|]|].
  - cbn. destruct a, a'; cbn in A; try contradiction; [apply more_absorb; auto|exact M].
  - intros [x y] [x' y'] [X Y]. cbn in *. split; [exact X|]. constructor; auto.
Qed.
Lemma mx_tick_more eps eps' c c' s s' : times k eps eps' -> mx_cfg_more k c c' -> mx_more k s s' ->
  likewise (fun x y => mx_more k (fst x) (fst y) /\ more_named k (snd x) (snd y)) (mx_tick eps c s) (mx_tick eps' c' s').
Proof.
  intros E (_ & Oc & Os & Th) H. pose proof H as (R & B & O & X). unfold mx_tick. eapply (like_bind (mx_more k)).
  - pose proof (ms_qty k _ _ O) as Oq. rewrite (t_ltb k K _ _ _ _ Oq Os). destruct (Qltb (b_qty (xs_output s)) (xc_out_size c)); [|exact H]. cbv zeta. rewrite <- R.
    assert (Tg : times k (Qmin (mx_target (Qmax 0 (xc_out_size c - b_qty (xs_output s))) (xs_ratios s) (xs_bufs s)) (xc_throughput c))
      (Qmin (mx_target (Qmax 0 (xc_out_size c' - b_qty (xs_output s'))) (xs_ratios s) (xs_bufs s')) (xc_throughput c'))).
    { apply t_min; auto. apply mx_target_more; [exact B|]. apply t_max; auto; [apply t_0|]. apply t_minus; auto. }
    rewrite (t_ltb k K 0 0 _ _ (t_0 k) Tg). destruct (Qltb 0 _); [|exact H]. eapply like_bind; [apply mx_blend_more; [exact E|exact Tg|exact B|exact I]|]. intros [a bs] [a' bs'] [A Bs]. cbn [fst snd] in *.
    destruct a, a'; cbn in A; try contradiction; [|reflexivity]. eapply like_bind; [apply ms_push; eauto|]. intros o o' Ho. cbn. split; [reflexivity|]. repeat split; auto; apply Ho.
  - intros s1 s1' H1. cbn. split; [exact H1|]. split; cbn; [rewrite Oc; reflexivity|]. apply ms_qty, H1.
Qed.
Lemma mx_reqs_more eps eps' : times k eps eps' -> forall l l', Forall2 stream2 l l' -> forall i bs bs', Forall2 (more_store k) bs bs' -> Forall2 (mx_req_more k) (mx_reqs eps i l bs) (mx_reqs eps' i l' bs').
Proof.
  intros E l l' F. induction F as [|x y l l' (R & Sz & Co) F IH]; intros i bs bs' B; cbn [mx_reqs]; [constructor|]. destruct B as [|b b' bs bs' Hb B]; [constructor|]. cbv zeta.
  pose proof (ms_space k K _ _ Hb) as Sp. destruct (b_space b) as [sp|], (b_space b') as [sp'|]; cbn in Sp; try contradiction.
  - rewrite (t_ltb k K _ _ _ _ E Sp). destruct (Qltb eps sp); [|apply IH, B]. constructor; [|apply IH, B]. repeat split; auto.
  - constructor; [|apply IH, B]. repeat split; auto.
Qed.
Lemma invs_more l l' : Forall2 (mx_req_more k) l l' -> mx_req_inventories l = mx_req_inventories l'.
Proof. unfold mx_req_inventories. induction 1 as [|x y l l' (A & _ & C) F IH]; cbn; [reflexivity|]. rewrite A, C, IH. reflexivity. Qed.
Lemma demand_more c c' s s' : mx_cfg_more k c c' -> mx_more k s s' -> Forall2 (fun x y => fst x = fst y /\ agree (times k) (snd x) (snd y)) (mx_demand c s) (mx_demand c' s').
Proof.
  intros (St & _) (_ & B & _). unfold mx_demand. revert St B. generalize (xc_streams c) (xc_streams c') (xs_bufs s) (xs_bufs s'). intros l l' bs bs' F. revert bs bs'.
  induction F as [|x y l l' (R & Sz & Co) F IH]; intros bs bs' B; cbn; [constructor|]. destruct B as [|b b' bs bs' Hb B]; cbn; [constructor|]. apply Forall2_app; [|apply IH, B]. rewrite <- Co.
  eapply forall2_map; [apply (forall2_same eq); reflexivity|]. intros p ? <-. split; [reflexivity|]. apply (ms_space k K), Hb.
Qed.
Lemma push_at_more eps eps' m m' : times k eps eps' -> more k m m' -> forall i bs bs', Forall2 (more_store k) bs bs' -> likewise (Forall2 (more_store k)) (mx_push_at eps i m bs) (mx_push_at eps' i m' bs').
Proof.
  intros E M i. induction i as [|i IH]; intros bs bs' B; destruct B as [|b b' bs bs' Hb B]; cbn [mx_push_at]; try reflexivity.
  - eapply like_bind; [apply ms_push; eauto|]. intros x y X. cbn. constructor; auto.
  - eapply like_bind; [apply IH, B|]. intros x y X. cbn. constructor; auto.
Qed.
Lemma mx_accept_more eps eps' iv l l' s s' : times k eps eps' -> Forall2 (more_for k) l l' -> mx_more k s s' -> likewise (mx_more k) (mx_accept eps iv l s) (mx_accept eps' iv l' s').
Proof.
  intros E F (R & B & O & X). unfold mx_accept. eapply (like_bind (Forall2 (more_store k))).
  - eapply like_loop; [|exact F|exact B]. intros b b' x y Hb [Ei M]. rewrite <- Ei. destruct (nth_error iv (fst x)); [|reflexivity]. apply push_at_more; auto.
  - intros b b' Hb. cbn. split; [exact R|]. repeat split; auto; apply O.
Qed.
Lemma mx_sell_more eps eps' l l' s s' : times k eps eps' -> Forall2 (times k) l l' -> mx_more k s s' ->
  likewise (fun x y => mx_more k (fst x) (fst y) /\ Forall2 (more k) (snd x) (snd y)) (mx_sell eps l s) (mx_sell eps' l' s').
Proof.
  intros E F (R & B & O & X). unfold mx_sell. eapply (like_bind (fun x y => more_store k (fst x) (fst y) /\ Forall2 (more k) (snd x) (snd y))).
  - eapply like_loop; [|exact F|split; [exact O|constructor]]. intros b b' x y [Hb Hs] Q. eapply like_bind; [apply ms_pop_tol; eauto|]. intros [m r] [m' r'] [M Hr]. cbn in *. split; [exact Hr|]. apply Forall2_app; auto.
  - intros [b m] [b' m'] [Hb M]. cbn in *. split; [|exact M]. split; [exact R|]. repeat split; auto; apply Hb.
Qed.
Lemma mx_step_more eps eps' c c' s s' e e' : times k eps eps' -> mx_cfg_more k c c' -> mx_more k s s' -> mx_env_more k e e' ->
  likewise (fun x y => mx_more k (fst x) (fst y) /\ mx_out_more k (snd x) (snd y)) (mx_step eps c s e) (mx_step eps' c' s' e').
Proof.
  intros E C H [Sa Re]. unfold mx_step. eapply like_bind; [apply mx_tick_more; eauto|]. intros [s1 u] [s1' u'] [H1 U]. cbn [fst snd] in *. eapply like_bind; [apply mx_sell_more; eauto|]. intros [s2 m] [s2' m'] [H2 M]. cbn [fst snd] in *. cbv zeta.
  assert (Rq : Forall2 (mx_req_more k) (mx_requests eps c s1) (mx_requests eps' c' s1')) by (apply mx_reqs_more; [exact E|apply C|apply H1]). rewrite <- (invs_more _ _ Rq).
  eapply like_bind; [apply mx_accept_more; eauto|]. intros s3 s3' H3. cbn. split; [exact H3|]. split; [exact H1|]. split; [exact U|]. split; [apply demand_more; auto|]. split; auto.
Qed.
Lemma mx_run_more eps eps' c c' : times k eps eps' -> mx_cfg_more k c c' -> forall es es', Forall2 (mx_env_more k) es es' -> forall s s', mx_more k s s' ->
  likewise (fun x y => mx_more k (fst x) (fst y) /\ Forall2 (mx_out_more k) (snd x) (snd y)) (mx_run eps c s es) (mx_run eps' c' s' es').
Proof.
  intros E C es es' F. induction F as [|e e' l l' He F IH]; intros s s' H; cbn [mx_run]; [split; [exact H|constructor]|].
  eapply like_bind; [apply mx_step_more; eauto|]. intros [s1 o] [s1' o'] [H1 O]. eapply like_bind; [apply IH, H1|]. intros [s2 os] [s2' os'] [H2 Os]. cbn in *. split; [exact H2|]. constructor; auto.
Qed.
End Mixer.
End Scale.
