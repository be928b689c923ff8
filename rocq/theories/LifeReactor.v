(** C136: what a reactor lives through in a network is a history of the reactor's model. *)
From Coq Require Import Lia Lqa Permutation.
From Verif Require Import Outcome KernelMaterial KernelResBuf KernelBuf KernelFacts KernelMass NetworkSpec SimulationSpec SimulationProofs SimulationReactor LifeSpec LifeProofs.
From Verif Require Import ReactorModel ReactorSpec ReactorProofs ReactorTradeProofs ReactorHistory ReactorCycle ReactorRetire ReactorLogSpec ReactorCalendar.
Local Open Scope Q_scope.

Lemma rx_snoc eps recipe c e : forall es t s os o, ReactorModel.rx_run eps recipe c t s es = Ok os ->
  ReactorModel.rx_step eps recipe c (t + Z.of_nat (List.length es)) (ReactorSpec.end_state s os) e = Ok o -> ReactorModel.rx_run eps recipe c t s (es ++ [e]) = Ok (os ++ [o]).
Proof.
  induction es as [|a es IH]; intros t s os o H T; cbn [app ReactorModel.rx_run] in *.
  - injection H as <-. cbn in T. rewrite Z.add_0_r in T. unfold ReactorSpec.end_state in T. cbn in T. rewrite T. reflexivity.
  - apply bind_ok in H as (x & T1 & H). apply bind_ok in H as (os1 & R & H). injection H as <-. rewrite T1. cbn [bind].
    rewrite (IH _ _ _ o R); [reflexivity|]. cbn [List.length] in T. replace (t + 1 + Z.of_nat (List.length es))%Z with (t + Z.of_nat (S (List.length es)))%Z by lia.
    replace (ReactorSpec.end_state (ReactorModel.o_state x) os1) with (ReactorSpec.end_state s (x :: os1)); [exact T|]. unfold ReactorSpec.end_state. cbn [map].
    destruct os1 as [|y os1]; [reflexivity|]. cbn [map]. generalize (ReactorModel.o_state y) (map ReactorModel.o_state os1). intros a0 l. revert a0. induction l as [|b l IHl]; intro a0; [reflexivity|].
    change (last (b :: l) s = last (b :: l) (ReactorModel.o_state x)). apply IHl.
Qed.
Lemma last_cons_default {A} (l : list A) a d d' : last (a :: l) d = last (a :: l) d'.
Proof. revert a. induction l as [|b l IH]; intro a; [reflexivity|]. change (last (b :: l) d = last (b :: l) d'). apply IH. Qed.
Lemma end_state_cons s x os : ReactorSpec.end_state s (x :: os) = ReactorSpec.end_state (ReactorModel.o_state x) os.
Proof. unfold ReactorSpec.end_state. destruct os as [|y os]; [reflexivity|]. cbn [map]. apply (last_cons_default (map ReactorModel.o_state os) (ReactorModel.o_state y)). Qed.
Lemma contract_snoc eps recipe c e : forall es t s os, ReactorModel.rx_run eps recipe c t s es = Ok os -> ReactorSpec.run_contract eps recipe c t s es ->
  ReactorSpec.step_contract eps recipe c (t + Z.of_nat (List.length es)) (ReactorSpec.end_state s os) e -> ReactorSpec.run_contract eps recipe c t s (es ++ [e]).
Proof.
  induction es as [|a es IH]; intros t s os H K T; cbn [app ReactorModel.rx_run ReactorSpec.run_contract] in *.
  - injection H as <-. cbn in T. rewrite Z.add_0_r in T. split; [exact T|]. intros; exact I.
  - destruct K as [K1 K2]. split; [exact K1|]. intros o O. apply bind_ok in H as (x & T1 & H). apply bind_ok in H as (os1 & R & H). injection H as <-.
    assert (x = o) by congruence. subst x. apply (IH _ _ os1 R (K2 _ O)). rewrite end_state_cons in T.
    replace (t + 1 + Z.of_nat (List.length es))%Z with (t + Z.of_nat (List.length (a :: es)))%Z by (cbn [List.length]; lia). exact T.
Qed.
Lemma reac_contract w t id id' c s p n : world_ok w -> good w t id (Reac c s) -> publish w t (pg_told p) (Reac c s) = Ok n -> sales_ok n (pg_sold p) -> buys_ok n (map fst (pg_got p)) ->
  Forall (as_agreed id id') (pg_got p) -> NoDup (map (fun x => m_id (snd x)) (pg_got p)) -> ReactorSpec.step_contract (w_eps w) (w_recipe w) c t s (reac_day p).
Proof.
  intros (EP & _ & RO) (C & K & I & IB & RE) PB HS HR AR ND s1 ev1 rs0 ev2 bs T RQ BD. cbn [publish] in PB. rewrite T in PB. cbn [bind] in PB. rewrite RQ in PB. cbn [bind] in PB.
  cbn [reac_day ReactorModel.e_reqs] in BD. rewrite BD in PB. cbn [bind] in PB. injection PB as <-.
  destruct (tick_ok (w_eps w) (w_recipe w) c EP C K t s I) as (s1' & ev1' & T' & I1 & M1 & _ & _). rewrite T in T'. injection T' as <- <-.
  destruct (get_requests_spec (w_recipe w) c C t s1 I1) as (p0 & mc & PO & _ & RQ' & ON). rewrite RQ in RQ'. injection RQ' as -> _.
  destruct (portfolio_spec (w_recipe w) c s1 I1) as (p' & PO' & _ & PF). rewrite PO in PO'. injection PO' as <-.
  pose proof (ids_by_tags (fun k => (k < id)%Z) _ _ M1 IB) as IB1. cbv beta in IB1.
  pose proof (ReactorSpec.cc_assem _ C) as AP. set (rs := repeat p0 (Z.to_nat (order_size c t s1))) in *.
  assert (UA : Forall (fun k => ak_limit k = Some (ReactorModel.assem c) /\ ak_unit k = Some (ReactorModel.assem c))
     (map (fun p0 : list ReactorModel.request => {| ak_commods := map ReactorModel.r_commod p0; ak_limit := Some (ReactorModel.assem c); ak_unit := Some (ReactorModel.assem c) |}) rs)).
  { apply Forall_map. apply Forall_forall. intros x _. split; reflexivity. }
  destruct (exclusive_count _ _ _ HR AP UA) as [NB AB]. cbn [n_asks] in NB. rewrite !zlen_map_ in NB.
  unfold ReactorSpec.exchange_ok. cbn [reac_day ReactorModel.e_pick ReactorModel.e_deliv]. split; [rewrite zlen_map_; exact NB|]. split; [|split].
  - destruct HR as [HR _]. apply Forall_map. cbn [fst snd]. apply Forall_forall. intros x X. cbn [n_asks] in HR.
    rewrite Forall_forall in HR, AB, AR. specialize (HR (fst x) (in_map _ _ _ X)). specialize (AB (fst x) (in_map _ _ _ X)). destruct (AR x X) as (_ & E & _).
    apply nth_error_In, in_flat_map in HR as (k & Kin & Cin). apply in_map_iff in Kin as (q & <- & Pin). cbn [ak_commods] in Cin. apply in_map_iff in Cin as (r & R1 & Rin).
    exists q, r. split; [exact Pin|]. split; [exact Rin|]. split; [symmetry; exact R1|]. rewrite E, AB.
    unfold rs in Pin. apply repeat_spec in Pin. subst q. apply In_nth_error in Rin as (j & J). destruct (PF _ _ J) as (rn & X1 & X2). destruct X2 as (_ & _ & _ & X2). rewrite X2. reflexivity.
  - assert (EM : map (fun d : string * mat => m_id (snd d)) (map (fun d : trade * mat => (t_commod (fst d), snd d)) (pg_got p)) = map (fun x : trade * mat => m_id (snd x)) (pg_got p)) by (rewrite map_map; reflexivity).
    rewrite EM. apply NoDup_join; [exact ND|apply (ReactorSpec.ok_distinct _ _ _ I1)|]. intros k K1 K2. apply in_map_iff in K1 as (x & <- & X). apply in_map_iff in K2 as (m & E & M).
    rewrite Forall_forall in AR, IB1. destruct (AR x X) as (_ & _ & _ & LB & _). specialize (IB1 m M). cbv beta in IB1. lia.
  - destruct HS as [HS HL]. cbn [n_offers] in HS, HL.
    assert (SA : Forall (fun d => t_amt d == ReactorModel.assem c) (pg_sold p)).
    { eapply Forall_impl; [|exact HS]. intros d (_ & _ & _ & o & O & _ & F). apply in_map_iff in O as (b & <- & _). exact F. }
    intros k Kin. apply in_map_iff in Kin as (d & <- & D).
    rewrite Forall_forall in HS. destruct (HS d D) as (_ & _ & _ & o & O & E & _). pose proof (HL o O) as LO. apply in_map_iff in O as (b & <- & B). cbn [of_commod of_limit] in *.
    exists b. split; [exact B|]. split; [exact E|]. rewrite count_filter, <- E, <- (total_alike (ReactorModel.assem c)); [exact LO|].
    apply Forall_forall. intros x X. apply filter_In in X as [X _]. rewrite Forall_forall in SA. apply SA, X.
Qed.
Lemma reac_line w t0 c s0 t id ps f : world_ok w -> line w t0 (Reac c s0) t id ps f ->
  exists os, rx_run (w_eps w) (w_recipe w) c t0 s0 (map reac_day ps) = Ok os /\ run_contract (w_eps w) (w_recipe w) c t0 s0 (map reac_day ps) /\
    f = Reac c (end_state s0 os) /\ Forall2 (reac_page c) ps os.
Proof.
  intros W H. induction H as [id D G|t id id' ps f p H IH T GD PT SG PB HS HR AR ND ST].
  - exists []. cbn. repeat split; constructor.
  - destruct IH as (os & R & K & -> & F). pose proof (line_time _ _ _ _ _ _ _ H) as TM.
    pose proof (reac_contract w t id id' c _ p (pg_said p) W GD PB HS HR AR ND) as SC.
    cbn [fstep] in ST. apply bind_ok in ST as (o & ST & X). change (rx_step (w_eps w) (w_recipe w) c t (end_state s0 os) (reac_day p) = Ok o) in ST. injection X as NW SN.
    exists (os ++ [o]). rewrite map_app. cbn [map]. rewrite TM in ST, SC, PB.
    split; [apply rx_snoc; [exact R|rewrite map_length; exact ST]|]. split; [apply (contract_snoc _ _ _ _ _ _ _ _ R K); rewrite map_length; exact SC|].
    split; [rewrite <- NW; unfold end_state; rewrite map_app; cbn [map]; rewrite last_last; reflexivity|].
    apply Forall2_app; [exact F|]. constructor; [|constructor]. split; [symmetry; exact NW|]. split; [symmetry; exact SN|].
    unfold rx_step in ST. cbn [publish] in PB. cbn [reac_day e_reqs e_pick e_deliv] in ST.
    apply bind_ok in ST as ([s1 ev1] & TK & ST). rewrite TK in PB. cbn [bind] in PB.
    apply bind_ok in ST as ([rs ev2] & RQ & ST). rewrite RQ in PB. cbn [bind] in PB.
    apply bind_ok in ST as (bs & BD & ST). rewrite BD in PB. cbn [bind] in PB. injection PB as PB. rewrite <- PB. cbn [n_asks n_offers].
    apply bind_ok in ST as ([s2 resp] & _ & ST). apply bind_ok in ST as ([s3 ev3] & _ & ST). apply bind_ok in ST as ([s4 ev4] & _ & ST). injection ST as <-. cbn [o_reqs o_bids].
    rewrite !map_map. split; reflexivity.
Qed.
Lemma reac_life w t0 t id fs i c s0 ps : world_ok w -> diary w t0 t id fs i (Reac c s0) ps ->
  exists os, rx_history (w_eps w) (w_recipe w) c t0 s0 (map reac_day ps) os /\ nth_error fs i = Some (Reac c (end_state s0 os)) /\ Forall2 (reac_page c) ps os /\
    t = (t0 + Z.of_nat (List.length ps))%Z /\ assemblies s0 = [].
Proof.
  intros W D. destruct (diary_line _ _ _ _ _ _ _ _ W D) as (f & Nf & L). destruct (reac_line _ _ _ _ _ _ _ _ W L) as (os & R & K & -> & F).
  pose proof (line_deployed _ _ _ _ _ _ _ L) as (C & KN & OK & AS). exists os. split; [|split; [exact Nf|split; [exact F|split; [exact (line_time _ _ _ _ _ _ _ L)|exact AS]]]].
  constructor; try assumption. apply W.
Qed.
Lemma reac_supplied w t0 t id fs i c s0 ps os : world_ok w -> diary w t0 t id fs i (Reac c s0) ps -> (1 <= cycle_t c)%Z -> (0 <= refuel_t c)%Z ->
  (exit_t c = -1)%Z -> (cyc s0 = 0)%Z -> disch s0 = false -> (Z.min (n_batch c) (n_core c) <= n_spent c)%Z ->
  Forall (fun p => List.length (pg_got p) = List.length (n_asks (pg_said p)) /\ forall s, pg_now p = Reac c s -> rb_items (spent s) = []) ps ->
  rx_run (w_eps w) (w_recipe w) c t0 s0 (map reac_day ps) = Ok os ->
  let period := (cycle_t c + refuel_t c)%Z in
  forall j o, nth_error os j = Some o ->
  (has EvCycleStart o <-> (Z.of_nat j mod period = 0)%Z) /\ power_record o = [if (Z.of_nat j mod period <? cycle_t c)%Z then power_cap c else 0%Q].
Proof.
  intros W D Hc Hr HX HC HD HN HA RU period. destruct (reac_life _ _ _ _ _ _ _ _ _ W D) as (os' & H & _ & F & _ & AS).
  assert (os' = os) by (destruct H; congruence). subst os'.
  apply (supplied t0 s0 _ os H Hc Hr HX HC HD); [|exact HN|].
  - unfold assemblies in AS. apply app_eq_nil in AS as [_ AS]. apply app_eq_nil in AS. apply AS.
  - intros k e o Ek Eo. rewrite nth_error_map in Ek. destruct (nth_error ps k) as [p|] eqn:Ep; [|discriminate]. injection Ek as <-.
    assert (P : reac_page c p o). { clear -F Ep Eo. revert k Ep Eo. induction F as [|a b ps os X F IH]; intros [|k] A B; cbn in *; try discriminate; [congruence|eauto]. }
    rewrite Forall_forall in HA. destruct (HA p (nth_error_In _ _ Ep)) as [L E]. destruct P as (P1 & _ & P3 & _). split; [|exact (E _ P1)].
    unfold zlen. cbn [reac_day e_deliv]. rewrite map_length, L. f_equal. apply (f_equal (@List.length _)) in P3. rewrite !map_length in P3. exact P3.
Qed.
