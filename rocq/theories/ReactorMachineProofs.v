(** Proofs for ReactorMachineProps.v: the machine's arithmetic gives what unbounded integers give. *)
From Coq Require Import Lia Lqa Permutation.
From Verif Require Import Outcome KernelMaterial KernelResBuf KernelFacts ReactorModel ReactorSpec ReactorProofs ReactorTradeProofs ReactorHistory
  DoubleModel DoubleProofs DoubleProps ReactorMachineModel ReactorMachineSpec.
Local Open Scope Z_scope.

Lemma mk_ok n : int32 n -> mk_int n = Ok n.
Proof.
  unfold mk_int, int32. intro H.
  destruct (Z.leb_spec (- 2 ^ 31) n); [|lia]. destruct (Z.ltb_spec n (2 ^ 31)); [|lia]. reflexivity.
Qed.

Section M.
Variable eps : Q.
Variable recipe : string -> option comp.
Variable cfg : rx_cfg.
Hypothesis eps_nonneg : (0 <= eps)%Q.
Hypothesis Hcfg : config_consistent cfg.
Hypothesis Hknown : recipes_known recipe cfg.
Notation inv := (reactor_ok recipe cfg).

Section Fix.
Variables t c : Z.
Variable n : Z.
Hypothesis Hn : 1 <= n.
Hypothesis F : fits_ints cfg t c n.

Lemma limits s : inv s -> 0 <= rb_count (fresh s) <= n_fresh cfg /\ 0 <= rb_count (core s) <= n_core cfg /\ 0 <= rb_count (spent s) <= n_spent cfg.
Proof.
  intro I. destruct (ok_limits _ _ _ I) as (A & B & C). unfold rb_count.
  pose proof (zlen_nonneg (rb_items (fresh s))). pose proof (zlen_nonneg (rb_items (core s))). pose proof (zlen_nonneg (rb_items (spent s))).
  lia.
Qed.

Lemma discharge_m s : inv s -> m_discharge eps cfg s = discharge eps cfg s.
Proof.
  intro I. unfold m_discharge. pose proof (limits s I). pose proof (fi_spent _ _ _ _ F).
  rewrite mk_ok by (unfold int32; lia). reflexivity.
Qed.

Lemma discharge_inv s s' ev ok : inv s -> discharge eps cfg s = Ok (s', ev, ok) -> inv s' /\ cyc s' = cyc s.
Proof.
  intros I. rewrite (discharge_spec eps recipe cfg eps_nonneg Hcfg s I). cbn zeta. set (k := Z.min _ _).
  destruct (n_spent cfg - rb_count (spent s) <? k) eqn:E; intro H; inversion H; subst; clear H; auto.
  apply Z.ltb_ge in E. pose proof (zlen_nonneg (rb_items (core s))). pose proof (cc_batch _ Hcfg).
  destruct (inv_discharged recipe cfg s k I); [unfold k, rb_count in *; lia|lia|]. auto.
Qed.

Lemma load_m s : inv s -> m_load eps cfg s = load eps cfg s.
Proof.
  intro I. unfold m_load. pose proof (limits s I). pose proof (fi_stock _ _ _ _ F). pose proof (cc_fresh _ Hcfg).
  rewrite mk_ok by (unfold int32; lia). reflexivity.
Qed.

Lemma drain_core_m fuel : forall s, inv s -> m_drain_core eps cfg fuel s = drain_core eps cfg fuel s.
Proof.
  induction fuel as [|k IH]; intros s I; [reflexivity|]. cbn [m_drain_core drain_core].
  destruct (0 <? rb_count (core s)); [|reflexivity]. rewrite (discharge_m s I).
  destruct (discharge eps cfg s) as [[[s1 ev] ok]| | |] eqn:E; cbn [bind]; auto.
  destruct ok; auto. rewrite IH; auto. apply (discharge_inv _ _ _ _ I E).
Qed.

Lemma core_int : int32 (n_core cfg).
Proof. unfold int32. pose proof (fi_stock _ _ _ _ F). pose proof (cc_fresh _ Hcfg). pose proof (cc_core _ Hcfg). lia. Qed.

Lemma tick_retired_m s : inv s -> retired cfg t = true -> m_tick_retired eps recipe cfg t s = tick_retired eps recipe cfg t s.
Proof.
  intros I R. unfold m_tick_retired, tick_retired.
  unfold retired in R. apply andb_prop in R as [R1 R2]. apply Bool.negb_true_iff, Z.eqb_neq in R1. apply Z.ltb_lt in R2.
  pose proof (fi_time _ _ _ _ F). pose proof (fi_cycle _ _ _ _ F). destruct (fi_exit _ _ _ _ F) as [|[X _]]; [congruence|].
  rewrite mk_ok by (unfold int32; lia). cbn [bind].
  rewrite (C94_last_transmutation_exact cfg core_int). cbn [bind].
  set (k := if decom_all cfg then n_core cfg else half_up (n_core cfg)).
  assert (0 <= k) as Hk by (unfold k; destruct (decom_all cfg); [apply Hcfg | apply half_up_nonneg, Hcfg]).
  assert (exists s1 e1, (if t =? exit_t cfg + 1 then transmute_core eps recipe k s else Ok (s, [])) = Ok (s1, e1) /\ inv s1)
    as (s1 & e1 & E1 & I1).
  { destruct (t =? exit_t cfg + 1); [|eauto].
    rewrite transmute_core_spec with (cfg := cfg) by auto. eexists _, _. split; [reflexivity|].
    apply (inv_transmute recipe cfg s (Z.to_nat (Z.min k (rb_count (core s)))) I). }
  rewrite E1. cbn [bind]. rewrite (drain_core_m _ s1 I1). reflexivity.
Qed.

Lemma tick_retired_cyc s s' ev : inv s -> tick_retired eps recipe cfg t s = Ok (s', ev) -> cyc s' = cyc s.
Proof.
  intros I H. destruct (tick_retired_ok eps recipe cfg eps_nonneg Hcfg t s I) as (s2 & ev2 & E & _ & _ & R).
  rewrite H in E. inversion E; subst. apply R.
Qed.

(** The part of tick before the scheduled changes. *)
Lemma tick_m s : inv s -> m_tick eps recipe cfg t s = tick eps recipe cfg t s /\
  (forall s' ev, tick eps recipe cfg t s = Ok (s', ev) -> cyc s' = cyc s).
Proof.
  intro I. unfold m_tick, tick. destruct (retired cfg t) eqn:R.
  { split; [apply tick_retired_m; auto|]. intros s' ev. apply tick_retired_cyc; auto. }
  pose proof (cc_batch _ Hcfg).
  assert (exists s1 e1, (if cyc s =? cycle_t cfg then
             let* '(s', e) := transmute_core eps recipe (n_batch cfg) s in Ok (s', e ++ [EvCycleEnd])
           else Ok (s, [])) = Ok (s1, e1) /\ inv s1 /\ cyc s1 = cyc s) as (s1 & e1 & E1 & I1 & C1).
  { destruct (cyc s =? cycle_t cfg); [|eauto].
    rewrite transmute_core_spec with (cfg := cfg) by (auto; lia). cbn [bind]. eexists _, _. split; [reflexivity|].
    destruct (inv_transmute recipe cfg s (Z.to_nat (Z.min (n_batch cfg) (rb_count (core s)))) I). auto. }
  rewrite E1. cbn [bind]. rewrite (discharge_m s1 I1).
  assert (exists s2 e2, (if ((cycle_t cfg <=? cyc s1) && negb (disch s1))%bool then
             let* '(s', e, ok) := discharge eps cfg s1 in Ok (upd_cyc s' (cyc s') ok, e)
           else Ok (s1, [])) = Ok (s2, e2) /\ inv s2 /\ cyc s2 = cyc s1) as (s2 & e2 & E2 & I2 & C2).
  { destruct ((cycle_t cfg <=? cyc s1) && negb (disch s1))%bool; [|eauto].
    pose proof (discharge_inv s1) as D. rewrite (discharge_spec eps recipe cfg eps_nonneg Hcfg s1 I1) in D |- *. cbn zeta in *.
    destruct (_ <? _); cbn [bind]; eexists _, _; (split; [reflexivity|]);
      edestruct D as [D1 D2]; eauto; (split; [apply inv_cyc; auto|exact D2]). }
  rewrite E2. cbn [bind]. rewrite (load_m s2 I2).
  assert (exists s3 e3, (if cycle_t cfg <=? cyc s2 then load eps cfg s2 else Ok (s2, [])) = Ok (s3, e3)
      /\ inv s3 /\ cyc s3 = cyc s2) as (s3 & e3 & E3 & I3 & C3).
  { destruct (cycle_t cfg <=? cyc s2); [|eauto].
    destruct (load_spec eps recipe cfg eps_nonneg Hcfg s2 I2) as (-> & H1 & H2). eexists _, _. split; [reflexivity|].
    destruct (inv_loaded recipe cfg s2 _ I2 H1 H2). auto. }
  rewrite E3. cbn [bind]. split; [reflexivity|].
  destruct (apply_changes_ok recipe cfg Hcfg Hknown t s3 I3) as (s4 & E4 & _ & S4). rewrite E4. cbn [bind].
  intros s' ev H'. inversion H'; subst. destruct S4 as (_ & _ & _ & S4 & _). congruence.
Qed.

Lemma need_bound num p x b : 0 < p -> 0 <= b -> num <= x - p -> - (- num / p) * b <= x / p * b.
Proof.
  intros Hp Hb Hx. apply Z.mul_le_mono_nonneg_r; auto.
  pose proof (Z.div_mod (- num) p ltac:(lia)). pose proof (Z.mod_pos_bound (- num) p Hp).
  pose proof (Z.div_mod x p ltac:(lia)). pose proof (Z.mod_pos_bound x p Hp).
  set (a := - num / p) in *. set (d := x / p) in *. nia.
Qed.

Lemma need_m s : inv s -> 0 <= cyc s <= c -> exit_t cfg <> -1 -> m_need cfg t s = n_need cfg t s.
Proof.
  intros I C X. unfold m_need. pose proof (limits s I). pose proof (fi_stock _ _ _ _ F). pose proof (fi_batch _ _ _ _ F).
  pose proof (fi_cycle _ _ _ _ F). pose proof (fi_time _ _ _ _ F). pose proof (fi_step _ _ _ _ F).
  destruct (fi_exit _ _ _ _ F) as [|X1]; [congruence|]. destruct (fi_need _ _ _ _ F) as [|X2]; [congruence|].
  destruct (cc_period _ Hcfg) as [|P]; [congruence|].
  pose proof (cc_batch _ Hcfg). pose proof (cc_core _ Hcfg). pose proof (cc_fresh _ Hcfg).
  do 5 (rewrite mk_ok by (unfold int32; lia); cbn [bind]).
  rewrite C94_need_exact by (unfold int32; lia).
  unfold n_need. replace (cycle_t cfg + refuel_t cfg =? 0) with false by (symmetry; apply Z.eqb_neq; lia).
  cbn [bind]. cbn zeta.
  pose proof (need_bound (exit_t cfg - t + 1 - (cycle_t cfg + refuel_t cfg - cyc s)) (cycle_t cfg + refuel_t cfg)
    (exit_t cfg + 1 - t + c) (n_batch cfg) P ltac:(lia) ltac:(lia)) as B.
  match goal with |- (if ?z <? _ then _ else _) = _ => destruct (Z.ltb_spec z (2 ^ 31)) as [L|L]; [reflexivity|] end.
  exfalso. lia.
Qed.

Lemma requests_m s : inv s -> 0 <= cyc s <= c -> m_get_requests recipe cfg t s = get_requests recipe cfg t s.
Proof.
  intros I C. unfold m_get_requests, get_requests. pose proof (limits s I). pose proof (fi_stock _ _ _ _ F). 
  rewrite mk_ok by (unfold int32; lia). cbn [bind].
  rewrite mk_ok by (unfold int32; lia). cbn [bind].
  rewrite mk_ok by (unfold int32; lia). cbn [bind].
  destruct (Z.eqb_spec (exit_t cfg) (-1)) as [X|X]; [reflexivity|]. rewrite need_m by auto. reflexivity.
Qed.

Lemma deliver_m s ds : inv s -> zlen ds <= n_core cfg + n_fresh cfg -> m_deliver_phase eps cfg ds s = deliver_phase eps cfg ds s.
Proof.
  intros I L. unfold m_deliver_phase, deliver_phase. destruct ds as [|d ds]; auto.
  unfold m_accept_trades, accept_trades. pose proof (limits s I). pose proof (fi_stock _ _ _ _ F).
  pose proof (zlen_nonneg (d :: ds)).
  rewrite mk_ok by (unfold int32; lia). cbn [bind].
  rewrite mk_ok by (unfold int32; lia). cbn [bind]. reflexivity.
Qed.

Lemma tock_m s : 0 <= cyc s <= c -> m_tock cfg t s = tock cfg t s /\
  (forall s' ev, tock cfg t s = Ok (s', ev) -> 0 <= cyc s' <= c + 1).
Proof.
  intro C. unfold m_tock, tock. destruct (retired cfg t).
  { split; auto. intros s' ev H. inversion H; subst. lia. }
  pose proof (fi_cycle _ _ _ _ F). pose proof (fi_time _ _ _ _ F). pose proof (fi_step _ _ _ _ F).
  rewrite mk_ok by (unfold int32; lia). cbn [bind]. cbn zeta.
  set (s1 := if ((cycle_t cfg + refuel_t cfg <=? cyc s) && (rb_count (core s) =? n_core cfg) && disch s)%bool then upd_cyc s 0 false else s).
  assert (0 <= cyc s1 <= c) as C1.
  { unfold s1. destruct ((_ <=? _) && _ && _)%bool; simpl; lia. }
  clearbody s1. generalize (rb_count (core s) =? n_core cfg). intro full.
  destruct (record_side cfg s1 _); cbn [bind]; [|split; [reflexivity|intros; discriminate] ..].
  rewrite mk_ok by (unfold int32; lia). cbn [bind].
  split; [destruct ((0 <? cyc s1) || full)%bool; reflexivity|].
  intros s' ev H'. inversion H'; subst s'. destruct ((0 <? cyc s1) || full)%bool; simpl; lia.
Qed.
End Fix.

Lemma step_m t c n s e : 1 <= n -> fits_ints cfg t c n -> inv s -> 0 <= cyc s <= c -> step_contract eps recipe cfg t s e ->
  m_step eps recipe cfg t s e = rx_step eps recipe cfg t s e /\
  (forall o, rx_step eps recipe cfg t s e = Ok o -> 0 <= cyc (o_state o) <= c + 1).
Proof.
  intros Hn F I C HC. unfold m_step, rx_step.
  destruct (tick_m t c n Hn F s I) as [T1 T2]. rewrite T1.
  destruct (tick_ok eps recipe cfg eps_nonneg Hcfg Hknown t s I) as (s1 & ev1 & E1 & I1 & _ & _ & _).
  specialize (T2 _ _ E1). rewrite E1. cbn [bind]. rewrite (requests_m t c n Hn F s1 I1) by lia.
  destruct (get_requests_spec recipe cfg Hcfg t s1 I1) as (p & mc & _ & _ & E2 & _).
  destruct (get_bids_spec eps recipe cfg eps_nonneg Hcfg s1 (e_reqs e) I1) as (bids & E3 & _).
  destruct (HC _ _ _ _ _ E1 E2 E3) as (H1 & H2 & H3 & H4).
  destruct (contract_deliv recipe cfg Hcfg _ _ _ _ _ I1 E2 H1 H2) as (H5 & H6).
  destruct (exchange_phase eps recipe cfg eps_nonneg Hcfg s1 (e_pick e) (e_deliv e) I1 (picks_ok eps recipe cfg eps_nonneg Hcfg _ _ _ _ I1 E3 H4) H5 H6 H3)
    as (s2 & resp & s3 & ev3 & E4 & E5 & _ & I2 & I3 & _ & _ & _ & _ & _ & _ & _ & _ & _ & _ & _ & C3 & _).
  rewrite E2. cbn [bind]. rewrite E3. cbn [bind]. rewrite E4. cbn [bind].
  pose proof (limits s1 I1). rewrite (deliver_m t c n F s2 _ I2) by lia. rewrite E5. cbn [bind].
  destruct (tock_m t c n Hn F s3 ltac:(lia)) as [K1 K2]. rewrite K1. split; [reflexivity|].
  intros o Ho. apply bind_ok in Ho as ([s4 ev4] & E6 & Ho). inversion Ho; subst o. simpl. eapply K2; eauto.
Qed.

Lemma fits_next t c n : 1 <= n -> fits_ints cfg t c n -> fits_ints cfg (t + 1) (c + 1) (n - 1).
Proof.
  intros Hn [A B C D E G H J]. constructor; try lia.
  replace (exit_t cfg + 1 - (t + 1) + (c + 1)) with (exit_t cfg + 1 - t + c) by lia. auto.
Qed.

Lemma contract_m t c n s e : 1 <= n -> fits_ints cfg t c n -> inv s -> 0 <= cyc s <= c ->
  (m_step_contract eps recipe cfg t s e <-> step_contract eps recipe cfg t s e).
Proof.
  intros Hn F I C. destruct (tick_m t c n Hn F s I) as [T1 T2].
  destruct (tick_ok eps recipe cfg eps_nonneg Hcfg Hknown t s I) as (s1 & ev1 & E1 & I1 & _ & _ & _).
  specialize (T2 _ _ E1). pose proof (requests_m t c n Hn F s1 I1 ltac:(lia)) as R.
  unfold m_step_contract, step_contract. rewrite T1, E1.
  split; intros H s1' ev1' reqs ev2 bids X; inversion X; subst s1' ev1'; [rewrite <- R|rewrite R]; intros; eapply H; eauto.
Qed.

Lemma run_contract_m es : forall t c s, fits_ints cfg t c (zlen es) -> inv s -> 0 <= cyc s <= c ->
  (m_run_contract eps recipe cfg t s es <-> run_contract eps recipe cfg t s es).
Proof.
  induction es as [|e es IH]; intros t c s F I C; [reflexivity|].
  cbn [m_run_contract run_contract]. pose proof (zlen_cons e es) as Hl. pose proof (zlen_nonneg es).
  assert (1 <= zlen (e :: es)) as H1' by lia. rewrite (contract_m t c _ s e H1' F I C).
  assert (forall o, step_contract eps recipe cfg t s e -> rx_step eps recipe cfg t s e = Ok o ->
    (m_run_contract eps recipe cfg (t + 1) (o_state o) es <-> run_contract eps recipe cfg (t + 1) (o_state o) es)) as G.
  { intros o HC E. destruct (step_m t c _ s e H1' F I C HC) as [_ S2].
    destruct (step_ok eps recipe cfg eps_nonneg Hcfg Hknown t s e I HC) as (o' & E' & _ & I2 & _).
    rewrite E in E'. inversion E'; subst o'. apply (IH (t + 1) (c + 1)); auto.
    replace (zlen es) with (zlen (e :: es) - 1) by lia. apply fits_next; auto. }
  split; intros [H1 H2]; (split; [exact H1|]); destruct (step_m t c _ s e H1' F I C H1) as [S1 _]; intros o Ho.
  - apply (G o H1); auto. apply H2. rewrite S1. auto.
  - rewrite S1 in Ho. apply (G o H1); auto.
Qed.

Lemma run_m es : forall t c s, fits_ints cfg t c (zlen es) -> inv s -> 0 <= cyc s <= c -> run_contract eps recipe cfg t s es ->
  m_run eps recipe cfg t s es = rx_run eps recipe cfg t s es.
Proof.
  induction es as [|e es IH]; intros t c s F I C HC; [reflexivity|].
  cbn [m_run rx_run]. destruct HC as [H1 H2]. pose proof (zlen_cons e es) as Hl. pose proof (zlen_nonneg es).
  assert (1 <= zlen (e :: es)) as H1' by lia.
  destruct (step_m t c _ s e H1' F I C H1) as [S1 S2]. rewrite S1.
  destruct (step_ok eps recipe cfg eps_nonneg Hcfg Hknown t s e I H1) as (o & E & _ & I2 & _).
  rewrite E. cbn [bind]. pose proof (fi_time _ _ _ _ F). pose proof (fi_cycle _ _ _ _ F).
  rewrite mk_ok by (unfold int32; lia). cbn [bind].
  rewrite (IH (t + 1) (c + 1) (o_state o)); auto.
  replace (zlen es) with (zlen (e :: es) - 1) by lia. apply fits_next; auto.
Qed.

Lemma machine_final es t0 s0 : reactor_ok recipe cfg s0 -> fits_ints cfg t0 (cyc s0) (zlen es) ->
  m_run_contract eps recipe cfg t0 s0 es ->
  m_run eps recipe cfg t0 s0 es = rx_run eps recipe cfg t0 s0 es /\
  exists os, m_run eps recipe cfg t0 s0 es = Ok os /\ List.length os = List.length es.
Proof.
  intros I F HM. assert (run_contract eps recipe cfg t0 s0 es) as HC.
  { apply (run_contract_m es t0 (cyc s0) s0); auto. pose proof (fi_step _ _ _ _ F). lia. }
  assert (m_run eps recipe cfg t0 s0 es = rx_run eps recipe cfg t0 s0 es) as E.
  { eapply run_m; eauto. pose proof (fi_step _ _ _ _ F). lia. }
  split; auto. rewrite E. destruct (run_ok eps recipe cfg eps_nonneg Hcfg Hknown es t0 s0 I HC) as (os & H & _ & L). eauto.
Qed.
End M.

Lemma contract_back eps recipe cfg : (0 <= eps)%Q -> config_consistent cfg -> recipes_known recipe cfg ->
  forall es t s, reactor_ok recipe cfg s -> fits_ints cfg t (cyc s) (zlen es) -> run_contract eps recipe cfg t s es -> m_run_contract eps recipe cfg t s es.
Proof.
  intros He Hc Hk es t s I F H. apply (run_contract_m eps recipe cfg He Hc Hk es t (cyc s) s); auto.
  pose proof (fi_step _ _ _ _ F). lia.
Qed.

(** A step in which nobody trades keeps the contract. *)
Lemma quiet_contract eps recipe cfg t s s1 ev f : m_tick eps recipe cfg t s = Ok (s1, ev) -> assemblies s1 = [] ->
  m_run_contract eps recipe cfg t s [{| e_reqs := f; e_pick := []; e_deliv := [] |}].
Proof.
  intros E A. split; [|intros; exact I]. intros s1' ev1 reqs ev2 bids E1 _ _.
  rewrite E in E1. inversion E1; subst. unfold exchange_ok. simpl. rewrite A. simpl.
  split; [apply zlen_nonneg|]. split; [constructor|]. split; [constructor|tauto].
Qed.
