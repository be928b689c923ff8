(** Property C138: the unit in which masses are counted does not matter to a simulation.  Statements use SimulationSpec.v, ScaleSpec.v and UnitSpec.v; proofs are a single [exact]; the example counts the
    masses of the network of SimulationProps.v in grams instead of kilograms. *)
From Coq Require Import Lia Lqa.
From Verif Require Import Outcome KernelMaterial KernelResBuf KernelBuf NetworkSpec SimulationSpec SimulationProps ScaleSpec ScaleProofs UnitSpec UnitProofs UnitExists.
From Verif Require ReactorModel ReactorSpec SinkModel SourceModel FuelFabModel.
Local Open Scope Q_scope.

(** ** The example: a source, a reactor and a sink for two time steps, in kilograms *)
Definition un_moves : list move := [Deploy 0 (Srce sm_src sm_src0); Deploy 0 (Reac sm_rx sm_rx0); Deploy 0 (Snk sm_sink sm_sink0); Trade sm_sig sm_ds0; Trade sm_sig sm_ds1].
Example un_deployed : forall f, In f sm_fs0 -> deployed sm_w 0 f.
Proof.
  intros f [<-|[<-|[<-|[]]]].
  - split; [cbn; lra|reflexivity].
  - split; [split; cbn; (lia || lra || reflexivity || discriminate || (left; reflexivity) || idtac)|]. split; [constructor|]. split; [|reflexivity].
    split; cbn; try (repeat split; (lia || reflexivity)); try constructor; repeat constructor; discriminate.
  - split; [cbn; lra|]. split; [cbn; lra|]. split; [discriminate|]. split; [left; reflexivity|]. exists sm_rng. reflexivity.
Qed.
Example un_plays : plays sm_w 0 un_moves 2 3 sm_fs2.
Proof.
  pose proof (pl_deploy sm_w 0 _ _ _ _ (Srce sm_src sm_src0) (pl_start sm_w 0) (un_deployed _ (or_introl eq_refl))) as A1.
  pose proof (pl_deploy sm_w 0 _ _ _ _ (Reac sm_rx sm_rx0) A1 (un_deployed _ (or_intror (or_introl eq_refl)))) as A2.
  pose proof (pl_deploy sm_w 0 _ _ _ _ (Snk sm_sink sm_sink0) A2 (un_deployed _ (or_intror (or_intror (or_introl eq_refl))))) as A3.
  pose proof (pl_trade sm_w 0 _ _ _ _ sm_sig sm_ds0 sm_fs1 sm_sent0 A3 sm_signals sm_orderly0 sm_step0) as A4.
  exact (pl_trade sm_w 0 _ _ _ _ sm_sig sm_ds1 sm_fs2 sm_sent1 A4 sm_signals sm_orderly1 sm_step1).
Qed.
(** and in grams. *)
Definition un_w : world := {| w_eps := 1; w_eg := 1; w_nz := w_nz sm_w; w_D := w_D sm_w; w_V := w_V sm_w; w_aw := w_aw sm_w; w_recipe := sm_recipe |}.
Definition un_src : SourceModel.sr_cfg := {| SourceModel.sc_commod := "fuel"; SourceModel.sc_recipe := "fresh"; SourceModel.sc_inv_size := 100000; SourceModel.sc_throughput := 20000 |}.
Definition un_rx : ReactorModel.rx_cfg :=
  {| ReactorModel.n_batch := 1; ReactorModel.n_core := 1; ReactorModel.n_fresh := 0; ReactorModel.n_spent := 1; ReactorModel.assem := 10000;
     ReactorModel.cycle_t := 1; ReactorModel.refuel_t := 0; ReactorModel.power_cap := 5; ReactorModel.incommods := ["fuel"%string]; ReactorModel.outcommods := ["spent"%string];
     ReactorModel.side_products := []; ReactorModel.side_qty := []; ReactorModel.decom_all := false; ReactorModel.pc_times := []; ReactorModel.pc_commods := []; ReactorModel.pc_vals := [];
     ReactorModel.rc_times := []; ReactorModel.rc_commods := []; ReactorModel.rc_in := []; ReactorModel.rc_out := []; ReactorModel.exit_t := -1 |}.
Definition un_sink : SinkModel.sk_cfg := {| SinkModel.kc_commods := ["spent"%string]; SinkModel.kc_prefs := []; SinkModel.kc_recipe := ""; SinkModel.kc_max_inv := 50000; SinkModel.kc_capacity := 30000;
  SinkModel.kc_size_type := "None"; SinkModel.kc_size_mean := 1; SinkModel.kc_size_stddev := 1; SinkModel.kc_freq_type := "None"; SinkModel.kc_freq_mean := 1; SinkModel.kc_freq_stddev := 1;
  SinkModel.kc_freq_min := 1; SinkModel.kc_freq_max := 1 |}.
Definition un_src0 : SourceModel.sr_state := get {| SourceModel.ss_inv := new_buf |} (SourceModel.sr_build 1 sm_recipe un_src).
Definition un_new : ReactorModel.rx_state := ReactorModel.rx_new un_rx ["fresh"%string] ["used"%string] [1] 0.
Definition un_rx0 : ReactorModel.rx_state := get un_new (ReactorModel.enter_notify un_rx un_new).
Definition un_sink0 : SinkModel.sk_state := get (SinkModel.sk_new un_sink) (SinkModel.sk_enter un_sink sm_rng 0 (SinkModel.sk_new un_sink)).
Definition un_sig (i : nat) : signal :=
  {| g_reqs := fun c => if String.eqb c "spent" then [30000] else []; g_wants := [("fuel"%string, Mat 0 10000 sm_fresh)]; g_rng := sm_rng; g_rng2 := sm_rng |}.
Definition un_fuel : trade := {| t_from := 0; t_to := 1; t_commod := "fuel"; t_slot := 0; t_amt := 10000; t_want := sm_fresh |}.
Definition un_spent : trade := {| t_from := 1; t_to := 2; t_commod := "spent"; t_slot := 0; t_amt := 10000; t_want := sm_fresh |}.
Definition un_moves' : list move := [Deploy 0 (Srce un_src un_src0); Deploy 0 (Reac un_rx un_rx0); Deploy 0 (Snk un_sink un_sink0); Trade un_sig [un_fuel]; Trade un_sig [un_spent; un_fuel]].
Example un_world : world_more 1000 sm_w un_w.
Proof. split; [vm_compute; reflexivity|]. split; [vm_compute; reflexivity|reflexivity]. Qed.
Example un_signals : forall i, signal_more 1000 (sm_sig i) (un_sig i).
Proof.
  assert (R : rng_more 1000 sm_rng sm_rng) by (unfold rng_more; repeat apply conj; cbn; intros; auto).
  intro i. split; [|split; [|split; exact R]].
  - intro c. cbn. destruct (String.eqb c "spent"); [repeat constructor|constructor].
  - constructor; [|constructor]. split; [reflexivity|]. split; [vm_compute; reflexivity|]. apply mix_refl. cbn. lra.
Qed.
Example un_same : Forall2 (move_more 1000 un_w) un_moves un_moves'.
Proof.
  constructor; [|constructor; [|constructor; [|constructor; [|constructor; [|constructor]]]]].
  - split; [reflexivity|]. split.
    + split; [repeat split; vm_compute; reflexivity|]. split; [exact I|]. cbn. constructor; [|constructor]. split; [vm_compute; reflexivity|]. apply mix_refl. vm_compute. discriminate.
    + split; [cbn; lra|reflexivity].
  - split; [reflexivity|]. split.
    + split; [split; [vm_compute; reflexivity|reflexivity]|]. repeat split; try (vm_compute; reflexivity); constructor.
    + split; [split; cbn; (lia || lra || reflexivity || discriminate || (left; reflexivity) || idtac)|]. split; [constructor|]. split; [|reflexivity].
      split; cbn; try (repeat split; (lia || reflexivity)); try constructor; repeat constructor; discriminate.
  - split; [reflexivity|]. split.
    + split; [repeat split; vm_compute; reflexivity|]. split; [reflexivity|]. split; [constructor|]. split; [vm_compute; reflexivity|reflexivity].
    + split; [cbn; lra|]. split; [cbn; lra|]. split; [discriminate|]. split; [left; reflexivity|]. exists sm_rng. reflexivity.
  - split; [exact un_signals|]. constructor; [|constructor]. repeat split.
  - split; [exact un_signals|]. constructor; [|constructor; [|constructor]]; repeat split.
Qed.

(** Take a scenario (which facilities are started and retired when, what they are told and draw, which trades the exchange decides on) and count all masses in it in a unit [k] times smaller: sizes, throughputs,
    requests, random amounts, trades and tolerances become [k] times as large.  If the scenario can be played, so can the other one, to the same time and the same numbers of objects; and at its end there are the same facilities
    with [k] times as much in them, parcel by parcel and nuclide by nuclide. *)
Theorem C138_unit : forall k w w' id0 ms ms' t id fs, 0 < k -> world_ok w -> world_more k w w' -> plays w id0 ms t id fs -> Forall2 (move_more k w') ms ms' ->
  exists fs', plays w' id0 ms' t id fs' /\ Forall2 (scaled k) fs fs' /\ Forall2 (more k) (stock fs) (stock fs').
Proof. exact scenario. Qed.
Example C138_unit_case : 0 < 1000 /\ world_ok sm_w /\ world_more 1000 sm_w un_w /\ plays sm_w 0 un_moves 2 3 sm_fs2 /\ Forall2 (move_more 1000 un_w) un_moves un_moves' /\
  map (fun f => Qred (qty_of (inside f))) sm_fs2 = [80; 10; 10].
Proof. split; [reflexivity|]. split; [exact sm_world|]. split; [exact un_world|]. split; [exact un_plays|]. split; [exact un_same|]. vm_compute. reflexivity. Qed.
Print Assumptions C138_unit.
(** The scenarios lead to the networks of C128, and to no others. *)
Theorem C138_scenarios : forall w t id fs, reached w t id fs <-> exists id0 ms, plays w id0 ms t id fs.
Proof. exact scenarios. Qed.
Example C138_scenarios_case : plays sm_w 0 un_moves 2 3 sm_fs2.
Proof. exact un_plays. Qed.
Print Assumptions C138_scenarios.
(** Every scenario has a counterpart in the other unit: every facility that can be started can be started [k] times as large, and the other scenario can be played as well. *)
Theorem C138_counterpart : forall k w w', 0 < k -> world_ok w -> world_more k w w' -> forall id0 ms t id fs, plays w id0 ms t id fs -> Forall plain ms ->
  exists ms' fs', Forall2 (move_more k w') ms ms' /\ plays w' id0 ms' t id fs' /\ Forall2 (scaled k) fs fs'.
Proof. exact counterpart. Qed.
Example C138_counterpart_case : 0 < 1000 /\ world_ok sm_w /\ world_more 1000 sm_w un_w /\ plays sm_w 0 un_moves 2 3 sm_fs2 /\ Forall plain un_moves.
Proof.
  split; [reflexivity|]. split; [exact sm_world|]. split; [exact un_world|]. split; [exact un_plays|].
  assert (R : plain_rng sm_rng) by (split; intros; assumption).
  assert (T : forall i, plain_rng (g_rng (sm_sig i)) /\ plain_rng (g_rng2 (sm_sig i)) /\ Forall (fun r => ~ csum (m_comp (snd r)) == 0) (g_wants (sm_sig i))).
  { intro i. split; [exact R|]. split; [exact R|]. constructor; [cbn; lra|constructor]. }
  constructor; [exact I|]. constructor; [exact I|]. constructor; [exact I|]. constructor; [exact T|]. constructor; [exact T|constructor].
Qed.
Print Assumptions C138_counterpart.
