(** Property C139: a simulation that begins later goes the same way, later.  Statements use SimulationSpec.v, UnitSpec.v and DelaySpec.v; proofs are a single [exact] (C139_schedule_refuted: a computation); the examples are a storage,
    the separations facility of SeparationsProps.v and the scenario of UnitProps.v. *)
From Coq Require Import Lia Lqa.
From Verif Require Import Outcome KernelMaterial KernelResBuf KernelBuf NetworkSpec SimulationSpec SimulationProps UnitSpec UnitProps DelaySpec DelayProofs.
From Verif Require StorageModel SinkModel SinkSpec SeparationsModel StorageProps SeparationsProps.
Local Open Scope Z_scope.

(** Facilities count time steps from their own past and to their own schedule, and never from the beginning of the simulation: moved [d] time steps later, a facility says the same to the exchange and does the same with the same trades,
    succeeding or failing alike, and ships the same; only the times it remembers and plans are [d] time steps later.  That a storage compares times with the beginning of the simulation (/repo/src/storage.cc:169) makes no
    difference. *)
Theorem C139_facility : forall w d t g f sales got, 0 <= d -> 0 <= t -> signal_ok g -> dated f ->
  publish w (d + t) g (later d f) = publish w t g f /\ fstep w (d + t) g (later d f) sales got = later_step d (fstep w t g f sales got) /\ (forall f' ms, fstep w t g f sales got = Ok (f', ms) -> dated f') /\
  inside (later d f) = inside f.
Proof. exact facility_later. Qed.
Definition dl_stor : fac := Stor (StorageProps.sx_cfg false)
  {| StorageModel.ss_inventory := [Mat 3 2 StorageProps.sx_a]; StorageModel.ss_processing := [Mat 1 4 StorageProps.sx_a; Mat 2 7 StorageProps.sx_b]; StorageModel.ss_entry_times := [0; 0]; StorageModel.ss_ready := [];
     StorageModel.ss_stocks := [] |}.
(** At time 1 nothing has been kept for two time steps, nor at time 6 if it arrived at time 5; one step later the first parcels leave. *)
Example C139_facility_case : signal_ok (sm_sig 0) /\ dated dl_stor /\ (exists f, fstep sm_w 1 (sm_sig 0) dl_stor [] [] = Ok (f, []) /\ fstep sm_w (5 + 1) (sm_sig 0) (later 5 dl_stor) [] [] = Ok (later 5 f, []) /\ later 5 f <> f) /\
  (exists f, fstep sm_w 2 (sm_sig 0) dl_stor [] [] = Ok (f, []) /\ match f with Stor _ s => map m_qty (StorageModel.ss_stocks s) = [5]%Q | _ => False end).
Proof.
  split; [apply sm_signals|]. split; [repeat constructor; lia|]. split.
  - eexists. split; [vm_compute; reflexivity|]. split; [vm_compute; reflexivity|]. vm_compute. discriminate.
  - eexists. split; vm_compute; reflexivity.
Qed.
Print Assumptions C139_facility.

(** Take a scenario, let nothing happen for [d] time steps and then play the scenario: it can be played again, each facility is then [d] time steps later what it was, there is the same material in the same places, and the objects have
    the same numbers. *)
Theorem C139_scenario : forall w id0 d g ms t id fs, 0 <= d -> signal_ok g -> plays w id0 ms t id fs -> Forall dated_move ms ->
  plays w id0 (waits (Z.to_nat d) g ++ map (later_move d) ms) (d + t) id (map (later d) fs) /\ stock (map (later d) fs) = stock fs.
Proof. exact scenario_later. Qed.
Example C139_scenario_case : signal_ok (sm_sig 0) /\ plays sm_w 0 un_moves 2 3 sm_fs2 /\ Forall dated_move un_moves /\ stock sm_fs2 <> [].
Proof. split; [apply sm_signals|]. split; [exact un_plays|]. split; [|vm_compute; discriminate]. repeat constructor; vm_compute; try (left; reflexivity); discriminate. Qed.
Print Assumptions C139_scenario.

(** A separations facility whose end of life is [d] time steps later does the same in every time step [d] time steps later. *)
Theorem C139_separations : forall d eps recipe c prefs s es, 0 <= d ->
  SeparationsModel.sp_run eps recipe (later_separations d c) prefs s (map (later_env d) es) = SeparationsModel.sp_run eps recipe c prefs s es.
Proof. exact separations_later. Qed.
(** The case: at time 0 there is enough feed to work until the end of its life at time 1, so nothing is ordered; without an end it orders. *)
Definition dl_sep (e : Z) : SeparationsModel.sp_cfg :=
  {| SeparationsModel.pc_feed_commods := ["spent"%string]; SeparationsModel.pc_feed_prefs := []; SeparationsModel.pc_feed_recipe := ""; SeparationsModel.pc_feed_size := 100; SeparationsModel.pc_throughput := 3;
     SeparationsModel.pc_leftover_commod := "waste"; SeparationsModel.pc_leftover_size := 50; SeparationsModel.pc_streams := []; SeparationsModel.pc_exit := e |}.
Definition dl_feed : SeparationsModel.sp_state :=
  {| SeparationsModel.ps_feed := {| b_cap := Some 100%Q; b_items := [Mat 1 8 SeparationsProps.sx_comp] |}; SeparationsModel.ps_left := {| b_cap := Some 50%Q; b_items := [] |}; SeparationsModel.ps_streams := [] |}.
Definition dl_es (t : Z) : list SeparationsModel.sp_env := [ {| SeparationsModel.pe_time := t; SeparationsModel.pe_reqs := fun _ => []; SeparationsModel.pe_trades := []; SeparationsModel.pe_receipts := [] |} ].
Definition orders (o : outcome (SeparationsModel.sp_state * list SeparationsModel.sp_out)) : list bool :=
  match o with Ok (_, os) => map (fun x => match SeparationsModel.po_request x with Some _ => true | None => false end) os | _ => [] end.
Example C139_separations_case : orders (SeparationsModel.sp_run 0 (fun _ => None) (dl_sep 1) [1%Q] dl_feed (dl_es 0)) = [false] /\ orders (SeparationsModel.sp_run 0 (fun _ => None) (dl_sep (-1)) [1%Q] dl_feed (dl_es 0)) = [true] /\
  orders (SeparationsModel.sp_run 0 (fun _ => None) (later_separations 7 (dl_sep 1)) [1%Q] dl_feed (map (later_env 7) (dl_es 0))) = [false] /\ orders (SeparationsModel.sp_run 0 (fun _ => None) (dl_sep 3) [1%Q] dl_feed (dl_es 0)) = [true].
Proof. vm_compute. repeat split; reflexivity. Qed.
Print Assumptions C139_separations.

(** False without [dated]: a sink may be given a negative time between purchases (the range at /repo/src/sink.h:248 is a hint for user interfaces, and nothing checks it).  Started at time 0 it then takes the time before the beginning for "no schedule" and buys in every time step; started at time 5, with the same
    draws, it never buys. *)
Theorem C139_schedule_refuted : exists w c g s s', SinkSpec.rng_ok g /\ SinkModel.sk_enter c g 0 (SinkModel.sk_new c) = Ok s /\ SinkModel.sk_enter c g 5 (SinkModel.sk_new c) = Ok s' /\
  deployed w 0 (Snk c s) /\ deployed w 5 (Snk c s') /\
  exists x y, publish w 0 (sm_sig 0) (Snk c s) = Ok x /\ publish w 5 (sm_sig 0) (Snk c s') = Ok y /\ n_asks x <> [] /\ n_asks y = [].
Proof.
  exists sm_w, {| SinkModel.kc_commods := ["spent"%string]; SinkModel.kc_prefs := []; SinkModel.kc_recipe := ""; SinkModel.kc_max_inv := 50; SinkModel.kc_capacity := 30;
    SinkModel.kc_size_type := "None"; SinkModel.kc_size_mean := 1; SinkModel.kc_size_stddev := 1; SinkModel.kc_freq_type := "UniformInt"; SinkModel.kc_freq_mean := 1; SinkModel.kc_freq_stddev := 1;
    SinkModel.kc_freq_min := -1; SinkModel.kc_freq_max := 1 |}, sm_rng.
  eexists. eexists. split; [exact (proj1 (sm_signals 0))|]. split; [vm_compute; reflexivity|]. split; [vm_compute; reflexivity|].
  split; [|split].
  - split; [cbn; lra|]. split; [cbn; lra|]. split; [discriminate|]. split; [left; reflexivity|]. exists sm_rng. vm_compute. reflexivity.
  - split; [cbn; lra|]. split; [cbn; lra|]. split; [discriminate|]. split; [left; reflexivity|]. exists sm_rng. vm_compute. reflexivity.
  - eexists. eexists. split; [vm_compute; reflexivity|]. split; [vm_compute; reflexivity|]. split; [discriminate|reflexivity].
Qed.
Print Assumptions C139_schedule_refuted.
