(** An example for C146: a source of whatever is asked for, a storage, two sinks. *)
From Coq Require Import Lia Lqa List Permutation.
From Verif Require Import Outcome KernelMaterial KernelResBuf KernelBuf KernelFacts KernelMass NetworkSpec SimulationSpec SimulationCheck SimulationProps.
From Verif Require StorageModel StorageSpec SourceModel SinkModel.
Import ListNotations.
Local Open Scope Q_scope.

Definition qu_src : SourceModel.sr_cfg := {| SourceModel.sc_commod := "fuel"; SourceModel.sc_recipe := ""; SourceModel.sc_inv_size := 100; SourceModel.sc_throughput := 20 |}.
Definition qu_src0 : SourceModel.sr_state := get {| SourceModel.ss_inv := new_buf |} (SourceModel.sr_build (1 # 1000) sm_recipe qu_src).
Definition qu_store : StorageModel.st_cfg := {| StorageModel.sc_in_commods := ["fuel"%string]; StorageModel.sc_in_prefs := [1]; StorageModel.sc_out_commods := ["spent"%string]; StorageModel.sc_in_recipe := "";
  StorageModel.sc_residence := 0; StorageModel.sc_throughput := 100; StorageModel.sc_max_inv := 100; StorageModel.sc_discrete := true; StorageModel.sc_package := ""; StorageModel.sc_transport_unit := "";
  StorageModel.sc_reorder_point := 0; StorageModel.sc_reorder_quantity := 0; StorageModel.sc_cumulative_cap := 0 |}.
Definition qu_fs0 : list fac := [Srce qu_src qu_src0; Stor qu_store StorageModel.st_empty; Snk sm_sink sm_sink0; Snk sm_sink sm_sink0].
Definition qu_buy (want : comp) : trade := {| t_from := 0; t_to := 1; t_commod := "fuel"; t_slot := 0; t_amt := 10; t_want := want |}.
Definition qu_sell (i : nat) : trade := {| t_from := 1; t_to := i; t_commod := "spent"; t_slot := 0; t_amt := 10; t_want := sm_fresh |}.
(** Uranium 235 and uranium 238 arrive at the storage; then each sink gets ten kilograms. *)
Definition qu_ds0 : list trade := [qu_buy [(922350000%Z, 1)]; qu_buy [(922380000%Z, 1)]].
Definition qu_ds1 : list trade := [qu_sell 2; qu_sell 3].
Definition qu_ds2 : list trade := [qu_sell 3; qu_sell 2].
Definition qu_sent0 : list mat := sm_ships 0 qu_fs0 qu_ds0 0 (Srce qu_src qu_src0).
Definition qu_fs1 : list fac := sm_moves 0 0 qu_fs0 qu_ds0 qu_sent0.
Definition qu_sent (ds : list trade) : list mat := sm_ships 1 qu_fs1 ds 1 (nth 1 qu_fs1 (Reac sm_rx sm_rx0)).
Definition qu_fs2 (ds : list trade) : list fac := sm_moves 1 2 qu_fs1 ds (qu_sent ds).

Example qu_deployed : reached sm_w 0 0 qu_fs0.
Proof.
  assert (D : forall f, In f qu_fs0 -> deployed sm_w 0 f).
  { intros f [<-|[<-|[<-|[<-|[]]]]].
    - split; [cbn; lra|reflexivity].
    - split; [split; [reflexivity|split; [discriminate|reflexivity]]|]. split; [left; reflexivity|reflexivity].
    - split; [cbn; lra|]. split; [cbn; lra|]. split; [discriminate|]. split; [left; reflexivity|]. exists sm_rng. reflexivity.
    - split; [cbn; lra|]. split; [cbn; lra|]. split; [discriminate|]. split; [left; reflexivity|]. exists sm_rng. reflexivity. }
  apply (deploying sm_w 0 0 [_; _; _]); [apply (deploying sm_w 0 0 [_; _]); [apply (deploying sm_w 0 0 [_]); [apply (deploying sm_w 0 0 []); [constructor|]|]|]|]; apply D; cbn; auto.
Qed.
Example qu_orderly0 : orderly sm_w 0 sm_sig qu_fs0 qu_ds0.
Proof. apply orderlyb_sound. vm_compute. reflexivity. Qed.
Example qu_step0 : nstep sm_w 0 0 sm_sig qu_fs0 qu_ds0 qu_fs1 qu_sent0.
Proof.
  split; [vm_compute; reflexivity|]. split; [vm_compute; reflexivity|].
  intros [|[|[|[|i]]]] f f' N N'; try (destruct i; discriminate); injection N as <-; vm_compute in N'; injection N' as <-; vm_compute; reflexivity.
Qed.
Example qu_reached1 : reached sm_w 1 2 qu_fs1.
Proof. exact (stepping sm_w 0 0 _ _ _ _ _ qu_deployed sm_signals qu_orderly0 qu_step0). Qed.
Example qu_orderly1 : orderly sm_w 1 sm_sig qu_fs1 qu_ds1.
Proof. apply orderlyb_sound. vm_compute. reflexivity. Qed.
Example qu_step1 : nstep sm_w 1 2 sm_sig qu_fs1 qu_ds1 (qu_fs2 qu_ds1) (qu_sent qu_ds1).
Proof.
  split; [vm_compute; reflexivity|]. split; [vm_compute; reflexivity|].
  intros [|[|[|[|i]]]] f f' N N'; try (destruct i; discriminate); vm_compute in N; injection N as <-; vm_compute in N'; injection N' as <-; vm_compute; reflexivity.
Qed.
Example qu_step2 : nstep sm_w 1 2 sm_sig qu_fs1 qu_ds2 (qu_fs2 qu_ds2) (qu_sent qu_ds2).
Proof.
  split; [vm_compute; reflexivity|]. split; [vm_compute; reflexivity|].
  intros [|[|[|[|i]]]] f f' N N'; try (destruct i; discriminate); vm_compute in N; injection N as <-; vm_compute in N'; injection N' as <-; vm_compute; reflexivity.
Qed.
Example qu_first : map (fun f => Qeq_bool (mass_in 922350000%Z (inside f)) 10) (qu_fs2 qu_ds1) = [false; false; true; false].
Proof. vm_compute. reflexivity. Qed.
Example qu_second : map (fun f => Qeq_bool (mass_in 922350000%Z (inside f)) 10) (qu_fs2 qu_ds2) = [false; false; false; true].
Proof. vm_compute. reflexivity. Qed.
