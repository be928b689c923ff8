(** C107: a reactor's life in the machine's arithmetic.  The axioms are those of the standard library's real
    numbers, which Flocq's proofs use. *)
From Coq Require Import ZArith Lia.
From Verif Require Import Outcome KernelMaterial KernelResBuf ReactorModel ReactorSpec ReactorCheck ReactorExample ReactorProps DoubleModel
  ReactorMachineModel ReactorMachineSpec ReactorMachineProofs.
Local Open Scope Z_scope.

(** ** C107.  A life whose numbers fit goes through without overflow, without an undefined conversion and without an
    error, and every step's inventories, orders, offers, shipments and records are those of unbounded integers and
    exact fractions of cycles. *)
Theorem C107_machine_life : forall eps recipe cfg,
  (0 <= eps)%Q -> config_consistent cfg -> recipes_known recipe cfg ->
  forall es t0 s0, reactor_ok recipe cfg s0 -> fits_ints cfg t0 (cyc s0) (zlen es) -> m_run_contract eps recipe cfg t0 s0 es ->
  m_run eps recipe cfg t0 s0 es = rx_run eps recipe cfg t0 s0 es /\
  exists os, m_run eps recipe cfg t0 s0 es = Ok os /\ List.length os = List.length es.
Proof. exact machine_final. Qed.
Print Assumptions C107_machine_life.
Example C107_case : config_consistent ex_cfg /\ recipes_known ex_recipe ex_cfg /\ reactor_ok ex_recipe ex_cfg ex_start /\
  fits_ints ex_cfg 0 (cyc ex_start) (zlen ex_envs) /\ m_run_contract 0 ex_recipe ex_cfg 0 ex_start ex_envs /\ zlen ex_envs = 26.
Proof.
  destruct C01_case as (A & B & C & _). pose proof (h_known _ _ _ _ _ _ _ ex_history) as K.
  assert (fits_ints ex_cfg 0 (cyc ex_start) (zlen ex_envs)) as F
    by (constructor; vm_compute; try reflexivity; try (right; repeat split; congruence); repeat split; congruence).
  split; [exact A|]. split; [exact K|]. split; [exact B|]. split; [exact F|].
  split; [apply contract_back; auto; discriminate|vm_compute; reflexivity].
Qed.

(** ** The bounds matter: with them only as far as every input is an int, the first step can be undefined.  [mx_cfg]
    is a reactor with one assembly per core. *)
Definition mx_cfg (batch cycle refuel exit : Z) : rx_cfg :=
  {| n_batch := batch; n_core := 1; n_fresh := 0; n_spent := 1; assem := 10; cycle_t := cycle; refuel_t := refuel; power_cap := 1000;
     incommods := ["a"]%string; outcommods := ["x"]%string; side_products := []; side_qty := []; decom_all := false;
     pc_times := []; pc_commods := []; pc_vals := []; rc_times := []; rc_commods := []; rc_in := []; rc_out := []; exit_t := exit |}.
Definition mx_start : rx_state :=
  match enter_notify (mx_cfg 1 1 1 0) (rx_new (mx_cfg 1 1 1 0) ["fresh_a"] ["spent_a"] [1%Q] 0)%string with
  | Ok s => s | _ => rx_new (mx_cfg 1 1 1 0) [] [] [] 0 end.
Definition mx_env : rx_env := {| e_reqs := fun _ => []; e_pick := []; e_deliv := [] |}.
(** The inputs of this reactor are ints. *)
Definition mx_ints (batch cycle refuel exit : Z) : Prop := int32 batch /\ int32 cycle /\ int32 refuel /\ int32 exit.

(** The cycle length plus the refuelling time overflows; so does an empty reactor's first step. *)
Theorem C107_long_cycle_refuted : exists batch cycle refuel exit, mx_ints batch cycle refuel exit /\
  config_consistent (mx_cfg batch cycle refuel exit) /\ reactor_ok ex_recipe (mx_cfg batch cycle refuel exit) mx_start /\
  m_run_contract 0 ex_recipe (mx_cfg batch cycle refuel exit) 0 mx_start [mx_env] /\
  m_run 0 ex_recipe (mx_cfg batch cycle refuel exit) 0 mx_start [mx_env] = UB IntOverflow.
Proof.
  exists 1, (2 ^ 31 - 1), 1, (-1). split; [vm_compute; repeat split; congruence|].
  split; [apply config_consistentb_sound; vm_compute; reflexivity|].
  split; [apply reactor_okb_sound; vm_compute; reflexivity|].
  split; [eapply quiet_contract; vm_compute; reflexivity|]. vm_compute. reflexivity.
Qed.
Print Assumptions C107_long_cycle_refuted.

(** The assemblies needed until the exit time do not fit an int. *)
Theorem C107_long_life_refuted : exists batch cycle refuel exit, mx_ints batch cycle refuel exit /\
  config_consistent (mx_cfg batch cycle refuel exit) /\ reactor_ok ex_recipe (mx_cfg batch cycle refuel exit) mx_start /\
  m_run_contract 0 ex_recipe (mx_cfg batch cycle refuel exit) 0 mx_start [mx_env] /\
  m_run 0 ex_recipe (mx_cfg batch cycle refuel exit) 0 mx_start [mx_env] = UB FloatToInt.
Proof.
  exists 4, 1, 1, (2 ^ 31 - 2). split; [vm_compute; repeat split; congruence|].
  split; [apply config_consistentb_sound; vm_compute; reflexivity|].
  split; [apply reactor_okb_sound; vm_compute; reflexivity|].
  split; [eapply quiet_contract; vm_compute; reflexivity|]. vm_compute. reflexivity.
Qed.
Print Assumptions C107_long_life_refuted.
