(** Property C119.  Statements use LaterSpec.v; proofs are a single [exact]. *)
From Coq Require Import Lia.
From Verif Require Import Outcome KernelMaterial KernelResBuf KernelBuf LaterSpec LaterProofs.
From Verif Require ReactorModel ReactorSpec ReactorCheck ReactorExample StorageModel StorageProps
  SinkModel SinkSpec SinkProps SeparationsModel SeparationsProps.
Local Open Scope Z_scope.

(** ** C119: when a facility is deployed does not matter

    The same facility, deployed [d] steps later into the same requests, trades and deliveries, does the same things
    [d] steps later: same outputs in every step, or the same failure. *)
Theorem C119_reactor : forall eps recipe cfg d t new es, 0 <= d -> is_end (ReactorModel.exit_t cfg) ->
  reactor_life eps recipe (reactor_later d cfg) (t + d) new es = reactor_life eps recipe cfg t new es.
Proof. intros eps recipe cfg d t new es D E. exact (reactor_life_later eps recipe cfg d D E t new es). Qed.
Print Assumptions C119_reactor.

Theorem C119_separations : forall eps recipe cfg d es, 0 <= d -> is_end (SeparationsModel.pc_exit cfg) ->
  separations_life eps recipe (separations_later d cfg) (map (separations_step_later d) es) = separations_life eps recipe cfg es.
Proof. intros eps recipe cfg d es D E. exact (separations_life_later eps recipe cfg d D E es). Qed.
Print Assumptions C119_separations.

(** Storage keeps the times at which material arrived and skips the first steps of the simulation. *)
Theorem C119_storage : forall eps cfg d es, 0 <= d -> Forall (fun e => 0 <= StorageModel.se_time e) es ->
  seen (StorageModel.st_run eps cfg StorageModel.st_empty (map (storage_step_later d) es)) =
  seen (StorageModel.st_run eps cfg StorageModel.st_empty es).
Proof. intros eps cfg d es D F. exact (storage_life_later eps cfg d D es F). Qed.
Print Assumptions C119_storage.

(** A sink with random intervals keeps the time of its next purchase, with the same draws. *)
Theorem C119_sink : forall eps eg recipe cfg d t g es, 0 <= d -> 0 <= t ->
  (SinkSpec.random_frequency cfg -> 0 <= SinkModel.kc_freq_min cfg <= SinkModel.kc_freq_max cfg) ->
  SinkSpec.rng_ok g -> SinkSpec.rngs_ok es ->
  sink_life eps eg recipe cfg (t + d) g es = sink_life eps eg recipe cfg t g es.
Proof. intros eps eg recipe cfg d t g es D T B G R. exact (sink_life_later eps eg recipe cfg d D B t g es T G R). Qed.
Print Assumptions C119_sink.

(** A reactor that retires after its fifth step and changes a preference in its second. *)
Definition lr_cfg : ReactorModel.rx_cfg :=
  {| ReactorModel.n_batch := 1; ReactorModel.n_core := 2; ReactorModel.n_fresh := 0; ReactorModel.n_spent := 1;
     ReactorModel.assem := 10%Q; ReactorModel.cycle_t := 2; ReactorModel.refuel_t := 1; ReactorModel.power_cap := 1000%Q;
     ReactorModel.incommods := ["a"]; ReactorModel.outcommods := ["x"];
     ReactorModel.side_products := []; ReactorModel.side_qty := []; ReactorModel.decom_all := false;
     ReactorModel.pc_times := [4]; ReactorModel.pc_commods := ["a"]; ReactorModel.pc_vals := [7%Q];
     ReactorModel.rc_times := []; ReactorModel.rc_commods := []; ReactorModel.rc_in := []; ReactorModel.rc_out := [];
     ReactorModel.exit_t := 7 |}%string.
Definition lr_new : ReactorModel.rx_state := ReactorModel.rx_new lr_cfg ["fresh_a"]%string ["spent_a"]%string [1%Q] 0.
Definition lr_es : list ReactorModel.rx_env :=
  ReactorCheck.drive 0%Q ReactorExample.ex_recipe lr_cfg 3 lr_new 1 (repeat ("a", [(922350000, 1%Q)], 9%nat, 9%nat, ["x"])%string 7).
Example C119_reactor_case : is_end (ReactorModel.exit_t lr_cfg) /\
  match reactor_life 0 ReactorExample.ex_recipe (reactor_later 100 lr_cfg) 103 lr_new lr_es with
  | Ok os => map ReactorSpec.power_record os = [[1000]; [1000]; [0]; [1000]; [1000]; []; []]%Q /\
             map (fun o => ReactorModel.prefs (ReactorModel.o_state o)) os = [[1]; [7]; [7]; [7]; [7]; [7]; [7]]%Q
  | _ => False
  end.
Proof. split; [right; cbn; lia|]. vm_compute. split; reflexivity. Qed.
Example C119_separations_case : is_end (SeparationsModel.pc_exit SeparationsProps.sx_cfg) /\
  match separations_life 0 (fun _ => None) (separations_later 5 SeparationsProps.sx_cfg) (map (separations_step_later 5) SeparationsProps.sx_es) with
  | Ok os => existsb (fun o => negb (Nat.eqb (List.length (SeparationsModel.po_shipped o)) 0)) os = true
  | _ => False
  end.
Proof. split; [right; cbn; lia|]. vm_compute. reflexivity. Qed.
Example C119_storage_case : Forall (fun e => 0 <= StorageModel.se_time e) StorageProps.sx_es /\
  match seen (StorageModel.st_run 0 (StorageProps.sx_cfg true) StorageModel.st_empty (map (storage_step_later 9) StorageProps.sx_es)) with
  | Ok os => map (fun o => List.length (StorageModel.to_released (StorageModel.so_tock o))) os = [0; 0; 2; 1; 1]%nat
  | _ => False
  end.
Proof. split; [repeat constructor; cbn; lia|]. vm_compute. reflexivity. Qed.
Example C119_sink_case : SinkSpec.random_frequency SinkProps.kx_c2 /\
  SinkSpec.rng_ok SinkProps.kx_low /\ SinkSpec.rngs_ok SinkProps.kx_es /\
  match sink_life 0 0 SinkProps.kx_recipe SinkProps.kx_c2 (4 + 20) SinkProps.kx_low SinkProps.kx_es with
  | Ok os => map SinkSpec.requested os = [0; 5; 5]%Q
  | _ => False
  end.
Proof. split; [left; reflexivity|]. split; [exact SinkProps.kx_low_ok|]. split; [exact SinkProps.kx_rngs0|]. vm_compute. reflexivity. Qed.
