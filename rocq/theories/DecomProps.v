(** Property C143: what a reactor holds when it says that it can be decommissioned.  Statements use ReactorSpec.v and SimulationSpec.v; proofs are a single [exact] or a computed witness; the histories of the examples are in ReactorExample.v and DecomExample.v. *)
From Coq Require Import Lia.
From Verif Require Import Outcome KernelMaterial KernelResBuf ReactorModel ReactorSpec ReactorCheck ReactorExample ReactorProps DecomProofs DecomExample NetworkSpec SimulationSpec SimulationProps LifeSpec DecomNetProofs DecomNetExample.
Local Open Scope Z_scope.

(** Until it retires, a reactor that says that it can be decommissioned (an institution may ask at any time from the end of its lifetime on) holds no fuel at all, as long as it did not start with fresh fuel next to an empty core. *)
Theorem C143_operating : forall eps recipe cfg t0 s0 es os, rx_history eps recipe cfg t0 s0 es os -> 1 <= n_core cfg -> (rb_items (core s0) = [] -> rb_items (fresh s0) = []) ->
  forall i o, nth_error os i = Some o -> retired cfg (t0 + Z.of_nat i) = false ->
  (check_decom (o_ticked o) = true -> assemblies (o_ticked o) = []) /\ (check_decom (o_state o) = true -> assemblies (o_state o) = []).
Proof. exact operating_empty. Qed.
Print Assumptions C143_operating.
Example C143_operating_case : rx_history 0 ex_recipe ex_cfg 0 ex_start ex_envs ex_outs /\ 1 <= n_core ex_cfg /\ rb_items (fresh ex_start) = [] /\
  map (fun o => (check_decom (o_ticked o), check_decom (o_state o))) (firstn 2 ex_outs) = [(true, false); (false, false)].
Proof. split; [exact ex_history|]. split; [discriminate|]. split; [reflexivity|]. vm_compute. reflexivity. Qed.
(** So in any network of C128: if a reactor that has not retired says so and is decommissioned, no material disappears from the network. *)
Theorem C143_network : forall w t id a c s b, world_ok w -> reached w t id (a ++ Reac c s :: b) -> 1 <= n_core c -> retired c (t - 1) = false -> check_decom s = true ->
  reached w t id (a ++ b) /\ stock (a ++ b) = stock (a ++ Reac c s :: b).
Proof. exact nothing_goes. Qed.
Print Assumptions C143_network.
Example C143_network_case : world_ok sm_w /\ reached sm_w 0 0 ([Srce sm_src sm_src0] ++ Reac sm_rx sm_rx0 :: [Snk sm_sink sm_sink0]) /\ 1 <= n_core sm_rx /\ retired sm_rx (0 - 1) = false /\ check_decom sm_rx0 = true /\
  match nth_error sm_fs1 1 with Some (Reac _ s) => check_decom s = false | _ => False end.
Proof. split; [exact sm_world|]. split; [exact sm_deployed|]. split; [discriminate|]. split; [reflexivity|]. split; vm_compute; reflexivity. Qed.
(** The decommissioning that a retired reactor schedules itself never costs fuel: at the end of the time step in which it does so it is empty. *)
Theorem C143_scheduled : forall eps recipe cfg t0 s0 es os, rx_history eps recipe cfg t0 s0 es os -> 1 <= n_spent cfg ->
  forall i o, nth_error os i = Some o -> retired cfg (t0 + Z.of_nat i) = true -> has EvSchedDecom o -> assemblies (o_ticked o) = [] /\ assemblies (o_state o) = [].
Proof. exact scheduled_empty. Qed.
Print Assumptions C143_scheduled.
Example C143_scheduled_case : exists o22 o23, nth_error ex_outs 22 = Some o22 /\ nth_error ex_outs 23 = Some o23 /\ retired ex_cfg (0 + Z.of_nat 23) = true /\ has EvSchedDecom o23 /\ assemblies (o_ticked o22) <> [].
Proof. do 2 eexists. split; [vm_compute; reflexivity|]. split; [vm_compute; reflexivity|]. conc. Qed.
(** So in any network of C128: when a reactor that has scheduled its decommissioning leaves the network, no material disappears with it. *)
Theorem C143_network_scheduled : forall w t0 t id a f b c s0 ps os o, world_ok w -> diary w t0 t id (a ++ f :: b) (List.length a) (Reac c s0) ps ->
  rx_run (w_eps w) (w_recipe w) c t0 s0 (map reac_day ps) = Ok (os ++ [o]) -> 1 <= n_spent c -> retired c (t - 1) = true -> has EvSchedDecom o ->
  stock (a ++ b) = stock (a ++ f :: b).
Proof. exact own_departure. Qed.
Print Assumptions C143_network_scheduled.
Example C143_network_scheduled_case : world_ok sm_w /\ diary sm_w 0 3 2 ([dn_at 0 dn_fs3] ++ dn_at 1 dn_fs3 :: [dn_at 2 dn_fs3]) 1 (Reac dn_rx dn_rx0) dn_pages /\
  rx_run (w_eps sm_w) (w_recipe sm_w) dn_rx 0 dn_rx0 (map reac_day dn_pages) = Ok (removelast dn_outs ++ [last dn_outs (hd_out dn_outs)]) /\ 1 <= n_spent dn_rx /\ retired dn_rx (3 - 1) = true /\
  has EvSchedDecom (last dn_outs (hd_out dn_outs)) /\ map (fun f => List.length (inside f)) dn_fs1 = [1; 1; 0]%nat /\ map (fun f => List.length (inside f)) dn_fs3 = [1; 0; 1]%nat.
Proof. split; [exact sm_world|]. split; [exact dn_diary|]. split; [vm_compute; reflexivity|]. split; [discriminate|]. split; [reflexivity|]. split; [vm_compute; tauto|]. split; vm_compute; reflexivity. Qed.
(** A retired reactor that says so after the exchange holds no fuel either, except possibly in a time step in which its spent fuel inventory was full and all of it was collected at once.  Missing: that step. *)
Theorem C143_retired_partial : forall eps recipe cfg t0 s0 es os, rx_history eps recipe cfg t0 s0 es os ->
  forall i o, nth_error os i = Some o -> retired cfg (t0 + Z.of_nat i) = true -> check_decom (o_state o) = true -> assemblies (o_state o) = [] \/ zlen (o_shipped o) = n_spent cfg.
Proof. exact retired_empty. Qed.
Print Assumptions C143_retired_partial.
Example dc_history : rx_history 0 ex_recipe dc_cfg 0 dc_start dc_envs dc_outs.
Proof.
  constructor; [discriminate|apply config_consistentb_sound; vm_compute; reflexivity|repeat constructor; discriminate|apply reactor_okb_sound; vm_compute; reflexivity|apply run_contractb_sound; vm_compute; reflexivity|vm_compute; reflexivity].
Qed.
Example C143_retired_case : exists o, nth_error ex_outs 24 = Some o /\ retired ex_cfg (0 + Z.of_nat 24) = true /\ check_decom (o_state o) = true /\ zlen (o_shipped o) <> n_spent ex_cfg.
Proof. eexists. split; [vm_compute; reflexivity|]. split; [reflexivity|]. split; [vm_compute; reflexivity|vm_compute; discriminate]. Qed.
(** In that step it can say so with fresh fuel aboard: the spent fuel is not collected for a while, the reactor retires with all inventories full, its core goes to the spent fuel and is collected, and the fresh fuel is still there.  A new
    reactor, an orderly exchange.  If its institution now decommissions it, the fuel is lost. *)
Theorem C143_retired_refuted : exists eps recipe cfg t0 s0 es os i o, rx_history eps recipe cfg t0 s0 es os /\ assemblies s0 = [] /\ 1 <= n_core cfg /\ 1 <= n_spent cfg /\ nth_error os i = Some o /\ retired cfg (t0 + Z.of_nat i) = true /\
  check_decom (o_state o) = true /\ assemblies (o_state o) <> [].
Proof.
  exists 0%Q, ex_recipe, dc_cfg, 0, dc_start, dc_envs, dc_outs, 4%nat. eexists. split; [exact dc_history|]. split; [reflexivity|]. split; [discriminate|]. split; [discriminate|]. split; [vm_compute; reflexivity|]. split; [reflexivity|].
  split; [vm_compute; reflexivity|vm_compute; discriminate].
Qed.
Print Assumptions C143_retired_refuted.
