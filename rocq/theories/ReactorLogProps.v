(** Property theorems about the records of cycamore::Reactor (C97, C98).  Each is
    followed by its assumptions and by a concrete case; the vocabulary is in
    ReactorSpec.v and ReactorLogSpec.v, the concrete history in ReactorExample.v. *)
From Coq Require Import Lia.
From Verif Require Import Outcome KernelMaterial KernelResBuf ReactorModel ReactorSpec ReactorLogSpec ReactorLog ReactorCheck ReactorExample ReactorProps.
Local Open Scope Z_scope.

(** C97: the inventories can be computed from the event table and the trades. *)
Theorem C97_counts_balance : forall eps recipe cfg t0 s0 es os,
  rx_history eps recipe cfg t0 s0 es os -> forall k, (k <= List.length os)%nat ->
  let now := state_before s0 os k in
  let loaded := total (map loads (firstn k os)) in
  let discharged := total (map discharges (firstn k os)) in
  let accepted := total (map (fun e => zlen (e_deliv e)) (firstn k es)) in
  let shipped := total (map (fun o => zlen (o_shipped o)) (firstn k os)) in
  held_in core now = held_in core s0 + loaded - discharged /\
  held_in fresh now + held_in spent now =
    held_in fresh s0 + held_in spent s0 + accepted - loaded + discharged - shipped /\
  ((forall i, (i < k)%nat -> retired cfg (t0 + Z.of_nat i) = false) ->
    held_in fresh now = held_in fresh s0 + accepted - loaded /\
    held_in spent now = held_in spent s0 + discharged - shipped).
Proof. intros eps recipe cfg. exact log_core. Qed.
Print Assumptions C97_counts_balance.

(** How many assemblies a TRANSMUTE record names, and when there is one. *)
Theorem C97_transmutations : forall eps recipe cfg t0 s0 es os,
  rx_history eps recipe cfg t0 s0 es os -> forall i o, nth_error os i = Some o ->
  let t := t0 + Z.of_nat i in let before := state_before s0 os i in
  (retired cfg t = false -> has EvCycleEnd o -> transmutations o = Z.min (n_batch cfg) (held_in core before)) /\
  (retired cfg t = false -> ~ has EvCycleEnd o -> transmutations o = 0) /\
  (retired cfg t = true -> t = exit_t cfg + 1 ->
    exists n, retire_burn cfg n /\ transmutations o = Z.min n (held_in core before)) /\
  (retired cfg t = true -> t <> exit_t cfg + 1 -> transmutations o = 0) /\
  (retired cfg t = true -> loads o = 0).
Proof. intros eps recipe cfg. exact log_transmute. Qed.
Print Assumptions C97_transmutations.
Example C97_case :
  map loads ex_outs = [1; 1; 0; 1; 0; 0; 1; 0; 0; 0; 0; 0; 1; 0; 1; 0; 0; 1; 0; 0; 0; 0; 0; 0; 0; 0] /\
  map discharges ex_outs = [0; 0; 0; 1; 0; 0; 1; 0; 0; 0; 0; 0; 1; 0; 1; 0; 0; 1; 0; 0; 1; 0; 1; 0; 0; 0] /\
  map transmutations ex_outs = [0; 0; 0; 1; 0; 0; 1; 0; 0; 1; 0; 0; 0; 0; 1; 0; 0; 1; 0; 0; 1; 0; 0; 0; 0; 0] /\
  map (fun k => held_in core (state_before ex_start ex_outs k)) [0; 5; 10; 19; 26]%nat = [0; 2; 2; 2; 0] /\
  rx_history 0 ex_recipe ex_cfg 0 ex_start ex_envs ex_outs.
Proof. repeat (split; [vm_compute; reflexivity|]). exact ex_history. Qed.

(** C98: recorded supply and demand. *)
Theorem C98_demand : forall eps recipe cfg t0 s0 es os,
  rx_history eps recipe cfg t0 s0 es os -> forall i o, nth_error os i = Some o ->
  exists j c, favourite (prefs (o_ticked o)) j /\ nth_error (incommods cfg) j = Some c /\
    demand_record o = repeat (c, assem cfg) (List.length (o_reqs o)).
Proof. intros eps recipe cfg. exact log_demand. Qed.
Print Assumptions C98_demand.

Theorem C98_supply : forall eps recipe cfg t0 s0 es os,
  rx_history eps recipe cfg t0 s0 es os -> forall i o, nth_error os i = Some o ->
  retired cfg (t0 + Z.of_nat i) = false ->
  ((exists n, has (EvDischarge n) o) ->
     supply_record o = map (fun c => (c, qty_of (waiting cfg (o_ticked o) c))) (outcommods cfg)) /\
  ((forall n, ~ has (EvDischarge n) o) -> supply_record o = []).
Proof. intros eps recipe cfg. exact log_supply. Qed.
Print Assumptions C98_supply.
Example C98_case :
  map supply_record (firstn 7 ex_outs) =
    [[]; []; []; [("x", 10%Q); ("y", 0%Q)]; []; []; [("x", 10%Q); ("y", 10%Q)]]%string /\
  map demand_record (firstn 7 ex_outs) =
    [[("b", 10%Q); ("b", 10%Q); ("b", 10%Q)]; [("b", 10%Q); ("b", 10%Q)]; []; [("b", 10%Q)]; []; []; [("b", 10%Q)]]%string /\
  rx_history 0 ex_recipe ex_cfg 0 ex_start ex_envs ex_outs.
Proof. repeat (split; [vm_compute; reflexivity|]). exact ex_history. Qed.
