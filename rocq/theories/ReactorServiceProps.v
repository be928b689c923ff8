(** Property theorems about cycamore::Reactor (C99, C100).  Each is followed by its
    assumptions and by a concrete case; the vocabulary is in ReactorSpec.v and ReactorLogSpec.v. *)
From Coq Require Import Lia.
From Verif Require Import Outcome KernelMaterial KernelResBuf ReactorModel ReactorSpec ReactorLogSpec ReactorCalendar ReactorOffers ReactorCheck ReactorExample ReactorProps.
Local Open Scope Z_scope.

(** C99: from a cycle start on, as long as discharges succeed and the core is full
    when the refuelling period ends, cycles start exactly every
    cycle_time + refuel_time steps, with full power in the first cycle_time steps of each period. *)
Theorem C99_calendar : forall eps recipe cfg t0 s0 es os,
  rx_history eps recipe cfg t0 s0 es os -> 1 <= cycle_t cfg -> 0 <= refuel_t cfg -> cycle_ok cfg s0 ->
  let period := cycle_t cfg + refuel_t cfg in
  forall i o, nth_error os i = Some o -> has EvCycleStart o ->
  forall j oj, (i <= j)%nat -> nth_error os j = Some oj -> retired cfg (t0 + Z.of_nat j) = false ->
  (forall m om, (i < m <= j)%nat -> nth_error os m = Some om ->
     ~ has EvDischargeFailed om /\ (Z.of_nat (m - i) mod period = 0 -> core_full cfg (o_state om))) ->
  (has EvCycleStart oj <-> Z.of_nat (j - i) mod period = 0) /\
  power_record oj = [if Z.of_nat (j - i) mod period <? cycle_t cfg then power_cap cfg else 0%Q].
Proof. intros eps recipe cfg t0 s0 es os H Hc Hr CO period i o. exact (calendar t0 s0 es os H Hc Hr i o CO). Qed.
Print Assumptions C99_calendar.

(** A new reactor without retirement date whose orders are all filled and whose spent fuel is all taken away
    in the step it is offered keeps this calendar from its first step on. *)
Theorem C99_supplied : forall eps recipe cfg t0 s0 es os,
  rx_history eps recipe cfg t0 s0 es os -> 1 <= cycle_t cfg -> 0 <= refuel_t cfg ->
  exit_t cfg = -1 -> cyc s0 = 0 -> disch s0 = false -> rb_items (spent s0) = [] ->
  Z.min (n_batch cfg) (n_core cfg) <= n_spent cfg ->
  (forall i e o, nth_error es i = Some e -> nth_error os i = Some o ->
     zlen (e_deliv e) = zlen (o_reqs o) /\ rb_items (spent (o_state o)) = []) ->
  let period := cycle_t cfg + refuel_t cfg in
  forall j o, nth_error os j = Some o ->
  (has EvCycleStart o <-> Z.of_nat j mod period = 0) /\
  power_record o = [if Z.of_nat j mod period <? cycle_t cfg then power_cap cfg else 0%Q].
Proof. intros eps recipe cfg t0 s0 es os H Hc Hr. exact (supplied t0 s0 es os H Hc Hr). Qed.
Print Assumptions C99_supplied.

Definition cal_cfg : rx_cfg :=
  {| n_batch := 1; n_core := 2; n_fresh := 0; n_spent := 1; assem := 10%Q;
     cycle_t := 2; refuel_t := 1; power_cap := 1000%Q; incommods := ["a"]; outcommods := ["x"];
     side_products := []; side_qty := []; decom_all := false; pc_times := []; pc_commods := []; pc_vals := [];
     rc_times := []; rc_commods := []; rc_in := []; rc_out := []; exit_t := -1 |}%string.
Definition cal_start : rx_state := rx_new cal_cfg ["fresh_a"]%string ["spent_a"]%string [1%Q] 0.
Definition cal_envs : list rx_env :=
  drive 0%Q ex_recipe cal_cfg 0 cal_start 1 (repeat ("a", [(922350000, 1%Q)], 9%nat, 9%nat, ["x"])%string 8).
Definition cal_outs : list rx_out := match rx_run 0%Q ex_recipe cal_cfg 0 cal_start cal_envs with Ok os => os | _ => [] end.
Example C99_case :
  rx_history 0 ex_recipe cal_cfg 0 cal_start cal_envs cal_outs /\
  (forall i e o, nth_error cal_envs i = Some e -> nth_error cal_outs i = Some o ->
     zlen (e_deliv e) = zlen (o_reqs o) /\ rb_items (spent (o_state o)) = []) /\
  map power_record cal_outs = [[1000]; [1000]; [0]; [1000]; [1000]; [0]; [1000]; [1000]]%Q.
Proof.
  split; [|split].
  - constructor.
    + discriminate.
    + apply config_consistentb_sound. vm_compute. reflexivity.
    + constructor.
    + apply reactor_okb_sound. vm_compute. reflexivity.
    + apply run_contractb_sound. vm_compute. reflexivity.
    + vm_compute. reflexivity.
  - apply supplied_check. vm_compute. reflexivity.
  - vm_compute. reflexivity.
Qed.

(** C100: every request for spent fuel is offered the oldest assemblies of its commodity, as many as
    it takes to cover it. *)
Theorem C100_offers : forall eps recipe cfg t0 s0 es os,
  rx_history eps recipe cfg t0 s0 es os -> forall i o e, nth_error os i = Some o -> nth_error es i = Some e ->
  NoDup (map bp_commod (o_bids o)) /\
  (forall c, In c (map bp_commod (o_bids o)) <->
     In c (outcommods cfg) /\ e_reqs e c <> [] /\ waiting cfg (o_ticked o) c <> []) /\
  (forall b, In b (o_bids o) ->
     let asked := e_reqs e (bp_commod b) in
     (forall j q, nth_error asked j = Some q -> covers q (offered_to j b) (waiting cfg (o_ticked o) (bp_commod b))) /\
     Forall (fun x => fst x < List.length asked)%nat (bp_bids b)).
Proof. intros eps recipe cfg. exact offers. Qed.
Print Assumptions C100_offers.
(** In step 9 two assemblies wait, one on each commodity, and both commodities are asked for. *)
Example C100_case : exists o e, nth_error ex_outs 9 = Some o /\ nth_error ex_envs 9 = Some e /\
  map bp_commod (o_bids o) = ["x"; "y"]%string /\ map (fun b => List.length (offered_to 0 b)) (o_bids o) = [1; 1]%nat /\
  map (fun c => List.length (waiting ex_cfg (o_ticked o) c)) ["x"; "y"]%string = [1; 1]%nat.
Proof. do 2 eexists. split; [vm_compute; reflexivity|]. split; [vm_compute; reflexivity|]. repeat split; vm_compute; reflexivity. Qed.
