(** Property theorems about cycamore::Reactor (C01-C13, C57).  Each is followed by
    its assumptions and by a concrete case meeting its hypotheses; the
    vocabulary is in ReactorSpec.v, the concrete history in ReactorExample.v. *)
From Coq Require Import Permutation Lia.
From Verif Require Import Outcome KernelMaterial KernelResBuf ReactorModel ReactorSpec ReactorGlue ReactorHistory ReactorCheck ReactorExample.
Local Open Scope Z_scope.

(** The concrete history is one: 26 steps, see ReactorExample.v. *)
Example ex_history : rx_history 0 ex_recipe ex_cfg 0 ex_start ex_envs ex_outs.
Proof.
  constructor.
  - discriminate.
  - apply config_consistentb_sound. vm_compute. reflexivity.
  - repeat constructor; discriminate.
  - apply reactor_okb_sound. vm_compute. reflexivity.
  - apply run_contractb_sound. vm_compute. reflexivity.
  - vm_compute. reflexivity.
Qed.
Example ex_cycle_ok : cycle_ok ex_cfg ex_start. Proof. split; [vm_compute; discriminate|discriminate]. Qed.
Example ex_burning_full : burning_full ex_cfg ex_start. Proof. intro. vm_compute in H. discriminate. Qed.
Example ex_length : List.length ex_outs = 26%nat. Proof. vm_compute. reflexivity. Qed.
Ltac conc := vm_compute; repeat (first [discriminate | reflexivity | split | (left; reflexivity) | right]).

(** A new reactor with consistent tables is accepted and starts in a legitimate state. *)
Theorem C01_start_is_legitimate : forall recipe cfg inr outr pf c,
  config_consistent cfg -> 0 <= c ->
  List.length inr = List.length (incommods cfg) -> List.length outr = List.length (incommods cfg) ->
  (pf = [] \/ List.length pf = List.length (incommods cfg)) ->
  Forall (fun r => recipe r <> None) (inr ++ outr) ->
  exists s, enter_notify cfg (rx_new cfg inr outr pf c) = Ok s /\ reactor_ok recipe cfg s /\ cycle_ok cfg s /\
    (c = 0 -> burning_full cfg s) /\ (hybrid s = true <-> side_products cfg <> []).
Proof. intros recipe cfg. exact new_ok. Qed.
Print Assumptions C01_start_is_legitimate.
Example C01_start_case : Forall (fun r => ex_recipe r <> None) (["fresh_a"; "fresh_b"]%string ++ ["spent_a"; "spent_b"]%string).
Proof. repeat constructor; discriminate. Qed.

(** C01 *)
Theorem C01_inventories_bounded : forall eps recipe cfg,
  (0 <= eps)%Q -> config_consistent cfg -> recipes_known recipe cfg ->
  forall es t0 s0, reactor_ok recipe cfg s0 -> run_contract eps recipe cfg t0 s0 es ->
  exists os, rx_run eps recipe cfg t0 s0 es = Ok os /\ List.length os = List.length es /\
    Forall (fun o => within_limits cfg (o_ticked o) /\ within_limits cfg (o_state o)) os.
Proof.
  intros eps recipe cfg He Hc Hk es t0 s0 Hs HC.
  destruct (run_ok eps recipe cfg He Hc Hk es t0 s0 Hs HC) as (os & E & F & L). exists os.
  split; [exact E|split; [exact L|]]. eapply Forall_impl; [|exact F]. intros o [A B]. split; [apply A|apply B].
Qed.
Print Assumptions C01_inventories_bounded.
Example C01_case : config_consistent ex_cfg /\ reactor_ok ex_recipe ex_cfg ex_start /\
  run_contract 0 ex_recipe ex_cfg 0 ex_start ex_envs /\ List.length ex_envs = 26%nat.
Proof. destruct ex_history. auto. Qed.

(** C02 *)
Theorem C02_assemblies_conserved : forall eps recipe cfg t0 s0 es os,
  rx_history eps recipe cfg t0 s0 es os -> forall k, (k <= List.length os)%nat ->
  let accepted := List.concat (map e_deliv (firstn k es)) in
  let shipped := List.concat (map o_shipped (firstn k os)) in
  let now := state_before s0 os k in
  Permutation (map tag (assemblies s0) ++ map (fun d => tag (snd d)) accepted)
              (map (fun r => tag (snd r)) shipped ++ map tag (assemblies now)) /\
  (NoDup (map m_id (assemblies s0 ++ map snd accepted)) ->
   NoDup (map m_id (map snd shipped ++ assemblies now))).
Proof. intros eps recipe cfg t0 s0 es os H k L. exact (accounting t0 s0 es os H k L). Qed.
Print Assumptions C02_assemblies_conserved.
Example C02_case : (22 <= List.length ex_outs)%nat /\
  List.length (List.concat (map e_deliv (firstn 22 ex_envs))) = 7%nat /\
  List.length (List.concat (map o_shipped (firstn 22 ex_outs))) = 6%nat /\
  NoDup (map m_id (assemblies ex_start ++ map snd (List.concat (map e_deliv (firstn 22 ex_envs))))).
Proof. split; [vm_compute; lia|]. split; [vm_compute; reflexivity|]. split; [vm_compute; reflexivity|]. apply nodupb_sound. vm_compute. reflexivity. Qed.

(** C03 *)
Theorem C03_power_iff_full_and_in_cycle : forall eps recipe cfg t0 s0 es os,
  rx_history eps recipe cfg t0 s0 es os -> forall i o, 0 <= cyc s0 -> nth_error os i = Some o ->
  (retired cfg (t0 + Z.of_nat i) = true -> power_record o = [] /\ side_record o = []) /\
  (retired cfg (t0 + Z.of_nat i) = false ->
   exists b : bool,
     (b = true <-> core_full cfg (o_state o) /\
                   exists k, since_start (since_initial (cyc s0)) (firstn (S i) os) = Some k /\ k < cycle_t cfg) /\
     power_record o = [if b then power_cap cfg else 0%Q] /\
     side_record o = (if hybrid (state_before s0 os i)
       then map (fun pq => (fst pq, if b then snd pq else 0%Q)) (combine (side_products cfg) (side_qty cfg)) else [])).
Proof. intros eps recipe cfg t0 s0 es os H i o. exact (power t0 s0 es os H i o). Qed.
Print Assumptions C03_power_iff_full_and_in_cycle.
Example C03_case :
  (map power_record ex_outs = [[0];[1000];[1000];[0];[1000];[1000];[0];[1000];[1000];[0];[0];[0];[1000];[1000];[0];
     [1000];[1000];[0];[1000];[1000];[];[];[];[];[];[]])%Q /\ 0 <= cyc ex_start.
Proof. split; [vm_compute; reflexivity|vm_compute; discriminate]. Qed.

(** C04 *)
Theorem C04_cycle_lasts_cycle_time : forall eps recipe cfg t0 s0 es os,
  rx_history eps recipe cfg t0 s0 es os -> forall i o,
  1 <= cycle_t cfg -> cycle_ok cfg s0 -> nth_error os i = Some o -> has EvCycleStart o ->
  (forall k ok, 0 <= Z.of_nat k < cycle_t cfg -> nth_error os (i + k) = Some ok -> retired cfg (t0 + Z.of_nat (i + k)) = false ->
     power_record ok = [power_cap cfg] /\ rb_items (core (o_state ok)) = rb_items (core (o_state o)) /\ core_full cfg (o_state ok) /\
     ((0 < k)%nat -> ~ has EvCycleStart ok /\ ~ has EvCycleEnd ok)) /\
  (forall ok, nth_error os (i + Z.to_nat (cycle_t cfg)) = Some ok -> retired cfg (t0 + Z.of_nat (i + Z.to_nat (cycle_t cfg))) = false ->
     has EvCycleEnd ok /\ (power_record ok = [0%Q] \/ has EvCycleStart ok /\ power_record ok = [power_cap cfg])).
Proof. intros eps recipe cfg t0 s0 es os H i o. exact (cycle t0 s0 es os H i o). Qed.
Print Assumptions C04_cycle_lasts_cycle_time.
Example C04_case : exists o, 1 <= cycle_t ex_cfg /\ nth_error ex_outs 12 = Some o /\ has EvCycleStart o /\
  retired ex_cfg (0 + Z.of_nat (12 + Z.to_nat (cycle_t ex_cfg))) = false.
Proof. eexists. conc. Qed.

(** C05 *)
Theorem C05_restart_only_after_refuelling : forall eps recipe cfg t0 s0 es os,
  rx_history eps recipe cfg t0 s0 es os -> forall i j o o',
  1 <= cycle_t cfg -> cycle_ok cfg s0 -> (i <= j)%nat ->
  nth_error os i = Some o -> nth_error os j = Some o' -> has EvCycleEnd o -> has EvCycleStart o' ->
  (forall m om, (i <= m < j)%nat -> nth_error os m = Some om -> ~ has EvCycleStart om) ->
  refuel_t cfg <= Z.of_nat (j - i) /\ core_full cfg (o_state o') /\
  exists m om n, (i <= m <= j)%nat /\ nth_error os m = Some om /\ has (EvDischarge n) om.
Proof. intros eps recipe cfg t0 s0 es os H i j o o'. exact (restart t0 s0 es os H i j o o'). Qed.
Print Assumptions C05_restart_only_after_refuelling.
Example C05_case : exists o o', nth_error ex_outs 9 = Some o /\ nth_error ex_outs 12 = Some o' /\
  has EvCycleEnd o /\ has EvCycleStart o' /\
  (forall m om, (9 <= m < 12)%nat -> nth_error ex_outs m = Some om -> ~ has EvCycleStart om).
Proof.
  do 2 eexists. split; [vm_compute; reflexivity|]. split; [vm_compute; reflexivity|]. split; [conc|]. split; [conc|].
  intros m om Hm N Hs. assert (m = 9 \/ m = 10 \/ m = 11)%nat as D by lia.
  destruct D as [-> | [-> | ->]]; vm_compute in N; injection N as <-; vm_compute in Hs; intuition discriminate.
Qed.

(** C06 *)
Theorem C06_oldest_batch_burned : forall eps recipe cfg t0 s0 es os,
  rx_history eps recipe cfg t0 s0 es os -> forall i o, nth_error os i = Some o -> has EvCycleEnd o ->
  let s := state_before s0 os i in
  exists burned rest gone loaded n, n = Z.to_nat (Z.min (n_batch cfg) (zlen (rb_items (core s)))) /\
    Forall2 (burned_in recipe s) (firstn n (rb_items (core s))) burned /\ rest = skipn n (rb_items (core s)) /\
    rb_items (spent (o_ticked o)) = rb_items (spent s) ++ gone /\
    gone ++ rb_items (core (o_ticked o)) = burned ++ rest ++ loaded /\
    rb_items (fresh s) = loaded ++ rb_items (fresh (o_ticked o)) /\
    (gone = [] \/ gone = burned).
Proof. intros eps recipe cfg t0 s0 es os H i o. exact (burn t0 s0 es os H i o). Qed.
Print Assumptions C06_oldest_batch_burned.

Theorem C06_nothing_else_burned : forall eps recipe cfg t0 s0 es os,
  rx_history eps recipe cfg t0 s0 es os -> forall i o, nth_error os i = Some o ->
  retired cfg (t0 + Z.of_nat i) = false -> ~ has EvCycleEnd o ->
  let s := state_before s0 os i in
  exists gone loaded,
    rb_items (spent (o_ticked o)) = rb_items (spent s) ++ gone /\
    gone ++ rb_items (core (o_ticked o)) = rb_items (core s) ++ loaded /\
    rb_items (fresh s) = loaded ++ rb_items (fresh (o_ticked o)).
Proof. intros eps recipe cfg t0 s0 es os H i o. exact (no_burn t0 s0 es os H i o). Qed.
Print Assumptions C06_nothing_else_burned.

Theorem C06_burned_batch_is_discharged : forall eps recipe cfg t0 s0 es os,
  rx_history eps recipe cfg t0 s0 es os -> forall i j o o' n,
  1 <= cycle_t cfg -> cycle_ok cfg s0 -> burning_full cfg s0 -> (i <= j)%nat ->
  nth_error os i = Some o -> has EvCycleEnd o -> nth_error os j = Some o' -> has (EvDischarge n) o' ->
  retired cfg (t0 + Z.of_nat j) = false ->
  (forall m om k, (i <= m < j)%nat -> nth_error os m = Some om -> ~ has (EvDischarge k) om) ->
  n = Z.min (n_batch cfg) (n_core cfg) /\
  exists batch, rb_items (spent (o_ticked o')) = rb_items (spent (state_before s0 os j)) ++ batch /\
    Forall2 (burned_in recipe (state_before s0 os i)) (firstn (Z.to_nat n) (rb_items (core (state_before s0 os i)))) batch.
Proof. intros eps recipe cfg t0 s0 es os H i j o o' n. exact (batch t0 s0 es os H i j o o' n). Qed.
Print Assumptions C06_burned_batch_is_discharged.
(** The batch burned in step 9 stays in the core through two failed discharges and is discharged in step 12. *)
Example C06_case : exists o o', nth_error ex_outs 9 = Some o /\ has EvCycleEnd o /\
  nth_error ex_outs 12 = Some o' /\ has (EvDischarge 1) o' /\ retired ex_cfg (0 + Z.of_nat 12) = false /\
  (forall m om k, (9 <= m < 12)%nat -> nth_error ex_outs m = Some om -> ~ has (EvDischarge k) om).
Proof.
  do 2 eexists. split; [vm_compute; reflexivity|]. split; [conc|]. split; [vm_compute; reflexivity|]. split; [conc|]. split; [conc|].
  intros m om k Hm N Hs. assert (m = 9 \/ m = 10 \/ m = 11)%nat as D by lia.
  destruct D as [-> | [-> | ->]]; vm_compute in N; injection N as <-; vm_compute in Hs; intuition discriminate.
Qed.

(** C07 *)
Theorem C07_discharge_all_or_nothing : forall eps recipe cfg t0 s0 es os,
  rx_history eps recipe cfg t0 s0 es os -> forall i o, nth_error os i = Some o -> retired cfg (t0 + Z.of_nat i) = false ->
  let s := state_before s0 os i in
  (forall n, has (EvDischarge n) o ->
     n = Z.min (n_batch cfg) (zlen (rb_items (core s))) /\ n <= n_spent cfg - zlen (rb_items (spent s)) /\
     exists batch kept loaded, List.length batch = Z.to_nat n /\
       map tag (rb_items (core s)) = map tag (batch ++ kept) /\
       rb_items (core (o_ticked o)) = kept ++ loaded /\
       rb_items (fresh s) = loaded ++ rb_items (fresh (o_ticked o)) /\
       rb_items (spent (o_ticked o)) = rb_items (spent s) ++ batch) /\
  (has EvDischargeFailed o ->
     n_spent cfg - zlen (rb_items (spent s)) < Z.min (n_batch cfg) (zlen (rb_items (core s))) /\
     (forall n, ~ has (EvDischarge n) o) /\
     exists core' loaded, map tag core' = map tag (rb_items (core s)) /\
       rb_items (core (o_ticked o)) = core' ++ loaded /\
       rb_items (fresh s) = loaded ++ rb_items (fresh (o_ticked o)) /\
       rb_items (spent (o_ticked o)) = rb_items (spent s)) /\
  (~ has EvDischargeFailed o -> (forall n, ~ has (EvDischarge n) o) ->
     rb_items (spent (o_ticked o)) = rb_items (spent s)).
Proof. intros eps recipe cfg t0 s0 es os H i o. exact (discharge t0 s0 es os H i o). Qed.
Print Assumptions C07_discharge_all_or_nothing.

Theorem C07_no_power_until_discharged : forall eps recipe cfg t0 s0 es os,
  rx_history eps recipe cfg t0 s0 es os -> forall i o,
  1 <= cycle_t cfg -> nth_error os i = Some o -> has EvDischargeFailed o ->
  forall k ok, nth_error os (i + k) = Some ok -> retired cfg (t0 + Z.of_nat (i + k)) = false ->
  (forall m om n, (i <= m <= i + k)%nat -> nth_error os m = Some om -> ~ has (EvDischarge n) om) ->
  power_record ok = [0%Q] /\ ~ has EvCycleStart ok /\ has EvDischargeFailed ok.
Proof. intros eps recipe cfg t0 s0 es os H i o. exact (no_power_until_discharged t0 s0 es os H i o). Qed.
Print Assumptions C07_no_power_until_discharged.
Example C07_case : exists o ok, nth_error ex_outs 9 = Some o /\ has EvDischargeFailed o /\
  nth_error ex_outs (9 + 2) = Some ok /\
  (forall m om n, (9 <= m <= 9 + 2)%nat -> nth_error ex_outs m = Some om -> ~ has (EvDischarge n) om).
Proof.
  do 2 eexists. split; [vm_compute; reflexivity|]. split; [conc|]. split; [vm_compute; reflexivity|].
  intros m om n Hm N Hs. assert (m = 9 \/ m = 10 \/ m = 11)%nat as D by lia.
  destruct D as [-> | [-> | ->]]; vm_compute in N; injection N as <-; vm_compute in Hs; intuition discriminate.
Qed.

(** C08 *)
Theorem C08_offers_and_shipments : forall eps recipe cfg t0 s0 es os,
  rx_history eps recipe cfg t0 s0 es os -> forall i o c, nth_error os i = Some o ->
  Forall (fun b => In (bp_commod b) (outcommods cfg) /\
            (bp_cap b == qty_of (waiting cfg (o_ticked o) (bp_commod b)))%Q /\
            Forall (fun jm => In (snd jm) (waiting cfg (o_ticked o) (bp_commod b))) (bp_bids b)) (o_bids o) /\
  waiting cfg (o_ticked o) c = shipped_on c (o_shipped o) ++ waiting cfg (o_state o) c /\
  exists new, waiting cfg (o_ticked o) c = waiting cfg (state_before s0 os i) c ++ new.
Proof. intros eps recipe cfg t0 s0 es os H i o c. exact (shipping t0 s0 es os H i o c). Qed.
Print Assumptions C08_offers_and_shipments.

Theorem C08_first_discharged_first_shipped : forall eps recipe cfg t0 s0 es os,
  rx_history eps recipe cfg t0 s0 es os -> forall c, exists later,
  shipped_on c (List.concat (map o_shipped os)) ++ waiting cfg (end_state s0 os) c = waiting cfg s0 c ++ later.
Proof. intros eps recipe cfg t0 s0 es os H c. exact (queue t0 s0 es os H c). Qed.
Print Assumptions C08_first_discharged_first_shipped.

Theorem C08_shipped_on_its_own_commodity : forall eps recipe cfg t0 s0 es os,
  rx_history eps recipe cfg t0 s0 es os -> forall i j e o' d c m,
  nth_error es i = Some e -> In d (e_deliv e) -> (i < j)%nat ->
  nth_error os j = Some o' -> In (c, m) (o_shipped o') -> m_id m = m_id (snd d) ->
  (forall k ok r, (i < k < j)%nat -> nth_error os k = Some ok -> In r (o_shipped ok) -> m_id (snd r) <> m_id (snd d)) ->
  exists n, first_position cfg n (fst d) /\ nth_error (outcommods cfg) n = Some c.
Proof. intros eps recipe cfg t0 s0 es os H i j e o' d c m. exact (commodity t0 s0 es os H i j e o' d c m). Qed.
Print Assumptions C08_shipped_on_its_own_commodity.
(** In step 21 both commodities wait; assembly 6 of fuel "a", received in step 12, leaves on "x". *)
Example C08_case : exists e o m d, nth_error ex_envs 12 = Some e /\ In d (e_deliv e) /\ fst d = "a"%string /\
  nth_error ex_outs 21 = Some o /\ In ("x"%string, m) (o_shipped o) /\ m_id m = m_id (snd d) /\
  map fst (o_shipped o) = ["x"; "y"]%string.
Proof.
  do 4 eexists. split; [vm_compute; reflexivity|]. split; [vm_compute; left; reflexivity|]. split; [vm_compute; reflexivity|].
  split; [vm_compute; reflexivity|]. split; [vm_compute; left; reflexivity|]. split; vm_compute; reflexivity.
Qed.

(** C09 *)
Theorem C09_orders_match_free_space : forall eps recipe cfg t0 s0 es os,
  rx_history eps recipe cfg t0 s0 es os -> forall i o, nth_error os i = Some o ->
  exists n p, o_reqs o = repeat p n /\
    Z.of_nat n <= free_positions cfg (o_ticked o) /\
    (exit_t cfg = -1 -> Z.of_nat n = free_positions cfg (o_ticked o)) /\
    (retired cfg (t0 + Z.of_nat i) = true -> n = 0%nat) /\
    (free_positions cfg (o_ticked o) = 0 -> n = 0%nat) /\
    List.length p = List.length (incommods cfg) /\
    (forall j r, nth_error p j = Some r -> exists rn,
       nth_error (incommods cfg) j = Some (r_commod r) /\ nth_error (prefs (o_ticked o)) j = Some (r_pref r) /\
       nth_error (inrecipes (o_ticked o)) j = Some rn /\ recipe rn = Some (r_comp r) /\ r_qty r = assem cfg).
Proof. intros eps recipe cfg t0 s0 es os H i o. exact (ordering t0 s0 es os H i o). Qed.
Print Assumptions C09_orders_match_free_space.
Example C09_case : map (fun o => List.length (o_reqs o)) (firstn 7 ex_outs) = [3; 2; 0; 1; 0; 0; 1]%nat.
Proof. vm_compute. reflexivity. Qed.

(** C10.  The full statement
      forall history, step i before retirement, n refuellings left:
        fuel_missing cfg (o_ticked o) n <= zlen (o_reqs o)
    is false: the amount subtracted is the capacity of the fresh inventory, not
    its contents.  Proved: the shortfall is at most the free part of the fresh
    inventory (so the claim holds when that is full or absent). *)
Theorem C10_orders_suffice_partial : forall eps recipe cfg t0 s0 es os,
  rx_history eps recipe cfg t0 s0 es os -> forall i o n,
  1 <= cycle_t cfg -> cycle_ok cfg s0 -> 0 < cycle_t cfg + refuel_t cfg -> exit_t cfg <> -1 ->
  nth_error os i = Some o -> retired cfg (t0 + Z.of_nat i) = false ->
  refuellings_left cfg (t0 + Z.of_nat i) (o_ticked o) n ->
  fuel_missing cfg (o_ticked o) n - (n_fresh cfg - zlen (rb_items (fresh (o_ticked o)))) <= zlen (o_reqs o).
Proof. intros eps recipe cfg t0 s0 es os H i o n. exact (need t0 s0 es os H i o n). Qed.
Print Assumptions C10_orders_suffice_partial.
Example C10_partial_case : exists o, nth_error ex_outs 3 = Some o /\ retired ex_cfg (0 + Z.of_nat 3) = false /\
  refuellings_left ex_cfg (0 + Z.of_nat 3) (o_ticked o) 6 /\ fuel_missing ex_cfg (o_ticked o) 6 = 1 /\ zlen (o_reqs o) = 1.
Proof.
  eexists. split; [vm_compute; reflexivity|]. split; [vm_compute; reflexivity|]. split; [|split; vm_compute; reflexivity].
  split; [lia|]. split; [vm_compute; discriminate|]. intros m Hm Hl. change (17 <= 1 + m * 3) in Hl. lia.
Qed.

(** A new reactor whose fresh inventory could hold the fuel of its whole life never orders any fuel and never runs. *)
Definition starving : rx_cfg :=
  {| n_batch := 1; n_core := 1; n_fresh := 3; n_spent := 2; assem := 10%Q;
     cycle_t := 3; refuel_t := 1; power_cap := 1000%Q; incommods := ["a"]; outcommods := ["x"];
     side_products := []; side_qty := []; decom_all := false; pc_times := []; pc_commods := []; pc_vals := [];
     rc_times := []; rc_commods := []; rc_in := []; rc_out := []; exit_t := 11 |}%string.
Definition starving_start : rx_state := rx_new starving ["fresh_a"]%string ["spent_a"]%string [1%Q] 0.

Theorem C10_starvation : forall eps recipe cfg t s es os,
  rx_history eps recipe cfg t s es os ->
  1 <= cycle_t cfg -> 0 <= refuel_t cfg -> 1 <= n_core cfg -> exit_t cfg <> -1 ->
  rb_items (core s) = [] -> rb_items (fresh s) = [] -> cyc s = 0 -> disch s = false ->
  (forall n, 0 <= n -> refuellings_left cfg t s n -> n * n_batch cfg + n_core cfg <= n_fresh cfg) ->
  Forall (fun o => o_reqs o = [] /\ Forall (fun q => q = 0%Q) (power_record o)) os.
Proof. intros eps recipe cfg t s es os. exact (never_orders es t s os). Qed.
Print Assumptions C10_starvation.

(** The witness: life of three cycles, fresh inventory of three; in the first
    step one assembly for the core and two refuellings are needed, none is ordered. *)
Theorem C10_orders_suffice_refuted : exists eps recipe cfg t0 s0 es os o n,
  rx_history eps recipe cfg t0 s0 es os /\ cycle_ok cfg s0 /\ burning_full cfg s0 /\ exit_t cfg <> -1 /\ 1 <= cycle_t cfg /\
  nth_error os 0 = Some o /\ retired cfg t0 = false /\ refuellings_left cfg t0 (o_ticked o) n /\
  fuel_missing cfg (o_ticked o) n = 3 /\ o_reqs o = [].
Proof.
  exists 0%Q, ex_recipe, starving, 0, starving_start, [{| e_reqs := fun _ => []; e_pick := []; e_deliv := [] |}].
  do 2 eexists. exists 2. split; [|split; [|split; [|split; [|split]]]].
  - constructor; try discriminate.
    + apply config_consistentb_sound. vm_compute. reflexivity.
    + constructor.
    + apply reactor_okb_sound. vm_compute. reflexivity.
    + apply run_contractb_sound. vm_compute. reflexivity.
    + vm_compute. reflexivity.
  - split; [vm_compute; discriminate|discriminate].
  - intro H. vm_compute in H. discriminate.
  - discriminate.
  - vm_compute. discriminate.
  - split; [vm_compute; reflexivity|]. split; [vm_compute; reflexivity|]. split; [|split; vm_compute; reflexivity].
    split; [lia|]. split; [vm_compute; discriminate|]. intros m Hm Hl. change (12 <= 4 + m * 4) in Hl. lia.
Qed.
Print Assumptions C10_orders_suffice_refuted.
Example C10_starvation_case : 1 <= n_core starving /\ rb_items (core starving_start) = [] /\
  (forall n, 0 <= n -> refuellings_left starving 0 starving_start n -> n * n_batch starving + n_core starving <= n_fresh starving).
Proof.
  split; [vm_compute; discriminate|]. split; [reflexivity|]. intros n Hn (_ & _ & L).
  specialize (L 2 ltac:(lia) ltac:(vm_compute; discriminate)). simpl. lia.
Qed.

(** C11 *)
Theorem C11_retirement : forall eps recipe cfg t0 s0 es os,
  rx_history eps recipe cfg t0 s0 es os -> forall i o, nth_error os i = Some o -> retired cfg (t0 + Z.of_nat i) = true ->
  let s := state_before s0 os i in
  power_record o = [] /\ side_record o = [] /\ o_reqs o = [] /\
  (exists core',
     (t0 + Z.of_nat i <> exit_t cfg + 1 -> core' = rb_items (core s)) /\
     (t0 + Z.of_nat i = exit_t cfg + 1 -> exists n burned, retire_burn cfg n /\
        Forall2 (burned_in recipe s) (firstn (Z.to_nat n) (rb_items (core s))) burned /\
        core' = burned ++ skipn (Z.to_nat n) (rb_items (core s))) /\
     exists gone unused,
       core' = gone ++ rb_items (core (o_ticked o)) /\
       rb_items (fresh s) = unused ++ rb_items (fresh (o_ticked o)) /\
       rb_items (spent (o_ticked o)) = rb_items (spent s) ++ gone ++ unused /\
       ((exists q, zlen gone = q * n_batch cfg) \/ rb_items (core (o_ticked o)) = []) /\
       (rb_items (core (o_ticked o)) = [] \/
        n_spent cfg - zlen (rb_items (spent s) ++ gone) < Z.min (n_batch cfg) (zlen (rb_items (core (o_ticked o))))) /\
       (rb_items (fresh (o_ticked o)) = [] \/ zlen (rb_items (spent (o_ticked o))) = n_spent cfg)) /\
  rb_items (core (o_state o)) = rb_items (core (o_ticked o)) /\
  rb_items (fresh (o_state o)) = rb_items (fresh (o_ticked o)) /\
  (has EvSchedDecom o <-> rb_items (core (o_ticked o)) = [] /\ rb_items (spent (o_ticked o)) = []) /\
  (1 <= n_spent cfg -> has EvSchedDecom o -> assemblies (o_ticked o) = []).
Proof. intros eps recipe cfg t0 s0 es os H i o. exact (retirement t0 s0 es os H i o). Qed.
Print Assumptions C11_retirement.

(** If the spent fuel is taken away in every step, the retired reactor does schedule its decommissioning. *)
Theorem C11_decommissions_eventually : forall eps recipe cfg t0 s0 es os,
  rx_history eps recipe cfg t0 s0 es os ->
  retired cfg t0 = true -> n_batch cfg <= n_spent cfg -> rb_items (spent s0) = [] ->
  Forall (fun o => rb_items (spent (o_state o)) = []) os ->
  zlen (rb_items (core s0)) + zlen (rb_items (fresh s0)) < zlen es ->
  Exists (has EvSchedDecom) os.
Proof. intros eps recipe cfg t0 s0 es os H. exact (drained t0 s0 es os H). Qed.
Print Assumptions C11_decommissions_eventually.
Example C11_case : exists o20 o23, nth_error ex_outs 20 = Some o20 /\ nth_error ex_outs 23 = Some o23 /\
  retired ex_cfg (0 + Z.of_nat 20) = true /\ 0 + Z.of_nat 20 = exit_t ex_cfg + 1 /\
  zlen (rb_items (core (state_before ex_start ex_outs 20))) = 2 /\ has EvSchedDecom o23.
Proof. do 2 eexists. split; [vm_compute; reflexivity|]. split; [vm_compute; reflexivity|]. conc. Qed.

(** C12 *)
Theorem C12_changes_exactly_on_time : forall eps recipe cfg t0 s0 es os,
  rx_history eps recipe cfg t0 s0 es os -> forall i o, nth_error os i = Some o -> retired cfg (t0 + Z.of_nat i) = false ->
  let t := t0 + Z.of_nat i in let s := state_before s0 os i in
  table_follows cfg (pc_times cfg) (pc_commods cfg) (pc_vals cfg) t (prefs s) (prefs (o_ticked o)) /\
  table_follows cfg (rc_times cfg) (rc_commods cfg) (rc_in cfg) t (inrecipes s) (inrecipes (o_ticked o)) /\
  table_follows cfg (rc_times cfg) (rc_commods cfg) (rc_out cfg) t (outrecipes s) (outrecipes (o_ticked o)) /\
  prefs (o_state o) = prefs (o_ticked o) /\ inrecipes (o_state o) = inrecipes (o_ticked o) /\
  outrecipes (o_state o) = outrecipes (o_ticked o).
Proof. intros eps recipe cfg t0 s0 es os H i o. exact (tables t0 s0 es os H i o). Qed.
Print Assumptions C12_changes_exactly_on_time.
Example C12_case :
  map (fun o => prefs (o_ticked o)) (firstn 6 ex_outs) = [[1; 2]; [1; 2]; [1; 2]; [1; 2]; [1; 9]; [1; 9]]%Q /\
  map (fun o => outrecipes (o_ticked o)) (firstn 8 ex_outs) =
    repeat ["spent_a"; "spent_b"]%string 6 ++ repeat ["spent_a2"; "spent_b"]%string 2.
Proof. split; vm_compute; reflexivity. Qed.

(** C13.  What start-up checks, exactly. *)
Theorem C13_startup_checks_exactly : forall cfg s,
  ((exists s', enter_notify cfg s = Ok s') <-> change_tables_agree cfg) /\
  (~ change_tables_agree cfg -> enter_notify cfg s = Throw ValueError).
Proof. intros cfg s. split; [exact (enter_notify_iff s)|exact (enter_notify_else s)]. Qed.
Print Assumptions C13_startup_checks_exactly.
Example C13_startup_case : change_tables_agree ex_cfg. Proof. repeat split. Qed.

(** The full statement
      forall cfg s, enter_notify cfg s = Ok s' -> no step from s' is UB
    is false: the lengths of the fuel and side-product tables are not checked. *)
Definition no_env : rx_env := {| e_reqs := fun _ => []; e_pick := []; e_deliv := [] |}.
Definition ragged : rx_cfg :=
  {| n_batch := 1; n_core := 1; n_fresh := 0; n_spent := 1; assem := 10%Q;
     cycle_t := 3; refuel_t := 1; power_cap := 1000%Q; incommods := ["a"; "b"]; outcommods := ["x"; "y"];
     side_products := []; side_qty := []; decom_all := false; pc_times := []; pc_commods := []; pc_vals := [];
     rc_times := []; rc_commods := []; rc_in := []; rc_out := []; exit_t := -1 |}%string.
Theorem C13_accepted_input_in_bounds_refuted : exists recipe cfg inr outr pf s,
  enter_notify cfg (rx_new cfg inr outr pf 0) = Ok s /\ Forall (fun r => recipe r <> None) (inr ++ outr) /\
  rx_step 0 recipe cfg 0 s no_env = UB OutOfBounds.
Proof.
  exists ex_recipe, ragged, ["fresh_a"]%string, ["spent_a"]%string, []. eexists. split; [vm_compute; reflexivity|].
  split; [repeat constructor; discriminate|]. vm_compute. reflexivity.
Qed.
Print Assumptions C13_accepted_input_in_bounds_refuted.

(** With tables of equal lengths no step is undefined or fails at all. *)
Theorem C13_consistent_input_in_bounds_partial : forall eps recipe cfg t s e,
  (0 <= eps)%Q -> config_consistent cfg -> recipes_known recipe cfg -> reactor_ok recipe cfg s ->
  step_contract eps recipe cfg t s e -> exists o, rx_step eps recipe cfg t s e = Ok o /\ reactor_ok recipe cfg (o_state o).
Proof.
  intros eps recipe cfg t s e He Hc Hk Hs HC.
  destruct (step_ok eps recipe cfg He Hc Hk t s e Hs HC) as (o & E & _ & I & _). exists o. split; [exact E|exact I].
Qed.
Print Assumptions C13_consistent_input_in_bounds_partial.
Example C13_case : step_contract 0 ex_recipe ex_cfg 0 ex_start no_env.
Proof. apply step_contractb_sound. vm_compute. reflexivity. Qed.

(** C57 *)
Theorem C57_core_refilled_during_outage : forall eps recipe cfg t0 s0 es os,
  rx_history eps recipe cfg t0 s0 es os -> forall i k o ok,
  1 <= cycle_t cfg -> cycle_ok cfg s0 -> nth_error os i = Some o -> has EvCycleEnd o ->
  nth_error os (i + k) = Some ok -> retired cfg (t0 + Z.of_nat (i + k)) = false ->
  (forall m om, (i <= m < i + k)%nat -> nth_error os m = Some om -> ~ has EvCycleStart om) ->
  core_full cfg (o_ticked ok) \/ rb_items (fresh (o_ticked ok)) = [].
Proof. intros eps recipe cfg t0 s0 es os H i k o ok. exact (refilled t0 s0 es os H i k o ok). Qed.
Print Assumptions C57_core_refilled_during_outage.
Example C57_case : exists o, nth_error ex_outs 3 = Some o /\ has EvCycleEnd o /\ core_full ex_cfg (o_ticked o) /\
  zlen (rb_items (fresh (state_before ex_start ex_outs 3))) = 1.
Proof. eexists. conc. Qed.
