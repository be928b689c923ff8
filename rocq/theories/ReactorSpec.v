(** Specification vocabulary for the Reactor theorems: consistent
    configurations, states a reactor can be started in, and the contract of
    the resource exchange.  Nothing here refers to how the reactor computes. *)
From Coq Require Import Permutation.
From Verif Require Import Outcome KernelMaterial KernelResBuf ReactorModel.
Local Open Scope Z_scope.

(** A consistent input: sensible numbers, and tables of equal length.
    (The code itself checks only the change tables; see C13.) *)
Record config_consistent (cfg : rx_cfg) : Prop := {
  cc_batch : 1 <= n_batch cfg;
  cc_core : 0 <= n_core cfg;
  cc_fresh : 0 <= n_fresh cfg;
  cc_spent : 0 <= n_spent cfg;
  cc_assem : (0 < assem cfg)%Q;
  cc_period : exit_t cfg = -1 \/ 0 < cycle_t cfg + refuel_t cfg;
  cc_fuels : incommods cfg <> [];
  cc_out : List.length (outcommods cfg) = List.length (incommods cfg);
  cc_side : List.length (side_qty cfg) = List.length (side_products cfg);
  cc_pc1 : List.length (pc_commods cfg) = List.length (pc_times cfg);
  cc_pc2 : List.length (pc_vals cfg) = List.length (pc_times cfg);
  cc_rc1 : List.length (rc_commods cfg) = List.length (rc_times cfg);
  cc_rc2 : List.length (rc_in cfg) = List.length (rc_times cfg);
  cc_rc3 : List.length (rc_out cfg) = List.length (rc_times cfg)
}.

(** All assemblies held by the reactor. *)
Definition assemblies (s : rx_state) : list mat :=
  rb_items (fresh s) ++ rb_items (core s) ++ rb_items (spent s).

(** What identifies an assembly as a physical object: its id and its mass. *)
Definition tag (m : mat) : Z * Q := (m_id m, m_qty m).

(** The three inventories hold no more than the configured number of assemblies. *)
Definition within_limits (cfg : rx_cfg) (s : rx_state) : Prop :=
  zlen (rb_items (fresh s)) <= n_fresh cfg /\
  zlen (rb_items (core s)) <= n_core cfg /\
  zlen (rb_items (spent s)) <= n_spent cfg.

(** A state a simulation (or a restart) may begin in. *)
Record reactor_ok (recipe : string -> option comp) (cfg : rx_cfg) (s : rx_state) : Prop := {
  ok_limits : within_limits cfg s;
  ok_caps : (rb_cap (fresh s) == inject_Z (n_fresh cfg) * assem cfg /\
             rb_cap (core s) == inject_Z (n_core cfg) * assem cfg /\
             rb_cap (spent s) == inject_Z (n_spent cfg) * assem cfg)%Q;
  ok_sizes : Forall (fun m => (m_qty m == assem cfg)%Q) (assemblies s);
  ok_distinct : NoDup (map m_id (assemblies s));
  ok_tables : List.length (inrecipes s) = List.length (incommods cfg) /\
              List.length (outrecipes s) = List.length (incommods cfg) /\
              List.length (prefs s) = List.length (incommods cfg);
  ok_recipes : Forall (fun r => recipe r <> None) (inrecipes s ++ outrecipes s);
  ok_index : Forall (fun m => (idx_get (m_id m) (idx s) < List.length (incommods cfg))%nat) (assemblies s)
}.

(** The recipes named by scheduled recipe changes exist. *)
Definition recipes_known (recipe : string -> option comp) (cfg : rx_cfg) : Prop :=
  Forall (fun r => recipe r <> None) (rc_in cfg ++ rc_out cfg).

(** How often [c] occurs in a list of commodities. *)
Definition count_commod (c : string) (l : list string) : Z :=
  zlen (filter (String.eqb c) l).

(** The exchange answers each order at most once, with an assembly of the
    ordered commodity and size that is a new object; it awards trades only
    against published bid portfolios and within their capacity. *)
Definition exchange_ok (cfg : rx_cfg) (s1 : rx_state) (reqs : list (list request))
  (bids : list bidport) (e : rx_env) : Prop :=
  zlen (e_deliv e) <= zlen reqs /\
  Forall (fun d => exists p r, In p reqs /\ In r p /\ fst d = r_commod r /\
                               (m_qty (snd d) == r_qty r)%Q) (e_deliv e) /\
  NoDup (map (fun d => m_id (snd d)) (e_deliv e) ++ map m_id (assemblies s1)) /\
  (forall c, In c (e_pick e) ->
     exists b, In b bids /\ bp_commod b = c /\
               (inject_Z (count_commod c (e_pick e)) * assem cfg <= bp_cap b)%Q).

(** The contract for the time step at [t] from [s]. *)
Definition step_contract (eps : Q) (recipe : string -> option comp) (cfg : rx_cfg)
  (t : Z) (s : rx_state) (e : rx_env) : Prop :=
  forall s1 ev1 reqs ev2 bids,
    tick eps recipe cfg t s = Ok (s1, ev1) ->
    get_requests recipe cfg t s1 = Ok (reqs, ev2) ->
    get_bids eps cfg s1 (e_reqs e) = Ok bids ->
    exchange_ok cfg s1 reqs bids e.

(** The contract along a history. *)
Fixpoint run_contract (eps : Q) (recipe : string -> option comp) (cfg : rx_cfg)
  (t : Z) (s : rx_state) (es : list rx_env) : Prop :=
  match es with
  | [] => True
  | e :: es' =>
      step_contract eps recipe cfg t s e /\
      (forall o, rx_step eps recipe cfg t s e = Ok o ->
                 run_contract eps recipe cfg (t + 1) (o_state o) es')
  end.

(** ** Reading a history *)

(** State before step [i] of a history that started in [s]. *)
Definition state_before (s : rx_state) (os : list rx_out) (i : nat) : rx_state :=
  match i with
  | O => s
  | S j => match nth_error os j with Some o => o_state o | None => s end
  end.

(** A step's record contains the given event. *)
Definition has (ev : event) (o : rx_out) : Prop := In ev (o_events o).

(** Power values recorded in a step. *)
Definition power_record (o : rx_out) : list Q :=
  List.concat (map (fun e => match e with EvPower q => [q] | _ => [] end) (o_events o)).

(** Side products recorded in a step. *)
Definition side_record (o : rx_out) : list (string * Q) :=
  List.concat (map (fun e => match e with EvSide p q => [(p, q)] | _ => [] end) (o_events o)).

Definition starts_cycle (o : rx_out) : bool :=
  existsb (fun e => match e with EvCycleStart => true | _ => false end) (o_events o).

(** Number of steps since the last recorded CYCLE_START (0 in the step that
    records it), given that number for the history before. *)
Fixpoint since_start (before : option Z) (os : list rx_out) : option Z :=
  match os with
  | [] => before
  | o :: os' =>
      since_start (if starts_cycle o then Some 0 else option_map (Z.add 1) before) os'
  end.

(** The initial cycle_step parameter [c] says that the reactor has already run
    [c] steps of a cycle. *)
Definition since_initial (c : Z) : option Z := if c =? 0 then None else Some (c - 1).

(** The core holds its full complement. *)
Definition core_full (cfg : rx_cfg) (s : rx_state) : Prop := zlen (rb_items (core s)) = n_core cfg.

(** [new] is [old] burned with the discharge recipe in force in state [s]. *)
Definition burned_in (recipe : string -> option comp) (s : rx_state) (old new : mat) : Prop :=
  tag new = tag old /\
  exists r c, nth_error (outrecipes s) (idx_get (m_id old) (idx s)) = Some r /\
              recipe r = Some c /\ m_comp new = c.

(** Cycle bookkeeping a simulation may start with: a non-negative cycle_step,
    and "discharged" only after the end of a cycle.  The initial values
    (cycle_step = any non-negative number, not discharged) qualify. *)
Definition cycle_ok (cfg : rx_cfg) (s : rx_state) : Prop :=
  0 <= cyc s /\ (disch s = true -> cycle_t cfg < cyc s).

(** A cycle in progress (or awaiting discharge) has a full core; in particular
    an initial cycle_step of 0 qualifies. *)
Definition burning_full (cfg : rx_cfg) (s : rx_state) : Prop :=
  0 < cyc s -> disch s = false -> core_full cfg s.

(** The commodity on which an assembly leaves: the entry of the out-commodity
    table at the position of the fuel it was received as. *)
Definition leaves_on (cfg : rx_cfg) (s : rx_state) (m : mat) : option string :=
  nth_error (outcommods cfg) (idx_get (m_id m) (idx s)).

(** The spent assemblies leaving on [c], oldest first. *)
Definition waiting (cfg : rx_cfg) (s : rx_state) (c : string) : list mat :=
  filter (fun m => match leaves_on cfg s m with Some c' => String.eqb c' c | None => false end)
         (rb_items (spent s)).

(** The assemblies shipped on [c], in order. *)
Definition shipped_on (c : string) (l : list (string * mat)) : list mat :=
  map snd (filter (fun r => String.eqb (fst r) c) l).

(** Last state of a history. *)
Definition end_state (s : rx_state) (os : list rx_out) : rx_state := last (map o_state os) s.

(** Position [j] of the fuel table is the first one for in-commodity [c]. *)
Definition first_position (cfg : rx_cfg) (j : nat) (c : string) : Prop :=
  nth_error (incommods cfg) j = Some c /\
  forall k, (k < j)%nat -> nth_error (incommods cfg) k <> Some c.

(** Values scheduled for in-commodity [c] at time [t], in table order. *)
Definition scheduled {A} (times : list Z) (commods : list string) (vals : list A) (t : Z) (c : string) : list A :=
  map snd (filter (fun x => ((fst (fst x) =? t) && String.eqb (snd (fst x)) c)%bool)
                  (combine (combine times commods) vals)).

(** Number of refuellings that still begin a cycle before the reactor retires:
    the least [n] such that the current cycle and [n] further ones last until then. *)
Definition refuellings_left (cfg : rx_cfg) (t : Z) (s : rx_state) (n : Z) : Prop :=
  let left_in_cycle := cycle_t cfg + refuel_t cfg - cyc s in
  let period := cycle_t cfg + refuel_t cfg in
  0 <= n /\ exit_t cfg - t + 1 <= left_in_cycle + n * period /\
  forall m, 0 <= m -> exit_t cfg - t + 1 <= left_in_cycle + m * period -> n <= m.

(** Free places for fuel in core and fresh inventory. *)
Definition free_positions (cfg : rx_cfg) (s : rx_state) : Z :=
  n_core cfg - zlen (rb_items (core s)) + (n_fresh cfg - zlen (rb_items (fresh s))).

(** [new] is the fuel table [old] after exactly the changes scheduled for time [t]:
    the fuel named by a change (the first with that in-commodity) takes the last
    value scheduled for it, everything else stays. *)
Definition table_follows {A} (cfg : rx_cfg) (times : list Z) (commods : list string) (vals : list A)
  (t : Z) (old new : list A) : Prop :=
  (forall j c p, first_position cfg j c -> nth_error old j = Some p ->
     nth_error new j = Some (last (scheduled times commods vals t c) p)) /\
  (forall j, (forall c, ~ first_position cfg j c) -> nth_error new j = nth_error old j).

(** Number of assemblies transmuted at retirement: all, or half rounded up. *)
Definition retire_burn (cfg : rx_cfg) (n : Z) : Prop :=
  if decom_all cfg then n = n_core cfg else 2 * n = n_core cfg \/ 2 * n = n_core cfg + 1.

(** A history: consecutive time steps [os] of a consistently configured reactor
    from a legitimate state [s0] at time [t0], with environment actions [es]
    that honour the exchange contract. *)
Record rx_history (eps : Q) (recipe : string -> option comp) (cfg : rx_cfg) (t0 : Z) (s0 : rx_state)
  (es : list rx_env) (os : list rx_out) : Prop := {
  h_eps : (0 <= eps)%Q;
  h_cfg : config_consistent cfg;
  h_known : recipes_known recipe cfg;
  h_start : reactor_ok recipe cfg s0;
  h_contract : run_contract eps recipe cfg t0 s0 es;
  h_run : rx_run eps recipe cfg t0 s0 es = Ok os
}.

(** The fuel still missing for [n] refuellings and a full core, beyond what is
    on hand, as far as it fits. *)
Definition fuel_missing (cfg : rx_cfg) (s : rx_state) (n : Z) : Z :=
  Z.min (n * n_batch cfg + (n_core cfg - zlen (rb_items (core s))) - zlen (rb_items (fresh s)))
        (free_positions cfg s).

(** Start-up accepts exactly the inputs whose change tables have equal lengths. *)
Definition change_tables_agree (cfg : rx_cfg) : Prop :=
  List.length (rc_commods cfg) = List.length (rc_times cfg) /\
  List.length (rc_in cfg) = List.length (rc_times cfg) /\
  List.length (rc_out cfg) = List.length (rc_times cfg) /\
  List.length (pc_commods cfg) = List.length (pc_times cfg) /\
  List.length (pc_vals cfg) = List.length (pc_times cfg).
