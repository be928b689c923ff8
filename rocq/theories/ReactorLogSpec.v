(** Reading the reactor's records (the ReactorEvents table, the supply and
    demand time series) and its offers. *)
From Verif Require Import Outcome KernelMaterial KernelResBuf ReactorModel ReactorSpec.
Local Open Scope Z_scope.

(** Sum of a list of counts. *)
Definition total (l : list Z) : Z := fold_right Z.add 0 l.

(** Number of assemblies recorded as loaded, discharged, transmuted in a step. *)
Definition loads (o : rx_out) : Z := total (map (fun e => match e with EvLoad n => n | _ => 0 end) (o_events o)).
Definition discharges (o : rx_out) : Z := total (map (fun e => match e with EvDischarge n => n | _ => 0 end) (o_events o)).
Definition transmutations (o : rx_out) : Z := total (map (fun e => match e with EvTransmute n => n | _ => 0 end) (o_events o)).

(** Recorded supply and demand: commodity and quantity. *)
Definition supply_record (o : rx_out) : list (string * Q) :=
  List.concat (map (fun e => match e with EvSupply c q => [(c, q)] | _ => [] end) (o_events o)).
Definition demand_record (o : rx_out) : list (string * Q) :=
  List.concat (map (fun e => match e with EvDemand c q => [(c, q)] | _ => [] end) (o_events o)).

(** Assemblies in an inventory. *)
Definition held_in (inventory : rx_state -> resbuf) (s : rx_state) : Z := zlen (rb_items (inventory s)).

(** Position [j] has the highest of the preferences, the first one if several have. *)
Definition favourite (prefs : list Q) (j : nat) : Prop :=
  exists p, nth_error prefs j = Some p /\
    (forall k q, nth_error prefs k = Some q -> (q <= p)%Q) /\
    (forall k q, (k < j)%nat -> nth_error prefs k = Some q -> (q < p)%Q).

(** The assemblies offered to request [j] in a bid portfolio. *)
Definition offered_to (j : nat) (b : bidport) : list mat :=
  map snd (filter (fun x => Nat.eqb (fst x) j) (bp_bids b)).

(** [offered] is the shortest non-empty beginning of [waiting] that covers the quantity [q],
    or all of it if none does. *)
Definition covers (q : Q) (offered waiting : list mat) : Prop :=
  exists k, (1 <= k <= List.length waiting)%nat /\ offered = firstn k waiting /\
    ((q <= qty_of offered)%Q \/ k = List.length waiting) /\
    forall i, (1 <= i < k)%nat -> (qty_of (firstn i waiting) < q)%Q.
