(** Simulations that follow a deployment plan (C141). *)
From Verif Require Import Outcome KernelMaterial KernelResBuf KernelBuf NetworkSpec SimulationSpec UnitSpec.
From Verif Require InstModel InstSpec.
Local Open Scope Z_scope.

(** What happens in a time step besides the plan: what the facilities are told and draw, the trades of the exchange, and the positions of the facilities that are decommissioned at its end, one after the other. *)
Record day := { dy_sig : nat -> signal; dy_trades : list trade; dy_leave : list nat }.
Definition without {A} (i : nat) (l : list A) : list A := firstn i l ++ skipn (S i) l.
Fixpoint depart {A} (l : list nat) (fs : list A) : list A := match l with [] => fs | i :: r => depart r (without i fs) end.
Fixpoint possible {A} (l : list nat) (fs : list A) : Prop := match l with [] => True | i :: r => (i < List.length fs)%nat /\ possible r (without i fs) end.
(** [runs w id0 plan days t id fs]: in every time step the facilities in the plan for it are deployed, then the exchange takes place, then facilities leave (the kernel's order).  After the days [days] it is time [t], the next free
    number of an object is [id], and the network is [fs]. *)
Inductive runs (w : world) (id0 : Z) (plan : Z -> list fac) : list day -> Z -> Z -> list fac -> Prop :=
| rn_start : runs w id0 plan [] 0 id0 []
| rn_day days t id fs y fs' sent : runs w id0 plan days t id fs -> (forall i, signal_ok (dy_sig y i)) -> orderly w t (dy_sig y) (fs ++ plan t) (dy_trades y) ->
    nstep w t id (dy_sig y) (fs ++ plan t) (dy_trades y) fs' sent -> possible (dy_leave y) fs' ->
    runs w id0 plan (days ++ [y]) (t + 1) (id + zlen (dy_trades y)) (depart (dy_leave y) fs').

(** The time steps before [t], and all that was planned for them. *)
Definition steps_before (t : Z) : list Z := map Z.of_nat (seq 0 (Z.to_nat t)).
Definition planned (plan : Z -> list fac) (t : Z) : list fac := flat_map plan (steps_before t).
(** The same archetype with the same parameters; what is in it may be different. *)
Definition alike (f f' : fac) : Prop :=
  match f, f' with
  | Conv c _, Conv c' _ => c = c' | Stor c _, Stor c' _ => c = c' | Mixr c _, Mixr c' _ => c = c' | Srce c _, Srce c' _ => c = c' | Snk c _, Snk c' _ => c = c' | Reac c _, Reac c' _ => c = c'
  | _, _ => False
  end.
(** [l] is what is left of [m] when some elements are taken out. *)
Inductive part {A} : list A -> list A -> Prop :=
| pt_nil : part [] []
| pt_keep x l m : part l m -> part (x :: l) (x :: m)
| pt_drop x l m : part l m -> part l (x :: m).
Definition leavers (days : list day) : nat := list_sum (map (fun y => List.length (dy_leave y)) days).
(** The deployments of a scenario, in order, with their times. *)
Definition deployments (ms : list move) : list (Z * fac) := flat_map (fun x => match x with Deploy t f => [(t, f)] | _ => [] end) ms.

(** The plan of an institution: at time [t] the prototypes it has scheduled for [t] become facilities.  [make p t] is the facility that the kernel makes of a prototype at time [t]. *)
Definition inst_plan (make : InstModel.proto -> Z -> fac) (reg : InstModel.registry) (sched : list (Z * string)) (t : Z) : list fac :=
  match InstModel.deployed reg sched t with Ok l => map (fun p => make p t) l | _ => [] end.
(** What the input of the institution asks for at time [t]. *)
Definition asked_for (make : InstModel.proto -> Z -> fac) (reg : InstModel.registry) (now : Z) (cfg : InstModel.di_cfg) (t : Z) : list fac :=
  flat_map (fun o => match o with Some p => [make p t] | None => [] end) (InstSpec.due reg now cfg t).
