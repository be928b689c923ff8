(** Simulations whose facilities are ordered by a growth region (C142). *)
From Verif Require Import Outcome KernelMaterial KernelResBuf KernelBuf NetworkSpec SimulationSpec UnitSpec PlanSpec.
From Verif Require InstModel InstSpec RegionModel RegionSpec.
Local Open Scope Z_scope.

(** A facility of the network, the institution that it belongs to, and how that institution knows it: its number and its prototype. *)
Record plant := { pt_inst : nat; pt_agent : InstModel.agent; pt_fac : fac }.
Definition at_inst (i : nat) (p : plant) : bool := Nat.eqb (pt_inst p) i.
(** What happens in a time step: what the facilities are told and draw, the trades, the positions of the facilities that are decommissioned at its end, the decision of the kernel's solver, and what else is to be built (institution and prototype). *)
Record gday := { gd_sig : nat -> signal; gd_trades : list trade; gd_leave : list nat; gd_decide : string -> Q -> list RegionModel.order; gd_others : list (nat * string) }.

(** The facilities built at time [t] for the builds [bs], numbered from [next] on.  [make p t] is the facility that the kernel makes of a prototype at time [t]. *)
Fixpoint arrive (make : InstModel.proto -> Z -> fac) (reg : InstModel.registry) (t : Z) (next : nat) (bs : list (nat * string)) : list plant :=
  match bs with
  | [] => []
  | b :: r => match InstModel.lookup reg (snd b) with
              | Some p => {| pt_inst := fst b; pt_agent := {| InstModel.ag_id := next; InstModel.ag_proto := p |}; pt_fac := make p t |} :: arrive make reg t (S next) r
              | None => []
              end
  end.
(** The same facilities after a time step of the network. *)
Definition refit (ps : list plant) (fs : list fac) : list plant := map (fun pf => {| pt_inst := pt_inst (fst pf); pt_agent := pt_agent (fst pf); pt_fac := snd pf |}) (combine ps fs).
(** The facilities that leave, in order. *)
Fixpoint quitters (l : list nat) (ps : list plant) : list plant :=
  match l with [] => [] | i :: r => firstn 1 (skipn i ps) ++ quitters r (without i ps) end.
Definition has_place (w : RegionModel.world) (b : nat * string) : Prop := RegionModel.inst_of w (fst b) <> None.

(** One time step, [t]: the region orders; the exchange takes place; facilities leave and their institutions are told; the facilities ordered, and others, are built and their institutions are told. *)
Definition gstep (w : world) (make : InstModel.proto -> Z -> fac) (reg : InstModel.registry) (cfg : RegionModel.rg_cfg) (s : RegionModel.region)
    (t id : Z) (st : RegionModel.world * nat) (ps : list plant) (y : gday) (st' : RegionModel.world * nat) (ps' : list plant) : Prop :=
  exists sched fs' sent, RegionModel.rg_tick cfg (gd_decide y) t (fst st) s = Ok sched /\
    (forall i, signal_ok (gd_sig y i)) /\ orderly w t (gd_sig y) (map pt_fac ps) (gd_trades y) /\ nstep w t id (gd_sig y) (map pt_fac ps) (gd_trades y) fs' sent /\
    possible (gd_leave y) ps /\ Forall (has_place (fst st)) (sched ++ gd_others y) /\
    RegionModel.build_all reg (sched ++ gd_others y) (RegionModel.decom_all (map (fun p => (pt_inst p, pt_agent p)) (quitters (gd_leave y) ps)) (fst st), snd st) = Ok st' /\
    ps' = depart (gd_leave y) (refit ps fs') ++ arrive make reg (t + 1) (snd st) (sched ++ gd_others y).
(** A simulation: the institutions are there, without facilities; some are built; then time steps.  After the days [days] it is time [t], the next free number of an object is [id], the institutions are in the state [st], and the network is
    [ps]. *)
Inductive grows (w : world) (id0 : Z) (make : InstModel.proto -> Z -> fac) (reg : InstModel.registry) (cfg : RegionModel.rg_cfg) (s : RegionModel.region) :
    list gday -> Z -> Z -> RegionModel.world * nat -> list plant -> Prop :=
| gr_start is next bs st : NoDup (map fst is) -> Forall (fun e => InstModel.in_children (snd e) = [] /\ InstModel.in_producers (snd e) = []) is -> Forall (has_place is) bs ->
    RegionModel.build_all reg bs (is, next) = Ok st -> grows w id0 make reg cfg s [] 0 id0 st (arrive make reg 0 next bs)
| gr_day days t id st ps y st' ps' : grows w id0 make reg cfg s days t id st ps -> gstep w make reg cfg s t id st ps y st' ps' ->
    grows w id0 make reg cfg s (days ++ [y]) (t + 1) (id + zlen (gd_trades y)) st' ps'.

(** The capacity for a commodity of the facilities that belong to the institutions of the region. *)
Definition counted (s : RegionModel.region) (p : plant) : bool := existsb (Nat.eqb (pt_inst p)) (RegionModel.rg_managers s).
Definition network_capacity (s : RegionModel.region) (ps : list plant) (c : string) : Q := RegionSpec.capacity_of (map pt_agent (filter (counted s) ps)) c.
(** The kernel makes proper facilities of the prototypes. *)
Definition sound_make (w : world) (make : InstModel.proto -> Z -> fac) (reg : InstModel.registry) : Prop := forall n p t, 0 <= t -> InstModel.lookup reg n = Some p -> deployed w t (make p t).
