(** Vocabulary for the properties of GrowthRegion. *)
From Verif Require Import Outcome InstModel InstSpec RegionModel.
Local Open Scope Q_scope.

(** ** Demand curves *)
(** [D] is 0 before the first start, begins there with the first function, and
    then grows on each closed interval between starts as the function given for
    it does: it has no jumps. *)
Definition demand_curve (ps : list (Q * (Q -> Q))) (D : Q -> Q) : Prop :=
  (forall x, (forall s f, nth_error ps 0 = Some (s, f) -> x < s) -> D x == 0) /\
  (forall s f, nth_error ps 0 = Some (s, f) -> D s == f 0) /\
  (forall i s f x, nth_error ps i = Some (s, f) -> s <= x -> (forall s' f', nth_error ps (S i) = Some (s', f') -> x <= s') ->
     D x == D s + (f (x - s) - f 0)).
(** The pieces of a demand, with their functions. *)
Definition pieces_of (bff : basic) (d : list piece) (ps : list (Q * (Q -> Q))) : Prop :=
  Forall2 (fun (e : piece) sf => fst sf = inject_Z (fst e) /\ bff (fst (snd e)) (snd (snd e)) = Ok (snd sf)) d ps.
(** Starts increase. *)
Fixpoint increasing (d : list piece) : Prop :=
  match d with
  | [] => True
  | e :: d' => match d' with [] => True | e' :: _ => (fst e < fst e')%Z end /\ increasing d'
  end.
(** Functions do not depend on how a number is written. *)
Definition proper (f : Q -> Q) : Prop := forall x y, x == y -> f x == f y.
Definition demand_ok (bff : basic) (d : list piece) : Prop := increasing d /\ exists ps, pieces_of bff d ps /\ Forall (fun sf => proper (snd sf)) ps.

(** ** Orders *)
Definition castable (o : order) : Prop := or_builder o <> None /\ or_producer o <> None.
(** The builds one order asks for: [or_n] times the prototype, by the builder. *)
Definition builds_of (o : order) : list (nat * string) :=
  match or_builder o, or_producer o with Some b, Some p => repeat (b, pr_name p) (Z.to_nat (or_n o)) | _, _ => [] end.
(** The builds of a tick: for every commodity in short supply those the decision names. *)
Definition wanted (cfg : rg_cfg) (decide : string -> Q -> list order) (d sup : string -> Q) : list (nat * string) :=
  flat_map (fun e => if Qltb (sup (fst e)) (d (fst e)) then flat_map builds_of (decide (fst e) (d (fst e) - sup (fst e))) else []) cfg.
Definition wanted_ok (cfg : rg_cfg) (decide : string -> Q -> list order) (d sup : string -> Q) : Prop :=
  Forall (fun e => sup (fst e) < d (fst e) -> Forall castable (decide (fst e) (d (fst e) - sup (fst e)))) cfg.

(** ** Registers *)
(** DeployInst and ManagerInst know their producers; only ManagerInst builds. *)
Definition manages (m : member) : bool := match mb_kind m with Some Deploy | Some Manager => true | None => false end.
Definition builds (m : member) : bool := match mb_kind m with Some Manager => true | Some Deploy | None => false end.
Definition mids (l : list member) : list nat := map mb_id l.
Fixpoint rg_sensible (s : list member) (es : list rg_event) : Prop :=
  match es with
  | [] => True
  | InstBuilt m :: es' => ~ In (mb_id m) (mids s) /\ rg_sensible (s ++ [m]) es'
  | InstGone m :: es' => In m s /\ rg_sensible (filter (fun b => negb (Nat.eqb (mb_id b) (mb_id m))) s) es'
  | RegionRestarted :: es' => rg_sensible s es'
  end.
Definition none_built (es : list rg_event) : Prop := Forall (fun e => match e with InstBuilt _ => False | _ => True end) es.
(** The institutions present after a history. *)
Fixpoint present (s : list member) (es : list rg_event) : list member :=
  match es with
  | [] => s
  | InstBuilt m :: es' => present (s ++ [m]) es'
  | InstGone m :: es' => present (filter (fun b => negb (Nat.eqb (mb_id b) (mb_id m))) s) es'
  | RegionRestarted :: es' => present s es'
  end.

(** ** Capacity *)
(** Every institution knows exactly its producers (C55); facilities are told
    apart by numbers below [next]; institutions by theirs. *)
Definition world_ok (st : world * nat) : Prop :=
  NoDup (map fst (fst st)) /\
  Forall (fun e => in_producers (snd e) = producers_of (in_children (snd e)) /\ NoDup (ids (in_children (snd e))) /\
                   Forall (fun i => (i < snd st)%nat) (ids (in_children (snd e)))) (fst st).
(** The facilities operating under the institutions [ms]. *)
Definition facilities (w : world) (ms : list nat) : list agent :=
  flat_map (fun i => match inst_of w i with Some x => in_children x | None => [] end) ms.
Definition capacity_of (l : list agent) (c : string) : Q := qsum (map (fun a => makes a c) l).
(** A decision that satisfies the demand: known prototypes, built by registered
    institutions, with enough capacity. *)
Definition buildable (reg : registry) (w : world) (s : region) (o : order) : Prop :=
  exists b p x, or_builder o = Some b /\ or_producer o = Some p /\ lookup reg (pr_name p) = Some p /\ In b (rg_managers s) /\ inst_of w b = Some x.
Definition order_capacity (c : string) (o : order) : Q :=
  match or_producer o with Some p => inject_Z (Z.of_nat (Z.to_nat (or_n o))) * makes {| ag_id := 0; ag_proto := p |} c | None => 0 end.
Definition adequate (reg : registry) (cfg : rg_cfg) (w : world) (s : region) (decide : string -> Q -> list order) : Prop :=
  forall c u, In c (map fst cfg) -> 0 < u -> Forall (buildable reg w s) (decide c u) /\ u <= qsum (map (order_capacity c) (decide c u)).
(** No prototype has a negative capacity. *)
Definition sound_reg (reg : registry) : Prop := forall n p c, lookup reg n = Some p -> 0 <= makes {| ag_id := 0; ag_proto := p |} c.
(** The facilities that leave are operating. *)
Fixpoint leaving (w : world) (ds : list (nat * agent)) : Prop :=
  match ds with
  | [] => True
  | d :: ds' => (exists x, inst_of w (fst d) = Some x /\ In (snd d) (in_children x)) /\ leaving (set_inst w (fst d) (child_gone (snd d))) ds'
  end.
Definition env_ok (reg : registry) (cfg : rg_cfg) (s : region) (w : world) (e : rg_env) : Prop :=
  adequate reg cfg w s (re_decide e) /\ leaving w (re_gone e) /\ Forall (fun b => lookup reg (snd b) <> None) (re_others e).
(** Capacity that leaves with facilities of registered institutions. *)
Definition capacity_gone (s : region) (e : rg_env) (c : string) : Q :=
  qsum (map (fun d => if existsb (Nat.eqb (fst d)) (rg_managers s) then makes (snd d) c else 0) (re_gone e)).
(** A history in which this holds at each tick, starting at [now]. *)
Fixpoint history_ok (reg : registry) (cfg : rg_cfg) (s : region) (now : Z) (st : world * nat) (es : list rg_env) : Prop :=
  match es with
  | [] => True
  | e :: es' => env_ok reg cfg s (fst st) e /\ forall st1, rg_time reg cfg s now st e = Ok st1 -> history_ok reg cfg s (now + 1) st1 es'
  end.
