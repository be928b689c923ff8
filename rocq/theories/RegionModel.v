(** Model of cycamore::GrowthRegion (/repo/src/growth_region.cc, .h), compiled
    with COIN support.  No proofs here.  Not modelled: positions
    (growth_region.cc:56), log messages.  The kernel's solver
    (BuildingManager::MakeBuildDecision) is an arbitrary function. *)
From Verif Require Import Outcome InstModel.
Local Open Scope Q_scope.

(** ** Demand *)
(** One entry of a demand: start, type and parameters (/repo/src/growth_region.h:21-23). *)
Definition piece := (Z * (string * string))%type.
(** User parameters, /repo/src/growth_region.h:105: a std::map, here the list of its
    entries in its order; commodities differ. *)
Definition rg_cfg := list (string * list piece).
(** BasicFunctionFactory::GetFunctionPtr (kernel), called at /repo/src/growth_region.cc:30: the function
    for a type and parameters, if there is one. *)
Definition basic := string -> string -> outcome (Q -> Q).
(** One piece of a PiecewiseFunction (kernel) with its offsets, added at
    /repo/src/growth_region.cc:30. *)
Record info := { pi_f : Q -> Q; pi_x : Q; pi_y : Q }.
(** A PiecewiseFunction (kernel), /repo/src/growth_region.cc:20-36: its pieces in order. *)
Definition pw := list info.
(** PiecewiseFunction::value (kernel): the last piece that has started; 0 before the first. Called
    through Demand at /repo/src/growth_region.cc:114. *)
Definition pw_value (p : pw) (x : Q) : Q :=
  match find (fun i => Qle_bool (pi_x i) x) (rev p) with Some i => pi_f i (x - pi_x i) + pi_y i | None => 0 end.
(** PiecewiseFunctionFactory::AddFunction (kernel), called at /repo/src/growth_region.cc:30: starts must
    increase; a continuous piece begins where the function so far ends. *)
Definition pw_add (p : pw) (f : Q -> Q) (start : Q) (continuous : bool) : outcome pw :=
  match rev p with
  | last :: _ => if Qle_bool start (pi_x last) then Throw ValueError
                 else Ok (p ++ [{| pi_f := f; pi_x := start; pi_y := if continuous then pw_value p start - f 0 else 0 |}])
  | [] => Ok [{| pi_f := f; pi_x := start; pi_y := if continuous then pw_value p start - f 0 else 0 |}]
  end.
(** AddCommodityDemand_, /repo/src/growth_region.cc:16-37: only the first piece is not continuous. *)
Definition rg_demand_fun (bff : basic) (d : list piece) : outcome pw :=
  let* '(p, _) := loop (fun '(p, continuous) (e : piece) =>
      let* f := bff (fst (snd e)) (snd (snd e)) in
      let* p' := pw_add p f (inject_Z (fst e)) continuous in
      Ok (p', true)) d ([], false) in
  Ok p.

(** ** Children and registers *)
(** An institution: DeployInst is a CommodityProducerManager, ManagerInst also a
    Builder (/repo/src/deploy_inst.h:22-25, /repo/src/manager_inst.h:13-17); others are neither. *)
Record member := { mb_id : nat; mb_kind : option kind }.
(** The cast to CommodityProducerManager, /repo/src/growth_region.cc:67-69, 93-95. *)
Definition is_manager (m : member) : bool := match mb_kind m with Some _ => true | None => false end.
(** The cast to Builder, /repo/src/growth_region.cc:76-77, 98-99. *)
Definition is_builder (m : member) : bool := match mb_kind m with Some Manager => true | _ => false end.
(** The region: children (kernel), the managers registered with sdmanager_, the
    builders registered with buildmanager_, and the demands. See /repo/src/growth_region.h:105-117. *)
Record region := { rg_children : list member; rg_managers : list nat; rg_builders : list nat; rg_demand : list (string * pw) }.
(** RegisterProducerManager and RegisterBuilder (kernel, sets), /repo/src/growth_region.cc:73, 81. *)
Definition add_id (i : nat) (l : list nat) : list nat := if existsb (Nat.eqb i) l then l else l ++ [i].
(** UnregisterProducerManager and UnregisterBuilder (kernel), /repo/src/growth_region.cc:96, 100. *)
Definition del_id (i : nat) (l : list nat) : list nat := filter (fun j => negb (Nat.eqb j i)) l.
(** Register_ and Unregister_, /repo/src/growth_region.cc:63-87 and 89-105. *)
Definition rg_register (m : member) (s : region) : region :=
  {| rg_children := rg_children s; rg_managers := if is_manager m then add_id (mb_id m) (rg_managers s) else rg_managers s;
     rg_builders := if is_builder m then add_id (mb_id m) (rg_builders s) else rg_builders s; rg_demand := rg_demand s |}.
(** Unregister_, /repo/src/growth_region.cc:89-105. *)
Definition rg_unregister (m : member) (s : region) : region :=
  {| rg_children := rg_children s; rg_managers := if is_manager m then del_id (mb_id m) (rg_managers s) else rg_managers s;
     rg_builders := if is_builder m then del_id (mb_id m) (rg_builders s) else rg_builders s; rg_demand := rg_demand s |}.
(** EnterNotify, /repo/src/growth_region.cc:39-57, of a new object with the given children connected. *)
Definition rg_start (bff : basic) (cfg : rg_cfg) (children : list member) : outcome region :=
  let s := fold_left (fun st m => rg_register m st) children {| rg_children := children; rg_managers := []; rg_builders := []; rg_demand := [] |} in
  let* ds := loop (fun acc (e : string * list piece) => let* f := rg_demand_fun bff (snd e) in Ok (acc ++ [(fst e, f)])) cfg [] in
  Ok {| rg_children := rg_children s; rg_managers := rg_managers s; rg_builders := rg_builders s; rg_demand := ds |}.
(** What happens to a region.  It does not override BuildNotify: an institution
    built later is connected (kernel), nothing else.  DecomNotify: /repo/src/growth_region.cc:59-61. *)
Inductive rg_event := InstBuilt (m : member) | InstGone (m : member) | RegionRestarted.
(** One event, /repo/src/growth_region.cc:39-61. *)
Definition rg_step (bff : basic) (cfg : rg_cfg) (s : region) (e : rg_event) : outcome region :=
  match e with
  | InstBuilt m => Ok {| rg_children := rg_children s ++ [m]; rg_managers := rg_managers s; rg_builders := rg_builders s; rg_demand := rg_demand s |}
  | InstGone m => let s1 := rg_unregister m s in
      Ok {| rg_children := filter (fun b => negb (Nat.eqb (mb_id b) (mb_id m))) (rg_children s1); rg_managers := rg_managers s1;
            rg_builders := rg_builders s1; rg_demand := rg_demand s1 |}
  | RegionRestarted => rg_start bff cfg (rg_children s)
  end.
(** A history of events, /repo/src/growth_region.cc:39-61. *)
Definition rg_run (bff : basic) (cfg : rg_cfg) (s : region) (es : list rg_event) : outcome region := loop (rg_step bff cfg) es s.

(** ** Orders *)
(** The institutions of the simulation and their state. The region sees them through
    /repo/src/growth_region.cc:114-115. *)
Definition world := list (nat * inst).
(** The institution with a number, for /repo/src/growth_region.cc:115. *)
Definition inst_of (w : world) (i : nat) : option inst := option_map snd (find (fun e => Nat.eqb (fst e) i) w).
(** SupplyDemandManager::Supply (kernel), called at /repo/src/growth_region.cc:115. *)
Definition supply (w : world) (s : region) (c : string) : Q :=
  qsum (map (fun i => match inst_of w i with Some x => total_capacity x c | None => 0 end) (rg_managers s)).
(** SupplyDemandManager::Demand (kernel), called at /repo/src/growth_region.cc:114. *)
Definition demand_at (s : region) (c : string) (now : Z) : outcome Q :=
  match find (fun e => String.eqb (fst e) c) (rg_demand s) with Some e => Ok (pw_value (snd e) (inject_Z now)) | None => Throw KeyError end.
(** A build order (kernel): builder and producer, [None] if it is not an
    institution or agent (the casts at /repo/src/growth_region.cc:151-152 fail); and how many. *)
Record order := { or_builder : option nat; or_producer : option proto; or_n : Z }.
(** OrderBuilds, /repo/src/growth_region.cc:133-173: the builds scheduled, all for the next time step
    (Context::SchedBuild without a time). *)
Definition order_builds (orders : list order) : outcome (list (nat * string)) :=
  loop (fun acc o => match or_builder o, or_producer o with
    | Some b, Some p => Ok (acc ++ repeat (b, pr_name p) (Z.to_nat (or_n o)))
    | _, _ => Throw CastError
    end) orders [].
(** Tick, /repo/src/growth_region.cc:107-131.  [decide] is MakeBuildDecision. *)
Definition rg_tick (cfg : rg_cfg) (decide : string -> Q -> list order) (now : Z) (w : world) (s : region) : outcome (list (nat * string)) :=
  loop (fun acc (e : string * list piece) =>
    let* d := demand_at s (fst e) now in
    let unmet := d - supply w s (fst e) in
    if Qltb 0 unmet then let* new := order_builds (decide (fst e) unmet) in Ok (acc ++ new) else Ok acc) cfg [].

(** ** From one tick to the next *)
(** A change of one institution: its facilities come and go (/repo/src/deploy_inst.cc:69-75,
    /repo/src/manager_inst.cc:13-19). *)
Definition set_inst (w : world) (i : nat) (f : inst -> inst) : world := map (fun e => if Nat.eqb (fst e) i then (fst e, f (snd e)) else e) w.
(** Timer::DoDecom (kernel): facilities leave (institution, facility). The institution is told at
    /repo/src/deploy_inst.cc:73-75 and /repo/src/manager_inst.cc:17-19. *)
Definition decom_all (ds : list (nat * agent)) (w : world) : world := fold_left (fun w d => set_inst w (fst d) (child_gone (snd d))) ds w.
(** Timer::DoBuild (kernel): facilities are built, numbered from [next]. The institution is told
    at /repo/src/deploy_inst.cc:69-71 and /repo/src/manager_inst.cc:13-15. *)
Definition build_all (reg : registry) (bs : list (nat * string)) (st : world * nat) : outcome (world * nat) :=
  loop (fun '(w, next) b => let* p := create reg (snd b) in
    Ok (set_inst w (fst b) (child_built {| ag_id := next; ag_proto := p |}), S next)) bs st.
(** One time step, from one tick of the region to the next: the region orders; facilities leave;
    then the facilities ordered, and others, are built. The orders are those of
    /repo/src/growth_region.cc:107-173. *)
Record rg_env := { re_decide : string -> Q -> list order; re_gone : list (nat * agent); re_others : list (nat * string) }.
(** One time step around Tick, /repo/src/growth_region.cc:107-131. *)
Definition rg_time (reg : registry) (cfg : rg_cfg) (s : region) (now : Z) (st : world * nat) (e : rg_env) : outcome (world * nat) :=
  let* sched := rg_tick cfg (re_decide e) now (fst st) s in
  build_all reg (sched ++ re_others e) (decom_all (re_gone e) (fst st), snd st).
(** A history: the situation at each tick (/repo/src/growth_region.cc:107-131), starting at [now]. *)
Fixpoint rg_life (reg : registry) (cfg : rg_cfg) (s : region) (now : Z) (st : world * nat) (es : list rg_env) : outcome (list (world * nat)) :=
  match es with
  | [] => Ok []
  | e :: es' => let* st1 := rg_time reg cfg s now st e in let* r := rg_life reg cfg s (now + 1) st1 es' in Ok (st1 :: r)
  end.
