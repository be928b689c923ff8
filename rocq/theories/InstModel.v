(** Model of cycamore::DeployInst (/repo/src/deploy_inst.cc, .h) and
    cycamore::ManagerInst (/repo/src/manager_inst.cc, .h).  No proofs here.  Not
    modelled: positions (/repo/src/deploy_inst.cc:66, /repo/src/manager_inst.cc:44), log messages,
    WriteProducerInformation (only logs). *)
From Coq Require Import DecimalString.
From Verif Require Import Outcome.
Local Open Scope Q_scope.

(** ** The kernel's prototypes *)
(** A prototype or agent: archetype (with all its parameters), prototype name, lifetime, and, if
    it implements CommodityProducer, the capacity for each commodity it produces. Prototypes are
    named at /repo/src/deploy_inst.h:71 and /repo/src/manager_inst.h:65. *)
Record proto := { pr_arch : string; pr_name : string; pr_life : Z; pr_caps : option (list (string * Q)) }.
(** Context's table of prototypes (kernel): name and prototype; the first entry counts. Used at
    /repo/src/deploy_inst.cc:22, 34, 41 and /repo/src/manager_inst.cc:34. *)
Definition registry := list (string * proto).
(** Looking up a prototype by its name, /repo/src/deploy_inst.cc:22 and /repo/src/manager_inst.cc:34. *)
Fixpoint lookup (reg : registry) (n : string) : option proto :=
  match reg with [] => None | (m, p) :: reg' => if String.eqb m n then Some p else lookup reg' n end.
(** Context::CreateAgent (kernel), called at /repo/src/deploy_inst.cc:22 and
    /repo/src/manager_inst.cc:34: a clone, which keeps the name of the original prototype. *)
Definition create (reg : registry) (n : string) : outcome proto :=
  match lookup reg n with Some p => Ok p | None => Throw KeyError end.
(** Context::AddPrototype (kernel), called at /repo/src/deploy_inst.cc:34.  Some versions
    of the kernel refuse to overwrite a prototype ([strict]), others overwrite it. *)
Definition add_proto (strict : bool) (reg : registry) (n : string) (p : proto) : outcome registry :=
  match strict, lookup reg n with
  | true, Some _ => Throw KeyError
  | _, _ => Ok ((n, p) :: reg)
  end.
(** Context::SchedBuild and Timer::SchedBuild (kernel), called at
    /repo/src/deploy_inst.cc:41: a time of -1 is the next step, past times are refused. *)
Definition sched_time (now t : Z) : outcome Z :=
  if Z.eqb t (-1) then Ok (now + 1)%Z else if Z.leb t now then Throw ValueError else Ok t.
(** Agent::lifetime (kernel), called at /repo/src/deploy_inst.cc:24. *)
Definition with_life (p : proto) (l : Z) : proto :=
  {| pr_arch := pr_arch p; pr_name := pr_name p; pr_life := l; pr_caps := pr_caps p |}.

(** ** DeployInst *)
(** User parameters, /repo/src/deploy_inst.h:67-102. *)
Record di_cfg := { di_protos : list string; di_times : list Z; di_nbuild : list Z; di_lifes : list Z }.

(** operator<< for int, /repo/src/deploy_inst.cc:29. *)
Definition decimal (z : Z) : string := NilZero.string_of_int (Z.to_int z).
(** The name for a prototype with another lifetime, /repo/src/deploy_inst.cc:18-31. *)
Definition life_name (p : string) (l : Z) : string :=
  (p ++ "_life_" ++ (if Z.eqb l (-1) then "forever" else decimal l))%string.

(** State of the loop in Build, /repo/src/deploy_inst.cc:14-43: the prototypes of the context, the names
    added so far (14) and the builds scheduled so far (time, prototype). *)
Record di_st := { dt_reg : registry; dt_names : list string; dt_sched : list (Z * string) }.
(** Lines /repo/src/deploy_inst.cc:16-37: name of the prototype for the [i]-th entry, added if
    needed. *)
Definition di_name (strict : bool) (cfg : di_cfg) (st : di_st) (i : nat) : outcome (string * di_st) :=
  let* p := vec_at (di_protos cfg) i in
  if Nat.eqb (List.length (di_lifes cfg)) (List.length (di_protos cfg)) then
    let* a := create (dt_reg st) p in
    let* l := vec_at (di_lifes cfg) i in
    if Z.eqb (pr_life a) l then Ok (p, st)
    else
      let nm := life_name p l in
      if existsb (String.eqb nm) (dt_names st) then Ok (nm, st)
      else
        let* reg := add_proto strict (dt_reg st) nm (with_life a l) in
        Ok (nm, {| dt_reg := reg; dt_names := nm :: dt_names st; dt_sched := dt_sched st |})
  else Ok (p, st).
(** Lines /repo/src/deploy_inst.cc:15-43 for the [i]-th entry. *)
Definition di_entry (strict : bool) (now : Z) (cfg : di_cfg) (st : di_st) (i : nat) : outcome di_st :=
  let* '(nm, st1) := di_name strict cfg st i in
  let* t := vec_at (di_times cfg) i in
  let* n := vec_at (di_nbuild cfg) i in
  let* new := loop (fun acc (_ : nat) => let* t' := sched_time now t in Ok (acc ++ [(t', nm)])) (seq 0 (Z.to_nat n)) [] in
  Ok {| dt_reg := dt_reg st1; dt_names := dt_names st1; dt_sched := dt_sched st1 ++ new |}.
(** EnterNotify, /repo/src/deploy_inst.cc:46-67: the checks. *)
Definition di_enter (cfg : di_cfg) : outcome unit :=
  let n := List.length (di_protos cfg) in
  if negb (Nat.eqb (List.length (di_times cfg)) n) then Throw ValueError
  else if negb (Nat.eqb (List.length (di_nbuild cfg)) n) then Throw ValueError
  else if (Nat.ltb 0 (List.length (di_lifes cfg)) && negb (Nat.eqb (List.length (di_lifes cfg)) n))%bool then Throw ValueError
  else Ok tt.
(** Build, /repo/src/deploy_inst.cc:11-44.  Institution::Build (12, kernel) calls EnterNotify. *)
Definition di_build (strict : bool) (now : Z) (cfg : di_cfg) (reg : registry) : outcome (registry * list (Z * string)) :=
  let* _ := di_enter cfg in
  let* st := loop (di_entry strict now cfg) (seq 0 (List.length (di_protos cfg))) {| dt_reg := reg; dt_names := []; dt_sched := [] |} in
  Ok (dt_reg st, dt_sched st).
(** Several institutions built one after the other (each /repo/src/deploy_inst.cc:11-44). *)
Definition di_build_all (strict : bool) (now : Z) (cfgs : list di_cfg) (reg : registry) : outcome (registry * list (list (Z * string))) :=
  loop (fun st cfg => let* '(reg', sch) := di_build strict now cfg (fst st) in Ok (reg', snd st ++ [sch])) cfgs (reg, []).
(** Timer::DoBuild (kernel): what is built at time [t] from the builds scheduled. The builds are
    those of /repo/src/deploy_inst.cc:41. *)
Definition deployed (reg : registry) (sched : list (Z * string)) (t : Z) : outcome (list proto) :=
  loop (fun acc e => let* a := create reg (snd e) in Ok (acc ++ [a])) (filter (fun e => Z.eqb (fst e) t) sched) [].

(** ** The registers of producers *)
(** An agent in the simulation; the number identifies it. See /repo/src/deploy_inst.cc:69-75 and
    /repo/src/manager_inst.cc:13-19. *)
Record agent := { ag_id : nat; ag_proto : proto }.
(** The cast to CommodityProducer, /repo/src/deploy_inst.cc:81-82, 94-95 and
    /repo/src/manager_inst.cc:51-52, 64-65. *)
Definition is_producer (a : agent) : bool := match pr_caps (ag_proto a) with Some _ => true | None => false end.
(** The two kinds of institutions, /repo/src/deploy_inst.h:22-25 and /repo/src/manager_inst.h:13-17. *)
Inductive kind := Deploy | Manager.
(** An institution: its children (kernel), the producers registered with its
    CommodityProducerManager (/repo/src/deploy_inst.cc:86, 96, /repo/src/manager_inst.cc:56, 66)
    and, for ManagerInst, with its Builder (/repo/src/manager_inst.cc:40). *)
Record inst := { in_kind : kind; in_children : list agent; in_producers : list agent; in_builder : list proto }.
(** CommodityProducerManager::Register (kernel, a std::set), called at /repo/src/deploy_inst.cc:86
    and /repo/src/manager_inst.cc:56. *)
Definition reg_producer (a : agent) (l : list agent) : list agent :=
  if existsb (fun b => Nat.eqb (ag_id b) (ag_id a)) l then l else l ++ [a].
(** CommodityProducerManager::Unregister (kernel), called at /repo/src/deploy_inst.cc:96 and
    /repo/src/manager_inst.cc:66. *)
Definition unreg_producer (a : agent) (l : list agent) : list agent := filter (fun b => negb (Nat.eqb (ag_id b) (ag_id a))) l.
(** Register_, /repo/src/deploy_inst.cc:77-88 and /repo/src/manager_inst.cc:47-58. *)
Definition register (a : agent) (s : inst) : inst :=
  if is_producer a then {| in_kind := in_kind s; in_children := in_children s; in_producers := reg_producer a (in_producers s); in_builder := in_builder s |}
  else s.
(** Unregister_, /repo/src/deploy_inst.cc:90-97 and /repo/src/manager_inst.cc:60-67. *)
Definition unregister (a : agent) (s : inst) : inst :=
  if is_producer a then {| in_kind := in_kind s; in_children := in_children s; in_producers := unreg_producer a (in_producers s); in_builder := in_builder s |}
  else s.
(** A child is built (kernel: connected to its parent, then BuildNotify:
    /repo/src/deploy_inst.cc:69-71, /repo/src/manager_inst.cc:13-15). *)
Definition child_built (a : agent) (s : inst) : inst :=
  register a {| in_kind := in_kind s; in_children := in_children s ++ [a]; in_producers := in_producers s; in_builder := in_builder s |}.
(** A child is decommissioned (kernel: DecomNotify: /repo/src/deploy_inst.cc:73-75,
    /repo/src/manager_inst.cc:17-19, then removal). *)
Definition child_gone (a : agent) (s : inst) : inst :=
  let s1 := unregister a s in
  {| in_kind := in_kind s1; in_children := filter (fun b => negb (Nat.eqb (ag_id b) (ag_id a))) (in_children s1);
     in_producers := in_producers s1; in_builder := in_builder s1 |}.
(** The loop over the prototypes in EnterNotify of ManagerInst, /repo/src/manager_inst.cc:31-42. *)
Definition mi_builder (reg : registry) (protos : list string) (b : list proto) : outcome (list proto) :=
  loop (fun acc n => let* a := create reg n in Ok (match pr_caps a with Some _ => acc ++ [a] | None => acc end)) protos b.
(** EnterNotify: /repo/src/manager_inst.cc:21-45; that of DeployInst registers nothing
    (/repo/src/deploy_inst.cc:46-67). *)
Definition in_enter (reg : registry) (protos : list string) (s : inst) : outcome inst :=
  match in_kind s with
  | Deploy => Ok s
  | Manager =>
      let s1 := fold_left (fun st a => register a st) (in_children s) s in
      let* b := mi_builder reg protos (in_builder s1) in
      Ok {| in_kind := in_kind s1; in_children := in_children s1; in_producers := in_producers s1; in_builder := b |}
  end.
(** A new object with the given children already connected (none for a newly built institution;
    those of the stored simulation when one is loaded), then EnterNotify. See
    /repo/src/manager_inst.cc:21-45 and /repo/src/deploy_inst.cc:46-67. *)
Definition in_start (reg : registry) (protos : list string) (k : kind) (children : list agent) : outcome inst :=
  in_enter reg protos {| in_kind := k; in_children := children; in_producers := []; in_builder := [] |}.
(** What happens to an institution: /repo/src/deploy_inst.cc:69-75,
    /repo/src/manager_inst.cc:13-19; a restart calls EnterNotify of a new object. *)
Inductive in_event := Built (a : agent) | Decommissioned (a : agent) | Restarted.
(** One event: /repo/src/deploy_inst.cc:46-75, /repo/src/manager_inst.cc:13-45. *)
Definition in_step (reg : registry) (protos : list string) (s : inst) (e : in_event) : outcome inst :=
  match e with
  | Built a => Ok (child_built a s)
  | Decommissioned a => Ok (child_gone a s)
  | Restarted => in_start reg protos (in_kind s) (in_children s)
  end.
(** A history of events, /repo/src/deploy_inst.cc:46-75 and /repo/src/manager_inst.cc:13-45. *)
Definition in_run (reg : registry) (protos : list string) (s : inst) (es : list in_event) : outcome inst := loop (in_step reg protos) es s.
(** CommodityProducer::Capacity (kernel) of the producers registered at
    /repo/src/deploy_inst.cc:86 and /repo/src/manager_inst.cc:56. *)
Definition capacity (a : agent) (c : string) : Q :=
  match pr_caps (ag_proto a) with
  | None => 0
  | Some l => qsum (map snd (filter (fun x => String.eqb (fst x) c) l))
  end.
(** CommodityProducerManager::TotalCapacity (kernel), a base of both institutions
    (/repo/src/deploy_inst.h:24, /repo/src/manager_inst.h:15). *)
Definition total_capacity (s : inst) (c : string) : Q := qsum (map (fun a => capacity a c) (in_producers s)).
