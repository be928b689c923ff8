(** Properties C54, C55 and C82 of DeployInst and ManagerInst.  Statements use
    InstSpec.v; proofs are a single [exact] or a computed witness. *)
From Coq Require Import Lia Lqa.
From Verif Require Import Outcome KernelFacts InstModel InstSpec InstProofs.
Local Open Scope Q_scope.

(** ** A worked schedule: an institution built at time 3; two mines with the
    lifetime of the prototype, three with lifetime 8 and, in the next step,
    another two of these; a plant that stays forever. *)
Definition ix_mine : proto := {| pr_arch := "Source"; pr_name := "mine"; pr_life := 20; pr_caps := Some [("u", 5)]%string |}.
Definition ix_plant : proto := {| pr_arch := "Reactor"; pr_name := "plant"; pr_life := 60; pr_caps := Some [("power", 900); ("heat", 100)]%string |}.
Definition ix_dump : proto := {| pr_arch := "Sink"; pr_name := "dump"; pr_life := -1; pr_caps := None |}.
Definition ix_reg : registry := [("mine", ix_mine); ("plant", ix_plant); ("dump", ix_dump)]%string.
Definition ix_cfg : di_cfg :=
  {| di_protos := ["mine"; "mine"; "mine"; "plant"]%string; di_times := [5; 5; -1; 9]%Z; di_nbuild := [2; 3; 2; 1]%Z; di_lifes := [20; 8; 8; -1]%Z |}.
Example ix_consistent : consistent ix_cfg.
Proof. repeat split; auto. Qed.
Example ix_known : known ix_reg ix_cfg.
Proof. unfold known. vm_compute. repeat constructor; discriminate. Qed.
Example ix_no_clash : no_clash ix_reg ix_cfg.
Proof. unfold no_clash. vm_compute. repeat constructor. Qed.
Example ix_future : future 3 ix_cfg.
Proof. unfold future. vm_compute. repeat constructor. Qed.
Definition ix_mine8 : proto := {| pr_arch := "Source"; pr_name := "mine"; pr_life := 8; pr_caps := Some [("u", 5)]%string |}.
Definition ix_forever : proto := {| pr_arch := "Reactor"; pr_name := "plant"; pr_life := -1; pr_caps := Some [("power", 900); ("heat", 100)]%string |}.
Example ix_due : map (due ix_reg 3 ix_cfg) [4; 5; 9]%Z =
  [repeat (Some ix_mine8) 2; repeat (Some ix_mine) 2 ++ repeat (Some ix_mine8) 3; [Some ix_forever]].
Proof. vm_compute. reflexivity. Qed.

(** ** C54.  The institution is built; at every time it deploys exactly what its
    schedule asks for, with the lifetimes asked for and the original prototype's
    name, and nothing else; no existing prototype is changed. *)
Theorem C54_schedule : forall strict now cfg reg, consistent cfg -> known reg cfg -> no_clash reg cfg -> future now cfg ->
  exists reg' sched, di_build strict now cfg reg = Ok (reg', sched) /\
    (forall t, exists l, deployed reg' sched t = Ok l /\ map Some l = due reg now cfg t) /\
    (forall n a, lookup reg n = Some a -> lookup reg' n = Some a).
Proof. exact schedule_final. Qed.
Print Assumptions C54_schedule.
Example C54_schedule_case : exists reg' sched, di_build true 3 ix_cfg ix_reg = Ok (reg', sched) /\
  deployed reg' sched 5 = Ok (repeat ix_mine 2 ++ repeat ix_mine8 3) /\ map fst reg' = ["plant_life_forever"; "mine_life_8"; "mine"; "plant"; "dump"]%string.
Proof. eexists. eexists. split; [vm_compute; reflexivity|]. split; vm_compute; reflexivity. Qed.

(** Several institutions, if the kernel lets a prototype be added again. *)
Theorem C54_institutions : forall now cfgs reg,
  Forall (fun cfg => consistent cfg /\ known reg cfg /\ future now cfg /\ no_clash reg cfg) cfgs ->
  exists reg' scheds, di_build_all false now cfgs reg = Ok (reg', scheds) /\
    Forall2 (fun cfg sched => forall t, exists l, deployed reg' sched t = Ok l /\ map Some l = due reg now cfg t) cfgs scheds /\
    (forall n a, lookup reg n = Some a -> lookup reg' n = Some a).
Proof. exact all_final. Qed.
Print Assumptions C54_institutions.
Example C54_institutions_case : Forall (fun cfg => consistent cfg /\ known ix_reg cfg /\ future 3 cfg /\ no_clash ix_reg cfg) [ix_cfg; ix_cfg] /\
  exists reg' s1 s2, di_build_all false 3 [ix_cfg; ix_cfg] ix_reg = Ok (reg', [s1; s2]) /\ deployed reg' s2 4 = Ok (repeat ix_mine8 2).
Proof.
  pose proof ix_consistent. pose proof ix_known. pose proof ix_no_clash. pose proof ix_future.
  split; [repeat (apply Forall_cons; [auto|]); constructor|]. eexists. eexists. eexists. split; vm_compute; reflexivity.
Qed.

(** Lists that do not match, and builds in the past, are rejected. *)
Theorem C54_rejects : forall strict now cfg reg, ~ consistent cfg -> di_build strict now cfg reg = Throw ValueError.
Proof. exact rejects_final. Qed.
Print Assumptions C54_rejects.
Example C54_rejects_case : ~ consistent {| di_protos := ["mine"; "plant"]%string; di_times := [5; 5]%Z; di_nbuild := [2; 3]%Z; di_lifes := [20]%Z |}.
Proof. intros (_ & _ & [H|H]); discriminate. Qed.
Theorem C54_past : forall strict now cfg reg, consistent cfg -> known reg cfg -> no_clash reg cfg -> ~ future now cfg ->
  di_build strict now cfg reg = Throw ValueError.
Proof. exact past_final. Qed.
Print Assumptions C54_past.
Example C54_past_case : ~ future 5 ix_cfg.
Proof. intro F. inversion F as [|? ? A _]; subst. vm_compute in A. specialize (A eq_refl). discriminate. Qed.

(** False when a prototype has a name like a derived one: with overwriting its
    facilities are replaced by others, without it the institution cannot be built. *)
Definition ix_clash : registry := ("mine_life_8", ix_plant)%string :: ix_reg.
Theorem C54_clash_refuted : exists now cfg reg, consistent cfg /\ known reg cfg /\ future now cfg /\
  di_build true now cfg reg = Throw KeyError /\
  exists reg' sched n a, di_build false now cfg reg = Ok (reg', sched) /\ lookup reg n = Some a /\ lookup reg' n <> Some a.
Proof.
  exists 3%Z, ix_cfg, ix_clash. split; [exact ix_consistent|]. split; [unfold known; vm_compute; repeat constructor; discriminate|].
  split; [exact ix_future|]. split; [vm_compute; reflexivity|].
  eexists. eexists. exists "mine_life_8"%string, ix_plant. split; [vm_compute; reflexivity|]. split; [vm_compute; reflexivity|]. vm_compute. discriminate.
Qed.
Print Assumptions C54_clash_refuted.
(** And two institutions with the same prototype and lifetime cannot both be
    built if the kernel refuses to add a prototype again. *)
Theorem C54_institutions_refuted : exists now cfgs reg,
  Forall (fun cfg => consistent cfg /\ known reg cfg /\ future now cfg /\ no_clash reg cfg) cfgs /\ di_build_all true now cfgs reg = Throw KeyError.
Proof.
  exists 3%Z, [ix_cfg; ix_cfg], ix_reg. split; [exact (proj1 C54_institutions_case)|]. vm_compute. reflexivity.
Qed.
Print Assumptions C54_institutions_refuted.

(** ** C55.  A worked history: a mine exists at the start; a plant and a dump are
    built, the simulation is restarted, the mine is decommissioned, another mine is built. *)
Definition ix_a (i : nat) (p : proto) : agent := {| ag_id := i; ag_proto := p |}.
Definition ix_es : list in_event :=
  [Built (ix_a 7 ix_plant); Built (ix_a 8 ix_dump); Restarted; Decommissioned (ix_a 3 ix_mine); Decommissioned (ix_a 8 ix_dump); Built (ix_a 9 ix_mine)].
Example ix_sensible : NoDup (ids [ix_a 3 ix_mine]) /\ sensible [ix_a 3 ix_mine] ix_es.
Proof.
  split; [vm_compute; repeat constructor; intros []|]. vm_compute. repeat split; auto; intros H; repeat (destruct H as [H|H]; [discriminate|]); destruct H.
Qed.

(** Its producers are exactly the operating facilities that produce something,
    also for facilities present at the start and after restarts. *)
Theorem C55_manager : forall reg protos ch s0 es s, NoDup (ids ch) -> sensible ch es ->
  in_start reg protos Manager ch = Ok s0 -> in_run reg protos s0 es = Ok s ->
  in_producers s = producers_of (operating ch es).
Proof. exact manager_final. Qed.
Print Assumptions C55_manager.
(** So what it can produce is what they can. *)
Theorem C55_manager_capacity : forall reg protos ch s0 es s c, NoDup (ids ch) -> sensible ch es ->
  in_start reg protos Manager ch = Ok s0 -> in_run reg protos s0 es = Ok s ->
  total_capacity s c == qsum (map (fun a => makes a c) (operating ch es)).
Proof. exact manager_capacity_final. Qed.
Print Assumptions C55_manager_capacity.
Example C55_manager_case : exists s0 s, in_start ix_reg ["plant"; "dump"]%string Manager [ix_a 3 ix_mine] = Ok s0 /\
  in_run ix_reg ["plant"; "dump"]%string s0 ix_es = Ok s /\ in_producers s = [ix_a 7 ix_plant; ix_a 9 ix_mine] /\ Qred (total_capacity s "power") = 900.
Proof. eexists. eexists. split; [vm_compute; reflexivity|]. split; [vm_compute; reflexivity|]. split; vm_compute; reflexivity. Qed.

(** For a DeployInst this holds as long as the simulation is not restarted. *)
Theorem C55_deploy_partial : forall reg protos s0 es s, sensible [] es -> no_restart es ->
  in_start reg protos Deploy [] = Ok s0 -> in_run reg protos s0 es = Ok s ->
  in_producers s = producers_of (operating [] es).
Proof. exact deploy_final. Qed.
Print Assumptions C55_deploy_partial.
Theorem C55_deploy_capacity_partial : forall reg protos s0 es s c, sensible [] es -> no_restart es ->
  in_start reg protos Deploy [] = Ok s0 -> in_run reg protos s0 es = Ok s ->
  total_capacity s c == qsum (map (fun a => makes a c) (operating [] es)).
Proof. exact deploy_capacity_final. Qed.
Print Assumptions C55_deploy_capacity_partial.
Definition ix_es2 : list in_event := [Built (ix_a 7 ix_plant); Built (ix_a 8 ix_dump); Built (ix_a 9 ix_mine); Decommissioned (ix_a 7 ix_plant)].
Example C55_deploy_case : sensible [] ix_es2 /\ no_restart ix_es2 /\
  exists s0 s, in_start ix_reg [] Deploy [] = Ok s0 /\ in_run ix_reg [] s0 ix_es2 = Ok s /\ in_producers s = [ix_a 9 ix_mine].
Proof.
  split; [vm_compute; repeat split; auto; intros H; repeat (destruct H as [H|H]; [discriminate|]); destruct H|].
  split; [unfold no_restart; repeat constructor; discriminate|].
  eexists. eexists. split; [vm_compute; reflexivity|]. split; vm_compute; reflexivity.
Qed.
(** False after a restart: DeployInst::EnterNotify does not register the
    facilities it already has. *)
Theorem C55_deploy_refuted : exists reg protos s0 es s c, sensible [] es /\
  in_start reg protos Deploy [] = Ok s0 /\ in_run reg protos s0 es = Ok s /\
  producers_of (operating [] es) <> [] /\ in_producers s = [] /\ total_capacity s c == 0 /\ 0 < qsum (map (fun a => makes a c) (operating [] es)).
Proof.
  exists ix_reg, []. eexists. exists [Built (ix_a 7 ix_plant); Restarted]. eexists. exists "power"%string.
  split; [vm_compute; auto|]. split; [vm_compute; reflexivity|]. split; [vm_compute; reflexivity|].
  split; [vm_compute; discriminate|]. split; [vm_compute; reflexivity|]. split; vm_compute; reflexivity.
Qed.
Print Assumptions C55_deploy_refuted.

(** ** C82.  A ManagerInst offers to build exactly the listed prototypes that
    produce something; a list with an unknown prototype is rejected. *)
Theorem C82_builder : forall reg protos ch,
  (Forall (fun n => lookup reg n <> None) protos -> exists s, in_start reg protos Manager ch = Ok s /\
     map Some (in_builder s) = filter (fun p => match p with Some q => match pr_caps q with Some _ => true | None => false end | None => false end) (map (lookup reg) protos)) /\
  (~ Forall (fun n => lookup reg n <> None) protos -> in_start reg protos Manager ch = Throw KeyError).
Proof. exact builder_final. Qed.
Print Assumptions C82_builder.
Example C82_builder_case : exists s, in_start ix_reg ["plant"; "dump"; "mine"]%string Manager [] = Ok s /\ in_builder s = [ix_plant; ix_mine].
Proof. eexists. split; vm_compute; reflexivity. Qed.
Example C82_unknown_case : in_start ix_reg ["plant"; "bakery"]%string Manager [] = Throw KeyError.
Proof. vm_compute. reflexivity. Qed.
