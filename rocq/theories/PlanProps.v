(** Property C141: a deployment plan drives a simulation.  Statements use SimulationSpec.v, UnitSpec.v, InstSpec.v and PlanSpec.v; proofs are a single [exact]; the example is an institution that deploys the facilities of SimulationProps.v
    at time 1. *)
From Coq Require Import Lia Lqa.
From Verif Require Import Outcome KernelMaterial KernelResBuf KernelBuf NetworkSpec SimulationSpec SimulationProps UnitSpec UnitProps DelaySpec DelayProofs PlanSpec PlanProofs.
From Verif Require InstModel InstSpec.
Local Open Scope Z_scope.

(** ** The example: a mine, a plant and a dump, all deployed at time 1; the mine gets a lifetime of its own *)
Definition pn_proto (a : string) : InstModel.proto := {| InstModel.pr_arch := a; InstModel.pr_name := a; InstModel.pr_life := -1; InstModel.pr_caps := None |}.
Definition pn_reg : InstModel.registry := [("mine", pn_proto "Source"); ("plant", pn_proto "Reactor"); ("dump", pn_proto "Sink")]%string.
Definition pn_cfg : InstModel.di_cfg :=
  {| InstModel.di_protos := ["mine"; "plant"; "dump"]%string; InstModel.di_times := [1; 1; 1]; InstModel.di_nbuild := [1; 1; 1]; InstModel.di_lifes := [40; -1; -1] |}.
Definition pn_make (p : InstModel.proto) (t : Z) : fac :=
  if String.eqb (InstModel.pr_arch p) "Source" then Srce sm_src sm_src0 else if String.eqb (InstModel.pr_arch p) "Reactor" then Reac sm_rx sm_rx0 else Snk sm_sink sm_sink0.
Example pn_made : forall p t, deployed sm_w t (pn_make p t).
Proof.
  intros p t. unfold pn_make. destruct (String.eqb _ _); [exact (un_deployed _ (or_introl eq_refl))|]. destruct (String.eqb _ _); [exact (un_deployed _ (or_intror (or_introl eq_refl)))|].
  split; [cbn; lra|]. split; [cbn; lra|]. split; [discriminate|]. split; [left; reflexivity|]. exists sm_rng. reflexivity.
Qed.
Definition pn_built := get ([], []) (InstModel.di_build true 0 pn_cfg pn_reg).
Definition pn_plan : Z -> list fac := inst_plan pn_make (fst pn_built) (snd pn_built).
Example pn_sound : forall t, 0 <= t -> Forall (deployed sm_w t) (pn_plan t).
Proof.
  intros t _. unfold pn_plan, inst_plan. destruct (InstModel.deployed _ _ t); try constructor. induction a as [|p l IH]; constructor; [apply pn_made|exact IH].
Qed.
Definition pn_days : list day :=
  [ {| dy_sig := sm_sig; dy_trades := []; dy_leave := [] |}; {| dy_sig := sm_sig; dy_trades := sm_ds0; dy_leave := [] |}; {| dy_sig := sm_sig; dy_trades := sm_ds1; dy_leave := [2%nat] |} ].
Example pn_dated : Forall dated sm_fs0 /\ Forall dated sm_fs1.
Proof. split; repeat constructor; vm_compute; try (left; reflexivity); discriminate. Qed.
Example pn_plans : pn_plan 0 = [] /\ pn_plan 1 = sm_fs0 /\ pn_plan 2 = [].
Proof. split; [reflexivity|]. split; vm_compute; reflexivity. Qed.
Example pn_later : map (later 1) sm_fs0 = sm_fs0 /\ map (later 1) sm_fs1 = sm_fs1 /\ map (later 1) sm_fs2 = sm_fs2.
Proof. split; [|split]; vm_compute; reflexivity. Qed.
(** The time steps of SimulationProps.v, one time step later. *)
Example pn_steps : orderly sm_w 1 sm_sig sm_fs0 sm_ds0 /\ nstep sm_w 1 0 sm_sig sm_fs0 sm_ds0 sm_fs1 sm_sent0 /\ orderly sm_w 2 sm_sig sm_fs1 sm_ds1 /\ nstep sm_w 2 1 sm_sig sm_fs1 sm_ds1 sm_fs2 sm_sent1.
Proof.
  destruct pn_later as (L0 & L1 & L2). destruct pn_dated as [D0 D1]. assert (Z0 : 0 <= 0) by lia. assert (Z1 : 0 <= 1) by lia.
  pose proof (orderly_later sm_w 1 0 sm_sig sm_fs0 sm_ds0 Z1 Z0 sm_signals D0 sm_orderly0) as A1. rewrite L0 in A1.
  pose proof (nstep_later sm_w 1 0 0 sm_sig sm_fs0 sm_ds0 sm_fs1 sm_sent0 Z1 Z0 sm_signals D0 sm_step0) as A2. rewrite L0, L1 in A2.
  pose proof (orderly_later sm_w 1 1 sm_sig sm_fs1 sm_ds1 Z1 Z1 sm_signals D1 sm_orderly1) as A3. rewrite L1 in A3.
  pose proof (nstep_later sm_w 1 1 1 sm_sig sm_fs1 sm_ds1 sm_fs2 sm_sent1 Z1 Z1 sm_signals D1 sm_step1) as A4. rewrite L1, L2 in A4.
  exact (conj A1 (conj A2 (conj A3 A4))).
Qed.
(** Nothing at time 0; fuel is bought and burnt at times 1 and 2; then the dump is closed. *)
Example pn_runs : runs sm_w 0 pn_plan (firstn 2 pn_days) 2 1 sm_fs1 /\ runs sm_w 0 pn_plan pn_days 3 3 (firstn 2 sm_fs2).
Proof.
  destruct pn_plans as (P0 & P1 & P2). destruct pn_steps as (O1 & N1 & O2 & N2).
  set (y0 := {| dy_sig := sm_sig; dy_trades := []; dy_leave := [] |}). set (y1 := {| dy_sig := sm_sig; dy_trades := sm_ds0; dy_leave := [] |}). set (y2 := {| dy_sig := sm_sig; dy_trades := sm_ds1; dy_leave := [2%nat] |}).
  assert (A0 : runs sm_w 0 pn_plan [y0] 1 0 []).
  { pose proof (rn_day sm_w 0 pn_plan [] 0 0 [] y0 [] [] (rn_start sm_w 0 pn_plan)) as X. rewrite P0 in X. apply X; [exact sm_signals| | |exact I].
    - split; [constructor|]. intros [|i] f n H; discriminate.
    - split; [reflexivity|]. split; [reflexivity|]. intros [|i] f n H; discriminate. }
  assert (A1 : runs sm_w 0 pn_plan [y0; y1] 2 1 sm_fs1).
  { pose proof (rn_day sm_w 0 pn_plan [y0] 1 0 [] y1 sm_fs1 sm_sent0 A0 sm_signals) as X. rewrite P1 in X. exact (X O1 N1 I). }
  split; [exact A1|].
  pose proof (rn_day sm_w 0 pn_plan [y0; y1] 2 1 sm_fs1 y2 sm_fs2 sm_sent1 A1 sm_signals) as X. rewrite P2, app_nil_r in X.
  apply (X O2 N2). split; [|exact I]. vm_compute. lia.
Qed.

(** Whatever the plan: a run that follows it is one of the simulations of C128 (so all that is proved about those holds for it), and its deployments are those of the plan, at their times, in order, and no others. *)
Theorem C141_simulation : forall w id0 plan, (forall t, 0 <= t -> Forall (deployed w t) (plan t)) -> forall days t id fs, runs w id0 plan days t id fs ->
  exists ms, plays w id0 ms t id fs /\ deployments ms = flat_map (fun x => map (pair x) (plan x)) (steps_before t).
Proof. exact is_simulation. Qed.
Example C141_simulation_case : (forall t, 0 <= t -> Forall (deployed sm_w t) (pn_plan t)) /\ runs sm_w 0 pn_plan pn_days 3 3 (firstn 2 sm_fs2) /\ pn_plan 0 = [] /\ pn_plan 1 = sm_fs0 /\ pn_plan 2 = [].
Proof. split; [exact pn_sound|]. split; [exact (proj2 pn_runs)|exact pn_plans]. Qed.
Print Assumptions C141_simulation.
(** No exchange that keeps to the rules and no decommissioning stops it: every next day can take place. *)
Theorem C141_goes_on : forall w id0 plan days t id fs y, world_ok w -> (forall t, 0 <= t -> Forall (deployed w t) (plan t)) -> runs w id0 plan days t id fs -> (forall i, signal_ok (dy_sig y i)) ->
  orderly w t (dy_sig y) (fs ++ plan t) (dy_trades y) -> possible (dy_leave y) (fs ++ plan t) -> exists fs', runs w id0 plan (days ++ [y]) (t + 1) (id + zlen (dy_trades y)) fs'.
Proof. exact next_day. Qed.
Example C141_goes_on_case : world_ok sm_w /\ runs sm_w 0 pn_plan (firstn 2 pn_days) 2 1 sm_fs1 /\ (forall i, signal_ok (sm_sig i)) /\ orderly sm_w 2 sm_sig (sm_fs1 ++ pn_plan 2) sm_ds1 /\ possible [2%nat] (sm_fs1 ++ pn_plan 2) /\ sm_ds1 <> [].
Proof.
  destruct pn_plans as (_ & _ & P2). rewrite P2, app_nil_r. split; [exact sm_world|]. split; [exact (proj1 pn_runs)|]. split; [exact sm_signals|]. split; [exact (proj1 (proj2 (proj2 pn_steps)))|]. split; [|discriminate].
  split; [|exact I]. vm_compute. lia.
Qed.
Print Assumptions C141_goes_on.
(** The network consists of planned facilities, in the order of the plan and with the parameters they were planned with, and as many are missing as have been decommissioned; if none has been, all are there. *)
Theorem C141_roster : forall w id0 plan days t id fs, runs w id0 plan days t id fs ->
  (exists l, part l (planned plan t) /\ Forall2 alike l fs) /\ (List.length fs + leavers days = List.length (planned plan t))%nat.
Proof. exact roster. Qed.
Example C141_roster_case : runs sm_w 0 pn_plan pn_days 3 3 (firstn 2 sm_fs2) /\ leavers pn_days = 1%nat /\ List.length (planned pn_plan 3) = 3%nat.
Proof. split; [exact (proj2 pn_runs)|]. split; reflexivity. Qed.
Print Assumptions C141_roster.
(** The plan of an institution whose input makes sense (C54): it is built, and at every time the network consists of the facilities that its input asked for before, with the prototypes, lifetimes, numbers and times asked for, less those
    that have been decommissioned.  [make] is how the kernel makes a facility of a prototype. *)
Theorem C141_institution : forall w id0 make strict now cfg reg, InstSpec.consistent cfg -> InstSpec.known reg cfg -> InstSpec.no_clash reg cfg -> InstSpec.future now cfg ->
  exists reg' sched, InstModel.di_build strict now cfg reg = Ok (reg', sched) /\
    forall days t id fs, runs w id0 (inst_plan make reg' sched) days t id fs ->
      (exists l, part l (planned (asked_for make reg now cfg) t) /\ Forall2 alike l fs) /\ (List.length fs + leavers days = List.length (planned (asked_for make reg now cfg) t))%nat /\
      (leavers days = 0%nat -> Forall2 alike (planned (asked_for make reg now cfg) t) fs).
Proof. exact institution. Qed.
Example C141_institution_case : InstSpec.consistent pn_cfg /\ InstSpec.known pn_reg pn_cfg /\ InstSpec.no_clash pn_reg pn_cfg /\ InstSpec.future 0 pn_cfg /\ runs sm_w 0 pn_plan (firstn 2 pn_days) 2 1 sm_fs1 /\
  planned (asked_for pn_make pn_reg 0 pn_cfg) 2 = sm_fs0 /\ InstModel.di_build true 0 pn_cfg pn_reg = Ok pn_built.
Proof.
  split; [repeat split; right; reflexivity|]. split; [unfold InstSpec.known; vm_compute; repeat constructor; discriminate|]. split; [unfold InstSpec.no_clash; vm_compute; repeat constructor|].
  split; [repeat constructor; vm_compute; reflexivity|]. split; [exact (proj1 pn_runs)|]. split; vm_compute; reflexivity.
Qed.
Print Assumptions C141_institution.
