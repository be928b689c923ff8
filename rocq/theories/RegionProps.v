(** Properties C56, C83, C84 and C85 of GrowthRegion.  Statements use
    RegionSpec.v; proofs are a single [exact] or a computed witness. *)
From Coq Require Import Lia Lqa Qround.
From Verif Require Import Outcome KernelFacts InstModel InstSpec InstProofs RegionModel RegionSpec RegionProofs.
Local Open Scope Q_scope.

(** ** A worked region: the demand for power is 1000 from time 2 on and grows by
    300 per step from time 4 on; the demand for heat falls.  Institution 1 is a
    ManagerInst with a plant, institution 2 a DeployInst with a boiler. *)
Definition gx_bff : basic := fun ty p =>
  if String.eqb ty "linear" then (if String.eqb p "300 0" then Ok (fun x => 300 * x) else if String.eqb p "-10 100" then Ok (fun x => -10 * x + 100) else Ok (fun _ => 1000)) else Throw KeyError.
Definition gx_power : list piece := [(2%Z, ("linear", "0 1000")); (4%Z, ("linear", "300 0"))]%string.
Definition gx_heat : list piece := [(0%Z, ("linear", "-10 100"))]%string.
Definition gx_cfg : rg_cfg := [("heat", gx_heat); ("power", gx_power)]%string.
Definition gx_plant : proto := {| pr_arch := "Reactor"; pr_name := "plant"; pr_life := 60; pr_caps := Some [("power", 900)]%string |}.
Definition gx_plant8 : proto := {| pr_arch := "Reactor"; pr_name := "plant"; pr_life := 8; pr_caps := Some [("power", 900)]%string |}.
Definition gx_boiler : proto := {| pr_arch := "Source"; pr_name := "boiler"; pr_life := 60; pr_caps := Some [("heat", 30)]%string |}.
Definition gx_reg : registry := [("plant", gx_plant); ("boiler", gx_boiler)]%string.
Definition gx_ch : list member := [{| mb_id := 1; mb_kind := Some Manager |}; {| mb_id := 2; mb_kind := Some Deploy |}; {| mb_id := 3; mb_kind := None |}].
Definition gx_a (i : nat) (p : proto) : agent := {| ag_id := i; ag_proto := p |}.
Definition gx_inst (k : kind) (l : list agent) : inst := {| in_kind := k; in_children := l; in_producers := l; in_builder := [] |}.
Definition gx_st : world * nat := ([(1, gx_inst Manager [gx_a 7 gx_plant]); (2, gx_inst Deploy [gx_a 8 gx_boiler])], 9)%nat.
Definition gx_s : region := match rg_start gx_bff gx_cfg gx_ch with Ok s => s | _ => {| rg_children := []; rg_managers := []; rg_builders := []; rg_demand := [] |} end.
Example gx_started : rg_start gx_bff gx_cfg gx_ch = Ok gx_s /\ rg_managers gx_s = [1; 2]%nat /\ rg_builders gx_s = [1]%nat.
Proof. split; [reflexivity|]. split; vm_compute; reflexivity. Qed.
Example gx_demands : Forall (fun e => demand_ok gx_bff (snd e)) gx_cfg /\ NoDup (map fst gx_cfg) /\ NoDup (mids gx_ch).
Proof.
  split; [|split].
  - assert (P1 : proper (fun x => -10 * x + 100)) by (intros x y E; lra). assert (P2 : proper (fun _ => 1000)) by (intros x y E; lra).
    assert (P3 : proper (fun x => 300 * x)) by (intros x y E; lra).
    constructor; [|constructor; [|constructor]]; cbn [snd].
    + split; [cbn; auto|]. exists [(inject_Z 0, fun x => -10 * x + 100)]. split; [repeat constructor|]. constructor; [exact P1|constructor].
    + split; [cbn; repeat split; lia|]. exists [(inject_Z 2, fun _ => 1000); (inject_Z 4, fun x => 300 * x)]. split; [repeat constructor|].
      constructor; [exact P2|constructor; [exact P3|constructor]].
  - repeat constructor; cbn; intuition discriminate.
  - repeat constructor; cbn; intuition discriminate.
Qed.
(** Builds as many plants, or boilers, as needed; both by institution 1. *)
Definition gx_decide (c : string) (u : Q) : list order :=
  if String.eqb c "power" then [{| or_builder := Some 1%nat; or_producer := Some gx_plant; or_n := Qceiling (u / 900) |}]
  else [{| or_builder := Some 1%nat; or_producer := Some gx_boiler; or_n := Qceiling (u / 30) |}].

(** ** C56.  A tick schedules exactly the builds decided on for the commodities
    whose demand exceeds the supply, asking for the difference; a decision with
    a builder or producer of the wrong type is an error. *)
Theorem C56_orders : forall cfg decide now w s d, (forall c, In c (map fst cfg) -> demand_at s c now = Ok (d c)) ->
  (wanted_ok cfg decide d (supply w s) -> rg_tick cfg decide now w s = Ok (wanted cfg decide d (supply w s))) /\
  (~ wanted_ok cfg decide d (supply w s) -> rg_tick cfg decide now w s = Throw CastError).
Proof. exact tick_final. Qed.
Print Assumptions C56_orders.
(** The supply is the capacity of the facilities of the registered institutions. *)
Theorem C56_supply : forall st s c, world_ok st -> supply (fst st) s c == capacity_of (facilities (fst st) (rg_managers s)) c.
Proof. exact supply_facilities. Qed.
Print Assumptions C56_supply.
Example gx_world_ok : world_ok gx_st.
Proof. split; [repeat constructor; cbn; intuition discriminate|]. repeat constructor; cbn; intuition. Qed.
Example C56_case : map (fun c => Qred (supply (fst gx_st) gx_s c)) ["heat"; "power"]%string = [30; 900] /\
  map (fun c => match demand_at gx_s c 5 with Ok x => Qred x | _ => 0 end) ["heat"; "power"]%string = [50; 1300] /\
  rg_tick gx_cfg gx_decide 5 (fst gx_st) gx_s = Ok [(1%nat, "boiler"); (1%nat, "plant")]%string /\
  rg_tick gx_cfg gx_decide 1 (fst gx_st) gx_s = Ok [(1%nat, "boiler"); (1%nat, "boiler")]%string.
Proof. split; [vm_compute; reflexivity|]. split; [vm_compute; reflexivity|]. split; vm_compute; reflexivity. Qed.
(** False of facilities from prototypes that a DeployInst derived ("plant_life_8"):
    what is built is the original prototype. *)
Theorem C56_derived_refuted : exists cfg decide now w s reg n p b sched,
  lookup reg n = Some p /\ (forall c u, Forall (fun o => or_producer o = Some p) (decide c u)) /\
  rg_tick cfg decide now w s = Ok sched /\ sched = [b] /\ create reg (snd b) <> Ok p.
Proof.
  exists [("power", gx_power)]%string, (fun _ _ => [{| or_builder := Some 1%nat; or_producer := Some gx_plant8; or_n := 1 |}]), 5%Z, (fst gx_st), gx_s,
    (("plant_life_8", gx_plant8)%string :: gx_reg), "plant_life_8"%string, gx_plant8. eexists. eexists.
  split; [reflexivity|]. split; [intros; constructor; [reflexivity|constructor]|]. split; [vm_compute; reflexivity|]. split; [reflexivity|]. vm_compute. discriminate.
Qed.
Print Assumptions C56_derived_refuted.

(** ** C83.  The demand is the continuous curve the pieces describe. *)
Theorem C83_demand : forall bff cfg ch, Forall (fun e => demand_ok bff (snd e)) cfg -> NoDup (map fst cfg) ->
  exists s, rg_start bff cfg ch = Ok s /\ forall c d, In (c, d) cfg ->
    exists D, (forall now, demand_at s c now = Ok (D (inject_Z now))) /\ forall ps, pieces_of bff d ps -> demand_curve ps D.
Proof. exact demand_final. Qed.
Print Assumptions C83_demand.
Example C83_case : map (fun t => match demand_at gx_s "power" t with Ok x => Qred x | _ => -1 end) [0; 1; 2; 3; 4; 5; 6]%Z = [0; 0; 1000; 1000; 1000; 1300; 1600].
Proof. vm_compute. reflexivity. Qed.

(** ** C84.  If every decision is carried out by registered institutions and
    provides the capacity asked for, no step fails and at each tick the capacity
    of the facilities of the registered institutions is at least the demand of the
    previous tick, less the capacity of the facilities decommissioned in between. *)
Theorem C84_growth : forall bff reg cfg ch s now st es, Forall (fun e => demand_ok bff (snd e)) cfg -> NoDup (map fst cfg) -> NoDup (mids ch) ->
  rg_start bff cfg ch = Ok s -> sound_reg reg -> world_ok st -> history_ok reg cfg s now st es ->
  exists sts, rg_life reg cfg s now st es = Ok sts /\ List.length sts = List.length es /\
    forall k e st' c, nth_error es k = Some e -> nth_error sts k = Some st' -> In c (map fst cfg) -> exists d,
      demand_at s c (now + Z.of_nat k) = Ok d /\ d <= capacity_of (facilities (fst st') (rg_managers s)) c + capacity_gone s e c.
Proof. exact growth_final. Qed.
Print Assumptions C84_growth.
(** The plant leaves after the first of three steps; the DeployInst builds a boiler after the second. *)
Definition gx_es : list rg_env :=
  [{| re_decide := gx_decide; re_gone := [(1%nat, gx_a 7 gx_plant)]; re_others := [] |};
   {| re_decide := gx_decide; re_gone := []; re_others := [(2%nat, "boiler"%string)] |};
   {| re_decide := gx_decide; re_gone := []; re_others := [] |}].
Example C84_case : sound_reg gx_reg /\ world_ok gx_st /\ history_ok gx_reg gx_cfg gx_s 5 gx_st gx_es /\
  match rg_life gx_reg gx_cfg gx_s 5 gx_st gx_es with
  | Ok sts => map (fun st => map (fun c => Qred (capacity_of (facilities (fst st) (rg_managers gx_s)) c)) ["heat"; "power"]%string) sts
  | _ => [] end = [[60; 900]; [90; 1800]; [90; 2700]].
Proof.
  assert (AD : forall w, inst_of w 1 <> None -> adequate gx_reg gx_cfg w gx_s gx_decide).
  { intros w W c u I U. destruct (inst_of w 1) as [x|] eqn:X; [|congruence].
    assert (CE : forall k, 0 < k -> u <= inject_Z (Z.of_nat (Z.to_nat (Qceiling (u / k)))) * k).
    { intros k K. pose proof (Qle_ceiling (u / k)) as L. assert (0 < u / k) by (apply Qlt_shift_div_l; lra).
      assert (0 <= Qceiling (u / k))%Z by (rewrite Zle_Qle; change (inject_Z 0) with 0; lra). rewrite Z2Nat.id by assumption.
      assert (E : u == u / k * k) by (field; lra). rewrite E at 1. apply Qmult_le_compat_r; lra. }
    destruct I as [<-|[<-|[]]]; (split; [constructor; [|constructor]|]).
    - exists 1%nat, gx_boiler, x. repeat split; auto. left. reflexivity.
    - specialize (CE 30 ltac:(lra)). cbn. cbn in CE. lra.
    - exists 1%nat, gx_plant, x. repeat split; auto. left. reflexivity.
    - specialize (CE 900 ltac:(lra)). cbn. cbn in CE. lra. }
  split. { intros n p c L. unfold gx_reg in L. cbn [lookup] in L. destruct (String.eqb "plant" n); [|destruct (String.eqb "boiler" n); [|discriminate]]; injection L as <-; unfold makes; cbn [ag_proto pr_caps gx_plant gx_boiler fold_right fst].
    - destruct (String.eqb "power" c); vm_compute; discriminate.
    - destruct (String.eqb "heat" c); vm_compute; discriminate. }
  split; [exact gx_world_ok|]. split; [|vm_compute; reflexivity].
  unfold gx_es. cbn [history_ok]. split; [split; [apply AD; discriminate|split; [split; [eexists; split; [reflexivity|left; reflexivity]|exact I]|constructor]]|].
  intros st1 E1. vm_compute in E1. injection E1 as <-. split; [split; [apply AD; discriminate|split; [exact I|repeat constructor; discriminate]]|].
  intros st2 E2. vm_compute in E2. injection E2 as <-. split; [split; [apply AD; discriminate|split; [exact I|constructor]]|].
  intros st3 E3. exact I.
Qed.

(** ** C85.  As long as no institution is built later, the region's managers and
    builders are exactly its institutions that can manage or build. *)
Theorem C85_registers_partial : forall bff cfg ch s0 es s, NoDup (mids ch) -> rg_sensible ch es -> none_built es ->
  rg_start bff cfg ch = Ok s0 -> rg_run bff cfg s0 es = Ok s ->
  rg_managers s = mids (filter manages (present ch es)) /\ rg_builders s = mids (filter builds (present ch es)).
Proof. exact registers_final. Qed.
Print Assumptions C85_registers_partial.
(** In all histories they are among them, each once: none that left remains. *)
Theorem C85_present : forall bff cfg ch s0 es s, NoDup (mids ch) -> rg_sensible ch es ->
  rg_start bff cfg ch = Ok s0 -> rg_run bff cfg s0 es = Ok s ->
  NoDup (rg_managers s) /\ NoDup (rg_builders s) /\
  incl (rg_managers s) (mids (filter manages (present ch es))) /\ incl (rg_builders s) (mids (filter builds (present ch es))).
Proof. exact registered_final. Qed.
Print Assumptions C85_present.
Definition gx_hist : list rg_event := [InstGone {| mb_id := 2; mb_kind := Some Deploy |}; RegionRestarted].
Definition gx_m4 : member := {| mb_id := 4; mb_kind := Some Manager |}.
Example C85_case : rg_sensible gx_ch gx_hist /\ none_built gx_hist /\
  match rg_run gx_bff gx_cfg gx_s gx_hist with Ok s => Some (rg_managers s, rg_builders s) | _ => None end = Some ([1%nat], [1%nat]) /\
  rg_sensible gx_ch (InstBuilt gx_m4 :: gx_hist) /\
  match rg_run gx_bff gx_cfg gx_s (InstBuilt gx_m4 :: gx_hist) with Ok s => Some (rg_managers s, rg_builders s) | _ => None end = Some ([1; 4]%nat, [1; 4]%nat).
Proof.
  split; [cbn; auto|]. split; [unfold none_built; repeat constructor|]. split; [vm_compute; reflexivity|]. split; [cbn; intuition discriminate|vm_compute; reflexivity].
Qed.
(** False for institutions built later: they are not registered until a restart. *)
Theorem C85_later_refuted : exists bff cfg ch s0 m s, NoDup (mids ch) /\ rg_sensible ch [InstBuilt m] /\ manages m = true /\ builds m = true /\
  rg_start bff cfg ch = Ok s0 /\ rg_run bff cfg s0 [InstBuilt m] = Ok s /\ In m (present ch [InstBuilt m]) /\
  ~ In (mb_id m) (rg_managers s) /\ ~ In (mb_id m) (rg_builders s).
Proof.
  exists gx_bff, gx_cfg, gx_ch, gx_s, gx_m4. eexists. split; [apply gx_demands|]. split; [cbn; intuition discriminate|]. split; [reflexivity|]. split; [reflexivity|].
  split; [reflexivity|]. split; [reflexivity|]. split; [cbn; auto|]. split; cbn; intuition discriminate.
Qed.
Print Assumptions C85_later_refuted.
