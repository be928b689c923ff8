(** Property C142: a growth region drives a simulation.  Statements use SimulationSpec.v, UnitSpec.v, RegionSpec.v, PlanSpec.v and GrowthSpec.v; proofs are a single [exact]; the example is a region with a mine, a plant and a dump that is
    short of power. *)
From Coq Require Import Lia Lqa Qround.
From Verif Require Import Outcome InstModel InstSpec RegionModel RegionSpec.
From Verif Require Import KernelMaterial KernelResBuf KernelBuf NetworkSpec SimulationSpec SimulationProps UnitSpec UnitProps PlanSpec PlanProofs PlanProps GrowthSpec GrowthProofs.
Local Open Scope Z_scope.

(** ** The example: institution 1 has a mine, a plant and a dump; the plant makes 900 of the 1000 of power in demand, so that a second plant is ordered at time 0; then the dump is closed *)
Definition gw_plant : proto := {| pr_arch := "Reactor"; pr_name := "plant"; pr_life := 60; pr_caps := Some [("power", 900%Q)] |}%string.
Definition gw_reg : registry := [("mine", pn_proto "Source"); ("plant", gw_plant); ("dump", pn_proto "Sink")]%string.
Definition gw_bff : basic := fun ty p => if String.eqb ty "linear" then Ok (fun _ => 1000%Q) else Throw KeyError.
Definition gw_cfg : rg_cfg := [("power", [(0, ("linear", "0 1000"))])]%string.
Definition gw_ch : list member := [{| mb_id := 1; mb_kind := Some Manager |}].
Definition gw_s : region := match rg_start gw_bff gw_cfg gw_ch with Ok s => s | _ => {| rg_children := []; rg_managers := []; rg_builders := []; rg_demand := [] |} end.
Definition gw_decide (c : string) (u : Q) : list order := [{| or_builder := Some 1%nat; or_producer := Some gw_plant; or_n := Qceiling (u / 900) |}].
Definition gw_is : RegionModel.world := [(1%nat, {| in_kind := Manager; in_children := []; in_producers := []; in_builder := [] |})].
Definition gw_bs : list (nat * string) := [(1%nat, "mine"); (1%nat, "plant"); (1%nat, "dump")]%string.
Definition gw_st0 : RegionModel.world * nat := match build_all gw_reg gw_bs (gw_is, 5%nat) with Ok st => st | _ => (gw_is, 5%nat) end.
Definition gw_place (a : nat) (p : proto) (f : fac) : plant := {| pt_inst := 1; pt_agent := {| ag_id := a; ag_proto := p |}; pt_fac := f |}.
Definition gw_ps0 : list plant := arrive pn_make gw_reg 0 5 gw_bs.
Definition gw_day : gday := {| gd_sig := sm_sig; gd_trades := sm_ds0; gd_leave := [2%nat]; gd_decide := gw_decide; gd_others := [] |}.
Definition gw_gone : list (nat * agent) := [(1%nat, {| ag_id := 7; ag_proto := pn_proto "Sink" |})].
Definition gw_st1 : RegionModel.world * nat := match build_all gw_reg [(1%nat, "plant"%string)] (decom_all gw_gone (fst gw_st0), snd gw_st0) with Ok st => st | _ => gw_st0 end.
Definition gw_ps1 : list plant := depart [2%nat] (refit gw_ps0 sm_fs1) ++ [gw_place 8 gw_plant (Reac sm_rx sm_rx0)].
Example gw_sound : sound_make sm_w pn_make gw_reg /\ sound_reg gw_reg.
Proof.
  split; [intros n p t _ _; apply pn_made|]. intros n p c L. unfold gw_reg in L. cbn [lookup] in L.
  destruct (String.eqb "mine" n); [|destruct (String.eqb "plant" n); [|destruct (String.eqb "dump" n); [|discriminate]]]; injection L as <-; unfold makes; cbn [ag_proto pr_caps gw_plant pn_proto fold_right fst]; try (vm_compute; discriminate).
  destruct (String.eqb "power" c); vm_compute; discriminate.
Qed.
Example gw_region : Forall (fun e => demand_ok gw_bff (snd e)) gw_cfg /\ NoDup (map fst gw_cfg) /\ NoDup (mids gw_ch) /\ rg_start gw_bff gw_cfg gw_ch = Ok gw_s.
Proof.
  split; [|split; [|split; [|reflexivity]]]; [|repeat constructor; cbn; intuition discriminate..]. constructor; [|constructor]. split; [cbn; auto|]. exists [(inject_Z 0, fun _ => 1000%Q)]. split; [repeat constructor|]. constructor; [|constructor]. intros x y _. reflexivity.
Qed.
Example gw_network : map pt_fac gw_ps0 = sm_fs0.
Proof. vm_compute. reflexivity. Qed.
Example gw_adequate : adequate gw_reg gw_cfg (fst gw_st0) gw_s gw_decide.
Proof.
  intros c u I U. split.
  - constructor; [|constructor]. eexists 1%nat, gw_plant, _. split; [reflexivity|]. split; [reflexivity|]. split; [reflexivity|]. split; [left; reflexivity|reflexivity].
  - pose proof (Qle_ceiling (u / 900)) as L. assert (0 < u / 900)%Q by (apply Qlt_shift_div_l; lra).
    assert (C : 0 <= Qceiling (u / 900)) by (rewrite Zle_Qle; change (inject_Z 0) with 0%Q; lra). assert (E : (u == u / 900 * 900)%Q) by (field; lra). cbn in I. destruct I as [<-|[]].
    unfold gw_decide. cbn [map]. unfold order_capacity. cbn [or_producer or_n]. rewrite Z2Nat.id by exact C.
    assert (M : (makes {| ag_id := 0; ag_proto := gw_plant |} "power" == 900)%Q) by reflexivity. change (qsum [?a]) with (a + 0)%Q. rewrite M. rewrite E at 1. rewrite Qplus_0_r. apply Qmult_le_compat_r; lra.
Qed.
Example gw_starts : grows sm_w 0 pn_make gw_reg gw_cfg gw_s [] 0 0 gw_st0 gw_ps0.
Proof. apply gr_start with (is := gw_is); [repeat constructor; cbn; intuition|repeat constructor|repeat constructor; discriminate|reflexivity]. Qed.
Example gw_step : gstep sm_w pn_make gw_reg gw_cfg gw_s 0 0 gw_st0 gw_ps0 gw_day gw_st1 gw_ps1.
Proof.
  exists [(1%nat, "plant"%string)], sm_fs1, sm_sent0. rewrite gw_network. split; [vm_compute; reflexivity|]. split; [exact sm_signals|]. split; [exact sm_orderly0|]. split; [exact sm_step0|]. split; [split; [vm_compute; lia|exact I]|].
  split; [repeat constructor; discriminate|]. split; [reflexivity|reflexivity].
Qed.
Example gw_grows : grows sm_w 0 pn_make gw_reg gw_cfg gw_s [gw_day] 1 1 gw_st1 gw_ps1.
Proof. exact (gr_day sm_w 0 pn_make gw_reg gw_cfg gw_s [] 0 0 gw_st0 gw_ps0 gw_day gw_st1 gw_ps1 gw_starts gw_step). Qed.

(** However the solver decides, whatever leaves and whatever else is built: a run is one of the simulations of C128, so all that is proved about those holds for it. *)
Theorem C142_simulation : forall w id0 make reg cfg s, sound_make w make reg -> forall days t id st ps, grows w id0 make reg cfg s days t id st ps -> exists ms, plays w id0 ms t id (map pt_fac ps).
Proof. exact grown_simulation. Qed.
Example C142_simulation_case : sound_make sm_w pn_make gw_reg /\ grows sm_w 0 pn_make gw_reg gw_cfg gw_s [gw_day] 1 1 gw_st1 gw_ps1 /\ List.length gw_ps1 = 3%nat.
Proof. split; [exact (proj1 gw_sound)|]. split; [exact gw_grows|reflexivity]. Qed.
Print Assumptions C142_simulation.
(** What the institutions know is what there is: the facilities an institution knows are those in the network that belong to it, each once, in the order in which they were built; its producers are those of them that make something; and
    every facility in the network was made of the prototype under which its institution knows it. *)
Theorem C142_books : forall w id0 make reg cfg s days t id st ps, grows w id0 make reg cfg s days t id st ps ->
  (forall i x, inst_of (fst st) i = Some x -> in_children x = map pt_agent (filter (at_inst i) ps) /\ in_producers x = producers_of (in_children x)) /\
  NoDup (map (fun p => ag_id (pt_agent p)) ps) /\
  Forall (fun p => inst_of (fst st) (pt_inst p) <> None /\ exists n t0, 0 <= t0 <= t /\ lookup reg n = Some (ag_proto (pt_agent p)) /\ alike (make (ag_proto (pt_agent p)) t0) (pt_fac p)) ps.
Proof. exact the_books. Qed.
Example C142_books_case : grows sm_w 0 pn_make gw_reg gw_cfg gw_s [gw_day] 1 1 gw_st1 gw_ps1 /\ map (fun p => (pt_inst p, ag_id (pt_agent p))) gw_ps1 = [(1, 5); (1, 6); (1, 8)]%nat /\
  option_map (fun x => (ids (in_children x), ids (in_producers x))) (inst_of (fst gw_st1) 1) = Some ([5; 6; 8], [6; 8])%nat.
Proof. split; [exact gw_grows|]. split; vm_compute; reflexivity. Qed.
Print Assumptions C142_books.
(** If the solver's decision is adequate (C84), then after the time step the facilities in the network that belong to the region's institutions have, with those that left at its end, the capacity that was in demand in it. *)
Theorem C142_demand : forall w id0 make bff reg cfg ch s days t id st ps y st' ps', Forall (fun e => demand_ok bff (snd e)) cfg -> NoDup (map fst cfg) -> NoDup (mids ch) -> rg_start bff cfg ch = Ok s -> sound_reg reg ->
  grows w id0 make reg cfg s days t id st ps -> adequate reg cfg (fst st) s (gd_decide y) -> gstep w make reg cfg s t id st ps y st' ps' ->
  forall c, In c (map fst cfg) -> exists d, demand_at s c t = Ok d /\ (d <= network_capacity s ps' c + network_capacity s (quitters (gd_leave y) ps) c)%Q.
Proof. exact demand_met. Qed.
Example C142_demand_case : (Forall (fun e => demand_ok gw_bff (snd e)) gw_cfg /\ NoDup (map fst gw_cfg) /\ NoDup (mids gw_ch) /\ rg_start gw_bff gw_cfg gw_ch = Ok gw_s) /\ sound_reg gw_reg /\
  grows sm_w 0 pn_make gw_reg gw_cfg gw_s [] 0 0 gw_st0 gw_ps0 /\ adequate gw_reg gw_cfg (fst gw_st0) gw_s (gd_decide gw_day) /\ gstep sm_w pn_make gw_reg gw_cfg gw_s 0 0 gw_st0 gw_ps0 gw_day gw_st1 gw_ps1 /\
  (network_capacity gw_s gw_ps0 "power" == 900)%Q /\ (network_capacity gw_s gw_ps1 "power" == 1800)%Q.
Proof. split; [exact gw_region|]. split; [exact (proj2 gw_sound)|]. split; [exact gw_starts|]. split; [exact gw_adequate|]. split; [exact gw_step|]. split; vm_compute; reflexivity. Qed.
Print Assumptions C142_demand.
(** And nothing stops it: with an adequate decision every time step in which the exchange keeps to the rules can take place. *)
Theorem C142_goes_on : forall w id0 make bff reg cfg ch s days t id st ps y, world_ok w -> sound_make w make reg -> Forall (fun e => demand_ok bff (snd e)) cfg -> NoDup (map fst cfg) -> NoDup (mids ch) -> rg_start bff cfg ch = Ok s ->
  sound_reg reg -> grows w id0 make reg cfg s days t id st ps -> adequate reg cfg (fst st) s (gd_decide y) -> Forall (fun b => lookup reg (snd b) <> None /\ inst_of (fst st) (fst b) <> None) (gd_others y) ->
  (forall i, signal_ok (gd_sig y i)) -> orderly w t (gd_sig y) (map pt_fac ps) (gd_trades y) -> possible (gd_leave y) ps ->
  exists st' ps', gstep w make reg cfg s t id st ps y st' ps'.
Proof. exact next_gday. Qed.
Example C142_goes_on_case : world_ok sm_w /\ sound_make sm_w pn_make gw_reg /\ grows sm_w 0 pn_make gw_reg gw_cfg gw_s [] 0 0 gw_st0 gw_ps0 /\ orderly sm_w 0 (gd_sig gw_day) (map pt_fac gw_ps0) (gd_trades gw_day) /\ possible (gd_leave gw_day) gw_ps0 /\
  gd_trades gw_day <> [].
Proof. split; [exact sm_world|]. split; [exact (proj1 gw_sound)|]. split; [exact gw_starts|]. rewrite gw_network. split; [exact sm_orderly0|]. split; [split; [vm_compute; lia|exact I]|discriminate]. Qed.
Print Assumptions C142_goes_on.
