(** Property C153: the mass in any part of a network changes by what is traded across its border.  Statements use SimulationSpec.v, TravelSpec.v and BorderSpec.v; proofs are a single
    [exact]; the examples look at parts of a network of a source, a conversion facility and a sink. *)
From Coq Require Import Lia Lqa List Bool.
From Verif Require Import Outcome KernelMaterial KernelResBuf KernelBuf KernelFacts KernelMass NetworkSpec SimulationSpec SimulationCheck SimulationProps LedgerSpec LedgerProofs LedgerProps TravelSpec TravelProps BorderSpec BorderProofs.
Import ListNotations.
Local Open Scope Q_scope.

(** In a time step; *)
Theorem C153_step : forall w t id gs fs ds fs' sent P, world_ok w -> reached w t id fs -> (forall j, signal_ok (gs j)) -> orderly w t gs fs ds -> nstep w t id gs fs ds fs' sent ->
  part_holds P fs' == part_holds P fs + total (into P ds) - total (out_of P ds).
Proof. exact border. Qed.
Print Assumptions C153_step.
(** The conversion facility alone in the second time step. *)
Example C153_step_case : world_ok sm_w /\ reached sm_w 1 1 lg_fs1 /\ (forall j, signal_ok (sm_sig j)) /\ orderly sm_w 1 sm_sig lg_fs1 lg_ds1 /\ nstep sm_w 1 1 sm_sig lg_fs1 lg_ds1 lg_fs2 lg_sent1 /\
  part_holds (Nat.eqb 1) lg_fs1 == 6 /\ total (into (Nat.eqb 1) lg_ds1) == 4 /\ total (out_of (Nat.eqb 1) lg_ds1) == 3 /\ part_holds (Nat.eqb 1) lg_fs2 == 7.
Proof.
  split; [exact sm_world|]. split; [exact (stepping sm_w 0 0 lg_fs0 sm_sig lg_ds0 lg_fs1 lg_sent0 (chronicle_reached _ _ _ _ _ _ lg_started) sm_signals lg_orderly0 lg_step0)|].
  split; [exact sm_signals|]. split; [exact lg_orderly1|]. split; [exact lg_step1|]. vm_compute. repeat split.
Qed.
(** in any number of time steps; *)
Theorem C153_run : forall w t id fs t' id' fs' dss P, world_ok w -> reached w t id fs -> goes w t id fs t' id' fs' dss ->
  part_holds P fs' == part_holds P fs + total (into P (List.concat dss)) - total (out_of P (List.concat dss)).
Proof. exact border_run. Qed.
Print Assumptions C153_run.
(** The conversion facility and the sink: what goes from one to the other does not count. *)
Example C153_run_case : world_ok sm_w /\ reached sm_w 0 0 lg_fs0 /\ goes sm_w 0 0 lg_fs0 2 3 lg_fs2 [lg_ds0; lg_ds1] /\
  part_holds (Nat.leb 1) lg_fs0 == 0 /\ total (into (Nat.leb 1) (lg_ds0 ++ lg_ds1)) == 10 /\ out_of (Nat.leb 1) (lg_ds0 ++ lg_ds1) = [] /\ part_holds (Nat.leb 1) lg_fs2 == 10.
Proof.
  split; [exact sm_world|]. split; [exact (chronicle_reached _ _ _ _ _ _ lg_started)|]. split; [exact tr_went2|]. vm_compute. repeat split.
Qed.
(** and a part that trades only within itself keeps its mass. *)
Theorem C153_closed : forall w t id fs t' id' fs' dss P, world_ok w -> reached w t id fs -> goes w t id fs t' id' fs' dss -> (forall ds d, In ds dss -> In d ds -> P (t_from d) = P (t_to d)) ->
  part_holds P fs' == part_holds P fs.
Proof. exact closed_part. Qed.
Print Assumptions C153_closed.
(** In the first time step the source and the conversion facility trade with each other, the sink with nobody. *)
Example C153_closed_case : world_ok sm_w /\ reached sm_w 0 0 lg_fs0 /\ goes sm_w 0 0 lg_fs0 1 1 lg_fs1 [lg_ds0] /\
  (forall ds d, In ds [lg_ds0] -> In d ds -> Nat.ltb (t_from d) 2 = Nat.ltb (t_to d) 2) /\ part_holds (fun i => Nat.ltb i 2) lg_fs1 == 100 /\
  map (fun f => Qred (qty_of (inside f))) lg_fs1 = [94; 6; 0].
Proof.
  split; [exact sm_world|]. split; [exact (chronicle_reached _ _ _ _ _ _ lg_started)|]. split; [exact tr_went1|]. split; [intros ds d [<-|[]] [<-|[]]; reflexivity|]. vm_compute. repeat split.
Qed.
