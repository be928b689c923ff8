(** Property C140: a scenario has one outcome, and what can follow depends only on where a simulation has arrived.  Statements use SimulationSpec.v and UnitSpec.v; proofs are a single [exact]; the example is the scenario
    of UnitProps.v. *)
From Verif Require Import Outcome KernelMaterial KernelResBuf KernelBuf NetworkSpec SimulationSpec SimulationProps UnitSpec UnitProps ReplayProofs.
Local Open Scope Z_scope.

(** The same deployments, retirements, draws and trades lead to the same time, the same numbers of objects and the same network, down to the last parcel: a simulation can be repeated. *)
Theorem C140_same : forall w id0 ms t id fs t' id' fs', plays w id0 ms t id fs -> plays w id0 ms t' id' fs' -> t' = t /\ id' = id /\ fs' = fs.
Proof. exact same_outcome. Qed.
Example C140_same_case : plays sm_w 0 un_moves 2 3 sm_fs2 /\ stock sm_fs2 <> [].
Proof. split; [exact un_plays|]. vm_compute. discriminate. Qed.
Print Assumptions C140_same.
(** A scenario can be stopped after any of its moves: later moves do not decide whether earlier ones are possible. *)
Theorem C140_prefix : forall w id0 ms ms' t id fs, plays w id0 (ms ++ ms') t id fs -> exists t0 i0 fs0, plays w id0 ms t0 i0 fs0 /\ t0 <= t.
Proof. exact prefix_plays. Qed.
Example C140_prefix_case : plays sm_w 0 (firstn 3 un_moves ++ skipn 3 un_moves) 2 3 sm_fs2 /\ (0 < List.length (skipn 3 un_moves))%nat.
Proof. split; [exact un_plays|]. cbn. repeat constructor. Qed.
Print Assumptions C140_prefix.
(** What can follow depends on the network, the time and the next free number, and not on how they came about: two simulations that have arrived at the same place go on in the same way. *)
Theorem C140_onward : forall w id0 id1 ms ms' t id fs, plays w id0 ms t id fs -> plays w id1 ms' t id fs ->
  forall xs t2 id2 fs2, plays w id0 (ms ++ xs) t2 id2 fs2 -> plays w id1 (ms' ++ xs) t2 id2 fs2.
Proof. exact from_here. Qed.
(** The case: the facilities of the scenario have been deployed; in the other scenario a second sink had been deployed and was retired at once. *)
Definition rp_before : list move := [Deploy 0 (Srce sm_src sm_src0); Deploy 0 (Reac sm_rx sm_rx0); Deploy 0 (Snk sm_sink sm_sink0)].
Definition rp_other : list move := [Deploy 0 (Srce sm_src sm_src0); Deploy 0 (Reac sm_rx sm_rx0); Deploy 0 (Snk sm_sink sm_sink0); Deploy 0 (Snk sm_sink sm_sink0); Retire 3].
Example C140_onward_case : plays sm_w 0 rp_before 0 0 sm_fs0 /\ plays sm_w 0 rp_other 0 0 sm_fs0 /\ plays sm_w 0 (rp_before ++ [Trade sm_sig sm_ds0; Trade sm_sig sm_ds1]) 2 3 sm_fs2.
Proof.
  pose proof (pl_deploy sm_w 0 _ _ _ _ (Srce sm_src sm_src0) (pl_start sm_w 0) (un_deployed _ (or_introl eq_refl))) as A1.
  pose proof (pl_deploy sm_w 0 _ _ _ _ (Reac sm_rx sm_rx0) A1 (un_deployed _ (or_intror (or_introl eq_refl)))) as A2.
  pose proof (pl_deploy sm_w 0 _ _ _ _ (Snk sm_sink sm_sink0) A2 (un_deployed _ (or_intror (or_intror (or_introl eq_refl))))) as A3.
  pose proof (pl_deploy sm_w 0 _ _ _ _ (Snk sm_sink sm_sink0) A3 (un_deployed _ (or_intror (or_intror (or_introl eq_refl))))) as A4.
  split; [exact A3|]. split; [exact (pl_retire sm_w 0 _ _ _ sm_fs0 _ [] A4)|exact un_plays].
Qed.
Print Assumptions C140_onward.
(** Every orderly exchange can be carried out, whatever came before, in exactly one way. *)
Theorem C140_goes_on : forall w id0 ms t id fs gs ds, world_ok w -> plays w id0 ms t id fs -> (forall i, signal_ok (gs i)) -> orderly w t gs fs ds ->
  exists fs', plays w id0 (ms ++ [Trade gs ds]) (t + 1) (id + zlen ds) fs'.
Proof. exact goes_on. Qed.
Example C140_goes_on_case : world_ok sm_w /\ plays sm_w 0 rp_before 0 0 sm_fs0 /\ (forall i, signal_ok (sm_sig i)) /\ orderly sm_w 0 sm_sig sm_fs0 sm_ds0 /\ sm_ds0 <> [].
Proof. split; [exact sm_world|]. split; [exact (proj1 C140_onward_case)|]. split; [exact sm_signals|]. split; [exact sm_orderly0|discriminate]. Qed.
Print Assumptions C140_goes_on.
