(** Property C144: a simulation can always go on, and the exchange may leave out any trades.  Statements use SimulationSpec.v and PlanSpec.v; proofs are a single [exact]. *)
From Coq Require Import Lia Lqa.
From Verif Require Import Outcome KernelMaterial KernelResBuf KernelBuf NetworkSpec SimulationSpec SimulationProps PlanSpec IdleProofs.
Local Open Scope Q_scope.

(** In every network that can arise the exchange may decide on no trade at all, whatever the facilities request and offer. *)
Theorem C144_idle : forall w t id fs gs, world_ok w -> reached w t id fs -> orderly w t gs fs [].
Proof. exact idle. Qed.
Print Assumptions C144_idle.
Example C144_idle_case : world_ok sm_w /\ reached sm_w 1 1 sm_fs1 /\ match publish sm_w 1 (sm_sig 1) (nth 1 sm_fs1 (Reac sm_rx sm_rx0)) with Ok n => map of_commod (n_offers n) = ["spent"%string] /\ map ak_commods (n_asks n) = [["fuel"%string]] | _ => False end.
Proof. split; [exact sm_world|]. split; [exact sm_reached1|]. vm_compute. split; reflexivity. Qed.
(** Whatever trades it could decide on, it may leave out any of them, and the time step takes place with the others, each served with its amount. *)
Theorem C144_fewer : forall w t id fs gs ds ds', world_ok w -> reached w t id fs -> (forall i, signal_ok (gs i)) -> orderly w t gs fs ds -> part ds' ds ->
  orderly w t gs fs ds' /\ exists fs' sent, nstep w t id gs fs ds' fs' sent /\ Forall2 (fun d m => m_qty m == t_amt d) ds' sent.
Proof. exact fewer_step. Qed.
Print Assumptions C144_fewer.
Example C144_fewer_case : world_ok sm_w /\ reached sm_w 1 1 sm_fs1 /\ (forall i, signal_ok (sm_sig i)) /\ orderly sm_w 1 sm_sig sm_fs1 [sm_spent; sm_fuel] /\ part [sm_spent] [sm_spent; sm_fuel].
Proof. split; [exact sm_world|]. split; [exact sm_reached1|]. split; [exact sm_signals|]. split; [exact sm_orderly1|]. repeat constructor. Qed.
(** So every simulation can be continued for any number of time steps, whatever the facilities are told and draw: all facilities stay in operation, and no mass is lost. *)
Theorem C144_forever : forall w t id fs, world_ok w -> reached w t id fs -> forall gs : Z -> nat -> signal, (forall x i, signal_ok (gs x i)) -> forall n,
  exists fs', reached w (t + Z.of_nat n) id fs' /\ List.length fs' = List.length fs /\ qty_of (stock fs') == qty_of (stock fs).
Proof. exact forever. Qed.
Print Assumptions C144_forever.
Example C144_forever_case : world_ok sm_w /\ reached sm_w 1 1 sm_fs1 /\ (forall (x : Z) i, signal_ok (sm_sig i)) /\ qty_of (stock sm_fs1) == 100.
Proof. split; [exact sm_world|]. split; [exact sm_reached1|]. split; [intros _; exact sm_signals|]. vm_compute. reflexivity. Qed.
