(** Property C145: which place a facility has in a network does not matter.  Statements use SimulationSpec.v and SeatSpec.v; proofs are a single [exact]. *)
From Coq Require Import Lia Lqa List Permutation FinFun.
From Verif Require Import Outcome KernelMaterial KernelResBuf KernelBuf KernelFacts NetworkSpec SimulationSpec SimulationCheck SimulationProps SeatSpec SeatProofs.
From Verif Require ReactorModel ReactorSpec SourceModel.
Import ListNotations.
Local Open Scope Q_scope.

(** When the facilities of a network change places, the same exchange between them (the trades [reseat]ed to the new places, every facility told and drawing the same as before) is possible,
    the same parcels are sent, and every facility ends the time step in the same state. *)
Theorem C145_step : forall w t id gs fs ds fs' sent fs2, Permutation fs fs2 -> (forall i, signal_ok (gs i)) -> orderly w t gs fs ds -> nstep w t id gs fs ds fs' sent ->
  exists p gs2 fs2', Injective p /\ (forall i, nth_error fs2 (p i) = nth_error fs i) /\ (forall i, nth_error fs2' (p i) = nth_error fs' i) /\ List.length fs2' = List.length fs2 /\
    (forall i, (i < List.length fs)%nat -> gs2 (p i) = gs i) /\ (forall j, signal_ok (gs2 j)) /\
    orderly w t gs2 fs2 (map (reseat p) ds) /\ nstep w t id gs2 fs2 (map (reseat p) ds) fs2' sent.
Proof. exact reseat_step. Qed.
Print Assumptions C145_step.
Example C145_step_case : Permutation sm_fs1 (rev sm_fs1) /\ (forall i, signal_ok (sm_sig i)) /\ orderly sm_w 1 sm_sig sm_fs1 sm_ds1 /\ nstep sm_w 1 1 sm_sig sm_fs1 sm_ds1 sm_fs2 sm_sent1.
Proof. split; [apply Permutation_rev|]. split; [exact sm_signals|]. split; [exact sm_orderly1|exact sm_step1]. Qed.
(** A simulation in which facilities are deployed at any place is, up to the places, one in which they are deployed behind the others; and conversely. *)
Theorem C145_anywhere : forall w t id fs, (seated w t id fs -> exists fs2, Permutation fs2 fs /\ reached w t id fs2) /\ (reached w t id fs -> seated w t id fs).
Proof. exact (fun w t id fs => conj (to_back w t id fs) (reached_seated w t id fs)). Qed.
Print Assumptions C145_anywhere.
(** A second source is deployed in front of the others at time 1. *)
Example C145_anywhere_case : seated sm_w 1 1 (Srce sm_src sm_src0 :: sm_fs1) /\ List.length sm_fs1 = 3%nat.
Proof.
  split; [|reflexivity]. apply (seat_new sm_w 1 1 [] sm_fs1); [exact (proj2 (C145_anywhere _ _ _ _) sm_reached1)|]. split; [cbn; lra|reflexivity].
Qed.
(** So in such a simulation, too, every exchange that keeps to what is requested and offered succeeds, each trade is served in full and no mass is lost. *)
Theorem C145_never_stuck : forall w t id fs gs ds, world_ok w -> seated w t id fs -> (forall i, signal_ok (gs i)) -> orderly w t gs fs ds ->
  exists fs' sent, nstep w t id gs fs ds fs' sent /\ Forall2 (fun d m => m_qty m == t_amt d) ds sent /\ qty_of (stock fs') == qty_of (stock fs).
Proof. exact seated_step. Qed.
Print Assumptions C145_never_stuck.
(** The spent fuel goes to the sink, the new fuel comes from the source that was deployed in front. *)
Example C145_never_stuck_case : world_ok sm_w /\ seated sm_w 1 1 (Srce sm_src sm_src0 :: sm_fs1) /\ (forall i, signal_ok (sm_sig i)) /\
  orderly sm_w 1 sm_sig (Srce sm_src sm_src0 :: sm_fs1)
    [ {| t_from := 2; t_to := 3; t_commod := "spent"; t_slot := 0; t_amt := 10; t_want := sm_fresh |}; {| t_from := 0; t_to := 2; t_commod := "fuel"; t_slot := 0; t_amt := 10; t_want := sm_fresh |} ].
Proof.
  split; [exact sm_world|]. split; [exact (proj1 C145_anywhere_case)|]. split; [exact sm_signals|]. apply orderlyb_sound. vm_compute. reflexivity.
Qed.
