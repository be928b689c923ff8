(** Property C131: a simulation that is saved and loaded again goes on as if it had not been interrupted.  Statements use SimulationSpec.v, LedgerSpec.v (the record of the
    facilities deployed) and NetRestartSpec.v; the proof is a single [exact]; the example saves the network of a source, a reactor and a sink of SimulationProps.v after its
    first time step. *)
From Coq Require Import Lia Lqa.
From Verif Require Import Outcome KernelMaterial KernelResBuf KernelBuf KernelFacts KernelMass NetworkSpec SimulationSpec SimulationProps LedgerSpec RestartModel NetRestartSpec NetRestartProofs.
From Verif Require ReactorModel SinkModel SinkSpec SourceModel.
Local Open Scope Q_scope.

(** In every network of storages, sources, reactors and sinks without random buying times: saving succeeds and does not disturb the simulation; loading succeeds; and however the random numbers
    fall on loading, the loaded network holds the same material, tells the exchange the same, and does in the next time step exactly what the
    uninterrupted one does, with the same network as result. *)
Theorem C131_network_restart : forall w package unit t id fs ever gone, world_ok w -> chronicle w t id fs ever gone -> Forall (savable w package unit) ever ->
  (exists fs1 fs', net_restarts w package unit t fs fs1 fs') /\
  forall fs1 fs', net_restarts w package unit t fs fs1 fs' ->
    fs1 = fs /\ map inside fs' = map inside fs /\
    (forall gs i f f', nth_error fs i = Some f -> nth_error fs' i = Some f' -> publish w t (gs i) f' = publish w t (gs i) f) /\
    (forall gs ds fs2 sent, nstep w t id gs fs' ds fs2 sent <-> nstep w t id gs fs ds fs2 sent).
Proof. exact net_restart. Qed.
Example C131_case : world_ok sm_w /\ chronicle sm_w 1 1 sm_fs1 sm_fs0 [] /\ Forall (savable sm_w (fun _ => true) (fun _ => true)) sm_fs0 /\
  map (fun f => Qred (qty_of (inside f))) sm_fs1 = [90; 10; 0] /\ nstep sm_w 1 1 sm_sig sm_fs1 sm_ds1 sm_fs2 sm_sent1.
Proof.
  split; [exact sm_world|]. split; [|split; [|split; [vm_compute; reflexivity|exact sm_step1]]].
  - refine (lived sm_w 0 0 _ _ _ _ _ _ _ _ sm_signals sm_orderly0 sm_step0).
    assert (D : forall f, In f sm_fs0 -> deployed sm_w 0 f).
    { intros f [<-|[<-|[<-|[]]]].
      - split; [cbn; lra|reflexivity].
      - split; [split; cbn; (lia || lra || reflexivity || discriminate || (left; reflexivity) || idtac)|]. split; [constructor|]. split; [|reflexivity].
        split; cbn; try (repeat split; (lia || reflexivity)); try constructor; repeat constructor; discriminate.
      - split; [cbn; lra|]. split; [cbn; lra|]. split; [discriminate|]. split; [left; reflexivity|]. exists sm_rng. reflexivity. }
    apply (hired sm_w 0 0 [_; _] [_; _]); [apply (hired sm_w 0 0 [_] [_]); [apply (hired sm_w 0 0 [] []); [constructor|]|]|]; apply D; cbn; auto.
  - repeat constructor.
    + exists ["fresh"%string], ["used"%string], [1], 0%Z. reflexivity.
    + intros [X|X]; discriminate X.
Qed.
Print Assumptions C131_network_restart.
