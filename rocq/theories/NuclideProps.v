(** Property C133: in every network that can arise, a nuclide is present only if it is in a recipe of a source, or in a recipe to which a reactor burns fuel, that was deployed
    before.  Statements use SimulationSpec.v, LedgerSpec.v and NuclideSpec.v; proofs are a single [exact]; the examples use the network of a source, a reactor and a sink of
    SimulationProps.v. *)
From Coq Require Import Lia Lqa.
From Verif Require Import Outcome KernelMaterial KernelResBuf KernelBuf KernelFacts KernelMass NetworkSpec SimulationSpec SimulationCheck SimulationProps LedgerSpec LedgerProofs NuclideSpec NuclideProofs.
From Verif Require ReactorModel SinkModel SourceModel.
Local Open Scope Q_scope.

Example nu_started : chronicle sm_w 0 0 sm_fs0 sm_fs0 [].
Proof.
  assert (D : forall f, In f sm_fs0 -> deployed sm_w 0 f).
  { intros f [<-|[<-|[<-|[]]]].
    - split; [cbn; lra|reflexivity].
    - split; [split; cbn; (lia || lra || reflexivity || discriminate || (left; reflexivity) || idtac)|]. split; [constructor|]. split; [|reflexivity].
      split; cbn; try (repeat split; (lia || reflexivity)); try constructor; repeat constructor; discriminate.
    - split; [cbn; lra|]. split; [cbn; lra|]. split; [discriminate|]. split; [left; reflexivity|]. exists sm_rng. reflexivity. }
  apply (hired sm_w 0 0 [_; _] [_; _]); [apply (hired sm_w 0 0 [_] [_]); [apply (hired sm_w 0 0 [] []); [constructor|]|]|]; apply D; cbn; auto.
Qed.
Example nu_lived : chronicle sm_w 2 3 sm_fs2 sm_fs0 [].
Proof. exact (lived sm_w 1 1 _ _ _ _ _ _ _ (lived sm_w 0 0 _ _ _ _ _ _ _ nu_started sm_signals sm_orderly0 sm_step0) sm_signals sm_orderly1 sm_step1). Qed.
Example nu_recipes : Forall has_recipe sm_fs0.
Proof. repeat constructor. discriminate. Qed.

(** A nuclide that is in none of the recipes by which the facilities deployed so far make material is in no material: neither in what the facilities hold nor in what
    the retired ones held; *)
Theorem C133_never_appears : forall w n t id fs ever gone, world_ok w -> chronicle w t id fs ever gone -> Forall has_recipe ever ->
  Forall (without w n) (flat_map makes_by ever) -> Forall (fun m => mass_of m n == 0) (stock fs ++ stock gone).
Proof. exact never_appears. Qed.
Example C133_never_appears_case : world_ok sm_w /\ chronicle sm_w 2 3 sm_fs2 sm_fs0 [] /\ Forall has_recipe sm_fs0 /\
  flat_map makes_by sm_fs0 = ["fresh"; "used"]%string /\ Forall (without sm_w 952410000) (flat_map makes_by sm_fs0) /\ List.length (stock sm_fs2) = 3%nat.
Proof.
  split; [exact sm_world|]. split; [exact nu_lived|]. split; [exact nu_recipes|]. split; [vm_compute; reflexivity|]. split; [|vm_compute; reflexivity].
  assert (E : flat_map makes_by sm_fs0 = ["fresh"; "used"]%string) by (vm_compute; reflexivity). rewrite E. repeat constructor; intros r R; injection R as <-; reflexivity.
Qed.
Print Assumptions C133_never_appears.
(** nor in any shipment. *)
Theorem C133_never_shipped : forall w n t id fs ever gone gs ds fs' sent, world_ok w -> chronicle w t id fs ever gone -> Forall has_recipe ever ->
  Forall (without w n) (flat_map makes_by ever) -> (forall j, signal_ok (gs j)) -> orderly w t gs fs ds -> nstep w t id gs fs ds fs' sent ->
  Forall (fun m => mass_of m n == 0) sent.
Proof. exact never_shipped. Qed.
Example C133_never_shipped_case : chronicle sm_w 1 1 sm_fs1 sm_fs0 [] /\ (forall j, signal_ok (sm_sig j)) /\ orderly sm_w 1 sm_sig sm_fs1 sm_ds1 /\
  nstep sm_w 1 1 sm_sig sm_fs1 sm_ds1 sm_fs2 sm_sent1 /\ List.length sm_sent1 = 2%nat.
Proof.
  split; [exact (lived sm_w 0 0 _ _ _ _ _ _ _ nu_started sm_signals sm_orderly0 sm_step0)|]. split; [exact sm_signals|]. split; [exact sm_orderly1|]. split; [exact sm_step1|]. vm_compute. reflexivity.
Qed.
Print Assumptions C133_never_shipped.
(** Put the other way round: every nuclide found anywhere is in such a recipe. *)
Theorem C133_origin : forall w n t id fs ever gone m, world_ok w -> chronicle w t id fs ever gone -> Forall has_recipe ever ->
  In m (stock fs ++ stock gone) -> ~ mass_of m n == 0 ->
  exists f nm r, In f ever /\ In nm (makes_by f) /\ w_recipe w nm = Some r /\ ~ cget n r == 0.
Proof. exact comes_from. Qed.
Example C133_origin_case : chronicle sm_w 2 3 sm_fs2 sm_fs0 [] /\ exists m, In m (stock sm_fs2) /\ mass_of m 942390000 == 5 # 2.
Proof.
  split; [exact nu_lived|]. exists (nth 2 (stock sm_fs2) (Mat 0 0 [])). split; [apply nth_In; vm_compute; lia|vm_compute; reflexivity].
Qed.
Print Assumptions C133_origin.
