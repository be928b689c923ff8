(** Property C152: material travels at most one facility per time step.  Statements use SimulationSpec.v and TravelSpec.v; proofs are a single [exact]; the examples follow
    uranium-235 from a source through a conversion facility to a sink. *)
From Coq Require Import Lia Lqa List.
From Verif Require Import Outcome KernelMaterial KernelResBuf KernelBuf KernelFacts KernelMass NetworkSpec SimulationSpec SimulationCheck SimulationProps LedgerSpec LedgerProofs LedgerProps TravelSpec TravelProofs.
Import ListNotations.
Local Open Scope Q_scope.

Example tr_inert : Forall inert lg_fs0.
Proof. repeat constructor; cbn; try discriminate; auto. Qed.
Example tr_went1 : goes sm_w 0 0 lg_fs0 1 1 lg_fs1 [lg_ds0].
Proof. exact (goes_on sm_w 0 0 lg_fs0 0 0 lg_fs0 [] sm_sig lg_ds0 lg_fs1 lg_sent0 (goes_nowhere _ _ _ _) sm_signals lg_orderly0 lg_step0). Qed.
Example tr_went2 : goes sm_w 0 0 lg_fs0 2 3 lg_fs2 [lg_ds0; lg_ds1].
Proof. exact (goes_on sm_w 0 0 lg_fs0 1 1 lg_fs1 [lg_ds0] sm_sig lg_ds1 lg_fs2 lg_sent1 tr_went1 sm_signals lg_orderly1 lg_step1). Qed.

(** A facility without a nuclide, whose suppliers in a time step are without it when that time step begins, is without it when it ends; *)
Theorem C152_step : forall w t id gs fs ds fs' sent i f n, world_ok w -> reached w t id fs -> (forall j, signal_ok (gs j)) -> orderly w t gs fs ds -> nstep w t id gs fs ds fs' sent ->
  nth_error fs i = Some f -> inert f -> mass_in n (inside f) == 0 ->
  (forall d, In d ds -> t_to d = i -> exists g, nth_error fs (t_from d) = Some g /\ inert g /\ mass_in n (inside g) == 0) ->
  exists f', nth_error fs' i = Some f' /\ inert f' /\ mass_in n (inside f') == 0.
Proof. exact one_hop. Qed.
Print Assumptions C152_step.
(** The sink in the first time step: the conversion facility receives uranium-235, the sink remains without. *)
Example C152_step_case : world_ok sm_w /\ reached sm_w 0 0 lg_fs0 /\ (forall j, signal_ok (sm_sig j)) /\ orderly sm_w 0 sm_sig lg_fs0 lg_ds0 /\ nstep sm_w 0 0 sm_sig lg_fs0 lg_ds0 lg_fs1 lg_sent0 /\
  (exists f, nth_error lg_fs0 2 = Some f /\ inert f /\ mass_in 922350000 (inside f) == 0) /\ (forall d, In d lg_ds0 -> t_to d <> 2%nat) /\
  map (fun f => Qred (mass_in 922350000 (inside f))) lg_fs1 = [47 # 2; 3 # 2; 0].
Proof.
  split; [exact sm_world|]. split; [exact (chronicle_reached _ _ _ _ _ _ lg_started)|]. split; [exact sm_signals|]. split; [exact lg_orderly0|]. split; [exact lg_step0|].
  split; [eexists; split; [reflexivity|]; split; [exact I|reflexivity]|]. split; [intros d [<-|[]]; discriminate|]. vm_compute. reflexivity.
Qed.
(** and so in any number of time steps: if each trade leads at most one further away from the facilities that have the nuclide, after k time steps it is nowhere more than k away. *)
Theorem C152_reach : forall w t id fs t' id' fs' dss n away, world_ok w -> reached w t id fs -> Forall inert fs ->
  (forall i f, nth_error fs i = Some f -> (0 < away i)%nat -> mass_in n (inside f) == 0) ->
  (forall ds d, In ds dss -> In d ds -> (away (t_to d) <= S (away (t_from d)))%nat) -> goes w t id fs t' id' fs' dss ->
  forall i f, nth_error fs' i = Some f -> (List.length dss < away i)%nat -> mass_in n (inside f) == 0.
Proof. exact (fun w t id fs t' id' fs' dss n away W R I Z K G => proj2 (hops w t id fs t' id' fs' dss n away W R I Z K G)). Qed.
Print Assumptions C152_reach.
(** The sink is two away from the source: without uranium-235 after one time step, no longer after two. *)
Example C152_reach_case : world_ok sm_w /\ reached sm_w 0 0 lg_fs0 /\ Forall inert lg_fs0 /\
  (forall i f, nth_error lg_fs0 i = Some f -> (0 < i)%nat -> mass_in 922350000 (inside f) == 0) /\
  (forall ds d, In ds [lg_ds0; lg_ds1] -> In d ds -> (t_to d <= S (t_from d))%nat) /\ goes sm_w 0 0 lg_fs0 1 1 lg_fs1 [lg_ds0] /\ goes sm_w 0 0 lg_fs0 2 3 lg_fs2 [lg_ds0; lg_ds1] /\
  map (fun f => Qred (mass_in 922350000 (inside f))) lg_fs1 = [47 # 2; 3 # 2; 0] /\ map (fun f => Qred (mass_in 922350000 (inside f))) lg_fs2 = [45 # 2; 7 # 4; 3 # 4].
Proof.
  split; [exact sm_world|]. split; [exact (chronicle_reached _ _ _ _ _ _ lg_started)|]. split; [exact tr_inert|].
  split; [intros [|[|[|i]]] f N L; [lia|injection N as <-; reflexivity|injection N as <-; reflexivity|destruct i; discriminate]|].
  split; [intros ds d [<-|[<-|[]]] D; [destruct D as [<-|[]]|destruct D as [<-|[<-|[]]]]; cbn; lia|]. split; [exact tr_went1|]. split; [exact tr_went2|]. split; vm_compute; reflexivity.
Qed.
