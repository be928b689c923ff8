(** Property C147: nothing passes through a facility within a time step.  Statements use SimulationSpec.v; proofs are a single [exact]. *)
From Coq Require Import Lia Lqa List.
From Verif Require Import Outcome KernelMaterial KernelResBuf KernelBuf KernelFacts NetworkSpec SimulationSpec SimulationCheck SimulationProps PassProofs QueueExample.
Import ListNotations.
Local Open Scope Q_scope.

(** In every network that can arise, whatever an exchange may decide that keeps to what is requested and offered: a facility sells no more than it holds when the time step begins; *)
Theorem C147_held_before : forall w t id gs fs ds i f, world_ok w -> reached w t id fs -> (forall j, signal_ok (gs j)) -> orderly w t gs fs ds -> nth_error fs i = Some f ->
  total (sold_by i ds) <= qty_of (inside f).
Proof. exact held_before. Qed.
Print Assumptions C147_held_before.
Example C147_held_before_case : world_ok sm_w /\ reached sm_w 1 1 sm_fs1 /\ (forall i, signal_ok (sm_sig i)) /\ orderly sm_w 1 sm_sig sm_fs1 sm_ds1 /\
  exists f, nth_error sm_fs1 1 = Some f /\ total (sold_by 1 sm_ds1) == 10 /\ qty_of (inside f) == 10 /\ total (bought_by 1 sm_ds1) == 10.
Proof.
  split; [exact sm_world|]. split; [exact sm_reached1|]. split; [exact sm_signals|]. split; [exact sm_orderly1|]. eexists. split; [vm_compute; reflexivity|]. vm_compute. repeat split.
Qed.
(** what it ships does not depend on what it receives in that time step, nor on anything else but what it is told to ship; *)
Theorem C147_ships : forall w t id gs fs ds fs' sent ds2 fs2 sent2 i, nstep w t id gs fs ds fs' sent -> nstep w t id gs fs ds2 fs2 sent2 -> (i < List.length fs)%nat -> sold_by i ds = sold_by i ds2 ->
  map snd (filter (fun x => Nat.eqb (t_from (fst x)) i) (combine ds sent)) = map snd (filter (fun x => Nat.eqb (t_from (fst x)) i) (combine ds2 sent2)).
Proof. exact shipped_same. Qed.
Print Assumptions C147_ships.
(** With a delivery of fuel and without, the reactor ships the same spent assembly. *)
Definition ps_sent : list mat := sm_ships 1 sm_fs1 [sm_spent] 1 (nth 1 sm_fs1 (Reac sm_rx sm_rx0)).
Definition ps_fs2 : list fac := sm_moves 1 1 sm_fs1 [sm_spent] ps_sent.
Example C147_ships_case : nstep sm_w 1 1 sm_sig sm_fs1 sm_ds1 sm_fs2 sm_sent1 /\ nstep sm_w 1 1 sm_sig sm_fs1 [sm_spent] ps_fs2 ps_sent /\ (1 < List.length sm_fs1)%nat /\ sold_by 1 sm_ds1 = sold_by 1 [sm_spent] /\
  sm_fs2 <> ps_fs2 /\ map m_qty ps_sent = [10].
Proof.
  split; [exact sm_step1|]. split.
  { split; [vm_compute; reflexivity|]. split; [vm_compute; reflexivity|].
    intros [|[|[|i]]] f f' N N'; try (destruct i; discriminate); vm_compute in N; injection N as <-; vm_compute in N'; injection N' as <-; vm_compute; reflexivity. }
  split; [vm_compute; auto|]. split; [reflexivity|]. split; [|vm_compute; reflexivity].
  intro E. apply (f_equal (map (fun f => Qred (qty_of (inside f))))) in E. vm_compute in E. discriminate.
Qed.
(** so that no kilogram is traded twice in a time step: all trades together are no more than the mass in the network. *)
Theorem C147_turnover : forall w t id gs fs ds, world_ok w -> reached w t id fs -> (forall j, signal_ok (gs j)) -> orderly w t gs fs ds -> total ds <= qty_of (stock fs).
Proof. exact turnover. Qed.
Print Assumptions C147_turnover.
Example C147_turnover_case : world_ok sm_w /\ reached sm_w 1 2 qu_fs1 /\ (forall i, signal_ok (sm_sig i)) /\ orderly sm_w 1 sm_sig qu_fs1 qu_ds1 /\ total qu_ds1 == 20 /\ qty_of (stock qu_fs1) == 100.
Proof. split; [exact sm_world|]. split; [exact qu_reached1|]. split; [exact sm_signals|]. split; [exact qu_orderly1|]. split; vm_compute; reflexivity. Qed.
