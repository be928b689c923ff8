(** Property C146: the order in which the trades of a time step are carried out does not matter to how much each facility holds.  Statements use SimulationSpec.v; proofs are a single [exact]. *)
From Coq Require Import Lia Lqa List Permutation.
From Verif Require Import Outcome KernelMaterial KernelResBuf KernelBuf KernelFacts KernelMass NetworkSpec SimulationSpec SimulationCheck SimulationProps QueueProofs QueueExample.
Import ListNotations.
Local Open Scope Q_scope.

(** After a time step a facility holds what it held, and what it bought, less what it sold. *)
Theorem C146_balance : forall w t id gs fs ds fs' sent i f, world_ok w -> reached w t id fs -> (forall j, signal_ok (gs j)) -> orderly w t gs fs ds -> nstep w t id gs fs ds fs' sent ->
  nth_error fs i = Some f -> exists f', nth_error fs' i = Some f' /\ qty_of (inside f') == qty_of (inside f) + total (bought_by i ds) - total (sold_by i ds).
Proof. exact step_balance. Qed.
Print Assumptions C146_balance.
Example C146_balance_case : world_ok sm_w /\ reached sm_w 1 1 sm_fs1 /\ (forall i, signal_ok (sm_sig i)) /\ orderly sm_w 1 sm_sig sm_fs1 sm_ds1 /\ nstep sm_w 1 1 sm_sig sm_fs1 sm_ds1 sm_fs2 sm_sent1 /\
  map (fun i => (total (bought_by i sm_ds1), total (sold_by i sm_ds1))) [0; 1; 2]%nat = [(0, 10); (10, 10); (10, 0)].
Proof. split; [exact sm_world|]. split; [exact sm_reached1|]. split; [exact sm_signals|]. split; [exact sm_orderly1|]. split; [exact sm_step1|]. vm_compute. reflexivity. Qed.
(** When the trades are carried out in another order, the time step succeeds just as well, every trade is served with its amount, and every facility holds as much as before. *)
Theorem C146_order : forall w t id gs fs ds ds2 fs' sent, world_ok w -> reached w t id fs -> (forall j, signal_ok (gs j)) -> orderly w t gs fs ds -> nstep w t id gs fs ds fs' sent -> Permutation ds ds2 ->
  orderly w t gs fs ds2 /\ exists fs2 sent2, nstep w t id gs fs ds2 fs2 sent2 /\ Forall2 (fun d m => m_qty m == t_amt d) ds2 sent2 /\ Forall2 (fun f f2 => qty_of (inside f2) == qty_of (inside f)) fs' fs2.
Proof. exact queue. Qed.
Print Assumptions C146_order.
Example C146_order_case : world_ok sm_w /\ reached sm_w 1 1 sm_fs1 /\ (forall i, signal_ok (sm_sig i)) /\ orderly sm_w 1 sm_sig sm_fs1 sm_ds1 /\ nstep sm_w 1 1 sm_sig sm_fs1 sm_ds1 sm_fs2 sm_sent1 /\
  Permutation sm_ds1 [sm_fuel; sm_spent] /\ sm_ds1 <> [sm_fuel; sm_spent].
Proof. split; [exact sm_world|]. split; [exact sm_reached1|]. split; [exact sm_signals|]. split; [exact sm_orderly1|]. split; [exact sm_step1|]. split; [apply perm_swap|discriminate]. Qed.
(** But what it is that a facility holds may depend on the order: a storage ships first what came in first.  Witness (QueueExample.v): of two sinks, the one that is served first gets the uranium 235. *)
Theorem C146_composition_refuted : exists w t id gs fs ds ds2 fs' sent fs2 sent2, world_ok w /\ reached w t id fs /\ (forall j, signal_ok (gs j)) /\ orderly w t gs fs ds /\ Permutation ds ds2 /\
  nstep w t id gs fs ds fs' sent /\ nstep w t id gs fs ds2 fs2 sent2 /\
  exists i f f2 n, nth_error fs' i = Some f /\ nth_error fs2 i = Some f2 /\ ~ mass_in n (inside f2) == mass_in n (inside f).
Proof.
  exists sm_w, 1%Z, 2%Z, sm_sig, qu_fs1, qu_ds1, qu_ds2, (qu_fs2 qu_ds1), (qu_sent qu_ds1), (qu_fs2 qu_ds2), (qu_sent qu_ds2).
  split; [exact sm_world|]. split; [exact qu_reached1|]. split; [exact sm_signals|]. split; [exact qu_orderly1|]. split; [apply perm_swap|]. split; [exact qu_step1|]. split; [exact qu_step2|].
  exists 2%nat. eexists. eexists. exists 922350000%Z. split; [vm_compute; reflexivity|]. split; [vm_compute; reflexivity|]. vm_compute. discriminate.
Qed.
Print Assumptions C146_composition_refuted.
