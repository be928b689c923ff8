(** Property C150: whether a trade is carried out in one lot or in several does not matter to how much each facility holds.  Statements use SimulationSpec.v and LotSpec.v; proofs are a single [exact]. *)
From Coq Require Import Lia Lqa List.
From Verif Require Import Outcome KernelMaterial KernelResBuf KernelBuf KernelFacts NetworkSpec SimulationSpec SimulationCheck SimulationProps LedgerSpec LedgerProofs LedgerProps LotSpec LotProofs.
Import ListNotations.
Local Open Scope Q_scope.

Example lo_reached1 : reached sm_w 1 1 lg_fs1.
Proof. exact (chronicle_reached _ _ _ _ _ _ (lived sm_w 0 0 _ _ _ _ _ _ _ lg_started sm_signals lg_orderly0 lg_step0)). Qed.
Example lo_bulk : in_bulk lg_fs1 (lg_in 4).
Proof. intros f [E|E]; vm_compute in E; injection E as <-; exact I. Qed.
Example lo_orderly2 : orderly sm_w 1 sm_sig lg_fs1 [lg_out 3; lot 1 (lg_in 4); lot 3 (lg_in 4)].
Proof. apply orderlyb_sound. vm_compute. reflexivity. Qed.

(** In every network that can arise: a trade between facilities other than reactors can be replaced by two that together have its amount.  The exchange may decide so if it could decide on the one, all
    trades are served with their amounts, and every facility then holds as much as with the one; *)
Theorem C150_two_lots : forall w t id gs fs a d b x y fs' sent, world_ok w -> reached w t id fs -> (forall j, signal_ok (gs j)) -> 0 < x -> 0 < y -> x + y == t_amt d -> in_bulk fs d ->
  orderly w t gs fs (a ++ d :: b) -> nstep w t id gs fs (a ++ d :: b) fs' sent ->
  orderly w t gs fs (a ++ lot x d :: lot y d :: b) /\ exists fs2 sent2, nstep w t id gs fs (a ++ lot x d :: lot y d :: b) fs2 sent2 /\
    Forall2 (fun d m => m_qty m == t_amt d) (a ++ lot x d :: lot y d :: b) sent2 /\ Forall2 (fun f f2 => qty_of (inside f2) == qty_of (inside f)) fs' fs2.
Proof. exact two_lots. Qed.
Print Assumptions C150_two_lots.
Example C150_two_lots_case : world_ok sm_w /\ reached sm_w 1 1 lg_fs1 /\ (forall i, signal_ok (sm_sig i)) /\ 1 + 3 == t_amt (lg_in 4) /\ in_bulk lg_fs1 (lg_in 4) /\
  orderly sm_w 1 sm_sig lg_fs1 ([lg_out 3] ++ lg_in 4 :: []) /\ nstep sm_w 1 1 sm_sig lg_fs1 ([lg_out 3] ++ lg_in 4 :: []) lg_fs2 lg_sent1.
Proof.
  split; [exact sm_world|]. split; [exact lo_reached1|]. split; [exact sm_signals|]. split; [reflexivity|]. split; [exact lo_bulk|]. split; [exact lg_orderly1|exact lg_step1].
Qed.
(** and two such trades can be replaced by one. *)
Theorem C150_one_lot : forall w t id gs fs a d b x y fs' sent, world_ok w -> reached w t id fs -> (forall j, signal_ok (gs j)) -> 0 < x -> 0 < y -> x + y == t_amt d -> in_bulk fs d ->
  orderly w t gs fs (a ++ lot x d :: lot y d :: b) -> nstep w t id gs fs (a ++ lot x d :: lot y d :: b) fs' sent ->
  orderly w t gs fs (a ++ d :: b) /\ exists fs2 sent2, nstep w t id gs fs (a ++ d :: b) fs2 sent2 /\
    Forall2 (fun d m => m_qty m == t_amt d) (a ++ d :: b) sent2 /\ Forall2 (fun f f2 => qty_of (inside f2) == qty_of (inside f)) fs' fs2.
Proof. exact one_lot. Qed.
Print Assumptions C150_one_lot.
Example C150_one_lot_case : world_ok sm_w /\ reached sm_w 1 1 lg_fs1 /\ (forall i, signal_ok (sm_sig i)) /\ 1 + 3 == t_amt (lg_in 4) /\ in_bulk lg_fs1 (lg_in 4) /\
  orderly sm_w 1 sm_sig lg_fs1 ([lg_out 3] ++ lot 1 (lg_in 4) :: lot 3 (lg_in 4) :: []) /\
  exists fs2 sent2, nstep sm_w 1 1 sm_sig lg_fs1 ([lg_out 3] ++ lot 1 (lg_in 4) :: lot 3 (lg_in 4) :: []) fs2 sent2.
Proof.
  split; [exact sm_world|]. split; [exact lo_reached1|]. split; [exact sm_signals|]. split; [reflexivity|]. split; [exact lo_bulk|]. split; [exact lo_orderly2|].
  destruct (two_lots sm_w 1 1 sm_sig lg_fs1 [lg_out 3] (lg_in 4) [] 1 3 lg_fs2 lg_sent1 sm_world lo_reached1 sm_signals) as (_ & fs2 & sent2 & N & _); try reflexivity; [exact lo_bulk|exact lg_orderly1|exact lg_step1|].
  exists fs2, sent2. exact N.
Qed.
(** Fuel for a reactor cannot be divided: it asks for whole assemblies. *)
Theorem C150_reactor_refuted : exists w t id gs fs d x y, world_ok w /\ reached w t id fs /\ (forall j, signal_ok (gs j)) /\ 0 < x /\ 0 < y /\ x + y == t_amt d /\
  orderly w t gs fs [d] /\ ~ orderly w t gs fs [lot x d; lot y d].
Proof.
  exists sm_w, 0%Z, 0%Z, sm_sig, sm_fs0, sm_fuel, 4, 6. split; [exact sm_world|]. split; [exact sm_deployed|]. split; [exact sm_signals|]. split; [lra|]. split; [lra|]. split; [reflexivity|]. split; [exact sm_orderly0|].
  intros (_ & OR). assert (P : exists n, publish sm_w 0 (sm_sig 1) (Reac sm_rx sm_rx0) = Ok n /\ exists a, nth_error (n_asks n) 0 = Some a /\ ak_unit a = Some 10 /\ nth_error (slots 0 (n_asks n)) 0 = Some 0%nat).
  { eexists. split; [vm_compute; reflexivity|]. eexists. split; [reflexivity|]. split; reflexivity. }
  destruct P as (n & P & a & A & U & S). destruct (OR 1%nat _ n eq_refl P) as [_ [_ B]]. destruct (B 0%nat a A) as [B1 _]. rewrite Forall_forall in B1. specialize (B1 (lot 4 sm_fuel)). rewrite U in B1.
  assert (X : fits (Some 10) 4); [|discriminate X]. apply B1, filter_In. split; [apply filter_In; split; [left; reflexivity|reflexivity]|]. change (t_slot (lot 4 sm_fuel)) with 0%nat. rewrite S. reflexivity.
Qed.
Print Assumptions C150_reactor_refuted.
