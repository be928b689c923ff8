(** Scenarios have one outcome (C140): the proofs. *)
From Coq Require Import Lia.
From Verif Require Import Outcome KernelMaterial KernelResBuf KernelBuf NetworkSpec SimulationSpec SimulationProofs SimulationNetwork UnitSpec UnitProofs.
Local Open Scope Z_scope.

Lemma snoc_inv {A} (l m : list A) x y : l ++ [x] = m ++ [y] -> l = m /\ x = y.
Proof. apply app_inj_tail. Qed.
Lemma split_at {A} (a : list A) : forall f b a' f' b', a ++ f :: b = a' ++ f' :: b' -> List.length a = List.length a' -> a = a' /\ b = b'.
Proof.
  induction a as [|x a IH]; intros f b [|x' a'] f' b' H L; try discriminate L; cbn in H.
  - injection H as _ H. auto.
  - injection H as -> H. injection L as L. destruct (IH _ _ _ _ _ H L) as [-> ->]. auto.
Qed.
(** The last move of a scenario. *)
Lemma plays_last w id0 ms x t id fs : plays w id0 (ms ++ [x]) t id fs -> exists t0 i0 fs0, plays w id0 ms t0 i0 fs0 /\ t0 <= t /\
  match x with
  | Deploy t1 f => t1 = t0 /\ t = t0 /\ id = i0 /\ deployed w t0 f /\ fs = fs0 ++ [f]
  | Retire n => t = t0 /\ id = i0 /\ exists a f b, fs0 = a ++ f :: b /\ n = List.length a /\ fs = a ++ b
  | Trade gs ds => t = t0 + 1 /\ id = i0 + zlen ds /\ (forall i, signal_ok (gs i)) /\ orderly w t0 gs fs0 ds /\ exists sent, nstep w t0 i0 gs fs0 ds fs sent
  end.
Proof.
  intro H. remember (ms ++ [x]) as l eqn:L. destruct H as [|ms' t id fs f P D|ms' t id a f b P|ms' t id fs gs ds fs' sent P G O N].
  - destruct ms; discriminate L.
  - apply snoc_inv in L as [-> <-]. exists t, id, fs. split; [exact P|]. split; [lia|]. auto.
  - apply snoc_inv in L as [-> <-]. exists t, id, (a ++ f :: b). split; [exact P|]. split; [lia|]. split; [reflexivity|]. split; [reflexivity|]. exists a, f, b. auto.
  - apply snoc_inv in L as [-> <-]. exists t, id, fs. split; [exact P|]. split; [lia|]. split; [reflexivity|]. split; [reflexivity|]. split; [exact G|]. split; [exact O|]. exists sent. exact N.
Qed.
Lemma plays_start w id0 t id fs : plays w id0 [] t id fs -> t = 0 /\ id = id0 /\ fs = [].
Proof. intro H. remember [] as l eqn:L. destruct H; [auto|destruct ms; discriminate L..]. Qed.
Lemma same_outcome w id0 ms : forall t id fs t' id' fs', plays w id0 ms t id fs -> plays w id0 ms t' id' fs' -> t' = t /\ id' = id /\ fs' = fs.
Proof.
  induction ms as [|x ms IH] using rev_ind; intros t id fs t' id' fs' P Q.
  - apply plays_start in P as (-> & -> & ->). apply plays_start in Q as (-> & -> & ->). auto.
  - apply plays_last in P as (t0 & i0 & fs0 & P & _ & A). apply plays_last in Q as (t1 & i1 & fs1 & Q & _ & B). destruct (IH _ _ _ _ _ _ P Q) as (-> & -> & ->). destruct x as [tx f|n|gs ds].
    + destruct A as (_ & -> & -> & _ & ->). destruct B as (_ & -> & -> & _ & ->). auto.
    + destruct A as (-> & -> & a & f & b & E & -> & ->). destruct B as (-> & -> & a' & f' & b' & E' & L & ->). rewrite E in E'. destruct (split_at _ _ _ _ _ _ E' L) as [-> ->]. auto.
    + destruct A as (-> & -> & _ & O & s & N). destruct B as (-> & -> & _ & _ & s' & N'). destruct (nstep_functional _ _ _ _ _ _ _ _ _ _ (proj1 O) N N') as [-> _]. auto.
Qed.
Lemma prefix_plays w id0 ms ms' : forall t id fs, plays w id0 (ms ++ ms') t id fs -> exists t0 i0 fs0, plays w id0 ms t0 i0 fs0 /\ t0 <= t.
Proof.
  induction ms' as [|x ms' IH] using rev_ind; intros t id fs P.
  - rewrite app_nil_r in P. exists t, id, fs. split; [exact P|lia].
  - rewrite app_assoc in P. apply plays_last in P as (t0 & i0 & fs0 & P & T & _). destruct (IH _ _ _ P) as (t1 & i1 & fs1 & Q & T1). exists t1, i1, fs1. split; [exact Q|lia].
Qed.
Lemma from_here w id0 id1 ms ms' t id fs : plays w id0 ms t id fs -> plays w id1 ms' t id fs -> forall xs t2 id2 fs2, plays w id0 (ms ++ xs) t2 id2 fs2 -> plays w id1 (ms' ++ xs) t2 id2 fs2.
Proof.
  intros P P'. induction xs as [|x xs IH] using rev_ind; intros t2 id2 fs2 Q.
  - rewrite app_nil_r in *. destruct (same_outcome _ _ _ _ _ _ _ _ _ P Q) as (-> & -> & ->). exact P'.
  - rewrite app_assoc in Q. rewrite app_assoc. apply plays_last in Q as (t0 & i0 & fs0 & Q & _ & A). specialize (IH _ _ _ Q). destruct x as [tx f|n|gs ds].
    + destruct A as (-> & -> & -> & D & ->). apply pl_deploy; assumption.
    + destruct A as (-> & -> & a & f & b & -> & -> & ->). eapply pl_retire, IH.
    + destruct A as (-> & -> & G & O & s & N). eapply pl_trade; eassumption.
Qed.
(** Every orderly exchange leads on: a scenario does not come to an end. *)
Lemma goes_on w id0 ms t id fs gs ds : world_ok w -> plays w id0 ms t id fs -> (forall i, signal_ok (gs i)) -> orderly w t gs fs ds -> exists fs', plays w id0 (ms ++ [Trade gs ds]) (t + 1) (id + zlen ds) fs'.
Proof.
  intros W P G O. destruct (reached_good w W _ _ _ (plays_reached _ _ _ _ _ _ P)) as [T A]. destruct (nstep_exists w t id gs fs ds W T G A O) as (fs' & sent & N & _). exists fs'. eapply pl_trade; eassumption.
Qed.
