(** Exact and double-precision arithmetic agree on multiples of a power of two (C124). *)
From Coq Require Import ZArith Reals QArith Qreals List Lia Lqa Lra.
From Flocq Require Import Core.Core IEEE754.BinarySingleNaN.
From Verif Require Import Outcome DoubleModel DoubleProofs DoubleFacts MixerDoubleModel StorageDoubleSpec StorageDoubleProofs SourceDoubleProofs SinkDoubleProofs RefineSpec.
From Verif Require KernelFacts.
Import ListNotations.
Local Open Scope R_scope.

Lemma sf_eq x a b : stands_for x a -> (a == b)%Q -> stands_for x b.
Proof. intros [F V] E. split; [exact F|]. rewrite V. apply Qeq_eqR, E. Qed.
Lemma mo_eq e a b : multiple_of e a -> (a == b)%Q -> multiple_of e b.
Proof. intros [k K] E. exists k. rewrite <- K. symmetry. apply Qeq_eqR, E. Qed.
Lemma mo_plus e a b : multiple_of e a -> multiple_of e b -> multiple_of e (a + b).
Proof. intros [k K] [j J]. exists (k + j)%Z. rewrite Q2R_plus, K, J, plus_IZR. ring. Qed.
Lemma mo_minus e a b : multiple_of e a -> multiple_of e b -> multiple_of e (a - b).
Proof. intros [k K] [j J]. exists (k - j)%Z. unfold Qminus. rewrite Q2R_plus, Q2R_opp, K, J, minus_IZR. ring. Qed.
Lemma mo_zero e : multiple_of e 0.
Proof. exists 0%Z. unfold Q2R. cbn. ring. Qed.
Lemma q2r_minus a b : Q2R (a - b) = Q2R a - Q2R b.
Proof. unfold Qminus. rewrite Q2R_plus, Q2R_opp. ring. Qed.
Lemma zero_val : Q2R 0 = 0. Proof. unfold Q2R. cbn. ring. Qed.
Lemma sf_zero : stands_for (of_int 0) 0.
Proof. destruct fin_zero as [F V]. split; [exact F|]. rewrite V, zero_val. reflexivity. Qed.
Lemma grid_fmt e q : (-1074 <= e)%Z -> multiple_of e q -> Rabs (Q2R q) <= pw (e + 53) -> fmt (Q2R q).
Proof.
  intros E [k K] B. rewrite K in *. apply multiple_fmt; [exact E|]. rewrite Rabs_mult, (Rabs_pos_eq (pw e)), (Z.add_comm e 53), bpow_plus in B by apply bpow_ge_0.
  apply Rmult_le_reg_r in B; [|apply bpow_gt_0]. rewrite <- abs_IZR in B. change (pw 53) with (IZR (2 ^ 53)) in B. apply le_IZR in B. exact B.
Qed.
Lemma sf_plus e x y a b : (-1074 <= e <= 900)%Z -> stands_for x a -> stands_for y b -> multiple_of e a -> multiple_of e b -> Rabs (Q2R a + Q2R b) <= pw (e + 53) ->
  stands_for (dplus x y) (a + b).
Proof.
  intros E [Fx Vx] [Fy Vy] Ma Mb B. assert (pw (e + 53) <= pw 1023) by (apply bpow_le; lia). destruct (f_plus x y Fx Fy) as [F V]; [rewrite Vx, Vy; lra|].
  split; [exact F|]. rewrite V, Vx, Vy, <- Q2R_plus. apply rnd_id, (grid_fmt e); [lia|apply mo_plus; auto|rewrite Q2R_plus; exact B].
Qed.
Lemma sf_minus e x y a b : (-1074 <= e <= 900)%Z -> stands_for x a -> stands_for y b -> multiple_of e a -> multiple_of e b -> Rabs (Q2R a - Q2R b) <= pw (e + 53) ->
  stands_for (dminus x y) (a - b).
Proof.
  intros E [Fx Vx] [Fy Vy] Ma Mb B. assert (pw (e + 53) <= pw 1023) by (apply bpow_le; lia). destruct (f_minus x y Fx Fy) as [F V]; [rewrite Vx, Vy; lra|].
  split; [exact F|]. rewrite V, Vx, Vy, <- q2r_minus. apply rnd_id, (grid_fmt e); [lia|apply mo_minus; auto|rewrite q2r_minus; exact B].
Qed.
Lemma sf_ltb x y a b : stands_for x a -> stands_for y b -> Bltb x y = Qltb a b.
Proof.
  intros [Fx Vx] [Fy Vy]. destruct (ltb_val x y Fx Fy) as [T F]. rewrite Vx, Vy in T, F. destruct (Qltb a b) eqn:E.
  - apply T. apply KernelFacts.Qltb_true in E. apply Qlt_Rlt, E.
  - apply F. apply KernelFacts.Qltb_false in E. apply Qle_Rle, E.
Qed.
Lemma sf_leb x y a b : stands_for x a -> stands_for y b -> Bleb x y = Qle_bool a b.
Proof.
  intros [Fx Vx] [Fy Vy]. destruct (leb_val x y Fx Fy) as [T F]. rewrite Vx, Vy in T, F. destruct (Qle_bool a b) eqn:E.
  - apply T, Qle_Rle. apply Qle_bool_iff, E.
  - apply F. apply Qlt_Rlt. apply Qnot_le_lt. intro L. apply Qle_bool_iff in L. congruence.
Qed.
Lemma sf_min x y a b : stands_for x a -> stands_for y b -> stands_for (dmin x y) (Qmin a b).
Proof.
  intros X Y. unfold dmin. rewrite (sf_ltb _ _ _ _ Y X). destruct (Qltb b a) eqn:E.
  - apply KernelFacts.Qltb_true in E. apply (sf_eq y b); [exact Y|]. symmetry. apply Q.min_r. apply Qlt_le_weak, E.
  - apply KernelFacts.Qltb_false in E. apply (sf_eq x a); [exact X|]. symmetry. apply Q.min_l, E.
Qed.
Lemma sf_max x y a b : stands_for x a -> stands_for y b -> stands_for (dmax x y) (Qmax a b).
Proof.
  intros X Y. unfold dmax. rewrite (sf_ltb _ _ _ _ X Y). destruct (Qltb a b) eqn:E.
  - apply KernelFacts.Qltb_true in E. apply (sf_eq y b); [exact Y|]. symmetry. apply Q.max_r. apply Qlt_le_weak, E.
  - apply KernelFacts.Qltb_false in E. apply (sf_eq x a); [exact X|]. symmetry. apply Q.max_l, E.
Qed.
Lemma sf_eqb x y a b : stands_for x a -> stands_for y b -> Beqb x y = Qeq_bool a b.
Proof.
  intros [Fx Vx] [Fy Vy]. rewrite (Beqb_correct _ _ x y Fx Fy), Vx, Vy. destruct (Qeq_bool a b) eqn:E.
  - apply Qeq_bool_iff in E. apply Req_bool_true, Qeq_eqR, E.
  - apply Req_bool_false. intro X. apply eqR_Qeq, Qeq_bool_iff in X. congruence.
Qed.
Lemma mo_min e a b : multiple_of e a -> multiple_of e b -> multiple_of e (Qmin a b).
Proof. intros A B. destruct (Q.min_dec a b) as [H|H]; eapply mo_eq; try (symmetry; exact H); auto. Qed.
Lemma mo_max e a b : multiple_of e a -> multiple_of e b -> multiple_of e (Qmax a b).
Proof. intros A B. destruct (Q.max_dec a b) as [H|H]; eapply mo_eq; try (symmetry; exact H); auto. Qed.
Lemma pa_diff e a b : plain_amount e a -> plain_amount e b -> Rabs (Q2R a - Q2R b) <= pw (e + 53).
Proof. intros [_ A] [_ B]. apply Rabs_le. lra. Qed.
Lemma agree_bind {A B A' B'} (R : A -> B -> Prop) (S : A' -> B' -> Prop) (a : outcome A) (b : outcome B) f g :
  agree R a b -> (forall x y, R x y -> agree S (f x) (g y)) -> agree S (bind a f) (bind b g).
Proof. intros H K. destruct a, b; cbn in *; try contradiction; auto. Qed.
Lemma q2r_int k : Q2R (inject_Z k) = IZR k.
Proof. unfold Q2R, inject_Z. cbn [Qnum Qden]. change (IZR (Zpos 1)) with 1. field. Qed.
Lemma sf_int k : (Z.abs k < 2 ^ 53)%Z -> stands_for (of_int k) (inject_Z k).
Proof. intro K. destruct (f_int k K) as [F V]. split; [exact F|]. rewrite V, q2r_int. reflexivity. Qed.
Lemma mo_int k : multiple_of 0 (inject_Z k).
Proof. exists k. rewrite q2r_int. change (bpow radix2 0) with 1. ring. Qed.
Lemma la_int k : (Z.abs k < 2 ^ 53)%Z -> like_amount 0 (inject_Z k) (of_int k).
Proof. intro K. split; [apply sf_int, K|apply mo_int]. Qed.
Lemma pa_int k : (0 <= k <= 2 ^ 53)%Z -> plain_amount 0 (inject_Z k).
Proof. intros [A B]. split; [apply mo_int|]. rewrite q2r_int. change (bpow radix2 (0 + 53)) with (IZR (2 ^ 53)). split; apply IZR_le; lia. Qed.
