(** The double-precision computations of DoubleModel.v agree with exact ones. *)
From Coq Require Import ZArith Reals Lia Lra.
From Flocq Require Import Core.Core IEEE754.BinarySingleNaN Relative.
From Verif Require Import Outcome KernelMaterial KernelResBuf ReactorModel DoubleModel.
Local Open Scope Z_scope.

Notation fe := (SpecFloat.fexp 53 1024).
Definition rnd (x : R) : R := round radix2 fe ZnearestE x.
Local Existing Instance double_prec.
Local Existing Instance double_emax.
Local Instance fe_valid : Valid_exp fe. Proof. apply fexp_correct. exact double_prec. Qed.

Lemma fmt_int n : Z.abs n < 2 ^ 53 -> generic_format radix2 fe (IZR n).
Proof.
  intro H. apply (generic_format_FLT radix2 (3 - 1024 - 53) 53 (IZR n)).
  apply (FLT_spec radix2 (3 - 1024 - 53) 53 (IZR n) (Float radix2 n 0)).
  - unfold F2R. cbn. ring.
  - cbn [Fnum]. exact H.
  - cbn. lia.
Qed.
Lemma rnd_int n : Z.abs n < 2 ^ 53 -> rnd (IZR n) = IZR n.
Proof. intro H. apply round_generic; [apply valid_rnd_N|]. apply fmt_int, H. Qed.
Lemma rnd_le x y : (x <= y)%R -> (rnd x <= rnd y)%R.
Proof. intro H. apply round_le; [exact fe_valid|apply valid_rnd_N|exact H]. Qed.
Lemma rnd_ge n x : Z.abs n < 2 ^ 53 -> (IZR n <= x)%R -> (IZR n <= rnd x)%R.
Proof. intros H L. rewrite <- (rnd_int n H). apply rnd_le, L. Qed.
Lemma rnd_below n x : Z.abs n < 2 ^ 53 -> (x <= IZR n)%R -> (rnd x <= IZR n)%R.
Proof. intros H L. rewrite <- (rnd_int n H). apply rnd_le, L. Qed.
Lemma big_fmt : generic_format radix2 fe (bpow radix2 70).
Proof. apply generic_format_bpow. vm_compute. discriminate. Qed.
Lemma rnd_big x : (Rabs x <= bpow radix2 70)%R -> (Rabs (rnd x) <= bpow radix2 70)%R.
Proof. intro H. apply abs_round_le_generic; [exact fe_valid|apply valid_rnd_N|exact big_fmt|exact H]. Qed.
Lemma no_overflow x : (Rabs x <= bpow radix2 70)%R -> Rlt_bool (Rabs (rnd x)) (bpow radix2 1024) = true.
Proof. intro H. apply Rlt_bool_true. apply Rle_lt_trans with (1 := rnd_big x H). apply bpow_lt. reflexivity. Qed.

(** A finite double with the value [r]. *)
Definition fin (x : double) (r : R) : Prop := is_finite x = true /\ B2R x = r.
Lemma fin_int n : Z.abs n < 2 ^ 53 -> fin (of_int n) (IZR n).
Proof.
  intro H. unfold of_int. pose proof (binary_normalize_correct 53 1024 _ _ mode_NE n 0 false) as C. cbv zeta in C.
  assert (E : F2R (Float radix2 n 0) = IZR n) by (unfold F2R; cbn; ring). rewrite E in C.
  change (round radix2 fe (round_mode mode_NE) (IZR n)) with (rnd (IZR n)) in C.
  rewrite rnd_int in C by exact H. rewrite Rlt_bool_true in C.
  - destruct C as (C1 & C2 & _). split; assumption.
  - rewrite <- abs_IZR. apply Rlt_trans with (IZR (2 ^ 53)); [apply IZR_lt, H|]. change (IZR (2 ^ 53)) with (IZR (radix2 ^ 53)).
    rewrite IZR_Zpower by lia. apply bpow_lt. reflexivity.
Qed.
Lemma fin_div x y a b : fin x a -> fin y b -> b <> 0%R -> (Rabs (a / b) <= bpow radix2 70)%R -> fin (ddiv x y) (rnd (a / b)).
Proof.
  intros [F1 <-] [F2 <-] N H. pose proof (Bdiv_correct 53 1024 _ _ mode_NE x y N) as C.
  change (round radix2 fe (round_mode mode_NE) (B2R x / B2R y)) with (rnd (B2R x / B2R y)) in C. rewrite no_overflow in C by exact H.
  destruct C as (C1 & C2 & _). split; [unfold ddiv; rewrite C2; exact F1|exact C1].
Qed.
Lemma fin_mult x y a b : fin x a -> fin y b -> (Rabs (a * b) <= bpow radix2 70)%R -> fin (dmult x y) (rnd (a * b)).
Proof.
  intros [F1 <-] [F2 <-] H. pose proof (Bmult_correct 53 1024 _ _ mode_NE x y) as C.
  change (round radix2 fe (round_mode mode_NE) (B2R x * B2R y)) with (rnd (B2R x * B2R y)) in C. rewrite no_overflow in C by exact H.
  destruct C as (C1 & C2 & _). split; [unfold dmult; rewrite C2, F1, F2; reflexivity|exact C1].
Qed.
Lemma fin_plus x y a b : fin x a -> fin y b -> (Rabs (a + b) <= bpow radix2 70)%R -> fin (dplus x y) (rnd (a + b)).
Proof.
  intros [F1 <-] [F2 <-] H. pose proof (Bplus_correct 53 1024 _ _ mode_NE x y F1 F2) as C.
  change (round radix2 fe (round_mode mode_NE) (B2R x + B2R y)) with (rnd (B2R x + B2R y)) in C. rewrite no_overflow in C by exact H.
  destruct C as (C1 & C2 & _). split; [exact C2|exact C1].
Qed.
Lemma fin_minus x y a b : fin x a -> fin y b -> (Rabs (a - b) <= bpow radix2 70)%R -> fin (dminus x y) (rnd (a - b)).
Proof.
  intros [F1 <-] [F2 <-] H. pose proof (Bminus_correct 53 1024 _ _ mode_NE x y F1 F2) as C.
  change (round radix2 fe (round_mode mode_NE) (B2R x - B2R y)) with (rnd (B2R x - B2R y)) in C. rewrite no_overflow in C by exact H.
  destruct C as (C1 & C2 & _). split; [exact C2|exact C1].
Qed.
Lemma round_fix f x : round radix2 (FIX_exp 0) f x = IZR (f x).
Proof. unfold round, F2R, scaled_mantissa, cexp, FIX_exp. cbn. rewrite !Rmult_1_r. reflexivity. Qed.
Lemma fin_ceil x a : fin x a -> fin (dceil x) (IZR (Zceil a)).
Proof.
  intros [F <-]. destruct (Bnearbyint_correct 53 1024 _ mode_UP x) as (C1 & C2 & _).
  split; [unfold dceil; rewrite C2; exact F|]. unfold dceil. rewrite C1, round_fix. reflexivity.
Qed.
Lemma fin_max x a : fin x a -> fin (dmax (of_int 0) x) (Rmax 0 a).
Proof.
  intros [F <-]. pose proof (fin_int 0 ltac:(reflexivity)) as [F0 E0]. unfold dmax.
  rewrite Bltb_correct by assumption. rewrite E0. unfold Rmax. destruct (Rle_dec 0 (B2R x)) as [L|L].
  - destruct (Rlt_bool_spec 0 (B2R x)) as [L'|L']; [split; auto|]. split; [exact F0|]. rewrite E0. lra.
  - destruct (Rlt_bool_spec 0 (B2R x)) as [L'|L']; [lra|]. split; assumption.
Qed.
Lemma fin_trunc x a : fin x a -> Btrunc x = Ztrunc a.
Proof. intros [F <-]. apply eq_IZR. rewrite Btrunc_correct, round_fix. reflexivity. exact double_emax. Qed.
Lemma int_ok x n : fin x (IZR n) -> - 2 ^ 31 <= n < 2 ^ 31 -> to_int x = Ok n.
Proof.
  intros F H. unfold to_int. rewrite (fin_trunc x _ F), Ztrunc_IZR, (proj1 F). cbn [andb].
  rewrite (proj2 (Z.leb_le _ _)) by lia. rewrite (proj2 (Z.ltb_lt _ _)) by lia. reflexivity.
Qed.
Lemma int_big x a : fin x a -> (IZR (2 ^ 31) <= a)%R -> to_int x = UB FloatToInt.
Proof.
  intros F H. unfold to_int. rewrite (fin_trunc x _ F). apply Ztrunc_le in H. rewrite Ztrunc_IZR in H.
  rewrite (proj2 (Z.ltb_ge _ _)) by lia. rewrite !Bool.andb_false_r. reflexivity.
Qed.

(** Rounding the quotient of two ints does not move it past an integer. *)
Lemma ceil_quotient a b : Z.abs a <= 2 ^ 32 -> 0 < Z.abs b <= 2 ^ 32 -> Zceil (rnd (IZR a / IZR b)) = Zceil (IZR a / IZR b).
Proof.
  intros A B. assert (B0 : (0 < Rabs (IZR b))%R) by (apply Rabs_pos_lt, IZR_neq; lia).
  assert (BN : IZR b <> 0%R) by (apply IZR_neq; lia).
  set (x := (IZR a / IZR b)%R). set (c := Zceil x).
  destruct (Z.eq_dec a 0) as [->|NA].
  { unfold c, x, Rdiv. rewrite Rmult_0_l. unfold rnd. rewrite round_0 by apply valid_rnd_N. reflexivity. }
  assert (XA : (Rabs x = IZR (Z.abs a) / IZR (Z.abs b))%R). { unfold x, Rdiv. rewrite Rabs_mult, Rabs_inv. rewrite <- !abs_IZR. reflexivity. }
  assert (A1 : (1 <= IZR (Z.abs a))%R) by (apply IZR_le; lia).
  assert (B1 : (1 <= IZR (Z.abs b))%R) by (apply IZR_le; lia).
  assert (AU : (IZR (Z.abs a) <= IZR (2 ^ 32))%R) by (apply IZR_le; lia).
  assert (BU : (IZR (Z.abs b) <= IZR (2 ^ 32))%R) by (apply IZR_le; lia).
  assert (XU : (Rabs x <= IZR (2 ^ 32))%R).
  { rewrite XA. apply Rmult_le_reg_r with (IZR (Z.abs b)); [lra|]. unfold Rdiv. rewrite Rmult_assoc, Rinv_l, Rmult_1_r by lra.
    apply Rle_trans with (1 := AU). rewrite <- (Rmult_1_r (IZR (2 ^ 32))) at 1. apply Rmult_le_compat_l; [apply IZR_le; lia|exact B1]. }
  assert (XL : (bpow radix2 (-32) <= Rabs x)%R).
  { rewrite XA. apply Rmult_le_reg_r with (IZR (Z.abs b)); [lra|]. unfold Rdiv. rewrite Rmult_assoc, Rinv_l, Rmult_1_r by lra.
    apply Rle_trans with (bpow radix2 (-32) * IZR (2 ^ 32))%R; [apply Rmult_le_compat_l; [apply bpow_ge_0|exact BU]|].
    change (2 ^ 32) with (Zpower radix2 32). rewrite IZR_Zpower by lia. rewrite <- bpow_plus. cbn. exact A1. }
  pose proof (Zceil_ub x) as U. fold c in U.
  assert (L : (IZR c - 1 < x)%R).
  { pose proof (Zfloor_ub (- x)) as F. unfold c, Zceil. rewrite opp_IZR. lra. }
  assert (CB : Z.abs c <= 2 ^ 33).
  { apply Z.abs_le. apply Rabs_le_inv in XU. split; apply le_IZR.
    - change (- 2 ^ 33) with (- 8589934592). change (2 ^ 32) with 4294967296 in XU. lra.
    - change (2 ^ 33) with 8589934592. change (2 ^ 32) with 4294967296 in XU. lra. }
  apply Zceil_imp. split.
  - (* the distance to the integer below is at least 1/|b|, the error less *)
    assert (E : (Rabs (rnd x - x) <= / 2 * bpow radix2 (- (53) + 1) * Rabs x)%R).
    { apply (relative_error_N_FLT radix2 (3 - 1024 - 53) 53). reflexivity. apply Rle_trans with (2 := XL). apply bpow_le. lia. }
    assert (D : (/ IZR (Z.abs b) <= x - (IZR c - 1))%R).
    { assert (G : (1 <= Rabs (IZR a - (IZR c - 1) * IZR b))%R).
      { rewrite <- minus_IZR, <- mult_IZR, <- minus_IZR, <- abs_IZR. apply IZR_le.
        assert (a - (c - 1) * b <> 0); [|lia]. intro Z0. assert (Z1 : a = (c - 1) * b) by lia.
        apply (f_equal IZR) in Z1. rewrite mult_IZR, minus_IZR in Z1.
        assert (X : x = (IZR c - 1)%R) by (unfold x; rewrite Z1; field; exact BN). lra. }
      assert (P : (x - (IZR c - 1) = Rabs (IZR a - (IZR c - 1) * IZR b) * / IZR (Z.abs b))%R).
      { rewrite abs_IZR, <- Rabs_inv. rewrite <- Rabs_mult, Rabs_pos_eq.
        - unfold x. field. exact BN.
        - replace ((IZR a - (IZR c - 1) * IZR b) * / IZR b)%R with (x - (IZR c - 1))%R by (unfold x; field; exact BN). lra. }
      rewrite P. rewrite <- (Rmult_1_l (/ IZR (Z.abs b))) at 1. apply Rmult_le_compat_r; [|exact G]. left. apply Rinv_0_lt_compat. lra. }
    assert (S : (/ 2 * bpow radix2 (- (53) + 1) * Rabs x < / IZR (Z.abs b))%R).
    { rewrite XA. unfold Rdiv. rewrite <- Rmult_assoc. rewrite <- (Rmult_1_l (/ IZR (Z.abs b))) at 2. apply Rmult_lt_compat_r; [apply Rinv_0_lt_compat; lra|].
      apply Rle_lt_trans with (/ 2 * bpow radix2 (- (53) + 1) * IZR (2 ^ 32))%R.
      - apply Rmult_le_compat_l; [|exact AU]. apply Rmult_le_pos; [lra|apply bpow_ge_0].
      - change (2 ^ 32) with (Zpower radix2 32). rewrite IZR_Zpower by lia. rewrite Rmult_assoc, <- bpow_plus. cbn. lra. }
    apply Rabs_le_inv in E. rewrite minus_IZR. lra.
  - apply rnd_below; [lia|exact U].
Qed.
Lemma ceil_div a b : b <> 0 -> Zceil (IZR a / IZR b) = - (- a / b).
Proof.
  intro N. unfold Zceil. f_equal. rewrite <- (Zfloor_div (- a) b N). f_equal. rewrite opp_IZR. field. apply IZR_neq, N.
Qed.

(** ** The order near retirement *)
Lemma sign_int n : Z.abs n < 2 ^ 53 -> n <> 0 -> exists m e H, of_int n = B754_finite (n <? 0) m e H.
Proof.
  intros H N. pose proof (fin_int n H) as [F V]. assert (S : Bsign (of_int n) = (n <? 0)).
  { unfold of_int. pose proof (binary_normalize_correct 53 1024 _ _ mode_NE n 0 false) as C. cbv zeta in C.
    assert (E : F2R (Float radix2 n 0) = IZR n) by (unfold F2R; cbn; ring). rewrite E in C.
    change (round radix2 fe (round_mode mode_NE) (IZR n)) with (rnd (IZR n)) in C.
    rewrite rnd_int in C by exact H. rewrite Rlt_bool_true in C.
    - destruct C as (_ & _ & C). unfold of_int in C. rewrite C. rewrite Rcompare_IZR. unfold Z.ltb. destruct (n ?= 0) eqn:Z; [|reflexivity|reflexivity].
      apply Z.compare_eq in Z. contradiction.
    - rewrite <- abs_IZR. apply Rlt_trans with (IZR (2 ^ 53)); [apply IZR_lt, H|]. change (IZR (2 ^ 53)) with (IZR (radix2 ^ 53)).
      rewrite IZR_Zpower by lia. apply bpow_lt. reflexivity. }
  destruct (of_int n) as [b|b| |b m e B]; try discriminate F.
  - cbn in V. symmetry in V. apply eq_IZR in V. contradiction.
  - cbn in S. subst b. eauto.
Qed.
Lemma small_int n : int32 n -> Z.abs n < 2 ^ 53.
Proof. unfold int32. lia. Qed.
Lemma bpow70 : bpow radix2 70 = IZR (2 ^ 70).
Proof. rewrite <- (IZR_Zpower radix2 70) by lia. reflexivity. Qed.
Lemma abs_big n : Z.abs n <= 2 ^ 70 -> (Rabs (IZR n) <= bpow radix2 70)%R.
Proof. intro H. rewrite bpow70, <- abs_IZR. apply IZR_le, H. Qed.

Lemma sums_exact x p f c k : fin x (IZR p) -> Z.abs p < 2 ^ 52 -> int32 f -> int32 c -> int32 k ->
  fin (dminus (dplus (dminus x (of_int f)) (of_int c)) (of_int k)) (IZR (p - f + c - k)).
Proof.
  intros X P F C K. unfold int32 in *.
  assert (fin (dminus x (of_int f)) (IZR (p - f))) as X1.
  { rewrite <- (rnd_int (p - f)) by lia. rewrite minus_IZR. apply fin_minus; [exact X|apply fin_int; lia|]. rewrite <- minus_IZR. apply abs_big. lia. }
  assert (fin (dplus (dminus x (of_int f)) (of_int c)) (IZR (p - f + c))) as X2.
  { rewrite <- (rnd_int (p - f + c)) by lia. rewrite plus_IZR. apply fin_plus; [exact X1|apply fin_int; lia|]. rewrite <- plus_IZR. apply abs_big. lia. }
  rewrite <- (rnd_int (p - f + c - k)) by lia. rewrite minus_IZR. apply fin_minus; [exact X2|apply fin_int; lia|]. rewrite <- minus_IZR. apply abs_big. lia.
Qed.
Lemma rabs_le_of a lo hi : (IZR lo <= a)%R -> (a <= IZR hi)%R -> - 2 ^ 70 <= lo -> hi <= 2 ^ 70 -> (Rabs a <= bpow radix2 70)%R.
Proof.
  intros L H A B. rewrite bpow70. apply IZR_le in A, B. rewrite opp_IZR in A. apply Rabs_le. lra.
Qed.
Lemma rnd_abs a n : (Rabs a <= IZR n)%R -> n = 2 ^ 65 \/ n = 2 ^ 66 \/ n = 2 ^ 67 \/ n = 2 ^ 68 -> (Rabs (rnd a) <= IZR n)%R.
Proof.
  intros H N. apply abs_round_le_generic; [exact fe_valid|apply valid_rnd_N| |exact H].
  destruct N as [->|[->|[->| ->]]];
    match goal with |- context [IZR (2 ^ ?e)] => change (2 ^ e) with (Zpower radix2 e); rewrite IZR_Zpower by lia; apply generic_format_bpow; vm_compute; discriminate end.
Qed.
(** With a large product all sums stay large, of the same sign. *)
Lemma sums_large x a f c k : fin x a -> (Rabs a <= IZR (2 ^ 65))%R -> int32 f -> int32 c -> int32 k ->
  exists r, fin (dminus (dplus (dminus x (of_int f)) (of_int c)) (of_int k)) r /\
    ((IZR (2 ^ 52) <= a)%R -> (IZR (2 ^ 51) <= r)%R) /\ ((a <= - IZR (2 ^ 52))%R -> (r <= - IZR (2 ^ 51))%R).
Proof.
  intros X A F C K. unfold int32 in *.
  assert (forall n, - 2 ^ 31 <= n < 2 ^ 31 -> (Rabs (IZR n) <= IZR (2 ^ 31))%R) as B. { intros n H. rewrite <- abs_IZR. apply IZR_le. lia. }
  pose proof (B f F) as Bf. pose proof (B c C) as Bc. pose proof (B k K) as Bk.
  assert (D : forall m n, m <= n -> (IZR m <= IZR n)%R) by (intros; apply IZR_le; assumption).
  set (r1 := rnd (a - IZR f)). set (r2 := rnd (r1 + IZR c)). set (r3 := rnd (r2 - IZR k)).
  assert (A1 : (Rabs (a - IZR f) <= IZR (2 ^ 66))%R).
  { apply Rle_trans with (1 := Rabs_triang _ _). rewrite Rabs_Ropp. change (2 ^ 66) with (2 ^ 65 + 2 ^ 65). rewrite plus_IZR. pose proof (D (2 ^ 31) (2 ^ 65) ltac:(lia)). lra. }
  pose proof (rnd_abs _ _ A1 ltac:(auto)) as R1. fold r1 in R1.
  assert (A2 : (Rabs (r1 + IZR c) <= IZR (2 ^ 67))%R).
  { apply Rle_trans with (1 := Rabs_triang _ _). change (2 ^ 67) with (2 ^ 66 + 2 ^ 66). rewrite plus_IZR. pose proof (D (2 ^ 31) (2 ^ 66) ltac:(lia)). lra. }
  pose proof (rnd_abs _ _ A2 ltac:(auto)) as R2. fold r2 in R2.
  assert (A3 : (Rabs (r2 - IZR k) <= IZR (2 ^ 68))%R).
  { apply Rle_trans with (1 := Rabs_triang _ _). rewrite Rabs_Ropp. change (2 ^ 68) with (2 ^ 67 + 2 ^ 67). rewrite plus_IZR. pose proof (D (2 ^ 31) (2 ^ 67) ltac:(lia)). lra. }
  assert (T : forall e, 0 <= e <= 70 -> (IZR (2 ^ e) <= bpow radix2 70)%R). { intros e E. rewrite bpow70. apply D, Z.pow_le_mono_r; lia. }
  assert (X1 : fin (dminus x (of_int f)) r1) by (apply fin_minus; [exact X|apply fin_int; lia|apply Rle_trans with (1 := A1), T; lia]).
  assert (X2 : fin (dplus (dminus x (of_int f)) (of_int c)) r2) by (apply fin_plus; [exact X1|apply fin_int; lia|apply Rle_trans with (1 := A2), T; lia]).
  exists r3. split; [apply fin_minus; [exact X2|apply fin_int; lia|apply Rle_trans with (1 := A3), T; lia]|].
  apply Rabs_le_inv in Bf, Bc, Bk. split; intro L.
  - assert (L1 : (IZR (2 ^ 52 - 2 ^ 31) <= r1)%R) by (apply rnd_ge; [lia|rewrite minus_IZR; lra]).
    assert (L2 : (IZR (2 ^ 52 - 2 ^ 31 - 2 ^ 31) <= r2)%R) by (apply rnd_ge; [lia|rewrite minus_IZR; lra]).
    assert (L3 : (IZR (2 ^ 52 - 2 ^ 31 - 2 ^ 31 - 2 ^ 31) <= r3)%R) by (apply rnd_ge; [lia|rewrite minus_IZR; lra]).
    apply Rle_trans with (2 := L3). apply D. lia.
  - rewrite <- opp_IZR in *.
    assert (L1 : (r1 <= IZR (- 2 ^ 52 + 2 ^ 31))%R) by (apply rnd_below; [lia|rewrite plus_IZR, opp_IZR in *; lra]).
    assert (L2 : (r2 <= IZR (- 2 ^ 52 + 2 ^ 31 + 2 ^ 31))%R) by (apply rnd_below; [lia|rewrite (plus_IZR (_ + _)); lra]).
    assert (L3 : (r3 <= IZR (- 2 ^ 52 + 2 ^ 31 + 2 ^ 31 + 2 ^ 31))%R) by (apply rnd_below; [lia|rewrite (plus_IZR (_ + _ + _)), opp_IZR in *; lra]).
    apply Rle_trans with (1 := L3). apply D. lia.
Qed.

Lemma need_nonzero num den b f c k : int32 num -> int32 den -> den <> 0 -> int32 b -> int32 f -> int32 c -> int32 k ->
  to_int (dmax (of_int 0) (dminus (dplus (dminus (dmult (dceil (ddiv (of_int num) (of_int den))) (of_int b)) (of_int f)) (of_int c)) (of_int k))) =
  (let z := Z.max 0 (- ((- num) / den) * b - f + c - k) in if z <? 2 ^ 31 then Ok z else UB FloatToInt).
Proof.
  intros N D D0 B F C K. rewrite <- (ceil_div num den D0). set (q := Zceil (IZR num / IZR den)).
  assert (Q : fin (dceil (ddiv (of_int num) (of_int den))) (IZR q)).
  { unfold q. rewrite <- ceil_quotient by (unfold int32 in *; lia). apply fin_ceil. apply fin_div.
    - apply fin_int, small_int, N.
    - apply fin_int, small_int, D.
    - apply IZR_neq, D0.
    - unfold Rdiv. rewrite Rabs_mult, Rabs_inv, <- !abs_IZR. rewrite bpow70.
      assert (1 <= IZR (Z.abs den))%R as D1 by (apply IZR_le; lia). assert (IZR (Z.abs num) <= IZR (2 ^ 70))%R as N1 by (apply IZR_le; unfold int32 in *; lia).
      assert (0 <= IZR (Z.abs num))%R as N2 by (apply IZR_le; lia).
      apply Rle_trans with (2 := N1). rewrite <- (Rmult_1_r (IZR (Z.abs num))) at 2. apply Rmult_le_compat_l; [exact N2|].
      rewrite <- Rinv_1. apply Rinv_le; lra. }
  assert (QB : Z.abs q <= 2 ^ 31).
  { unfold q. rewrite (ceil_div num den D0). unfold int32 in *. rewrite Z.abs_opp.
    pose proof (Z.div_mod (- num) den D0) as DM.
    assert (Z.abs ((- num) / den) <= Z.abs (- num)); [|lia]. clear -D0.
    generalize (- num). intro n. destruct (Z.eq_dec n 0) as [->|N0]; [rewrite Z.div_0_l by exact D0; lia|].
    pose proof (Z.div_mod n den D0). destruct (Z_lt_ge_dec den 0) as [S|S].
    - pose proof (Z.mod_neg_bound n den S). nia.
    - pose proof (Z.mod_pos_bound n den ltac:(lia)). nia. }
  assert (PB : Z.abs (q * b) <= 2 ^ 62). { rewrite Z.abs_mul. unfold int32 in B. change (2 ^ 62) with (2 ^ 31 * 2 ^ 31). apply Z.mul_le_mono_nonneg; lia. }
  assert (P : fin (dmult (dceil (ddiv (of_int num) (of_int den))) (of_int b)) (rnd (IZR (q * b)))).
  { rewrite mult_IZR. apply fin_mult; [exact Q|apply fin_int, small_int, B|]. rewrite <- mult_IZR. apply abs_big. lia. }
  set (z0 := q * b - f + c - k).
  destruct (Z_lt_ge_dec (Z.abs (q * b)) (2 ^ 52)) as [S|S].
  - rewrite rnd_int in P by lia. pose proof (sums_exact _ _ f c k P S F C K) as X. fold z0 in X.
    apply fin_max in X. replace (Rmax 0 (IZR z0)) with (IZR (Z.max 0 z0)) in X.
    2:{ unfold Rmax. destruct (Rle_dec 0 (IZR z0)) as [L|L].
        - apply le_IZR in L. rewrite Z.max_r by exact L. reflexivity.
        - rewrite Z.max_l; [reflexivity|]. apply Z.nle_gt in L || idtac. destruct (Z_le_gt_dec z0 0); [assumption|]. exfalso. apply L. apply IZR_le. lia. }
    cbv zeta. destruct (Z.ltb_spec (Z.max 0 z0) (2 ^ 31)) as [Z1|Z1].
    + apply int_ok; [exact X|lia].
    + apply int_big with (1 := X). apply IZR_le, Z1.
  - assert (PR : (Rabs (rnd (IZR (q * b))) <= IZR (2 ^ 65))%R).
    { apply rnd_abs; [|auto]. rewrite <- abs_IZR. apply IZR_le. lia. }
    destruct (sums_large _ _ f c k P PR F C K) as (r & X & U & L). apply fin_max in X.
    assert (PW : rnd (IZR (2 ^ 52)) = IZR (2 ^ 52)) by (apply rnd_int; reflexivity).
    assert (MW : rnd (IZR (- 2 ^ 52)) = IZR (- 2 ^ 52)) by (apply rnd_int; reflexivity).
    cbv zeta. unfold int32 in *. destruct (Z_lt_ge_dec (q * b) 0) as [S0|S0].
    + assert (q * b <= - 2 ^ 52) as S1 by lia. apply IZR_le in S1. apply rnd_le in S1. rewrite MW, opp_IZR in S1.
      specialize (L S1). rewrite Z.max_l by (unfold z0; lia). cbn [Z.ltb Z.compare].
      change (0 <? 2 ^ 31) with true. cbv iota. apply int_ok; [|lia].
      rewrite Rmax_left in X; [exact X|]. apply Rle_trans with (1 := L). pose proof (IZR_le 0 (2 ^ 51) ltac:(lia)). lra.
    + assert (2 ^ 52 <= q * b) as S1 by lia. apply IZR_le in S1. apply rnd_le in S1. rewrite PW in S1.
      specialize (U S1). rewrite (proj2 (Z.ltb_ge _ _)) by (unfold z0; lia). apply int_big with (1 := X).
      apply Rle_trans with (2 := Rmax_r _ _). apply Rle_trans with (2 := U). apply IZR_le. lia.
Qed.
Lemma need_zero num b f c k : int32 num -> int32 b -> int32 f -> int32 c -> int32 k ->
  to_int (dmax (of_int 0) (dminus (dplus (dminus (dmult (dceil (ddiv (of_int num) (of_int 0))) (of_int b)) (of_int f)) (of_int c)) (of_int k))) =
  if 0 <? num * b then UB FloatToInt else Ok 0.
Proof.
  intros N B F C K.
  assert (Z0 : of_int 0 = B754_zero false) by reflexivity.
  destruct (fin_int f (small_int f F)) as [FF _]. destruct (fin_int c (small_int c C)) as [FC _]. destruct (fin_int k (small_int k K)) as [FK _].
  assert (NAN : forall x, is_nan x = true -> to_int (dmax (of_int 0) (dminus (dplus (dminus x (of_int f)) (of_int c)) (of_int k))) = Ok 0).
  { intros [s|s| |s m e H] X; try discriminate X. rewrite Z0. reflexivity. }
  assert (INF : forall s, to_int (dmax (of_int 0) (dminus (dplus (dminus (B754_infinity s) (of_int f)) (of_int c)) (of_int k))) = if s then Ok 0 else UB FloatToInt).
  { intro s. rewrite Z0. destruct (of_int f); try discriminate FF; destruct (of_int c); try discriminate FC; destruct (of_int k); try discriminate FK; destruct s; reflexivity. }
  destruct (Z.eq_dec num 0) as [->|N0].
  { rewrite Z.mul_0_l. cbn [Z.ltb Z.compare]. apply NAN. rewrite Z0. cbn. reflexivity. }
  destruct (sign_int num (small_int num N) N0) as (m & e & H & ->). rewrite Z0 at 2.
  change (dceil (ddiv (B754_finite (num <? 0) m e H) (B754_zero false))) with (B754_infinity (prec := 53) (emax := 1024) (xorb (num <? 0) false)).
  destruct (Z.eq_dec b 0) as [->|B0].
  { rewrite Z.mul_0_r. cbn [Z.ltb Z.compare]. apply NAN. rewrite Z0. reflexivity. }
  destruct (sign_int b (small_int b B) B0) as (m' & e' & H' & ->).
  change (dmult (B754_infinity (xorb (num <? 0) false)) (B754_finite (b <? 0) m' e' H')) with (B754_infinity (prec := 53) (emax := 1024) (xorb (xorb (num <? 0) false) (b <? 0))).
  rewrite INF. destruct (Z.ltb_spec num 0), (Z.ltb_spec b 0), (Z.ltb_spec 0 (num * b)); cbn; try reflexivity; exfalso; nia.
Qed.
Theorem need_final cfg t s : int32 (exit_t cfg - t + 1 - (cycle_t cfg + refuel_t cfg - cyc s)) -> int32 (cycle_t cfg + refuel_t cfg) ->
  int32 (n_batch cfg) -> int32 (n_fresh cfg) -> int32 (n_core cfg) -> int32 (rb_count (core s)) ->
  n_need_double cfg t s = let* z := n_need cfg t s in if z <? 2 ^ 31 then Ok z else UB FloatToInt.
Proof.
  intros N D B F C K. unfold n_need_double, n_need. cbv zeta. destruct (Z.eqb_spec (cycle_t cfg + refuel_t cfg) 0) as [E|E].
  - rewrite E at 2. rewrite need_zero by assumption. destruct (0 <? _); reflexivity.
  - rewrite need_nonzero by assumption. reflexivity.
Qed.
Theorem last_final cfg : int32 (n_core cfg) ->
  last_transmutation_double cfg = Ok (if decom_all cfg then n_core cfg else half_up (n_core cfg)).
Proof.
  intro C. unfold last_transmutation_double. pose proof (fin_int _ (small_int _ C)) as F. destruct (decom_all cfg).
  - apply int_ok; [|exact C]. replace (IZR (n_core cfg)) with (IZR (Zceil (IZR (n_core cfg)))) by (rewrite Zceil_IZR; reflexivity). apply fin_ceil, F.
  - unfold half_up. rewrite <- (ceil_div (n_core cfg) 2 ltac:(discriminate)). rewrite <- ceil_quotient by (unfold int32 in C; lia).
    apply int_ok.
    + apply fin_ceil. apply fin_div; [exact F|apply fin_int; reflexivity|apply IZR_neq; discriminate|].
      unfold Rdiv. rewrite Rabs_mult, (Rabs_pos_eq (/ 2)) by lra. pose proof (abs_big (n_core cfg) ltac:(unfold int32 in C; lia)). pose proof (Rabs_pos (IZR (n_core cfg))). lra.
    + rewrite ceil_quotient by (unfold int32 in C; lia). rewrite ceil_div by discriminate. unfold int32 in C.
      pose proof (Z.div_mod (- n_core cfg) 2 ltac:(discriminate)). pose proof (Z.mod_pos_bound (- n_core cfg) 2 ltac:(lia)). lia.
Qed.
Theorem requests_final recipe cfg t s : int32 (exit_t cfg - t + 1 - (cycle_t cfg + refuel_t cfg - cyc s)) -> int32 (cycle_t cfg + refuel_t cfg) ->
  int32 (n_batch cfg) -> int32 (n_fresh cfg) -> int32 (n_core cfg) -> int32 (rb_count (core s)) ->
  (forall z, n_need cfg t s = Ok z -> int32 z) -> get_requests_double recipe cfg t s = get_requests recipe cfg t s.
Proof.
  intros N D B F C K Z. unfold get_requests_double, get_requests. rewrite need_final by assumption.
  destruct (n_need cfg t s) as [z| | |] eqn:E; cbn [bind]; try reflexivity. rewrite (proj2 (Z.ltb_lt _ _)) by (apply (Z z eq_refl)). reflexivity.
Qed.
Lemma ceil_unique n d c : 0 < d -> d * (c - 1) < n <= d * c -> - (- n / d) = c.
Proof. intros P H. enough (E : - c = - n / d) by (rewrite <- E; ring). apply (Z.div_unique_pos (- n) d (- c) (d * c - n)); [lia|ring]. Qed.
Theorem cycles_final cfg t s c : int32 (exit_t cfg - t + 1 - (cycle_t cfg + refuel_t cfg - cyc s)) -> int32 (cycle_t cfg + refuel_t cfg) ->
  int32 (n_batch cfg) -> int32 (n_fresh cfg) -> int32 (n_core cfg) -> int32 (rb_count (core s)) -> 0 < cycle_t cfg + refuel_t cfg ->
  (cycle_t cfg + refuel_t cfg) * (c - 1) < exit_t cfg - t + 1 - (cycle_t cfg + refuel_t cfg - cyc s) <= (cycle_t cfg + refuel_t cfg) * c ->
  n_need_double cfg t s =
    (let z := Z.max 0 (c * n_batch cfg - n_fresh cfg + n_core cfg - rb_count (core s)) in if z <? 2 ^ 31 then Ok z else UB FloatToInt).
Proof.
  intros N D B F C K P H. unfold n_need_double. cbv zeta. rewrite need_nonzero by (assumption || lia). cbv zeta.
  replace (- (- (exit_t cfg - t + 1 - (cycle_t cfg + refuel_t cfg - cyc s)) / (cycle_t cfg + refuel_t cfg))) with c; [reflexivity|].
  symmetry. apply ceil_unique; assumption.
Qed.
