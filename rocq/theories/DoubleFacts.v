(** Facts on binary64 numbers, used by the double-precision theorems of the
    facilities. *)
From Coq Require Import ZArith Reals Lia Lra.
From Flocq Require Import Core.Core IEEE754.BinarySingleNaN Relative Plus_error.
From Verif Require Import Outcome DoubleModel DoubleProofs.
Local Open Scope R_scope.
Local Existing Instance double_prec.
Local Existing Instance double_emax.
Local Existing Instance fe_valid.
Local Instance fe_flt : Valid_exp (FLT_exp (3 - 1024 - 53) 53).
Proof. exact fe_valid. Qed.

Notation pw := (bpow radix2).
Notation fmt := (generic_format radix2 fe).
Lemma fmt_double (x : double) : fmt (B2R x). Proof. apply generic_format_B2R. Qed.
Lemma fmt_pw e : (-1074 <= e)%Z -> fmt (pw e).
Proof. intro H. apply generic_format_bpow. unfold SpecFloat.fexp, SpecFloat.emin. lia. Qed.
Lemma rnd_id x : fmt x -> rnd x = x.
Proof. intro H. apply round_generic; [apply valid_rnd_N|exact H]. Qed.
Lemma fmt_rnd x : fmt (rnd x).
Proof. apply generic_format_round; [exact fe_valid|apply valid_rnd_N]. Qed.
Lemma rnd_0 : rnd 0 = 0. Proof. apply round_0, valid_rnd_N. Qed.
Lemma fmt_1 : fmt 1. Proof. change 1 with (pw 0). apply fmt_pw. lia. Qed.
Lemma rnd_1 : rnd 1 = 1. Proof. apply rnd_id, fmt_1. Qed.
Lemma rnd_nonneg x : 0 <= x -> 0 <= rnd x.
Proof. intro H. rewrite <- rnd_0. apply rnd_le, H. Qed.
Lemma rnd_le_fmt x y : fmt y -> x <= y -> rnd x <= y.
Proof. intros F H. rewrite <- (rnd_id y F). apply rnd_le, H. Qed.
Lemma rnd_ge_fmt x y : fmt y -> y <= x -> y <= rnd x.
Proof. intros F H. rewrite <- (rnd_id y F). apply rnd_le, H. Qed.
Lemma rnd_opp x : rnd (- x) = - rnd x.
Proof. apply round_NE_opp. Qed.
Lemma rnd_abs_le x e : (-1074 <= e)%Z -> Rabs x <= pw e -> Rabs (rnd x) <= pw e.
Proof. intros E H. apply abs_round_le_generic; [exact fe_valid|apply valid_rnd_N|apply fmt_pw, E|exact H]. Qed.
Lemma below_max x : Rabs x <= pw 1023 -> Rlt_bool (Rabs (rnd x)) (pw 1024) = true.
Proof. intro H. apply Rlt_bool_true. apply Rle_lt_trans with (pw 1023); [apply rnd_abs_le; [lia|exact H]|apply bpow_lt; reflexivity]. Qed.

(** ** Operations without overflow *)
Lemma f_div x y : is_finite x = true -> B2R y <> 0 -> Rabs (B2R x / B2R y) <= pw 1023 -> fin (ddiv x y) (rnd (B2R x / B2R y)).
Proof.
  intros F N H. pose proof (Bdiv_correct 53 1024 _ _ mode_NE x y N) as C.
  change (round radix2 fe (round_mode mode_NE) (B2R x / B2R y)) with (rnd (B2R x / B2R y)) in C. rewrite below_max in C by exact H.
  destruct C as (C1 & C2 & _). split; [unfold ddiv; rewrite C2; exact F|exact C1].
Qed.
Lemma f_mult x y : is_finite x = true -> is_finite y = true -> Rabs (B2R x * B2R y) <= pw 1023 -> fin (dmult x y) (rnd (B2R x * B2R y)).
Proof.
  intros F1 F2 H. pose proof (Bmult_correct 53 1024 _ _ mode_NE x y) as C.
  change (round radix2 fe (round_mode mode_NE) (B2R x * B2R y)) with (rnd (B2R x * B2R y)) in C. rewrite below_max in C by exact H.
  destruct C as (C1 & C2 & _). split; [unfold dmult; rewrite C2, F1, F2; reflexivity|exact C1].
Qed.
Lemma f_plus x y : is_finite x = true -> is_finite y = true -> Rabs (B2R x + B2R y) <= pw 1023 -> fin (dplus x y) (rnd (B2R x + B2R y)).
Proof.
  intros F1 F2 H. pose proof (Bplus_correct 53 1024 _ _ mode_NE x y F1 F2) as C.
  change (round radix2 fe (round_mode mode_NE) (B2R x + B2R y)) with (rnd (B2R x + B2R y)) in C. rewrite below_max in C by exact H.
  destruct C as (C1 & C2 & _). split; [exact C2|exact C1].
Qed.
Lemma f_minus x y : is_finite x = true -> is_finite y = true -> Rabs (B2R x - B2R y) <= pw 1023 -> fin (dminus x y) (rnd (B2R x - B2R y)).
Proof.
  intros F1 F2 H. pose proof (Bminus_correct 53 1024 _ _ mode_NE x y F1 F2) as C.
  change (round radix2 fe (round_mode mode_NE) (B2R x - B2R y)) with (rnd (B2R x - B2R y)) in C. rewrite below_max in C by exact H.
  destruct C as (C1 & C2 & _). split; [exact C2|exact C1].
Qed.
Lemma f_abs x : is_finite x = true -> fin (Babs x) (Rabs (B2R x)).
Proof. intro F. split; [rewrite is_finite_Babs; exact F|apply B2R_Babs]. Qed.
Lemma f_int n : (Z.abs n < 2 ^ 53)%Z -> fin (of_int n) (IZR n).
Proof. apply fin_int. Qed.

(** ** Rounding errors *)
(** u = 2 ^ -53 *)
Notation u := (pw (-53)).
(** The difference (sum) of two doubles is never rounded to zero, and its relative error is at most [u]. *)
Lemma diff_nonzero x y : fmt x -> fmt y -> x <> y -> rnd (x - y) <> 0.
Proof.
  intros X Y N. unfold Rminus. apply (round_plus_neq_0 radix2 (FLT_exp (3 - 1024 - 53) 53) ZnearestE x (- y)).
  - exact X.
  - apply generic_format_opp, Y.
  - intro E. apply N. lra.
Qed.
Lemma rel_normal x : pw (-1022) <= Rabs x -> Rabs (rnd x - x) <= u * Rabs x.
Proof.
  intro H. pose proof (relative_error_N_FLT radix2 (3 - 1024 - 53) 53 ltac:(reflexivity) (fun z => negb (Z.even z)) x H) as E.
  replace u with (/ 2 * pw (- (53) + 1)); [exact E|]. change (/ 2) with (pw (-1)). rewrite <- bpow_plus. reflexivity.
Qed.
Lemma rel_sum x y : fmt x -> fmt y -> Rabs (rnd (x + y) - (x + y)) <= u * Rabs (x + y).
Proof.
  intros X Y. destruct (Rle_or_lt (pw (-1022)) (Rabs (x + y))) as [H|H]; [apply rel_normal, H|].
  rewrite rnd_id.
  - rewrite Rminus_diag_eq by reflexivity. rewrite Rabs_R0. apply Rmult_le_pos; [apply bpow_ge_0|apply Rabs_pos].
  - apply (FLT_format_plus_small radix2 (3 - 1024 - 53) 53 x y X Y). apply Rlt_le, (Rlt_le_trans _ _ _ H). apply bpow_le. lia.
Qed.
Lemma rel_diff x y : fmt x -> fmt y -> Rabs (rnd (x - y) - (x - y)) <= u * Rabs (x - y).
Proof. intros X Y. apply (rel_sum x (- y) X). apply generic_format_opp, Y. Qed.
(** Any rounding: relative error [u] plus at most the smallest number. *)
Lemma rel_any x : Rabs (rnd x - x) <= u * Rabs x + pw (-1074).
Proof.
  destruct (Rle_or_lt (pw (-1022)) (Rabs x)) as [H|H].
  - pose proof (rel_normal x H). pose proof (bpow_ge_0 radix2 (-1074)). lra.
  - pose proof (error_le_half_ulp radix2 fe (fun z => negb (Z.even z)) x) as E. fold (rnd x) in E.
    assert (U : ulp radix2 fe x = pw (-1074)).
    { change fe with (FLT_exp (-1074) 53). apply ulp_FLT_small; [reflexivity|]. apply Rlt_le_trans with (1 := H). apply bpow_le. lia. }
    change (round radix2 fe (Znearest (fun z => negb (Z.even z))) x) with (rnd x) in E.
    rewrite U in E. pose proof (bpow_ge_0 radix2 (-1074)).
    assert (0 <= u * Rabs x) by (apply Rmult_le_pos; [apply bpow_ge_0|apply Rabs_pos]). lra.
Qed.
(** Absolute error below one. *)
Lemma abs_unit x : Rabs x <= 1 -> Rabs (rnd x - x) <= pw (-54).
Proof.
  intro H. pose proof (error_le_half_ulp radix2 fe (fun z => negb (Z.even z)) x) as E.
  change (round radix2 fe (Znearest (fun z => negb (Z.even z))) x) with (rnd x) in E.
  destruct (Rle_lt_or_eq_dec _ _ H) as [L|L].
  - apply Rle_trans with (1 := E). replace (pw (-54)) with (/ 2 * pw (-53)).
    + apply Rmult_le_compat_l; [lra|]. destruct (Req_dec x 0) as [->|N].
      * change fe with (FLT_exp (-1074) 53). rewrite ulp_FLT_small; [apply bpow_le; lia|reflexivity|rewrite Rabs_R0; apply bpow_gt_0].
      * rewrite ulp_neq_0 by exact N. apply bpow_le. unfold cexp, SpecFloat.fexp, SpecFloat.emin.
        assert (mag radix2 x <= 0)%Z; [|lia]. apply mag_le_bpow; [exact N|]. cbn. exact L.
    + change (/ 2) with (pw (-1)). rewrite <- bpow_plus. reflexivity.
  - assert (F : fmt x).
    { destruct (Rcase_abs x) as [G|G]; [rewrite Rabs_left in L by exact G|rewrite Rabs_right in L by exact G].
      - replace x with (- (1)) by lra. apply generic_format_opp, fmt_1.
      - rewrite L. apply fmt_1. }
    rewrite rnd_id by exact F. rewrite Rminus_diag_eq by reflexivity. rewrite Rabs_R0. apply bpow_ge_0.
Qed.
