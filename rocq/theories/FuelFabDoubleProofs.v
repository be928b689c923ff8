(** Proofs about the mixing fractions of FuelFab in double precision. *)
From Coq Require Import ZArith Reals Lia Lra.
From Flocq Require Import Core.Core IEEE754.BinarySingleNaN.
From Verif Require Import Outcome DoubleModel DoubleProofs DoubleFacts DoubleSpec FuelFabDoubleModel.
Local Open Scope R_scope.

Lemma one_fin : fin (of_int 1) 1. Proof. apply (f_int 1). reflexivity. Qed.
Lemma zero_fin : fin (of_int 0) 0. Proof. apply (f_int 0). reflexivity. Qed.
Lemma valid_iff a b c : is_finite a = true -> is_finite b = true -> is_finite c = true ->
  (valid_weights_d a b c = true <-> B2R a <= B2R b <= B2R c).
Proof.
  intros A B C. unfold valid_weights_d. rewrite Bool.andb_true_iff, !Bleb_correct by assumption.
  split; intros [X Y].
  - split; [destruct (Rle_bool_spec (B2R a) (B2R b))|destruct (Rle_bool_spec (B2R b) (B2R c))]; auto; discriminate.
  - split; apply Rle_bool_true; assumption.
Qed.
Lemma abs_between x a b : - b <= a -> Rabs x <= a -> a <= b -> Rabs x <= b. Proof. intros. lra. Qed.
Lemma diff_small a b : Rabs a <= pw 1022 -> Rabs b <= pw 1022 -> Rabs (a - b) <= pw 1023.
Proof.
  intros A B. replace (pw 1023) with (pw 1022 + pw 1022).
  - unfold Rminus. apply Rle_trans with (1 := Rabs_triang _ _). rewrite Rabs_Ropp. lra.
  - replace (pw 1023) with (2 * pw 1022); [ring|]. change 2 with (pw 1). rewrite <- bpow_plus. reflexivity.
Qed.
(** The quotient before it is compared with [eps]. *)
Definition quot (a b c : double) : double := Babs (ddiv (dminus b a) (dminus c a)).
Definition exact_quot (a b c : double) : R := rnd (rnd (B2R b - B2R a) / rnd (B2R c - B2R a)).
Notation good := weight.
Lemma quot_bounds a b c : good a -> good b -> good c -> B2R a <= B2R b <= B2R c -> B2R a < B2R c ->
  0 <= rnd (B2R b - B2R a) <= rnd (B2R c - B2R a) /\ 0 < rnd (B2R c - B2R a) /\
  0 <= rnd (B2R b - B2R a) / rnd (B2R c - B2R a) <= 1.
Proof.
  intros A B C V L. assert (0 <= rnd (B2R b - B2R a)) as P1 by (apply rnd_nonneg; lra).
  assert (rnd (B2R b - B2R a) <= rnd (B2R c - B2R a)) as P2 by (apply rnd_le; lra).
  assert (rnd (B2R c - B2R a) <> 0) as P3 by (apply diff_nonzero; [apply fmt_double|apply fmt_double|lra]).
  assert (0 < rnd (B2R c - B2R a)) as P4 by lra. split; [split; assumption|]. split; [exact P4|]. split.
  - apply Rmult_le_pos; [exact P1|]. left. apply Rinv_0_lt_compat, P4.
  - apply Rmult_le_reg_r with (1 := P4). unfold Rdiv. rewrite Rmult_assoc, Rinv_l by exact P3. lra.
Qed.
Lemma pw_1023 : 1 <= pw 1023. Proof. change 1 with (pw 0). apply bpow_le. lia. Qed.
Lemma quot_ok a b c : good a -> good b -> good c -> B2R a <= B2R b <= B2R c -> B2R a < B2R c ->
  fin (quot a b c) (exact_quot a b c) /\ 0 <= exact_quot a b c <= 1.
Proof.
  intros A B C V L. destruct (quot_bounds a b c A B C V L) as (P1 & P2 & P3).
  assert (0 <= exact_quot a b c <= 1) as R. { split; [apply rnd_nonneg; lra|]. apply rnd_le_fmt; [apply fmt_1|lra]. }
  split; [|exact R].
  destruct A as [A1 A2]. destruct B as [B1 B2]. destruct C as [C1 C2].
  destruct (f_minus b a B1 A1 (diff_small _ _ B2 A2)) as [N1 N2]. destruct (f_minus c a C1 A1 (diff_small _ _ C2 A2)) as [D1 D2].
  assert (fin (ddiv (dminus b a) (dminus c a)) (exact_quot a b c)) as [Q1 Q2].
  { unfold exact_quot. rewrite <- N2, <- D2. apply f_div; [exact N1|rewrite D2; lra|]. rewrite N2, D2.
    rewrite Rabs_pos_eq by lra. pose proof pw_1023. lra. }
  destruct (f_abs _ Q1) as [F1 F2]. split; [exact F1|]. unfold quot. rewrite F2, Q2. apply Rabs_pos_eq. lra.
Qed.
(** What HighFrac computes. *)
Definition snap (e : double) (q : double) : double :=
  if Bltb (dminus (of_int 1) q) e then of_int 1 else if Bltb q e then of_int 0 else q.
Lemma high_cases a b c e : good a -> good b -> good c -> B2R a <= B2R b <= B2R c ->
  (B2R a = B2R c /\ high_frac_d a b c e = Ok (of_int 1)) \/
  (B2R a < B2R c /\ high_frac_d a b c e = Ok (snap e (quot a b c))).
Proof.
  intros A B C V. unfold high_frac_d. rewrite (proj2 (valid_iff a b c (proj1 A) (proj1 B) (proj1 C)) V). cbn [negb].
  rewrite !Beqb_correct by (apply A || apply B || apply C).
  destruct (Req_bool_spec (B2R a) (B2R c)) as [E|E].
  - rewrite Req_bool_true by lra. left. split; [exact E|reflexivity].
  - right. split; [lra|]. cbn [andb]. unfold snap. fold (quot a b c). destruct (Bltb (dminus (of_int 1) (quot a b c)) e); [reflexivity|].
    destruct (Bltb (quot a b c) e); reflexivity.
Qed.
Lemma snap_range e q r : fin q r -> 0 <= r <= 1 -> is_finite (snap e q) = true /\ 0 <= B2R (snap e q) <= 1.
Proof.
  intros [F V] R. unfold snap. destruct one_fin as [O1 O2]. destruct zero_fin as [Z1 Z2].
  destruct (Bltb (dminus (of_int 1) q) e); [rewrite O1, O2; split; [reflexivity|lra]|].
  destruct (Bltb q e); [rewrite Z1, Z2; split; [reflexivity|lra]|]. rewrite F, V. split; [reflexivity|lra].
Qed.
Lemma range_final a b c e : good a -> good b -> good c ->
  (B2R a <= B2R b <= B2R c ->
    (exists h, high_frac_d a b c e = Ok h /\ is_finite h = true /\ 0 <= B2R h <= 1) /\
    (exists l, low_frac_d a b c e = Ok l /\ is_finite l = true /\ 0 <= B2R l <= 1)) /\
  (~ (B2R a <= B2R b <= B2R c) -> high_frac_d a b c e = Throw ValueError /\ low_frac_d a b c e = Throw ValueError).
Proof.
  intros A B C. split.
  - intro V. assert (exists h, high_frac_d a b c e = Ok h /\ is_finite h = true /\ 0 <= B2R h <= 1) as (h & H & F & R).
    { destruct (high_cases a b c e A B C V) as [[_ H]|[L H]]; rewrite H; eexists; (split; [reflexivity|]).
      - destruct one_fin as [O1 O2]. rewrite O1, O2. split; [reflexivity|lra].
      - destruct (quot_ok a b c A B C V L) as [Q R]. apply (snap_range e _ _ Q R). }
    split; [exists h; auto|]. exists (dminus (of_int 1) h). unfold low_frac_d. rewrite H. split; [reflexivity|].
    destruct one_fin as [O1 O2]. destruct (f_minus (of_int 1) h O1 F) as [M1 M2].
    { rewrite O2. apply Rabs_le. pose proof pw_1023. lra. }
    rewrite M1, M2, O2. split; [reflexivity|]. split; [apply rnd_nonneg; lra|apply rnd_le_fmt; [apply fmt_1|lra]].
  - intro V. assert (valid_weights_d a b c = false) as E.
    { apply Bool.not_true_is_false. intro H. apply V. apply valid_iff; [apply A|apply B|apply C|exact H]. }
    unfold low_frac_d, high_frac_d. rewrite E. cbn. split; reflexivity.
Qed.
(** ** Monotonicity *)
Lemma exact_quot_le a b b' c : good a -> good b -> good b' -> good c -> B2R a <= B2R b <= B2R c -> B2R a <= B2R b' <= B2R c -> B2R a < B2R c ->
  B2R b <= B2R b' -> exact_quot a b c <= exact_quot a b' c.
Proof.
  intros A B B' C V V' L M. destruct (quot_bounds a b c A B C V L) as (_ & P & _). apply rnd_le. unfold Rdiv.
  apply Rmult_le_compat_r; [left; apply Rinv_0_lt_compat, P|]. apply rnd_le. lra.
Qed.
Lemma one_minus q r : fin q r -> 0 <= r <= 1 -> fin (dminus (of_int 1) q) (rnd (1 - r)).
Proof.
  intros [F <-] R. destruct one_fin as [O1 O2]. destruct (f_minus (of_int 1) q O1 F) as [M1 M2].
  - rewrite O2. apply Rabs_le. pose proof pw_1023. lra.
  - rewrite O2 in M2. split; assumption.
Qed.
Lemma snap_le e q q' r r' : is_finite e = true -> fin q r -> fin q' r' -> 0 <= r <= 1 -> 0 <= r' <= 1 -> r <= r' ->
  B2R (snap e q) <= B2R (snap e q').
Proof.
  intros E Q Q' R R' M. destruct one_fin as [O1 O2]. destruct zero_fin as [Z1 Z2].
  destruct (snap_range e q r Q R) as [_ S1]. destruct (snap_range e q' r' Q' R') as [_ S2].
  revert S1 S2. unfold snap. destruct (one_minus q r Q R) as [D1 D2]. destruct (one_minus q' r' Q' R') as [D1' D2'].
  rewrite (Bltb_correct 53 1024 (dminus (of_int 1) q) e), (Bltb_correct 53 1024 (dminus (of_int 1) q') e), D2, D2' by assumption.
  assert (rnd (1 - r') <= rnd (1 - r)) as MM by (apply rnd_le; lra).
  destruct Q as [F V]. destruct Q' as [F' V'].
  destruct (Rlt_bool_spec (rnd (1 - r)) (B2R e)) as [X|X]; destruct (Rlt_bool_spec (rnd (1 - r')) (B2R e)) as [X'|X']; intros; rewrite ?O2 in *; try lra.
  rewrite !Bltb_correct by assumption. rewrite !Bltb_correct in S1, S2 by assumption. rewrite V, V' in *.
  destruct (Rlt_bool_spec r (B2R e)) as [Y|Y]; destruct (Rlt_bool_spec r' (B2R e)) as [Y'|Y']; rewrite ?Z2, ?V, ?V' in *; lra.
Qed.
Lemma monotone_final a b b' c e h h' : good a -> good b -> good b' -> good c -> is_finite e = true -> B2R b <= B2R b' ->
  high_frac_d a b c e = Ok h -> high_frac_d a b' c e = Ok h' -> B2R h <= B2R h'.
Proof.
  intros A B B' C E M H H'.
  assert (B2R a <= B2R b <= B2R c) as V.
  { apply valid_iff; [apply A|apply B|apply C|]. unfold high_frac_d in H. destruct (valid_weights_d a b c); [reflexivity|discriminate]. }
  assert (B2R a <= B2R b' <= B2R c) as V'.
  { apply valid_iff; [apply A|apply B'|apply C|]. unfold high_frac_d in H'. destruct (valid_weights_d a b' c); [reflexivity|discriminate]. }
  destruct (high_cases a b c e A B C V) as [[E1 X]|[L X]]; destruct (high_cases a b' c e A B' C V') as [[E2 X']|[L' X']]; try lra;
    rewrite X in H; rewrite X' in H'; injection H as <-; injection H' as <-; [lra|].
  destruct (quot_ok a b c A B C V L) as [Q R]. destruct (quot_ok a b' c A B' C V' L) as [Q' R'].
  apply (snap_le e _ _ _ _ E Q Q' R R'). apply exact_quot_le; assumption.
Qed.
(** ** Accuracy *)
Lemma u_small : 0 < u <= / 1000000.
Proof.
  split; [apply bpow_gt_0|]. apply Rle_trans with (pw (-20)); [apply bpow_le; lia|].
  change (pw (-20)) with (/ IZR (Zpower_pos radix2 20)). change (Zpower_pos radix2 20) with 1048576%Z. lra.
Qed.
Lemma exact_quot_near a b c : good a -> good b -> good c -> B2R a <= B2R b <= B2R c -> B2R a < B2R c ->
  Rabs (exact_quot a b c - (B2R b - B2R a) / (B2R c - B2R a)) <= 3 * u.
Proof.
  intros A B C V L. destruct (quot_bounds a b c A B C V L) as (P1 & P2 & P3).
  pose proof (rel_diff (B2R b) (B2R a) (fmt_double b) (fmt_double a)) as EN.
  pose proof (rel_diff (B2R c) (B2R a) (fmt_double c) (fmt_double a)) as ED.
  rewrite (Rabs_pos_eq (B2R b - B2R a)) in EN by lra. rewrite (Rabs_pos_eq (B2R c - B2R a)) in ED by lra.
  assert (Rabs (rnd (B2R b - B2R a) / rnd (B2R c - B2R a)) <= 1) as Q1 by (rewrite Rabs_pos_eq; lra).
  pose proof (abs_unit _ Q1) as EQ. fold (exact_quot a b c) in EQ.
  set (n := B2R b - B2R a) in *. set (d := B2R c - B2R a) in *. set (n' := rnd n) in *. set (d' := rnd d) in *.
  assert (0 < d) by (unfold d; lra). assert (0 <= n <= d) by (unfold n, d; lra). pose proof u_small as U.
  apply Rabs_le_inv in EN, ED, EQ.
  assert (pw (-54) = u / 2) as E54. { replace u with (2 * pw (-54)); [lra|]. change 2 with (pw 1). rewrite <- bpow_plus. reflexivity. }
  rewrite E54 in EQ.
  assert (- (21 / 10 * u) <= n' / d' - n / d <= 21 / 10 * u) as M.
  { assert (D : n' / d' - n / d = (n' * d - n * d') / (d' * d)) by (field; lra). rewrite D.
    assert (0 < d' * d) by (apply Rmult_lt_0_compat; lra).
    assert (d * (1 - u) <= d') as LB by lra.
    assert (0 <= n * (d' - d) + u * n * d /\ n * (d' - d) <= u * n * d) as [X1 X2].
    { split; [|].
      - replace (n * (d' - d) + u * n * d) with (n * (d' - d + u * d)) by ring. apply Rmult_le_pos; lra.
      - replace (u * n * d) with (n * (u * d)) by ring. apply Rmult_le_compat_l; lra. }
    assert (0 <= d * (n' - n) + u * n * d /\ d * (n' - n) <= u * n * d) as [Y1 Y2].
    { split; [|].
      - replace (d * (n' - n) + u * n * d) with (d * (n' - n + u * n)) by ring. apply Rmult_le_pos; lra.
      - replace (u * n * d) with (d * (u * n)) by ring. apply Rmult_le_compat_l; lra. }
    assert (n' * d - n * d' = d * (n' - n) - n * (d' - d)) as Z by ring.
    assert (u * n * d <= u * (d * d)) as W. { replace (u * n * d) with (u * (n * d)) by ring. apply Rmult_le_compat_l; [lra|]. apply Rmult_le_compat_r; lra. }
    assert (2 * u * (d * d) <= 21 / 10 * u * (d' * d)) as K.
    { replace (2 * u * (d * d)) with (u * d * (2 * d)) by ring. replace (21 / 10 * u * (d' * d)) with (u * d * (21 / 10 * d')) by ring.
      apply Rmult_le_compat_l; [apply Rmult_le_pos; lra|]. assert (2 * d <= 21 / 10 * (d * (1 - u))); [|lra].
      replace (21 / 10 * (d * (1 - u))) with (d * (21 / 10 * (1 - u))) by ring. rewrite Rmult_comm. apply Rmult_le_compat_l; lra. }
    split.
    - apply Rmult_le_reg_r with (d' * d); [assumption|]. unfold Rdiv. rewrite (Rmult_assoc (n' * d - n * d')), Rinv_l, Rmult_1_r by lra. lra.
    - apply Rmult_le_reg_r with (d' * d); [assumption|]. unfold Rdiv. rewrite (Rmult_assoc (n' * d - n * d')), Rinv_l, Rmult_1_r by lra. lra. }
  apply Rabs_le. lra.
Qed.
Lemma snap_near e q r : is_finite e = true -> 0 <= B2R e -> fin q r -> 0 <= r <= 1 -> Rabs (B2R (snap e q) - r) <= B2R e + u.
Proof.
  intros E E0 Q R. destruct one_fin as [O1 O2]. destruct zero_fin as [Z1 Z2]. unfold snap.
  destruct (one_minus q r Q R) as [D1 D2]. destruct Q as [F V]. pose proof u_small.
  rewrite (Bltb_correct 53 1024 (dminus (of_int 1) q) e), D2 by assumption.
  assert (Rabs (1 - r) <= 1) as A1 by (rewrite Rabs_pos_eq; lra). pose proof (abs_unit _ A1) as A. apply Rabs_le_inv in A.
  assert (pw (-54) = u / 2) as E54. { replace u with (2 * pw (-54)); [lra|]. change 2 with (pw 1). rewrite <- bpow_plus. reflexivity. }
  rewrite E54 in A.
  destruct (Rlt_bool_spec (rnd (1 - r)) (B2R e)) as [X|X]; [rewrite O2; apply Rabs_le; lra|].
  rewrite Bltb_correct, V by assumption. destruct (Rlt_bool_spec r (B2R e)) as [Y|Y]; [rewrite Z2; apply Rabs_le; lra|].
  rewrite V. apply Rabs_le. lra.
Qed.
Lemma accuracy_final a b c e h : good a -> good b -> good c -> is_finite e = true -> 0 <= B2R e -> B2R a < B2R c ->
  high_frac_d a b c e = Ok h -> Rabs (B2R h - (B2R b - B2R a) / (B2R c - B2R a)) <= B2R e + 4 * pw (-53).
Proof.
  intros A B C E E0 L H.
  assert (B2R a <= B2R b <= B2R c) as V.
  { apply valid_iff; [apply A|apply B|apply C|]. unfold high_frac_d in H. destruct (valid_weights_d a b c); [reflexivity|discriminate]. }
  destruct (high_cases a b c e A B C V) as [[E1 X]|[_ X]]; [lra|]. rewrite X in H. injection H as <-.
  destruct (quot_ok a b c A B C V L) as [Q R]. pose proof (snap_near e _ _ E E0 Q R) as S.
  pose proof (exact_quot_near a b c A B C V L) as N. apply Rabs_le_inv in S, N. apply Rabs_le. lra.
Qed.
(** ** The ends *)
Lemma ends_final a c e : good a -> good c -> is_finite e = true -> 0 <= B2R e <= / 2 -> B2R a < B2R c ->
  (forall b, good b -> B2R b = B2R a -> exists h, high_frac_d a b c e = Ok h /\ B2R h = 0) /\
  (forall b, good b -> B2R b = B2R c -> exists h, high_frac_d a b c e = Ok h /\ B2R h = 1).
Proof.
  intros A C E E0 L. destruct one_fin as [O1 O2]. destruct zero_fin as [Z1 Z2]. split; intros b B EQ.
  - assert (B2R a <= B2R b <= B2R c) as V by lra. destruct (high_cases a b c e A B C V) as [[? _]|[_ X]]; [lra|].
    rewrite X. eexists. split; [reflexivity|]. destruct (quot_ok a b c A B C V L) as [Q R].
    assert (exact_quot a b c = 0) as Z. { unfold exact_quot. rewrite EQ, Rminus_diag_eq, rnd_0 by reflexivity. unfold Rdiv. rewrite Rmult_0_l. apply rnd_0. }
    rewrite Z in Q. assert (0 <= 0 <= 1) as T by lra. destruct (one_minus _ _ Q T) as [D1 D2]. unfold snap. destruct Q as [F VV].
    rewrite Bltb_correct, D2 by assumption. rewrite Rminus_0_r, rnd_1. rewrite Rlt_bool_false by lra.
    rewrite Bltb_correct, VV by assumption. destruct (Rlt_bool_spec 0 (B2R e)); [exact Z2|exact VV].
  - assert (B2R a <= B2R b <= B2R c) as V by lra. destruct (high_cases a b c e A B C V) as [[? _]|[_ X]]; [lra|].
    rewrite X. eexists. split; [reflexivity|]. destruct (quot_ok a b c A B C V L) as [Q R].
    destruct (quot_bounds a b c A B C V L) as (_ & P & _).
    assert (exact_quot a b c = 1) as Z. { unfold exact_quot. rewrite EQ. unfold Rdiv. rewrite Rinv_r by lra. apply rnd_1. }
    rewrite Z in Q. assert (0 <= 1 <= 1) as T by lra. destruct (one_minus _ _ Q T) as [D1 D2]. unfold snap. destruct Q as [F VV].
    rewrite Bltb_correct, D2 by assumption. rewrite Rminus_diag_eq, rnd_0 by reflexivity. destruct (Rlt_bool_spec 0 (B2R e)); [exact O2|].
    rewrite Bltb_correct, VV by assumption. rewrite Rlt_bool_false by lra. exact VV.
Qed.
(** ** Mass fractions *)
Lemma amount_prod p : amount p -> exists r, fin (dmult (fst p) (snd p)) r /\ 0 <= r <= pw 20 /\ r = rnd (B2R (fst p) * B2R (snd p)).
Proof.
  intros (F1 & F2 & R1 & R2). assert (0 <= B2R (fst p) * B2R (snd p) <= pw 20) as R.
  { split; [apply Rmult_le_pos; lra|]. change 20%Z with (10 + 10)%Z. rewrite bpow_plus. apply Rmult_le_compat; lra. }
  eexists. split; [apply f_mult; [assumption|assumption|]|].
  - rewrite Rabs_pos_eq by lra. apply Rle_trans with (1 := proj2 R). apply bpow_le. lia.
  - split; [|reflexivity]. split; [apply rnd_nonneg; lra|]. apply rnd_le_fmt; [apply fmt_pw; lia|apply R].
Qed.
Lemma fmt_scaled n e : (Z.abs n < 2 ^ 53)%Z -> (0 <= e)%Z -> fmt (IZR n * pw e).
Proof.
  intros H E. apply (generic_format_FLT radix2 (3 - 1024 - 53) 53 (IZR n * pw e)).
  apply (FLT_spec radix2 (3 - 1024 - 53) 53 (IZR n * pw e) (Float radix2 n e)).
  - unfold F2R. cbn. ring.
  - cbn [Fnum]. exact H.
  - cbn. lia.
Qed.
Lemma mass_fold n : Forall amount n -> forall k s, (0 <= k)%Z -> (k + Z.of_nat (List.length n) <= 2 ^ 50)%Z -> is_finite s = true -> 0 <= B2R s <= IZR k * pw 20 ->
  let m := fold_left (fun s e => dplus s (dmult (fst e) (snd e))) n s in
  is_finite m = true /\ B2R s <= B2R m /\ B2R m <= IZR (k + Z.of_nat (List.length n)) * pw 20 /\
  forall p, In p n -> rnd (B2R (fst p) * B2R (snd p)) <= B2R m.
Proof.
  induction n as [|p n IH]; intros A k s K LEN F R; cbn -[Z.of_nat].
  - rewrite Z.add_0_r. split; [exact F|]. split; [lra|]. split; [apply R|]. intros p [].
  - inversion A as [|? ? A1 A2]; subst. destruct (amount_prod p A1) as (r & [P1 P2] & PR & PE).
    cbn -[Z.of_nat] in LEN. rewrite Nat2Z.inj_succ in LEN.
    assert (0 <= B2R s + r <= IZR (k + 1) * pw 20) as S. { rewrite plus_IZR, Rmult_plus_distr_r, Rmult_1_l. lra. }
    assert (IZR (k + 1) * pw 20 <= pw 1023) as BIG.
    { apply Rle_trans with (pw 51 * pw 20).
      - apply Rmult_le_compat_r; [apply bpow_ge_0|]. rewrite <- (IZR_Zpower radix2 51) by lia. apply IZR_le. change (Zpower radix2 51) with (2 ^ 51)%Z. lia.
      - rewrite <- bpow_plus. apply bpow_le. lia. }
    destruct (f_plus s (dmult (fst p) (snd p)) F P1) as [Q1 Q2]; [rewrite P2, Rabs_pos_eq by lra; lra|]. rewrite P2 in Q2.
    assert (0 <= B2R (dplus s (dmult (fst p) (snd p))) <= IZR (k + 1) * pw 20) as S2.
    { rewrite Q2. split; [apply rnd_nonneg; lra|]. apply rnd_le_fmt; [apply fmt_scaled; lia|apply S]. }
    assert (B2R s <= B2R (dplus s (dmult (fst p) (snd p)))) as M1. { rewrite Q2. apply rnd_ge_fmt; [apply fmt_double|lra]. }
    assert (r <= B2R (dplus s (dmult (fst p) (snd p)))) as M2. { rewrite Q2. apply rnd_ge_fmt; [rewrite PE; apply fmt_rnd|lra]. }
    destruct (IH A2 (k + 1)%Z _ ltac:(lia) ltac:(lia) Q1 S2) as (I1 & I2 & I3 & I4).
    split; [exact I1|]. split; [lra|]. split.
    + replace (k + Z.of_nat (Datatypes.S (List.length n)))%Z with (k + 1 + Z.of_nat (List.length n))%Z by lia. exact I3.
    + intros p' [<-|H]; [rewrite <- PE; lra|apply I4, H].
Qed.
Lemma mass_ok n : Forall amount n -> (Z.of_nat (List.length n) <= 2 ^ 50)%Z ->
  is_finite (mass_d n) = true /\ 0 <= B2R (mass_d n) <= pw 70 /\ forall p, In p n -> rnd (B2R (fst p) * B2R (snd p)) <= B2R (mass_d n).
Proof.
  intros A L. destruct zero_fin as [Z1 Z2]. destruct (mass_fold n A 0%Z (of_int 0) ltac:(lia) ltac:(lia) Z1) as (I1 & I2 & I3 & I4).
  - rewrite Z2. lra.
  - fold (mass_d n) in I1, I2, I3, I4. rewrite Z2 in I2. split; [exact I1|]. split; [|exact I4]. split; [exact I2|].
    apply Rle_trans with (1 := I3). change 70%Z with (50 + 20)%Z. rewrite bpow_plus. apply Rmult_le_compat_r; [apply bpow_ge_0|].
    rewrite <- (IZR_Zpower radix2 50) by lia. apply IZR_le. change (Zpower radix2 50) with (2 ^ 50)%Z. lia.
Qed.
Lemma mass_frac_final n1 n2 : Forall amount n1 -> Forall amount n2 -> (Z.of_nat (List.length n1) <= 2 ^ 50)%Z -> (Z.of_nat (List.length n2) <= 2 ^ 50)%Z ->
  (exists p, In p (n1 ++ n2) /\ pw (-500) <= B2R (fst p) /\ pw (-500) <= B2R (snd p)) ->
  is_finite (mass_frac_d n1 n2) = true /\ 0 <= B2R (mass_frac_d n1 n2) <= 1 /\
  forall q, is_finite q = true -> 0 <= B2R q -> is_finite (draw_d (mass_frac_d n1 n2) q) = true /\ 0 <= B2R (draw_d (mass_frac_d n1 n2) q) <= B2R q /\
    Rabs (B2R (draw_d (mass_frac_d n1 n2) q) - B2R (mass_frac_d n1 n2) * B2R q) <= u * (B2R (mass_frac_d n1 n2) * B2R q) + pw (-1074).
Proof.
  intros A1 A2 L1 L2 (p & IN & P1 & P2). destruct (mass_ok n1 A1 L1) as (F1 & R1 & M1). destruct (mass_ok n2 A2 L2) as (F2 & R2 & M2).
  assert (0 < B2R (mass_d n1) + B2R (mass_d n2)) as POS.
  { assert (pw (-1000) <= rnd (B2R (fst p) * B2R (snd p))) as Q.
    { apply rnd_ge_fmt; [apply fmt_pw; lia|]. change (-1000)%Z with (-500 + -500)%Z. rewrite bpow_plus. pose proof (bpow_ge_0 radix2 (-500)).
      apply Rmult_le_compat; assumption. }
    pose proof (bpow_gt_0 radix2 (-1000)). apply in_app_or in IN. destruct IN as [IN|IN]; [specialize (M1 p IN)|specialize (M2 p IN)]; lra. }
  assert (pw 70 + pw 70 <= pw 1023) as BIG.
  { replace (pw 70 + pw 70) with (2 * pw 70) by ring. change 2 with (pw 1). rewrite <- bpow_plus. apply bpow_le. lia. }
  destruct (f_plus _ _ F1 F2) as [S1 S2]; [rewrite Rabs_pos_eq by lra; lra|].
  assert (B2R (mass_d n1) <= B2R (dplus (mass_d n1) (mass_d n2))) as LE. { rewrite S2. apply rnd_ge_fmt; [apply fmt_double|lra]. }
  assert (B2R (mass_d n2) <= B2R (dplus (mass_d n1) (mass_d n2))) as LE2. { rewrite S2. apply rnd_ge_fmt; [apply fmt_double|lra]. }
  assert (0 < B2R (dplus (mass_d n1) (mass_d n2))) as SP by lra.
  assert (0 <= B2R (mass_d n1) / B2R (dplus (mass_d n1) (mass_d n2)) <= 1) as QR.
  { split; [apply Rmult_le_pos; [lra|left; apply Rinv_0_lt_compat, SP]|]. apply Rmult_le_reg_r with (1 := SP). unfold Rdiv. rewrite Rmult_assoc, Rinv_l by lra. lra. }
  destruct (f_div (mass_d n1) (dplus (mass_d n1) (mass_d n2)) F1) as [D1 D2]; [lra|rewrite Rabs_pos_eq by lra; pose proof pw_1023; lra|].
  fold (mass_frac_d n1 n2) in D1, D2. assert (0 <= B2R (mass_frac_d n1 n2) <= 1) as FR.
  { rewrite D2. split; [apply rnd_nonneg; lra|apply rnd_le_fmt; [apply fmt_1|lra]]. }
  split; [exact D1|]. split; [exact FR|]. intros q FQ Q0. unfold draw_d.
  assert (0 <= B2R (mass_frac_d n1 n2) * B2R q <= B2R q) as PR.
  { split; [apply Rmult_le_pos; lra|]. rewrite <- (Rmult_1_l (B2R q)) at 2. apply Rmult_le_compat_r; lra. }
  assert (0 <= rnd (B2R (mass_frac_d n1 n2) * B2R q) <= B2R q) as RR.
  { split; [apply rnd_nonneg; lra|apply rnd_le_fmt; [apply fmt_double|lra]]. }
  pose proof (Bmult_correct 53 1024 double_prec double_emax mode_NE (mass_frac_d n1 n2) q) as C.
  change (round radix2 fe (round_mode mode_NE) (B2R (mass_frac_d n1 n2) * B2R q)) with (rnd (B2R (mass_frac_d n1 n2) * B2R q)) in C.
  rewrite Rlt_bool_true in C.
  - destruct C as (C1 & C2 & _). unfold dmult. rewrite C2, C1, D1, FQ. split; [reflexivity|]. split; [exact RR|].
    pose proof (rel_any (B2R (mass_frac_d n1 n2) * B2R q)) as X. rewrite (Rabs_pos_eq (B2R (mass_frac_d n1 n2) * B2R q)) in X by lra. exact X.
  - rewrite Rabs_pos_eq by lra. apply Rle_lt_trans with (1 := proj2 RR). rewrite <- (Rabs_pos_eq (B2R q)) by exact Q0. apply abs_B2R_lt_emax.
Qed.

Lemma low_final a b c e h l : good a -> good b -> good c -> high_frac_d a b c e = Ok h -> low_frac_d a b c e = Ok l ->
  Rabs (B2R l - (1 - B2R h)) <= pw (-54).
Proof.
  intros A B C H L. unfold low_frac_d in L. rewrite H in L. cbn [bind] in L. assert (l = dminus (of_int 1) h) as -> by congruence. clear L.
  destruct (Rle_dec (B2R a) (B2R b)) as [V1|V1]; [destruct (Rle_dec (B2R b) (B2R c)) as [V2|V2]|].
  2,3: destruct (range_final a b c e A B C) as [_ X]; destruct X as [X _]; [lra|]; rewrite X in H; discriminate.
  destruct (range_final a b c e A B C) as [X _]. destruct (X (conj V1 V2)) as [(h' & H' & F & R) _].
  assert (h' = h) as -> by congruence. destruct (one_minus h (B2R h) (conj F eq_refl) R) as [_ M]. rewrite M.
  apply abs_unit. rewrite Rabs_pos_eq; lra.
Qed.

Lemma u_v : u = / 9007199254740992. Proof. reflexivity. Qed.
Notation eta := (pw (-1073)).
Lemma eta_half : pw (-1074) = / 2 * eta. Proof. change (-1074)%Z with (-1 + -1073)%Z. rewrite bpow_plus. reflexivity. Qed.
Lemma eta_pos : 0 < eta. Proof. apply bpow_gt_0. Qed.
Lemma exact_cons p n : exact_mass (p :: n) = B2R (fst p) * B2R (snd p) + exact_mass n. Proof. reflexivity. Qed.
Lemma exact_nonneg n : Forall amount n -> 0 <= exact_mass n.
Proof. induction 1 as [|p n (_ & _ & A & B) H IH]; [cbn; lra|]. rewrite exact_cons. assert (0 <= B2R (fst p) * B2R (snd p)) by (apply Rmult_le_pos; lra). lra. Qed.

Lemma mass_err n : Forall amount n -> forall (s : double) sg (k : nat), is_finite s = true -> 0 <= B2R s -> 0 <= sg <= INR k * pw 20 ->
  Rabs (B2R s - sg) <= 3 * INR k * u * sg + INR k * eta -> (Z.of_nat (k + List.length n) <= 2 ^ 20)%Z ->
  let m := fold_left (fun s e => dplus s (dmult (fst e) (snd e))) n s in
  Rabs (B2R m - (sg + exact_mass n)) <= 3 * INR (k + List.length n) * u * (sg + exact_mass n) + INR (k + List.length n) * eta.
Proof.
  induction 1 as [|p n A H IH]; intros s sg k S S0 G K L; cbn zeta.
  - cbn [fold_left exact_mass fold_right List.length]. rewrite Nat.add_0_r, Rplus_0_r. exact K.
  - cbn [fold_left List.length] in *. rewrite exact_cons.
    destruct (amount_prod p A) as (r & [P1 P2] & PR & PE). set (ab := B2R (fst p) * B2R (snd p)) in *.
    assert (0 <= ab <= pw 20) as AB.
    { destruct A as (_ & _ & R1 & R2). unfold ab. split; [apply Rmult_le_pos; lra|]. change 20%Z with (10 + 10)%Z. rewrite bpow_plus. apply Rmult_le_compat; lra. }
    pose proof (rel_any ab) as E1. rewrite <- PE, (Rabs_pos_eq ab) in E1 by lra. rewrite eta_half in E1. apply Rabs_le_inv in E1.
    pose proof eta_pos as EP. pose proof (pos_INR k) as K0.
    assert (INR k <= 1048576) as KB by (rewrite INR_IZR_INZ; change 1048576 with (IZR (2 ^ 20)); apply IZR_le; lia).
    set (W := INR k * u) in *. assert (0 <= W <= / 8589934592) as WB. { unfold W. rewrite u_v. split; [apply Rmult_le_pos; lra|lra]. }
    replace (3 * INR k * u) with (3 * W) in K by (unfold W; ring). apply Rabs_le_inv in K.
    assert (3 * W * sg <= 3 * / 8589934592 * sg) as K1 by (apply Rmult_le_compat_r; lra).
    assert (INR k * eta <= 1048576 * eta) as K2 by (apply Rmult_le_compat_r; lra).
    assert (eta <= 1) as E11 by (change 1 with (pw 0); apply bpow_le; lia).
    assert (pw 20 = 1048576) as P20 by reflexivity.
    assert (0 <= u * ab <= ab) as UA. { rewrite u_v. lra. }
    destruct (f_plus s (dmult (fst p) (snd p)) S P1) as [Q1 Q2].
    { rewrite P2, Rabs_pos_eq by lra. apply Rle_trans with (pw 60); [|apply bpow_le; lia]. change (pw 60) with 1152921504606846976.
      assert (INR k * pw 20 <= 1048576 * pw 20) by (apply Rmult_le_compat_r; lra). lra. }
    rewrite P2 in Q2.
    assert (fmt r) as FR by (rewrite PE; apply fmt_rnd).
    pose proof (rel_sum (B2R s) r (fmt_double s) FR) as E2. rewrite <- Q2, (Rabs_pos_eq (B2R s + r)) in E2 by lra. apply Rabs_le_inv in E2.
    specialize (IH (dplus s (dmult (fst p) (snd p))) (sg + ab) (Datatypes.S k)). cbn zeta in IH.
    replace (k + Datatypes.S (List.length n))%nat with (Datatypes.S k + List.length n)%nat by lia. rewrite <- Rplus_assoc. apply IH; clear IH.
    + exact Q1.
    + rewrite Q2. apply rnd_nonneg. lra.
    + rewrite S_INR, Rmult_plus_distr_r. lra.
    + rewrite S_INR. replace (3 * (INR k + 1) * u * (sg + ab)) with (3 * W * sg + 3 * W * ab + 3 * (u * sg) + 3 * (u * ab)) by (unfold W; ring).
      rewrite Rmult_plus_distr_r, Rmult_1_l.
      assert (0 <= 3 * W * ab) by (apply Rmult_le_pos; lra).
      assert (0 <= u * sg) by (apply Rmult_le_pos; [apply bpow_ge_0|lra]).
      assert (u * (B2R s + r) <= 1.1 * (u * sg) + 1.1 * (u * ab) + / 4 * eta) as E3.
      { assert (B2R s + r <= 1.1 * sg + 1.1 * ab + 2097152 * eta) as X.
        { assert (u * ab <= 0.1 * ab) by (apply Rmult_le_compat_r; [lra|rewrite u_v; lra]). lra. }
        apply Rle_trans with (u * (1.1 * sg + 1.1 * ab + 2097152 * eta)); [apply Rmult_le_compat_l; [apply bpow_ge_0|exact X]|].
        replace (u * (1.1 * sg + 1.1 * ab + 2097152 * eta)) with (1.1 * (u * sg) + 1.1 * (u * ab) + (u * 2097152) * eta) by ring.
        assert (u * 2097152 * eta <= / 4 * eta) by (apply Rmult_le_compat_r; [lra|rewrite u_v; lra]). lra. }
      apply Rabs_le. lra.
    + lia.
Qed.

Lemma mass_err0 n : Forall amount n -> (Z.of_nat (List.length n) <= 2 ^ 20)%Z ->
  Rabs (B2R (mass_d n) - exact_mass n) <= 3 * INR (List.length n) * u * exact_mass n + INR (List.length n) * eta.
Proof.
  intros A L. destruct zero_fin as [Z1 Z2]. pose proof (mass_err n A (of_int 0) 0 0 Z1) as X. cbn zeta in X. cbn [Nat.add] in X. rewrite Rplus_0_l in X.
  apply X; [rewrite Z2; lra|cbn; lra| |exact L]. rewrite Z2, Rminus_0_r, Rabs_R0. cbn. lra.
Qed.
Lemma in_le_exact n p : Forall amount n -> In p n -> B2R (fst p) * B2R (snd p) <= exact_mass n.
Proof.
  induction 1 as [|q n (Q1 & Q2 & Q3 & Q4) H IH]; intro I; [contradiction|]. rewrite exact_cons. pose proof (exact_nonneg n H).
  assert (0 <= B2R (fst q) * B2R (snd q)) by (apply Rmult_le_pos; lra). destruct I as [->|I]; [lra|]. specialize (IH I). lra.
Qed.

Lemma mass_frac_accuracy n1 n2 : Forall amount n1 -> Forall amount n2 ->
  (Z.of_nat (List.length n1 + List.length n2) <= 2 ^ 20)%Z ->
  (exists p, In p (n1 ++ n2) /\ pw (-500) <= B2R (fst p) /\ pw (-500) <= B2R (snd p)) ->
  Rabs (B2R (mass_frac_d n1 n2) - exact_mass n1 / (exact_mass n1 + exact_mass n2)) <= (8 * INR (List.length n1 + List.length n2) + 8) * u.
Proof.
  intros A1 A2 L (p & IN & P1 & P2).
  assert ((Z.of_nat (List.length n1) <= 2 ^ 20)%Z /\ (Z.of_nat (List.length n2) <= 2 ^ 20)%Z) as [L1 L2] by lia.
  destruct (mass_ok n1 A1 ltac:(lia)) as (F1 & R1 & _). destruct (mass_ok n2 A2 ltac:(lia)) as (F2 & R2 & _).
  pose proof (mass_err0 n1 A1 L1) as X1. pose proof (mass_err0 n2 A2 L2) as X2.
  pose proof (exact_nonneg n1 A1) as N1. pose proof (exact_nonneg n2 A2) as N2.
  set (S1 := exact_mass n1) in *. set (S2 := exact_mass n2) in *. set (T := S1 + S2) in *.
  assert (pw (-1000) <= T) as TB.
  { assert (pw (-1000) <= B2R (fst p) * B2R (snd p)) as Q.
    { change (-1000)%Z with (-500 + -500)%Z. rewrite bpow_plus. pose proof (bpow_ge_0 radix2 (-500)). apply Rmult_le_compat; assumption. }
    apply in_app_or in IN. destruct IN as [IN|IN]; [pose proof (in_le_exact n1 p A1 IN)|pose proof (in_le_exact n2 p A2 IN)]; unfold T, S1, S2; pose proof (exact_nonneg n1 A1); pose proof (exact_nonneg n2 A2); lra. }
  pose proof (bpow_gt_0 radix2 (-1000)) as TP. assert (0 < T) as T0 by lra.
  set (N := INR (List.length n1 + List.length n2)) in *.
  assert (1 <= N <= 1048576) as NB.
  { unfold N. rewrite INR_IZR_INZ. split; [|change 1048576 with (IZR (2 ^ 20)); apply IZR_le; lia].
    apply IZR_le. destruct n1, n2; cbn [List.length app] in *; try lia. contradiction. }
  assert (0 <= INR (List.length n1) <= N) as K1. { split; [apply pos_INR|]. unfold N. apply le_INR. lia. }
  assert (0 <= INR (List.length n2) <= N) as K2. { split; [apply pos_INR|]. unfold N. apply le_INR. lia. }
  set (w := u * T) in *. assert (0 < w <= / 1048576 * T) as WB. { unfold w. rewrite u_v. lra. }
  set (W := N * w) in *. assert (w <= W) as WW. { unfold W. rewrite <- (Rmult_1_l w) at 1. apply Rmult_le_compat_r; lra. }
  assert (W <= / 8192 * T) as WT.
  { unfold W, w. rewrite <- Rmult_assoc. apply Rmult_le_compat_r; [lra|]. apply Rle_trans with (1048576 * u); [apply Rmult_le_compat_r; [apply bpow_ge_0|lra]|rewrite u_v; lra]. }
  pose proof eta_pos as EP.
  assert (N * eta <= 0.001 * W) as EW.
  { unfold W, w. replace (0.001 * (N * (u * T))) with (N * (0.001 * u * T)) by ring. apply Rmult_le_compat_l; [lra|].
    apply Rle_trans with (0.001 * u * pw (-1000)); [|apply Rmult_le_compat_l; [rewrite u_v; lra|exact TB]].
    apply Rle_trans with (pw (-73) * pw (-1000)); [rewrite <- bpow_plus; apply bpow_le; lia|]. apply Rmult_le_compat_r; [lra|].
    replace (pw (-73)) with (pw (-20) * u) by (rewrite <- bpow_plus; reflexivity). apply Rmult_le_compat_r; [apply bpow_ge_0|]. change (pw (-20)) with (/ 1048576). lra. }
  assert (forall k S, 0 <= k <= N -> 0 <= S -> 3 * k * u * S + k * eta <= 3 * (N * (u * S)) + 0.001 * W) as ER.
  { intros k S Hk HS. assert (k * (u * S) <= N * (u * S)) by (apply Rmult_le_compat_r; [apply Rmult_le_pos; [apply bpow_ge_0|exact HS]|lra]).
    assert (k * eta <= N * eta) by (apply Rmult_le_compat_r; lra). replace (3 * k * u * S) with (3 * (k * (u * S))) by ring. lra. }
  pose proof (ER _ _ K1 N1) as Y1. pose proof (ER _ _ K2 N2) as Y2. clear ER.
  assert (N * (u * S1) + N * (u * S2) = W) as YW by (unfold W, w, T; ring).
  assert (0 <= N * (u * S1)) as Y10 by (apply Rmult_le_pos; [lra|apply Rmult_le_pos; [apply bpow_ge_0|lra]]).
  assert (0 <= N * (u * S2)) as Y20 by (apply Rmult_le_pos; [lra|apply Rmult_le_pos; [apply bpow_ge_0|lra]]).
  apply Rabs_le_inv in X1. apply Rabs_le_inv in X2.
  set (s1 := B2R (mass_d n1)) in *. set (s2 := B2R (mass_d n2)) in *.
  destruct (f_plus _ _ F1 F2) as [Q1 Q2].
  { fold s1 s2. rewrite Rabs_pos_eq by lra. apply Rle_trans with (pw 71); [change 71%Z with (1 + 70)%Z; rewrite bpow_plus; change (pw 1) with 2; lra|apply bpow_le; lia]. }
  fold s1 s2 in Q2. pose proof (rel_sum s1 s2 (fmt_double _) (fmt_double _)) as E2. rewrite <- Q2, (Rabs_pos_eq (s1 + s2)) in E2 by lra. apply Rabs_le_inv in E2.
  set (d := B2R (dplus (mass_d n1) (mass_d n2))) in *.
  assert (u * (s1 + s2) <= 1.01 * w) as E3.
  { replace (1.01 * w) with (u * (1.01 * T)) by (unfold w; ring). apply Rmult_le_compat_l; [apply bpow_ge_0|]. unfold T in *. lra. }
  assert (- (3.01 * W + 1.01 * w) <= d - T <= 3.01 * W + 1.01 * w) as DT by (unfold T in *; lra).
  assert (0.99 * T <= d) as DB by lra.
  assert (s1 <= d) as SD. { rewrite Q2. apply rnd_ge_fmt; [apply fmt_double|lra]. }
  assert (0 <= s1 / d <= 1) as QR.
  { assert (0 < d) by lra. split; [apply Rmult_le_pos; [lra|left; apply Rinv_0_lt_compat; lra]|]. apply Rmult_le_reg_r with d; [lra|]. unfold Rdiv. rewrite Rmult_assoc, Rinv_l by lra. lra. }
  destruct (f_div (mass_d n1) (dplus (mass_d n1) (mass_d n2)) F1) as [D1 D2]; [fold d; lra|fold d s1; rewrite Rabs_pos_eq by lra; pose proof pw_1023; lra|].
  fold (mass_frac_d n1 n2) in D2. fold s1 d in D2. rewrite D2.
  assert (Rabs (s1 / d - S1 / T) <= (7 * N + 2) * u) as QE.
  { set (phi := S1 / T). assert (S1 = phi * T) as SE by (unfold phi; field; lra).
    assert (0 <= phi <= 1) as PH. { unfold phi. split; [apply Rmult_le_pos; [lra|left; apply Rinv_0_lt_compat; lra]|]. apply Rmult_le_reg_r with T; [lra|]. unfold Rdiv. rewrite Rmult_assoc, Rinv_l by lra. unfold T. lra. }
    assert (phi * (d - T) <= 3.01 * W + 1.01 * w /\ - (3.01 * W + 1.01 * w) <= phi * (d - T)) as [G1 G2].
    { split.
      - apply Rle_trans with (phi * (3.01 * W + 1.01 * w)); [apply Rmult_le_compat_l; lra|]. rewrite <- (Rmult_1_l (3.01 * W + 1.01 * w)) at 2. apply Rmult_le_compat_r; lra.
      - apply Rle_trans with (phi * - (3.01 * W + 1.01 * w)); [|apply Rmult_le_compat_l; lra].
        assert (phi * (3.01 * W + 1.01 * w) <= 1 * (3.01 * W + 1.01 * w)) by (apply Rmult_le_compat_r; lra). lra. }
    assert (6.9 * W + 1.9 * w <= (7 * N + 2) * u * d) as KD.
    { apply Rle_trans with ((7 * N + 2) * u * (0.99 * T)).
      - replace ((7 * N + 2) * u * (0.99 * T)) with (0.99 * (7 * W + 2 * w)) by (unfold W, w; ring). lra.
      - apply Rmult_le_compat_l; [apply Rmult_le_pos; [lra|apply bpow_ge_0]|exact DB]. }
    assert (s1 - phi * d = (s1 - S1) - phi * (d - T)) as SS by (rewrite SE; ring).
    assert (s1 / d - phi = (s1 - phi * d) * / d) as -> by (field; lra).
    assert (0 < / d) as ID by (apply Rinv_0_lt_compat; lra).
    rewrite Rabs_mult, (Rabs_pos_eq (/ d)) by lra. apply Rmult_le_reg_r with d; [lra|]. rewrite Rmult_assoc, Rinv_l, Rmult_1_r by lra.
    apply Rle_trans with (2 := KD). apply Rabs_le. rewrite SS. lra. }
  pose proof (rel_any (s1 / d)) as E4. rewrite (Rabs_pos_eq (s1 / d)) in E4 by lra.
  assert (u * (s1 / d) <= u) as E5 by (rewrite <- (Rmult_1_r u) at 2; apply Rmult_le_compat_l; [apply bpow_ge_0|lra]).
  assert (pw (-1074) <= u) as E6 by (apply bpow_le; lia).
  replace (rnd (s1 / d) - S1 / T) with ((rnd (s1 / d) - s1 / d) + (s1 / d - S1 / T)) by ring.
  apply Rle_trans with (1 := Rabs_triang _ _).
  assert (0 <= N * u) by (apply Rmult_le_pos; [lra|apply bpow_ge_0]).
  replace ((8 * N + 8) * u) with (8 * (N * u) + 8 * u) by ring. replace ((7 * N + 2) * u) with (7 * (N * u) + 2 * u) in QE by ring.
  pose proof (bpow_ge_0 radix2 (-53)). lra.
Qed.
