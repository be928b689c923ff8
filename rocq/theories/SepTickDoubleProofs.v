(** Proofs about the Tick of Separations in double precision. *)
From Coq Require Import ZArith Reals List Lia Lra.
From Flocq Require Import Core.Core IEEE754.BinarySingleNaN.
From Verif Require Import Outcome DoubleModel DoubleProofs DoubleFacts DoubleSpec MixerDoubleModel MixerDoubleSpec MixerDoubleProofs SepTickDoubleModel SepTickDoubleSpec.
Import ListNotations.
Local Open Scope R_scope.
Local Existing Instance double_prec.
Local Existing Instance double_emax.
Local Existing Instance fe_valid.

Lemma ltb_true (x y : double) : is_finite x = true -> is_finite y = true -> B2R x < B2R y -> Bltb x y = true.
Proof. intros X Y H. rewrite Bltb_correct by assumption. apply Rlt_bool_true, H. Qed.
Lemma ltb_false (x y : double) : is_finite x = true -> is_finite y = true -> B2R y <= B2R x -> Bltb x y = false.
Proof. intros X Y H. rewrite Bltb_correct by assumption. apply Rlt_bool_false, H. Qed.
Lemma int0 : fin (of_int 0) 0. Proof. apply (f_int 0). reflexivity. Qed.
Lemma int1 : fin (of_int 1) 1. Proof. apply (f_int 1). reflexivity. Qed.
Lemma pw100 : pw 100 <= pw 1000. Proof. apply bpow_le. lia. Qed.
Lemma pw1000 : pw 1000 + pw 1000 <= pw 1023.
Proof. replace (pw 1000 + pw 1000) with (2 * pw 1000) by ring. change 2 with (pw 1). rewrite <- bpow_plus. apply bpow_le. lia. Qed.

Lemma f2_impl {A B} (P Q : A -> B -> Prop) l l' : (forall a b, P a b -> Q a b) -> Forall2 P l l' -> Forall2 Q l l'.
Proof. intros H F. induction F; constructor; auto. Qed.

(** ** The fraction *)
Lemma frac_fold xs : sep_frac_d xs = fold_left (fun t x => dmin t (ddiv (fst x) (snd x))) xs (of_int 1).
Proof. reflexivity. Qed.
Lemma quot_nonneg (q r : double) : quantity_d q -> 0 < B2R r -> 0 <= B2R q / B2R r.
Proof. intros Q P. apply Rmult_le_pos; [apply q_nonneg, Q|left; apply Rinv_0_lt_compat, P]. Qed.
Lemma dmin_nonneg (t q r : double) : is_finite t = true -> 0 <= B2R t -> quantity_d q -> quantity_d r -> 0 <= B2R (dmin t (ddiv q r)).
Proof.
  intros T T0 Q R. unfold dmin. destruct (Rle_lt_or_eq_dec _ _ (q_nonneg r R)) as [P|P].
  - destruct (div_cases q r Q R P) as [[F V]|[E V]].
    + destruct (Bltb (ddiv q r) t); [rewrite V; apply rnd_nonneg, quot_nonneg; assumption|exact T0].
    + rewrite E. replace (Bltb (B754_infinity false) t) with false by (destruct t as [s|s| |s m e H]; try discriminate; destruct s; reflexivity). exact T0.
  - rewrite zero_div by (auto; lra). exact T0.
Qed.
Lemma fold_nonneg xs : Forall stream_ok xs -> forall t, is_finite t = true -> 0 <= B2R t ->
  0 <= B2R (fold_left (fun t x => dmin t (ddiv (fst x) (snd x))) xs t).
Proof.
  induction 1 as [|x xs [X1 X2] H IH]; intros t T T0; cbn [fold_left]; [exact T0|].
  apply IH; [apply dmin_step; assumption|apply dmin_nonneg; assumption].
Qed.
Lemma frac_spec xs : Forall stream_ok xs ->
  is_finite (sep_frac_d xs) = true /\ 0 <= B2R (sep_frac_d xs) <= 1 /\ Forall (serves (B2R (sep_frac_d xs))) xs /\
  (B2R (sep_frac_d xs) = 1 \/ Exists (attains (B2R (sep_frac_d xs))) xs).
Proof.
  intro H. destruct int1 as [O1 O2]. rewrite frac_fold. destruct (fold_serves xs H (of_int 1) O1) as (A & B & C). cbn zeta in A, B, C. rewrite O2 in B.
  split; [exact A|]. split; [split; [apply fold_nonneg; [exact H|exact O1|rewrite O2; lra]|exact B]|]. split; [exact C|].
  destruct (fold_attains xs H (of_int 1) O1) as [E|E]; cbn zeta in E; [left; rewrite E; exact O2|right; exact E].
Qed.
Lemma serves_fits f x : stream_ok x -> serves f x -> fits f x.
Proof.
  intros [X1 X2] S P. specialize (S P). pose proof (quot_nonneg _ _ X1 P) as Q. pose proof (rel_any (B2R (fst x) / B2R (snd x))) as E.
  rewrite (Rabs_pos_eq (B2R (fst x) / B2R (snd x))) in E by exact Q. apply Rabs_le_inv in E.
  assert (forall y, - (u * y + pw (-1074)) <= rnd (B2R (fst x) / B2R (snd x)) - y <= u * y + pw (-1074) -> f <= (1 + u) * y + pw (-1074)) as G by (intros; lra).
  exact (G _ E).
Qed.

(** ** One stream *)
Lemma push_room s m f : fmt s -> 0 <= s < pw 33 -> 0 < m <= pw 100 -> 0 <= f -> f <= rnd (s / m) -> rnd (m * f) <= s + pw (-20).
Proof.
  intros FS [S0 S1] [M0 M1] F0 F. assert (0 <= s / m) as D by (apply Rmult_le_pos; [exact S0|left; apply Rinv_0_lt_compat, M0]).
  assert (s = m * (s / m)) as E by (field; lra).
  destruct (Rle_or_lt (pw (-1022)) (s / m)) as [B|B].
  - apply Rle_trans with (s + ulp radix2 fe s).
    + apply rnd_le_fmt; [apply fmt_next; assumption|]. pose proof (rel_normal (s / m)) as H. rewrite (Rabs_pos_eq (s / m)) in H by exact D. specialize (H B). apply Rabs_le_inv in H.
      pose proof (ulp_rel s S0). apply Rle_trans with (s + u * s); [|lra].
      apply Rle_trans with (m * (s / m + u * (s / m))); [apply Rmult_le_compat_l; lra|right; field; lra].
    + apply Rplus_le_compat_l. apply (ulp_below s 33); [lia|]. rewrite Rabs_pos_eq; lra.
  - apply Rle_trans with (pw (-20)); [|lra]. apply rnd_le_fmt; [apply fmt_pw; lia|].
    assert (rnd (s / m) <= pw (-1022)) as H by (apply rnd_le_fmt; [apply fmt_pw; lia|lra]).
    apply Rle_trans with (pw 100 * pw (-1022)); [apply Rmult_le_compat; lra|]. rewrite <- bpow_plus. apply bpow_le. lia.
Qed.
Lemma mult_unit (q f : double) : is_finite q = true -> is_finite f = true -> 0 <= B2R q <= pw 100 -> 0 <= B2R f <= 1 ->
  fin (dmult q f) (rnd (B2R q * B2R f)) /\ 0 <= B2R q * B2R f <= B2R q.
Proof.
  intros Q F [Q0 Q1] [F0 F1]. assert (0 <= B2R q * B2R f <= B2R q) as P.
  { split; [apply Rmult_le_pos; assumption|]. rewrite <- (Rmult_1_r (B2R q)) at 2. apply Rmult_le_compat_l; assumption. }
  split; [|exact P]. apply f_mult; [exact Q|exact F|]. rewrite Rabs_pos_eq by apply P. apply Rle_trans with (pw 100); [lra|apply bpow_le; lia].
Qed.
Definition one_ok (x : double * double) : Prop := quantity_d (fst x) /\ quantity_d (snd x) /\ B2R (fst x) < pw 33 /\ B2R (snd x) <= pw 100.
Lemma push_spec eps (f : double) xs : is_finite eps = true -> pw (-20) <= B2R eps <= 1 -> is_finite f = true -> 0 <= B2R f <= 1 ->
  Forall one_ok xs -> Forall (serves (B2R f)) xs -> forall M (mat : double), is_finite mat = true -> 0 <= B2R mat <= M -> M <= pw 100 ->
  exists ps (r : double), sep_push_d eps f xs mat = Ok (ps, r) /\ Forall2 (pushed (B2R f)) xs ps /\ is_finite r = true /\ 0 <= B2R r <= B2R mat /\
    Rabs (B2R r - (B2R mat - sum_of ps)) <= INR (List.length xs) * u * M /\
    (forall D, 0 <= D -> sum_of (map snd xs) <= B2R mat + D ->
       Forall2 (fun x p => Rabs (B2R p - B2R f * B2R (snd x)) <= (INR (List.length xs) + 1) * u * M + D + pw (-1074)) xs ps) /\
    (B2R f = 0 -> B2R r = B2R mat).
Proof.
  intros E1 E2 F1 F2 H. destruct int0 as [Z1 Z2]. assert (0 < u) as U0 by apply bpow_gt_0.
  induction H as [|[s m] xs (X1 & X2 & X3 & X4) H IH]; intros SV M mat A B C.
  - exists [], mat. cbn [sep_push_d List.length sum_of fold_right INR map]. repeat split; try assumption; try lra; [constructor| |intros; constructor].
    rewrite Rminus_0_r, Rminus_diag_eq by reflexivity. rewrite Rabs_R0. lra.
  - inversion SV as [|? ? S1 S2]; subst. cbn [fst snd] in *. pose proof (q_nonneg _ X1) as P1. pose proof (q_nonneg _ X2) as P2.
    assert (0 <= u * M) as UM by (apply Rmult_le_pos; lra). pose proof (pw_small (-1074)) as T0. pose proof (pw_small (-20)) as T1.
    cbn [sep_push_d]. destruct (Rle_lt_or_eq_dec _ _ P2) as [P|P].
    + rewrite (ltb_true (of_int 0) m Z1) by (try apply X2; rewrite Z2; exact P).
      set (q := if Bltb mat m then mat else m).
      assert (is_finite q = true /\ 0 <= B2R q <= B2R m /\ B2R q <= B2R mat /\ (B2R m <= B2R mat -> B2R q = B2R m) /\ (B2R mat <= B2R m -> B2R q = B2R mat)) as (Q1 & Q2 & Q3 & Q4 & Q5).
      { unfold q. rewrite Bltb_correct by (try assumption; apply X2). destruct (Rlt_bool_spec (B2R mat) (B2R m)) as [L|L]; repeat split; try assumption; try lra; try apply X2. }
      destruct (mult_unit q f Q1 F1) as [[W1 W2] W3]; [lra|lra|]. set (x := dmult q f) in *.
      assert (0 <= B2R x <= B2R q) as XR.
      { rewrite W2. split; [apply rnd_nonneg; lra|apply rnd_le_fmt; [apply fmt_double|lra]]. }
      assert (B2R x <= B2R s + pw (-20)) as XS.
      { rewrite W2. apply Rle_trans with (rnd (B2R m * B2R f)); [apply rnd_le, Rmult_le_compat_r; lra|]. apply push_room; [apply fmt_double|lra|lra|lra|exact (S1 P)]. }
      rewrite (ltb_false mat x) by (assumption || lra).
      destruct (f_minus x s W1 (proj1 X1)) as [V1 V2].
      { apply Rabs_le. pose proof pw100. pose proof pw1000. assert (pw 33 <= pw 1000) by (apply bpow_le; lia). lra. }
      rewrite (ltb_false eps (dminus x s)); [|exact E1|exact V1|rewrite V2; apply Rle_trans with (pw (-20)); [apply rnd_le_fmt; [apply fmt_pw; lia|lra]|lra]].
      destruct (f_minus mat x A W1) as [Y1 Y2]. { apply Rabs_le. pose proof pw100. pose proof pw1000. lra. }
      assert (Rabs (B2R (dminus mat x) - (B2R mat - B2R x)) <= u * M) as YE.
      { rewrite Y2. pose proof (rel_diff (B2R mat) (B2R x) (fmt_double mat) (fmt_double x)) as R. rewrite (Rabs_pos_eq (B2R mat - B2R x)) in R by lra.
        apply Rle_trans with (1 := R). apply Rmult_le_compat_l; lra. }
      assert (0 <= B2R (dminus mat x) <= B2R mat) as YR.
      { rewrite Y2. split; [apply rnd_nonneg; lra|apply rnd_le_fmt; [apply fmt_double|lra]]. }
      destruct (IH S2 M (dminus mat x) Y1) as (ps & r & I1 & I2 & I3 & I4 & I5 & I6 & I7); [lra|exact C|].
      exists (x :: ps), r. rewrite I1. cbn [bind]. split; [reflexivity|].
      pose proof (rel_any (B2R q * B2R f)) as RX. rewrite <- W2, (Rabs_pos_eq (B2R q * B2R f)) in RX by lra. apply Rabs_le_inv in RX.
      assert (B2R q * B2R f <= B2R f * B2R m) as QM by (rewrite (Rmult_comm (B2R f)); apply Rmult_le_compat_r; lra).
      assert (0 <= u * (B2R q * B2R f) <= u * (B2R f * B2R m)) as UQ by (split; [apply Rmult_le_pos; lra|apply Rmult_le_compat_l; lra]).
      split. { constructor; [|exact I2]. unfold pushed. cbn [fst snd]. split; [exact W1|]. split; [lra|]. split; [exact XS|lra]. }
      split; [exact I3|]. split; [lra|]. cbn [List.length]. rewrite S_INR. apply Rabs_le_inv in I5. apply Rabs_le_inv in YE. split; [|split].
      * cbn [sum_of fold_right]. fold (sum_of ps). apply Rabs_le. split; lra.
      * intros D D0 SM. cbn [map sum_of fold_right] in SM. fold (sum_of (map snd xs)) in SM. cbn [snd] in SM.
        assert (0 <= sum_of (map snd xs)) as SP.
        { apply sum_nonneg. apply Forall_map. eapply Forall_impl; [|exact H]. intros y (_ & Y & _). split; [apply Y|apply q_nonneg, Y]. }
        assert (0 <= INR (List.length xs) * u * M) as NN by (rewrite Rmult_assoc; apply Rmult_le_pos; [apply pos_INR|exact UM]).
        assert (B2R m - D <= B2R q) as QD by (destruct (Rle_or_lt (B2R m) (B2R mat)) as [L|L]; [rewrite Q4 by exact L; lra|rewrite Q5 by lra; lra]).
        assert (B2R m * B2R f - D <= B2R q * B2R f) as QF.
        { assert (0 <= (B2R q - B2R m + D) * B2R f) as Z by (apply Rmult_le_pos; lra). assert (D * B2R f <= D * 1) by (apply Rmult_le_compat_l; lra).
          rewrite Rmult_plus_distr_r, Rmult_minus_distr_r in Z. lra. }
        assert (u * (B2R q * B2R f) <= u * M) as UB by (apply Rmult_le_compat_l; lra).
        constructor.
        -- cbn [snd]. rewrite (Rmult_comm (B2R f)). apply Rabs_le. rewrite (Rmult_comm (B2R f)) in QM. split; lra.
        -- specialize (I6 (D + u * M)). destruct (Rle_or_lt (B2R x) (B2R m)) as [_|]; [|lra].
           assert (sum_of (map snd xs) <= B2R (dminus mat x) + (D + u * M)) as SM' by lra.
           eapply f2_impl; [|apply I6; [lra|exact SM']]. cbn beta. intros y p Y. apply Rle_trans with (1 := Y). lra.
      * intro FZ. rewrite I7 by exact FZ. rewrite Y2, W2, FZ, Rmult_0_r, rnd_0, Rminus_0_r. apply rnd_id, fmt_double.
    + rewrite (ltb_false (of_int 0) m Z1) by (try apply X2; rewrite Z2; lra).
      destruct (IH S2 M mat A B C) as (ps & r & I1 & I2 & I3 & I4 & I5 & I6 & I7). exists (of_int 0 :: ps), r. rewrite I1. cbn [bind]. split; [reflexivity|].
      split. { constructor; [|exact I2]. unfold pushed. cbn [fst snd]. rewrite Z2, <- P. split; [exact Z1|]. split; [lra|]. split; [lra|]. rewrite !Rmult_0_r. lra. }
      split; [exact I3|]. split; [exact I4|]. cbn [List.length]. rewrite S_INR. apply Rabs_le_inv in I5. split; [|split; [|exact I7]].
      * cbn [sum_of fold_right]. fold (sum_of ps). rewrite Z2. apply Rabs_le. split; lra.
      * intros D D0 SM. cbn [map sum_of fold_right] in SM. fold (sum_of (map snd xs)) in SM. cbn [snd] in SM.
        assert (0 <= INR (List.length xs) * u * M) as NN by (rewrite Rmult_assoc; apply Rmult_le_pos; [apply pos_INR|exact UM]).
        constructor.
        -- cbn [snd]. rewrite Z2, <- P, Rmult_0_r, Rminus_0_r, Rabs_R0. lra.
        -- eapply f2_impl; [|apply (I6 D); lra]. cbn beta. intros y p Y. apply Rle_trans with (1 := Y). lra.
Qed.

(** ** The whole tick *)
Lemma pushed_sum f xs ps : Forall2 (pushed f) xs ps -> sum_of ps <= (1 + u) * (f * sum_of (map snd xs)) + INR (List.length xs) * pw (-1074).
Proof.
  induction 1 as [|x p xs ps (P1 & P2 & P3 & P4) H IH]; [cbn; lra|]. cbn [map sum_of fold_right List.length]. fold (sum_of ps). fold (sum_of (map snd xs)).
  rewrite S_INR, !Rmult_plus_distr_l. lra.
Qed.
Lemma pushed_nonneg f xs ps : Forall2 (pushed f) xs ps -> 0 <= sum_of ps.
Proof. induction 1 as [|x p xs ps (P1 & P2 & P3 & P4) H IH]; [cbn; lra|]. cbn [sum_of fold_right]. fold (sum_of ps). lra. Qed.
Lemma left_spec (eps L M r : double) : is_finite eps = true -> 0 <= B2R eps -> is_finite L = true -> is_finite r = true -> 0 <= B2R r <= B2R M -> B2R M <= B2R L <= pw 1000 ->
  exists l : double, sep_left_d eps L r = Ok l /\ is_finite l = true /\ B2R l = B2R r.
Proof.
  intros E1 E2 L1 R1 R2 L2. destruct int0 as [Z1 Z2]. unfold sep_left_d. destruct (Rle_lt_or_eq_dec _ _ (proj1 R2)) as [P|P].
  - rewrite (ltb_true (of_int 0) r Z1 R1) by (rewrite Z2; exact P). destruct (f_minus r L R1 L1) as [V1 V2].
    { pose proof pw1000. pose proof (pw_small 1000). apply Rabs_le. lra. }
    rewrite (ltb_false eps (dminus r L) E1 V1); [exists r; auto|]. rewrite V2. apply Rle_trans with 0; [|exact E2]. rewrite <- rnd_0. apply rnd_le. lra.
  - rewrite (ltb_false (of_int 0) r Z1 R1) by (rewrite Z2; lra). exists (of_int 0). rewrite Z2. auto.
Qed.
Lemma eqb_one (f : double) : is_finite f = true -> Beqb f (of_int 1) = Req_bool (B2R f) 1.
Proof. intro F. destruct int1 as [O1 O2]. rewrite Beqb_correct by assumption. rewrite O2. reflexivity. Qed.

Lemma tick_spec eps FS LS (orig : double) xs : sep_state (pw 33) eps FS LS orig xs ->
  let f := B2R (sep_frac_d xs) in let n := INR (List.length xs) in let M := B2R orig in
  0 <= f <= 1 /\ Forall (fits f) xs /\ (f = 1 \/ Exists (attains f) xs) /\
  ((exists ps back left, sep_tick_d eps FS LS orig xs = Ok (ps, back, left) /\ Forall2 (pushed f) xs ps /\
      is_finite back = true /\ 0 <= B2R back <= M /\ Rabs (B2R back - (1 - f) * M) <= 3 * u * M /\
      is_finite left = true /\ 0 <= B2R left <= M /\ Rabs (sum_of ps + B2R back + B2R left - M) <= (n + 2) * u * M /\
      (forall k, 0 <= k -> sum_of (map snd xs) <= M * (1 + k * u) -> Forall2 (fun x p => Rabs (B2R p - f * B2R (snd x)) <= (n + k + 2) * u * M) xs ps)) \/
   (sep_tick_d eps FS LS orig xs = Throw ValueError /\ 0 < f < 1 /\ f * (M - sum_of (map snd xs)) < (n + 8) * u * M)).
Proof.
  intros ((E1 & E2) & (O1 & O2) & (F1 & F2) & (L1 & L2) & LN & XS). cbn zeta.
  assert (Forall stream_ok xs) as SO by (eapply Forall_impl; [|exact XS]; intros x (A & B & _); split; assumption).
  destruct (frac_spec xs SO) as (G1 & G2 & G3 & G4). unfold sep_tick_d. set (fd := sep_frac_d xs) in *. set (f := B2R fd) in *. set (n := INR (List.length xs)). set (M := B2R orig) in *.
  split; [exact G2|]. split. { apply Forall_forall. intros x I. apply serves_fits; [exact (proj1 (Forall_forall _ _) SO x I)|exact (proj1 (Forall_forall _ _) G3 x I)]. }
  split; [exact G4|]. destruct int1 as [I1 I2].
  pose proof (pw_small (-900)) as T9. pose proof (pw_small (-20)) as T20. pose proof (pw_small (-1074)) as T1074. assert (0 < u) as U0 by apply bpow_gt_0. pose proof u_val as UV.
  assert (0 < M) as M0 by lra. assert (0 < u * M) as UM by (apply Rmult_lt_0_compat; assumption).
  destruct (push_spec eps fd xs E1 E2 G1 G2 XS G3 M orig O1) as (ps & r & P1 & P2 & P3 & P4 & P5 & P6 & P7); [split; [left; exact M0|apply Rle_refl]|apply O2|].
  rewrite P1. cbn [bind]. fold M in P4, P5, P6, P7. fold n in P5, P6. fold f in P2, P6, P7.
  assert (1048580 * pw (-1074) <= u * M) as TINY.
  { apply Rle_trans with (pw (-53) * pw (-900)); [|apply Rmult_le_compat_l; lra]. rewrite <- bpow_plus.
    apply Rle_trans with (pw 21 * pw (-1074)); [apply Rmult_le_compat_r; [lra|]; change (pw 21) with 2097152; lra|rewrite <- bpow_plus; apply bpow_le; lia]. }
  assert (0 <= n <= 1048576) as NB. { unfold n. split; [apply pos_INR|]. rewrite INR_IZR_INZ. change 1048576 with (IZR (2 ^ 20)). apply IZR_le. lia. }
  assert (n * pw (-1074) <= 1048576 * pw (-1074)) as NT by (apply Rmult_le_compat_r; lra).
  assert (forall k, 0 <= k -> sum_of (map snd xs) <= M * (1 + k * u) -> Forall2 (fun x p => Rabs (B2R p - f * B2R (snd x)) <= (n + k + 2) * u * M) xs ps) as PARTS.
  { intros k K S. eapply f2_impl; [|apply (P6 (k * u * M)); [apply Rmult_le_pos; [apply Rmult_le_pos; lra|lra]|]]. 2: { replace (M + k * u * M) with (M * (1 + k * u)) by ring. exact S. } cbn beta. intros x p H. apply Rle_trans with (1 := H). replace ((n + k + 2) * u * M) with ((n + 1) * u * M + k * u * M + u * M) by ring. lra. }
  pose proof (pushed_sum f xs ps P2) as PS. fold n in PS. pose proof (pushed_nonneg f xs ps P2) as PN. apply Rabs_le_inv in P5.
  unfold sep_back_d. rewrite (eqb_one fd G1). fold f. destruct (Req_bool_spec f 1) as [F|F].
  - cbn [bind]. destruct (left_spec eps LS orig r E1) as (l & X1 & X2 & X3); try assumption; [lra|]. rewrite X1. cbn [bind]. left. destruct int0 as [Z1 Z2].
    exists ps, (of_int 0), l. split; [reflexivity|]. split; [exact P2|]. split; [exact Z1|]. rewrite Z2, X3. fold M. split; [lra|]. split.
    { rewrite F. replace (0 - (1 - 1) * M) with 0 by ring. rewrite Rabs_R0. lra. }
    split; [exact X2|]. split; [lra|]. split; [apply Rabs_le; lra|exact PARTS].
  - destruct (f_minus (of_int 1) fd I1 G1) as [A1 A2]. { rewrite I2. fold f. rewrite Rabs_pos_eq by lra. apply Rle_trans with 1; [lra|apply (bpow_le radix2 0 1023); lia]. }
    rewrite I2 in A2. fold f in A2. set (g := dminus (of_int 1) fd) in *.
    assert (0 <= B2R g <= 1) as GR. { rewrite A2. split; [apply rnd_nonneg; lra|apply rnd_le_fmt; [apply fmt_1|lra]]. }
    destruct (mult_unit orig g O1 A1) as [[_ _] B3]; [fold M; lra|exact GR|]. fold M in B3.
    assert (fin (dmult g orig) (rnd (B2R g * M))) as [B1 B2].
    { apply f_mult; [exact A1|exact O1|]. fold M. rewrite Rmult_comm, Rabs_pos_eq by lra. apply Rle_trans with (pw 100); [lra|apply bpow_le; lia]. }
    set (b := dmult g orig) in *.
    assert (0 <= B2R b <= M) as BR. { rewrite B2, Rmult_comm. split; [apply rnd_nonneg; lra|apply rnd_le_fmt; [apply fmt_double|lra]]. }
    assert (Rabs (B2R b - (1 - f) * M) <= 3 * u * M) as BE.
    { pose proof (rel_any (B2R g * M)) as R1. rewrite <- B2, (Rmult_comm (B2R g)), (Rabs_pos_eq (M * B2R g)) in R1 by lra.
      pose proof (abs_unit (1 - f)) as R2. rewrite <- A2, (Rabs_pos_eq (1 - f)) in R2 by lra. specialize (R2 ltac:(lra)).
      apply Rabs_le_inv in R1. apply Rabs_le_inv in R2. assert (pw (-54) <= u) as U54 by (apply bpow_le; lia).
      assert (Rabs (M * B2R g - (1 - f) * M) <= u * M) as R3.
      { replace (M * B2R g - (1 - f) * M) with ((B2R g - (1 - f)) * M) by ring. rewrite Rabs_mult, (Rabs_pos_eq M) by lra. apply Rmult_le_compat_r; [lra|]. apply Rabs_le. lra. }
      apply Rabs_le_inv in R3. assert (u * (M * B2R g) <= u * M) by (apply Rmult_le_compat_l; lra). apply Rabs_le. lra. }
    rewrite (Bltb_correct _ _ r b P3 B1). destruct (Rlt_bool_spec (B2R r) (B2R b)) as [LT|GE].
    + right. cbn [bind]. split; [reflexivity|]. split.
      * split; [|lra]. destruct (Rle_lt_or_eq_dec _ _ (proj1 G2)) as [Q|Q]; [exact Q|]. exfalso. symmetry in Q. specialize (P7 Q).
        assert (B2R b = M); [|lra]. rewrite B2, A2, Q, Rminus_0_r, rnd_1, Rmult_1_l. apply rnd_id, fmt_double.
      * apply Rabs_le_inv in BE. destruct (Rle_or_lt (sum_of (map snd xs)) M) as [S|S].
        -- assert (f * sum_of (map snd xs) <= 1 * sum_of (map snd xs)).
           { apply Rmult_le_compat_r; [|lra]. apply sum_nonneg. apply Forall_map. eapply Forall_impl; [|exact XS]. intros y (_ & Y & _). split; [apply Y|apply q_nonneg, Y]. }
           assert (u * (f * sum_of (map snd xs)) <= u * M) by (apply Rmult_le_compat_l; lra). rewrite Rmult_plus_distr_r, Rmult_1_l in PS. lra.
        -- assert (0 <= f * (sum_of (map snd xs) - M)) by (apply Rmult_le_pos; lra). assert (0 <= n * u * M) by (rewrite Rmult_assoc; apply Rmult_le_pos; lra). lra.
    + destruct (f_minus b FS B1 F1) as [V1 V2]. { pose proof pw1000. pose proof (pw_small 1000). apply Rabs_le. lra. }
      rewrite (ltb_false eps (dminus b FS) E1 V1); [|rewrite V2; apply Rle_trans with 0; [rewrite <- rnd_0; apply rnd_le; lra|lra]]. cbn [bind].
      destruct (f_minus r b P3 B1) as [W1 W2]. { pose proof pw1000. pose proof pw100. apply Rabs_le. lra. }
      assert (0 <= B2R (dminus r b) <= M) as WR. { rewrite W2. split; [apply rnd_nonneg; lra|apply Rle_trans with (B2R r); [apply rnd_le_fmt; [apply fmt_double|lra]|lra]]. }
      destruct (left_spec eps LS orig (dminus r b) E1) as (l & X1 & X2 & X3); try assumption; [lra|]. rewrite X1. cbn [bind]. left.
      exists ps, b, l. split; [reflexivity|]. split; [exact P2|]. split; [exact B1|]. split; [exact BR|]. split; [exact BE|]. split; [exact X2|]. rewrite X3. split; [exact WR|].
      split; [|exact PARTS]. pose proof (rel_diff (B2R r) (B2R b) (fmt_double r) (fmt_double b)) as R. rewrite <- W2, (Rabs_pos_eq (B2R r - B2R b)) in R by lra. apply Rabs_le_inv in R.
      assert (u * (B2R r - B2R b) <= u * M) by (apply Rmult_le_compat_l; lra). apply Rabs_le. lra.
Qed.
