(** Proofs about the arithmetic of the Mixer in double precision. *)
From Coq Require Import ZArith Reals List Lia Lra.
From Flocq Require Import Core.Core IEEE754.BinarySingleNaN.
From Verif Require Import Outcome DoubleModel DoubleProofs DoubleFacts DoubleSpec MixerDoubleModel MixerDoubleSpec.
Import ListNotations.
Local Open Scope R_scope.
Local Existing Instance double_prec.
Local Existing Instance double_emax.
Local Existing Instance fe_valid.

Lemma q_nonneg x : quantity_d x -> 0 <= B2R x.
Proof. intros [F S]. destruct x as [s|s| |s m e H]; try discriminate; cbn in *; [lra|]. subst s. apply F2R_ge_0. cbn. lia. Qed.
Lemma fmt_B2R (x : double) : fmt (B2R x). Proof. apply generic_format_B2R. Qed.
Lemma pw_small e : 0 < pw e. Proof. apply bpow_gt_0. Qed.
Lemma u_val : u = / 9007199254740992. Proof. reflexivity. Qed.

(** ** One draw *)
Lemma ulp_0 : ulp radix2 fe 0 = pw (-1074).
Proof. change fe with (FLT_exp (-1074) 53). rewrite ulp_FLT_small; [reflexivity|reflexivity|rewrite Rabs_R0; apply bpow_gt_0]. Qed.
Lemma ulp_ge (x : R) : pw (-1074) <= ulp radix2 fe x.
Proof.
  destruct (Req_dec x 0) as [->|N]; [rewrite ulp_0; apply Rle_refl|].
  rewrite ulp_neq_0 by exact N. apply bpow_le. unfold cexp, SpecFloat.fexp, SpecFloat.emin. lia.
Qed.
Lemma ulp_below x e : (-1021 <= e)%Z -> Rabs x < pw e -> ulp radix2 fe x <= pw (e - 53).
Proof.
  intros E H. destruct (Req_dec x 0) as [->|N]; [rewrite ulp_0; apply bpow_le; lia|].
  rewrite ulp_neq_0 by exact N. apply bpow_le. unfold cexp, SpecFloat.fexp, SpecFloat.emin. pose proof (mag_le_bpow radix2 x e N H). lia.
Qed.
Lemma ulp_rel x : 0 <= x -> u * x <= ulp radix2 fe x.
Proof.
  intro P. destruct (Req_dec x 0) as [->|N]; [rewrite Rmult_0_r; apply ulp_ge_0|].
  rewrite ulp_neq_0 by exact N. pose proof (bpow_mag_gt radix2 x) as H. rewrite Rabs_pos_eq in H by exact P.
  apply Rle_trans with (u * pw (mag radix2 x)); [apply Rmult_le_compat_l; [apply bpow_ge_0|lra]|].
  rewrite <- bpow_plus. apply bpow_le. unfold cexp, SpecFloat.fexp, SpecFloat.emin. lia.
Qed.
Lemma fmt_next (q : R) : fmt q -> 0 <= q -> fmt (q + ulp radix2 fe q).
Proof. intros F P. rewrite <- succ_eq_pos by exact P. apply generic_format_succ; [exact fe_valid|exact F]. Qed.
Lemma draw_le q r t : fmt q -> 0 <= q -> 0 < r <= 2 -> t <= rnd (q / r) -> rnd (r * t) <= q + ulp radix2 fe q.
Proof.
  intros F P [R0 R2] T. apply rnd_le_fmt; [apply fmt_next; assumption|].
  apply Rle_trans with (r * rnd (q / r)); [apply Rmult_le_compat_l; lra|].
  assert (0 <= q / r) as D by (apply Rmult_le_pos; [exact P|left; apply Rinv_0_lt_compat, R0]).
  assert (q = r * (q / r)) as E by (field; lra).
  destruct (Rle_or_lt (pw (-1022)) (q / r)) as [B|B].
  - pose proof (rel_normal (q / r)) as H. rewrite Rabs_pos_eq in H by exact D. specialize (H B). apply Rabs_le_inv in H.
    pose proof (ulp_rel q P). apply Rle_trans with (q + u * q); [|lra].
    apply Rle_trans with (r * (q / r + u * (q / r))); [apply Rmult_le_compat_l; lra|right; field; lra].
  - pose proof (error_le_half_ulp radix2 fe (fun z => negb (Z.even z)) (q / r)) as H.
    change (round radix2 fe (Znearest (fun z => negb (Z.even z))) (q / r)) with (rnd (q / r)) in H.
    change fe with (FLT_exp (-1074) 53) in H. rewrite ulp_FLT_small in H; [|reflexivity|rewrite Rabs_pos_eq by exact D; apply Rlt_le_trans with (1 := B); apply bpow_le; lia]. apply Rabs_le_inv in H. pose proof (ulp_ge q). pose proof (pw_small (-1074)).
    apply Rle_trans with (r * (q / r + / 2 * pw (-1074))); [apply Rmult_le_compat_l; lra|].
    rewrite Rmult_plus_distr_l, <- E. apply Rplus_le_compat_l. apply Rle_trans with (2 * (/ 2 * pw (-1074))); [|lra].
    apply Rmult_le_compat_r; lra.
Qed.
(** Below 2 ^ 34 the tolerance covers one unit in the last place. *)
Lemma tol_covers q e : fmt q -> 0 <= q < pw 34 -> pw (-20) < e -> q + ulp radix2 fe q <= rnd (q + e).
Proof.
  intros F [P Q] E. apply round_N_ge_midp; [apply fe_valid|apply fmt_next; assumption|].
  rewrite <- succ_eq_pos by exact P. rewrite pred_succ; [|exact fe_valid|exact F]. rewrite succ_eq_pos by exact P.
  pose proof (ulp_below q 34 ltac:(lia)) as U. rewrite Rabs_pos_eq in U by exact P. specialize (U Q). change (34 - 53)%Z with (-19)%Z in U.
  change (pw (-19)) with (/ IZR (Zpower_pos radix2 19)) in U. change (pw (-20)) with (/ IZR (Zpower_pos radix2 20)) in E.
  cbn in U, E. lra.
Qed.

(** ** The target *)
Lemma div_cases q r : quantity_d q -> quantity_d r -> 0 < B2R r ->
  fin (ddiv q r) (rnd (B2R q / B2R r)) \/ (ddiv q r = B754_infinity false /\ pw 1024 <= rnd (B2R q / B2R r)).
Proof.
  intros Q R P. pose proof (Bdiv_correct 53 1024 _ _ mode_NE q r ltac:(lra)) as C.
  change (round radix2 fe (round_mode mode_NE) (B2R q / B2R r)) with (rnd (B2R q / B2R r)) in C.
  destruct (Rlt_bool_spec (Rabs (rnd (B2R q / B2R r))) (pw 1024)) as [L|L].
  - left. destruct C as (C1 & C2 & _). split; [etransitivity; [exact C2|apply Q]|exact C1].
  - right. destruct Q as [Q1 Q2], R as [R1 R2]. rewrite Q2, R2 in C. cbn in C. split.
    + unfold ddiv. destruct (Bdiv mode_NE q r); cbn in C; try discriminate. injection C as ->. reflexivity.
    + rewrite Rabs_pos_eq in L; [exact L|]. apply rnd_nonneg. apply Rmult_le_pos; [apply q_nonneg; split; assumption|left; apply Rinv_0_lt_compat, P].
Qed.
Lemma below_max_d (t : double) : is_finite t = true -> B2R t <= pw 1024.
Proof. intro F. left. apply Rle_lt_trans with (Rabs (B2R t)); [apply Rle_abs|]. apply abs_B2R_lt_emax. Qed.
Lemma zero_div q r : quantity_d q -> quantity_d r -> B2R r = 0 -> forall t : double, is_finite t = true -> Bltb (ddiv q r) t = false.
Proof.
  intros Q R Z t T. assert (r = B754_zero false) as ->.
  { destruct R as [R1 R2]. destruct r as [s|s| |s m e H]; try discriminate; cbn in *; [subst; reflexivity|]. subst s. apply eq_0_F2R in Z. discriminate. }
  destruct Q as [Q1 Q2]. destruct q as [s|s| |s m e H]; try discriminate; cbn in Q2; subst; destruct t; try discriminate; try reflexivity; cbn; destruct s; reflexivity.
Qed.
Lemma dmin_step t q r : is_finite t = true -> quantity_d q -> quantity_d r ->
  is_finite (dmin t (ddiv q r)) = true /\ B2R (dmin t (ddiv q r)) <= B2R t /\ (0 < B2R r -> B2R (dmin t (ddiv q r)) <= rnd (B2R q / B2R r)).
Proof.
  intros T Q R. unfold dmin. destruct (Rle_lt_or_eq_dec _ _ (q_nonneg r R)) as [P|P].
  - destruct (div_cases q r Q R P) as [[F V]|[E V]].
    + rewrite Bltb_correct by assumption. rewrite V. destruct (Rlt_bool_spec (rnd (B2R q / B2R r)) (B2R t)) as [L|L]; [rewrite V|]; repeat split; try assumption; intros; lra.
    + rewrite E. replace (Bltb (B754_infinity false) t) with false by (destruct t as [s|s| |s m e H]; try discriminate; destruct s; reflexivity).
      pose proof (below_max_d t T). repeat split; [assumption|lra|lra].
  - rewrite zero_div by (auto; lra). repeat split; [assumption|lra|lra].
Qed.
Definition stream_ok (x : double * double) : Prop := quantity_d (fst x) /\ quantity_d (snd x).
Definition serves (t : R) (x : double * double) : Prop := 0 < B2R (snd x) -> t <= rnd (B2R (fst x) / B2R (snd x)).
Lemma fold_serves xs : Forall stream_ok xs -> forall t, is_finite t = true ->
  let m := fold_left (fun t x => dmin t (ddiv (fst x) (snd x))) xs t in
  is_finite m = true /\ B2R m <= B2R t /\ Forall (serves (B2R m)) xs.
Proof.
  induction 1 as [|x xs [X1 X2] H IH]; intros t T; cbn [fold_left].
  - cbn. repeat split; [exact T|lra|constructor].
  - destruct (dmin_step t (fst x) (snd x) T X1 X2) as (D1 & D2 & D3). specialize (IH _ D1). cbn zeta in IH. destruct IH as (I1 & I2 & I3). cbn zeta.
    repeat split; [exact I1|lra|]. constructor; [|exact I3]. intro P. specialize (D3 P). lra.
Qed.
Lemma target_spec space thr qs rs : is_finite space = true -> is_finite thr = true -> Forall stream_ok (combine qs rs) ->
  let t := target_d space thr qs rs in
  is_finite t = true /\ B2R t <= B2R space /\ B2R t <= B2R thr /\ Forall (serves (B2R t)) (combine qs rs).
Proof.
  intros S T H. destruct (fold_serves _ H space S) as (I1 & I2 & I3). cbn zeta. unfold target_d, dmin. set (m := fold_left _ _ _) in *.
  rewrite Bltb_correct by assumption. destruct (Rlt_bool_spec (B2R thr) (B2R m)) as [L|L]; repeat split; try assumption; try lra.
  eapply Forall_impl; [|exact I3]. intros x X P. specialize (X P). lra.
Qed.

(** ** The draws *)
Lemma mult_fin (r t : double) : quantity_d r -> B2R r <= 2 -> is_finite t = true -> 0 <= B2R t <= pw 1000 ->
  fin (dmult r t) (rnd (B2R r * B2R t)) /\ 0 <= B2R r * B2R t <= pw 1001.
Proof.
  intros R R2 T [T0 T1]. pose proof (q_nonneg r R) as R0.
  assert (0 <= B2R r * B2R t <= pw 1001) as B.
  { split; [apply Rmult_le_pos; assumption|]. change (pw 1001) with (pw (1 + 1000)). rewrite bpow_plus. apply Rmult_le_compat; assumption. }
  split; [|exact B]. apply f_mult; [apply R|exact T|]. rewrite Rabs_pos_eq by apply B. apply Rle_trans with (pw 1001); [apply B|apply bpow_le; lia].
Qed.
Lemma plus_eps_fin (q eps : double) : quantity_d q -> B2R q <= pw 1000 -> is_finite eps = true -> 0 <= B2R eps <= 1 ->
  fin (dplus q eps) (rnd (B2R q + B2R eps)).
Proof.
  intros Q B E [E0 E1]. pose proof (q_nonneg q Q) as Q0. apply f_plus; [apply Q|exact E|]. rewrite Rabs_pos_eq by lra.
  assert (1 <= pw 1000) by (change 1 with (pw 0); apply bpow_le; lia). apply Rle_trans with (2 * pw 1000); [lra|].
  change 2 with (pw 1). rewrite <- bpow_plus. apply bpow_le. lia.
Qed.
(** What a draw takes if it succeeds. *)
Definition drawn (t : R) (x : double * double) (d : double) : Prop :=
  is_finite d = true /\ 0 <= B2R d <= B2R (fst x) /\ B2R d <= rnd (B2R (snd x) * t) /\
  rnd (B2R (snd x) * t) - B2R d <= 2 * u * rnd (B2R (snd x) * t) + pw (-1074).
Lemma ulp_upper x : 0 <= x -> ulp radix2 fe x <= 2 * u * x + pw (-1074).
Proof.
  intro P. destruct (Req_dec x 0) as [->|N]; [rewrite ulp_0; lra|]. rewrite ulp_neq_0 by exact N. unfold cexp, SpecFloat.fexp, SpecFloat.emin.
  destruct (Z.max_spec (mag radix2 x - 53) (3 - 1024 - 53)) as [[A ->]|[A ->]].
  - change (3 - 1024 - 53)%Z with (-1074)%Z. assert (0 <= 2 * u * x); [|lra]. apply Rmult_le_pos; [|exact P]. pose proof (pw_small (-53)). lra.
  - replace (mag radix2 x - 53)%Z with (1 + -53 + (mag radix2 x + - (1)))%Z by lia. rewrite !bpow_plus. change (pw 1) with 2.
    pose proof (bpow_mag_le radix2 x N) as H. rewrite Rabs_pos_eq in H by exact P. unfold Z.sub in H. rewrite bpow_plus in H. pose proof (pw_small (-1074)).
    assert (2 * u * (pw (mag radix2 x) * pw (- (1))) <= 2 * u * x); [|lra]. apply Rmult_le_compat_l; [|exact H]. pose proof (pw_small (-53)). lra.
Qed.
Lemma pop_spec eps t q r : quantity_d q -> B2R q <= pw 1000 -> quantity_d r -> B2R r <= 2 -> is_finite t = true -> 0 <= B2R t <= pw 1000 ->
  is_finite eps = true -> 0 <= B2R eps <= 1 -> serves (B2R t) (q, r) ->
  (forall d, pop_d eps q (dmult r t) = Ok d -> drawn (B2R t) (q, r) d) /\
  (B2R q < pw 34 -> pw (-20) < B2R eps -> exists d, pop_d eps q (dmult r t) = Ok d).
Proof.
  intros Q QB R R2 T TB E EB S. destruct (mult_fin r t R R2 T TB) as [[PF PV] PB]. pose proof (plus_eps_fin q eps Q QB E EB) as [SF SV].
  pose proof (q_nonneg q Q) as Q0. pose proof (q_nonneg r R) as R0.
  assert (rnd (B2R r * B2R t) <= B2R q + ulp radix2 fe (B2R q)) as U.
  { destruct (Rle_lt_or_eq_dec _ _ R0) as [RP|RZ].
    - apply draw_le; [apply fmt_B2R|exact Q0|lra|]. apply (S RP).
    - rewrite <- RZ, Rmult_0_l, rnd_id by apply generic_format_0. pose proof (ulp_ge_0 radix2 fe (B2R q)). lra. }
  pose proof (rnd_nonneg _ (proj1 PB)) as PN. unfold pop_d. split.
  - intros d H. destruct (Bltb (dplus q eps) (dmult r t)); [discriminate|]. injection H as <-. unfold drawn. cbn [fst snd].
    rewrite Bleb_correct by (assumption || apply Q). rewrite PV. destruct (Rle_bool_spec (B2R q) (rnd (B2R r * B2R t))) as [L|L].
    + split; [apply Q|]. split; [lra|]. split; [exact L|]. pose proof (ulp_upper (B2R q) Q0) as X.
      assert (2 * u * B2R q <= 2 * u * rnd (B2R r * B2R t)) by (apply Rmult_le_compat_l; [pose proof (pw_small (-53)); lra|exact L]). lra.
    + split; [exact PF|]. rewrite PV. split; [lra|]. split; [lra|]. pose proof (pw_small (-1074)).
      assert (0 <= 2 * u * rnd (B2R r * B2R t)) by (apply Rmult_le_pos; [pose proof (pw_small (-53)); lra|exact PN]). lra.
  - intros QS EP. rewrite Bltb_correct by assumption. rewrite SV, PV. rewrite Rlt_bool_false; [eexists; reflexivity|].
    apply Rle_trans with (1 := U). apply tol_covers; [apply fmt_B2R|lra|exact EP].
Qed.
Lemma pops_spec eps t xs : is_finite t = true -> 0 <= B2R t <= pw 1000 -> is_finite eps = true -> 0 <= B2R eps <= 1 ->
  Forall stream_ok xs -> Forall (fun x => B2R (fst x) <= pw 1000 /\ B2R (snd x) <= 2) xs -> Forall (serves (B2R t)) xs ->
  (forall ds, pops_d eps t xs = Ok ds -> Forall2 (drawn (B2R t)) xs ds) /\
  (Forall (fun x => B2R (fst x) < pw 34) xs -> pw (-20) < B2R eps -> exists ds, pops_d eps t xs = Ok ds).
Proof.
  intros T TB E EB H HB HS. induction xs as [|[q r] xs IH]; cbn [pops_d].
  - split; [intros ds D; injection D as <-; constructor|intros; eexists; reflexivity].
  - inversion H as [|? ? [X1 X2] H']; subst. inversion HB as [|? ? [B1 B2] HB']; subst. inversion HS as [|? ? S1 HS']; subst. cbn [fst snd] in *.
    specialize (IH H' HB' HS'). destruct IH as [I1 I2]. destruct (pop_spec eps t q r X1 B1 X2 B2 T TB E EB S1) as [P1 P2]. split.
    + intros ds D. destruct (pop_d eps q (dmult r t)) as [d| | |] eqn:PD; try discriminate. cbn in D.
      destruct (pops_d eps t xs) as [ds'| | |] eqn:PS; try discriminate. cbn in D. injection D as <-. constructor; [apply P1; reflexivity|apply I1; reflexivity].
    + intros Q EP. inversion Q as [|? ? Q1 Q2]; subst. destruct (P2 Q1 EP) as [d ->]. destruct (I2 Q2 EP) as [ds ->]. eexists. reflexivity.
Qed.
(** ** Sums *)
Lemma sum_cons x l : sum_of (x :: l) = B2R x + sum_of l. Proof. reflexivity. Qed.
Lemma sum_nonneg l : Forall (fun x : double => is_finite x = true /\ 0 <= B2R x) l -> 0 <= sum_of l.
Proof. induction 1 as [|x l [_ X] H IH]; [cbn; lra|]. rewrite sum_cons. lra. Qed.
Lemma sum_err l : Forall (fun x : double => is_finite x = true /\ 0 <= B2R x) l ->
  forall (s : double) sg k, is_finite s = true -> 0 <= B2R s -> 0 <= sg -> Rabs (B2R s - sg) <= 2 * INR k * u * sg ->
  (Z.of_nat (k + List.length l) <= 2 ^ 20)%Z -> sg + sum_of l <= pw 1022 ->
  is_finite (fold_left dplus l s) = true /\ 0 <= B2R (fold_left dplus l s) /\
  Rabs (B2R (fold_left dplus l s) - (sg + sum_of l)) <= 2 * INR (k + List.length l) * u * (sg + sum_of l).
Proof.
  induction 1 as [|x l [X1 X2] H IH]; intros s sg k S S0 G K L B.
  - cbn [fold_left sum_of fold_right List.length]. rewrite Nat.add_0_r, Rplus_0_r. auto.
  - pose proof (sum_nonneg l H) as SN. rewrite sum_cons in *. cbn [fold_left List.length] in *.
    assert (2 * INR k * u <= 1) as KU.
    { assert (INR k <= IZR (2 ^ 20)) by (rewrite INR_IZR_INZ; apply IZR_le; lia).
      rewrite u_val. change (IZR (2 ^ 20)) with 1048576 in H0. lra. }
    assert (0 <= 2 * INR k * u) as K0 by (pose proof (pos_INR k); pose proof (pw_small (-53)); apply Rmult_le_pos; lra).
    set (c := 2 * INR k * u) in *. apply Rabs_le_inv in K.
    assert (c * sg <= sg) as CS by (rewrite <- (Rmult_1_l sg) at 2; apply Rmult_le_compat_r; assumption).
    destruct (f_plus s x S X1) as [F V].
    { rewrite Rabs_pos_eq by lra. change (pw 1023) with (pw (1 + 1022)). rewrite bpow_plus. change (pw 1) with 2. lra. }
    pose proof (rel_sum (B2R s) (B2R x) (fmt_B2R s) (fmt_B2R x)) as E. rewrite (Rabs_pos_eq (B2R s + B2R x)) in E by lra. apply Rabs_le_inv in E.
    assert (0 < u) as U0 by apply pw_small.
    destruct (IH (dplus s x) (sg + B2R x) (Datatypes.S k)) as (I1 & I2 & I3).
    + exact F.
    + rewrite V. apply rnd_nonneg. lra.
    + lra.
    + rewrite V, S_INR. replace (2 * (INR k + 1) * u) with (c + 2 * u) by (unfold c; ring).
      assert (u * (B2R s + B2R x) <= u * (2 * (sg + B2R x))) as W by (apply Rmult_le_compat_l; lra).
      assert (c * sg <= c * (sg + B2R x)) as W2 by (apply Rmult_le_compat_l; lra).
      apply Rabs_le. rewrite Rmult_plus_distr_r. replace (2 * u * (sg + B2R x)) with (u * (2 * (sg + B2R x))) by ring. lra.
    + lia.
    + lra.
    + replace (k + Datatypes.S (List.length l))%nat with (Datatypes.S k + List.length l)%nat by lia. rewrite <- Rplus_assoc. auto.
Qed.

(** ** The ratios *)
Lemma len_u (n : nat) : (Z.of_nat n <= 2 ^ 20)%Z -> INR n * u <= / 8589934592.
Proof.
  intro H. assert (INR n <= 1048576) by (rewrite INR_IZR_INZ; change 1048576 with (IZR (2 ^ 20)); apply IZR_le; lia).
  rewrite u_val. lra.
Qed.
Lemma in_le_sum l x : Forall (fun x : double => is_finite x = true /\ 0 <= B2R x) l -> In x l -> B2R x <= sum_of l.
Proof.
  induction 1 as [|y l [_ Y] H IH]; intro I; [contradiction|]. rewrite sum_cons. pose proof (sum_nonneg l H). destruct I as [->|I]; [lra|]. specialize (IH I). lra.
Qed.
Lemma fin_nonneg l : Forall quantity_d l -> Forall (fun x : double => is_finite x = true /\ 0 <= B2R x) l.
Proof. apply Forall_impl. intros x X. split; [apply X|apply q_nonneg, X]. Qed.
Lemma sign_pos (x : double) : is_finite x = true -> 0 < B2R x -> Bsign x = false.
Proof. intros F P. destruct x as [s|s| |s m e H]; try discriminate; cbn in *; [lra|]. destruct s; [|reflexivity]. exfalso. apply (Rlt_not_le _ _ P). left. apply F2R_lt_0. cbn. lia. Qed.
Lemma mult_sign (x y : double) : is_finite (dmult x y) = true -> Bsign x = false -> Bsign y = false -> Rabs (B2R x * B2R y) <= pw 1023 -> Bsign (dmult x y) = false.
Proof.
  intros F X Y H. pose proof (Bmult_correct 53 1024 _ _ mode_NE x y) as C.
  change (round radix2 fe (round_mode mode_NE) (B2R x * B2R y)) with (rnd (B2R x * B2R y)) in C. rewrite below_max in C by exact H.
  destruct C as (_ & _ & C). rewrite X, Y in C. apply C. change (is_nan (dmult x y) = false). destruct (dmult x y); try reflexivity; discriminate.
Qed.
Lemma map_err (f : double -> double) (c : R) l : (forall r, In r l -> Rabs (B2R (f r) - B2R r * c) <= u * (B2R r * c) + pw (-1074)) ->
  Rabs (sum_of (map f l) - sum_of l * c) <= u * (sum_of l * c) + INR (List.length l) * pw (-1074).
Proof.
  induction l as [|r l IH]; intro H.
  - cbn. rewrite !Rmult_0_l, Rmult_0_r, Rminus_0_r, Rabs_R0. lra.
  - cbn [map List.length]. rewrite !sum_cons, S_INR. pose proof (H r (or_introl eq_refl)) as H1. specialize (IH (fun r' I => H r' (or_intror I))).
    apply Rabs_le_inv in H1. apply Rabs_le_inv in IH. apply Rabs_le. lra.
Qed.
Lemma F2_map (P : double -> double -> Prop) (f : double -> double) l : (forall r, In r l -> P r (f r)) -> Forall2 P l (map f l).
Proof. induction l as [|r l IH]; intro H; [constructor|]. cbn [map]. constructor; [apply H; left; reflexivity|apply IH; intros; apply H; right; assumption]. Qed.
Lemma ratios_final rs : Forall quantity_d rs -> (1 <= Z.of_nat (List.length rs) <= 2 ^ 20)%Z -> Forall (fun r => B2R r <= pw 500) rs ->
  sum_of rs = 0 \/ pw (-500) <= sum_of rs ->
  List.length (ratios_d rs) = List.length rs /\ Forall share_ok (ratios_d rs) /\
  Rabs (sum_of (ratios_d rs) - 1) <= (4 * INR (List.length rs) + 4) * u /\ Forall2 (fair_share rs) rs (ratios_d rs).
Proof.
  intros Q N B SC. pose proof (fin_nonneg rs Q) as FN. pose proof (sum_nonneg rs FN) as SN. set (n := List.length rs) in *.
  pose proof (len_u n (proj2 N)) as NU. assert (1 <= INR n) as N1. { rewrite INR_IZR_INZ. apply IZR_le. lia. }
  assert (INR n <= 1048576) as N2 by (rewrite INR_IZR_INZ; change 1048576 with (IZR (2 ^ 20)); apply IZR_le; lia).
  assert (0 < u) as U0 by apply pw_small. pose proof u_val as UV.
  assert (sum_of rs <= pw 520) as SB.
  { assert (sum_of rs <= INR n * pw 500) as X.
    { subst n. clear - B. induction B as [|r l R H IH]; [cbn; lra|]. rewrite sum_cons. cbn [List.length]. rewrite S_INR. lra. }
    apply Rle_trans with (1 := X). change (pw 520) with (pw (20 + 500)). rewrite bpow_plus. change (pw 20) with 1048576. apply Rmult_le_compat_r; [apply bpow_ge_0|exact N2]. }
  destruct (f_int 0 ltac:(reflexivity)) as [Z1 Z2]. destruct (f_int 1 ltac:(reflexivity)) as [O1 O2].
  destruct (sum_err rs FN (of_int 0) 0 0 Z1) as (F1 & F2 & F3).
  { rewrite Z2. lra. } { lra. } { rewrite Z2. rewrite Rminus_0_r, Rabs_R0. cbn. lra. } { exact (proj2 N). }
  { rewrite Rplus_0_l. apply Rle_trans with (1 := SB). apply bpow_le. lia. }
  rewrite Rplus_0_l in F3. cbn [Nat.add] in F3. fold n in F3. unfold ratios_d. set (s := fold_left dplus rs (of_int 0)) in *.
  rewrite Beqb_correct by assumption. rewrite Z2. apply Rabs_le_inv in F3.
  destruct SC as [SZ|SP].
  - rewrite SZ in F3. assert (B2R s = 0) as -> by lra. rewrite Req_bool_true by reflexivity. cbn [negb].
    assert (zlen rs = Z.of_nat n) as ZL by reflexivity. rewrite ZL.
    destruct (f_int (Z.of_nat n)) as [I1 I2]; [lia|]. rewrite <- INR_IZR_INZ in I2.
    assert (0 < / INR n <= 1) as IN. { split; [apply Rinv_0_lt_compat; lra|]. rewrite <- Rinv_1. apply Rinv_le; lra. }
    destruct (f_div (of_int 1) (of_int (Z.of_nat n)) O1) as [D1 D2].
    { rewrite I2. lra. } { rewrite O2, I2. unfold Rdiv. rewrite Rmult_1_l, Rabs_pos_eq by lra. apply Rle_trans with 1; [lra|]. change 1 with (pw 0). apply bpow_le. lia. }
    rewrite O2, I2 in D2. unfold Rdiv in D2. rewrite Rmult_1_l in D2. set (a := ddiv (of_int 1) (of_int (Z.of_nat n))) in *.
    assert (pw (-1022) <= / INR n) as NN.
    { apply Rle_trans with (pw (-20)); [apply bpow_le; lia|]. change (pw (-20)) with (/ 1048576). apply Rinv_le; lra. }
    pose proof (rel_normal (/ INR n)) as E. rewrite Rabs_pos_eq in E by lra. specialize (E NN). rewrite <- D2 in E. apply Rabs_le_inv in E.
    split; [apply map_length|].
    assert (0 < B2R a) as A0. { assert (u * / INR n <= / 2 * / INR n) by (apply Rmult_le_compat_r; lra). lra. }
    assert (share_ok a) as A1.
    { split; [split; [exact D1|apply sign_pos; assumption]|]. assert (u * / INR n <= 1 * 1) by (apply Rmult_le_compat; lra). lra. }
    split.
    + apply Forall_map. apply Forall_forall. intros. exact A1.
    + split. 2: { apply F2_map. intros r _. unfold fair_share. fold n. cbn zeta. split; [intros _; apply Rabs_le; lra|rewrite SZ; intro X; exfalso; apply X; reflexivity]. }
      assert (sum_of (map (fun _ : double => a) rs) = INR n * B2R a) as ->.
      { assert (forall l, sum_of (map (fun _ : double => a) l) = INR (List.length l) * B2R a) as X; [|apply X].
        induction l as [|r l IH]; [cbn; lra|]. cbn [map List.length]. rewrite sum_cons, IH, S_INR. ring. }
      assert (INR n * / INR n = 1) as C by (apply Rinv_r; lra).
      assert (INR n * (/ INR n - u * / INR n) <= INR n * B2R a <= INR n * (/ INR n + u * / INR n)) as W by (split; apply Rmult_le_compat_l; lra).
      replace (INR n * (/ INR n - u * / INR n)) with (1 - u) in W by (rewrite Rmult_minus_distr_l; rewrite C; rewrite <- (Rmult_1_r u) at 1; rewrite <- C; ring).
      replace (INR n * (/ INR n + u * / INR n)) with (1 + u) in W by (rewrite Rmult_plus_distr_l; rewrite C; rewrite <- (Rmult_1_r u) at 1; rewrite <- C; ring).
      apply Rabs_le. assert (u <= (4 * INR n + 4) * u) by (rewrite <- (Rmult_1_l u) at 1; apply Rmult_le_compat_r; lra). lra.
  - assert (0 < sum_of rs) as SP0 by (pose proof (pw_small (-500)); lra). set (S := sum_of rs) in *. set (c := 2 * INR n * u) in *.
    assert (0 <= c <= / 4294967296) as C0. { unfold c. split; [apply Rmult_le_pos; lra|]. lra. }
    assert (c * S <= / 2 * S) as CS by (apply Rmult_le_compat_r; lra).
    assert (/ 2 * S <= B2R s <= 2 * S) as SS by lra.
    rewrite Req_bool_false by lra. cbn [negb].
    assert (0 < / B2R s) as IS by (apply Rinv_0_lt_compat; lra).
    assert (pw (-521) <= / B2R s <= pw 501) as IB.
    { split.
      - change (-521)%Z with (- (521))%Z. rewrite bpow_opp. apply Rinv_le; [lra|]. change (pw 521) with (pw (1 + 520)). rewrite bpow_plus. change (pw 1) with 2. lra.
      - change 501%Z with (- (-501))%Z. rewrite bpow_opp. apply Rinv_le; [apply pw_small|]. apply Rle_trans with (2 := proj1 SS).
        change (pw (-501)) with (pw (-1 + -500)). rewrite bpow_plus. change (pw (-1)) with (/ 2). lra. }
    destruct (f_div (of_int 1) s O1) as [D1 D2].
    { lra. } { rewrite O2. unfold Rdiv. rewrite Rmult_1_l, Rabs_pos_eq by lra. apply Rle_trans with (pw 501); [lra|]. apply bpow_le. lia. }
    rewrite O2 in D2. unfold Rdiv in D2. rewrite Rmult_1_l in D2. set (a := ddiv (of_int 1) s) in *.
    pose proof (rel_normal (/ B2R s)) as E. rewrite Rabs_pos_eq in E by lra.
    specialize (E ltac:(apply Rle_trans with (pw (-521)); [apply bpow_le; lia|lra])). rewrite <- D2 in E. apply Rabs_le_inv in E.
    assert (u * / B2R s <= / 2 * / B2R s) as UH by (apply Rmult_le_compat_r; lra).
    assert (0 < B2R a) as A0 by lra.
    (* x = S / s *)
    set (x := S * / B2R s) in *. assert (B2R s * / B2R s = 1) as SI by (apply Rinv_r; lra).
    assert (0 < x) as X0 by (apply Rmult_lt_0_compat; assumption).
    assert (1 - c * x <= x <= 1 + c * x) as XB.
    { assert ((S - c * S) * / B2R s <= B2R s * / B2R s <= (S + c * S) * / B2R s) as W by (split; apply Rmult_le_compat_r; lra).
      rewrite SI in W. replace ((S - c * S) * / B2R s) with (x - c * x) in W by (unfold x; ring). replace ((S + c * S) * / B2R s) with (x + c * x) in W by (unfold x; ring). lra. }
    assert (c * x <= / 4294967296 * x) as CX by (apply Rmult_le_compat_r; lra).
    assert (x <= 1.001) as X1 by lra.
    assert (Rabs (S * B2R a - x) <= u * x) as Y.
    { apply Rabs_le. assert (S * (/ B2R s - u * / B2R s) <= S * B2R a <= S * (/ B2R s + u * / B2R s)) as W by (split; apply Rmult_le_compat_l; lra).
      replace (S * (/ B2R s - u * / B2R s)) with (x - u * x) in W by (unfold x; ring). replace (S * (/ B2R s + u * / B2R s)) with (x + u * x) in W by (unfold x; ring). lra. }
    apply Rabs_le_inv in Y. assert (u * x <= 0.0001) as UX. { apply Rle_trans with (u * 1.001); [apply Rmult_le_compat_l; lra|]. rewrite UV. lra. }
    assert (S * B2R a <= 1.002) as Y1 by lra.
    assert (forall r, In r rs -> fin (dmult r a) (rnd (B2R r * B2R a)) /\ 0 <= B2R r * B2R a <= 1.002) as R.
    { intros r I. pose proof (in_le_sum rs r FN I) as RL. fold S in RL. rewrite Forall_forall in FN. destruct (FN r I) as [R1 R2].
      assert (0 <= B2R r * B2R a <= 1.002) as RB. { split; [apply Rmult_le_pos; lra|]. apply Rle_trans with (S * B2R a); [apply Rmult_le_compat_r; lra|exact Y1]. }
      split; [|exact RB]. apply f_mult; [exact R1|exact D1|]. rewrite Rabs_pos_eq by lra. apply Rle_trans with (pw 1); [change (pw 1) with 2; lra|]. apply bpow_le. lia. }
    split; [apply map_length|]. split.
    + apply Forall_map. apply Forall_forall. intros r I. destruct (R r I) as [[R1 R2] R3]. split; [split; [exact R1|]|].
      * apply mult_sign; [exact R1| |apply sign_pos; assumption|].
        -- rewrite Forall_forall in Q. apply Q, I.
        -- rewrite Rabs_pos_eq by lra. apply Rle_trans with (pw 1); [change (pw 1) with 2; lra|]. apply bpow_le. lia.
      * rewrite R2. change 2 with (pw 1). apply rnd_le_fmt; [apply fmt_pw; lia|]. change (pw 1) with 2. lra.
    + pose proof (map_err (fun r => dmult r a) (B2R a) rs) as M. cbv beta in M.
      specialize (M ltac:(intros r I; destruct (R r I) as [[_ R2] R3]; rewrite R2; pose proof (rel_any (B2R r * B2R a)) as X; rewrite (Rabs_pos_eq (B2R r * B2R a)) in X by lra; exact X)).
      fold S n in M. apply Rabs_le_inv in M.
      assert (INR n * pw (-1074) <= u) as TN.
      { apply Rle_trans with (pw 20 * pw (-1074)); [apply Rmult_le_compat_r; [apply bpow_ge_0|change (pw 20) with 1048576; exact N2]|]. rewrite <- bpow_plus. apply bpow_le. lia. }
      assert (u * (S * B2R a) <= u * 1.002) as W1 by (apply Rmult_le_compat_l; lra).
      assert (u * x <= u * 1.001) as W2 by (apply Rmult_le_compat_l; lra).
      assert (c * x <= c * 1.001) as W3 by (apply Rmult_le_compat_l; lra).
      assert (c = 2 * (INR n * u)) as CE by (unfold c; ring). assert (u <= INR n * u) as NU1 by (rewrite <- (Rmult_1_l u) at 1; apply Rmult_le_compat_r; lra).
      split; [apply Rabs_le; replace ((4 * INR n + 4) * u) with (4 * (INR n * u) + 4 * u) by ring; lra|].
      apply F2_map. intros r I. unfold fair_share. fold n S. cbn zeta. split; [lra|]. intros _. destruct (R r I) as [[_ R2] R3]. rewrite R2.
      assert (0 <= B2R r) as R0 by (rewrite Forall_forall in FN; apply FN, I).
      set (f := B2R r / S). assert (B2R r = f * S) as FE by (unfold f; field; lra).
      assert (0 <= f) as F0 by (unfold f; apply Rmult_le_pos; [exact R0|left; apply Rinv_0_lt_compat; lra]).
      assert (B2R r * B2R a = f * (S * B2R a)) as RA by (rewrite FE; ring).
      pose proof (rel_any (B2R r * B2R a)) as X. rewrite (Rabs_pos_eq (B2R r * B2R a)) in X by lra. rewrite RA in X |- *. apply Rabs_le_inv in X.
      assert (f * (S * B2R a) <= f * 1.002) as G1 by (apply Rmult_le_compat_l; lra).
      assert (u * (f * (S * B2R a)) <= u * (f * 1.002)) as G2 by (apply Rmult_le_compat_l; lra).
      assert (- (1.001 * c + 1.001 * u) <= S * B2R a - 1 <= 1.001 * c + 1.001 * u) as G3 by lra.
      assert (f * - (1.001 * c + 1.001 * u) <= f * (S * B2R a - 1) <= f * (1.001 * c + 1.001 * u)) as G4 by (split; apply Rmult_le_compat_l; lra).
      assert (0 <= INR n * u * f) as G5 by (apply Rmult_le_pos; [apply Rmult_le_pos; lra|exact F0]). assert (0 <= u * f) as G6 by (apply Rmult_le_pos; lra).
      replace (f * (S * B2R a - 1)) with (f * (S * B2R a) - f) in G4 by ring.
      replace (f * (1.001 * c + 1.001 * u)) with (1.001 * (2 * (INR n * u * f)) + 1.001 * (u * f)) in G4 by (rewrite CE; ring).
      replace (f * - (1.001 * c + 1.001 * u)) with (- (1.001 * (2 * (INR n * u * f)) + 1.001 * (u * f))) in G4 by (rewrite CE; ring).
      replace (u * (f * 1.002)) with (1.002 * (u * f)) in G2 by ring.
      apply Rabs_le. replace ((4 * INR n + 4) * u * f) with (4 * (INR n * u * f) + 4 * (u * f)) by ring. lra.
Qed.

(** ** The mixture *)
Lemma dmin_attains t q r : is_finite t = true -> quantity_d q -> quantity_d r ->
  dmin t (ddiv q r) = t \/ attains (B2R (dmin t (ddiv q r))) (q, r).
Proof.
  intros T Q R. unfold dmin, attains. cbn [fst snd]. destruct (Bltb (ddiv q r) t) eqn:L; [right|left; reflexivity].
  destruct (Rle_lt_or_eq_dec _ _ (q_nonneg r R)) as [P|P]; [|rewrite zero_div in L by (auto; lra); discriminate].
  split; [exact P|]. destruct (div_cases q r Q R P) as [[F V]|[E V]].
  - rewrite V. pose proof (rel_any (B2R q / B2R r)) as H. rewrite (Rabs_pos_eq (B2R q / B2R r)) in H; [exact H|].
    apply Rmult_le_pos; [apply q_nonneg, Q|left; apply Rinv_0_lt_compat, P].
  - rewrite E in L. destruct t as [s|s| |s m e H]; try discriminate; destruct s; discriminate.
Qed.
Lemma fold_attains xs : Forall stream_ok xs -> forall t, is_finite t = true ->
  let m := fold_left (fun t x => dmin t (ddiv (fst x) (snd x))) xs t in m = t \/ Exists (attains (B2R m)) xs.
Proof.
  induction 1 as [|x xs [X1 X2] H IH]; intros t T; cbn [fold_left]; [left; reflexivity|]. cbn zeta.
  destruct (dmin_step t (fst x) (snd x) T X1 X2) as (D1 & _ & _). destruct (IH _ D1) as [E|E]; [|right; apply Exists_cons_tl, E]. cbn zeta in E.
  rewrite E. destruct (dmin_attains t (fst x) (snd x) T X1 X2) as [A|A]; [left; exact A|right; apply Exists_cons_hd; destruct x; exact A].
Qed.
Lemma target_attains space thr qs rs : is_finite space = true -> is_finite thr = true -> Forall stream_ok (combine qs rs) ->
  let t := target_d space thr qs rs in B2R t = B2R space \/ B2R t = B2R thr \/ Exists (attains (B2R t)) (combine qs rs).
Proof.
  intros S T H. cbn zeta. unfold target_d, dmin. destruct (Bltb thr _); [auto|]. destruct (fold_attains _ H space S) as [E|E]; cbn zeta in E; [left; f_equal; exact E|right; right; exact E].
Qed.
Lemma combine_ok qs rs : Forall quantity_d qs -> Forall share_ok rs -> Forall stream_ok (combine qs rs).
Proof.
  intro H. revert rs. induction H as [|q qs Q H IH]; intros rs R; [constructor|]. destruct R as [|r rs R1 R2]; [constructor|]. cbn [combine]. constructor; [split; [exact Q|apply R1]|apply IH, R2].
Qed.
Lemma combine_bounds qs rs (P : double -> Prop) : Forall P qs -> Forall share_ok rs -> Forall (fun x => P (fst x) /\ B2R (snd x) <= 2) (combine qs rs).
Proof.
  intro H. revert rs. induction H as [|q qs Q H IH]; intros rs R; [constructor|]. destruct R as [|r rs R1 R2]; [constructor|]. cbn [combine]. constructor; [split; [exact Q|apply R1]|apply IH, R2].
Qed.
(** The draws and their sum. *)
Lemma drawn_part t x d : stream_ok x -> 0 <= t -> drawn t x d -> part t (snd x) d.
Proof.
  intros [X1 X2] T (D1 & D2 & D3 & D4). unfold part. set (p := rnd (B2R (snd x) * t)) in *. pose proof (q_nonneg _ X2) as R0.
  assert (0 <= B2R (snd x) * t) as P by (apply Rmult_le_pos; assumption).
  pose proof (rel_any (B2R (snd x) * t)) as E. rewrite (Rabs_pos_eq (B2R (snd x) * t)) in E by exact P. fold p in E. apply Rabs_le_inv in E.
  set (y := B2R (snd x) * t) in *. pose proof (pw_small (-1074)) as T0. assert (0 < u < / 4) as U by (split; [apply pw_small|rewrite u_val; lra]).
  assert (pw (-1072) = 4 * pw (-1074)) as TE by (change (pw (-1072)) with (pw (2 + -1074)); rewrite bpow_plus; reflexivity).
  assert (u * y <= / 4 * y) by (apply Rmult_le_compat_r; lra). assert (0 <= u * y) by (apply Rmult_le_pos; lra).
  assert (2 * u * p <= 2 * u * (y + / 4 * y + pw (-1074))) as W by (apply Rmult_le_compat_l; lra).
  assert (2 * u * pw (-1074) <= 2 * / 4 * pw (-1074)) as W2 by (apply Rmult_le_compat_r; lra).
  replace (2 * u * (y + / 4 * y + pw (-1074))) with (5 / 2 * (u * y) + 2 * u * pw (-1074)) in W by lra.
  apply Rabs_le. rewrite TE. replace (4 * u * y) with (4 * (u * y)) by ring. lra.
Qed.
Lemma parts_sum t rs ds : 0 <= t -> Forall2 (part t) rs ds ->
  Rabs (sum_of ds - sum_of rs * t) <= 4 * u * (sum_of rs * t) + INR (List.length rs) * pw (-1072).
Proof.
  intros T H. induction H as [|r d rs ds P H IH].
  - cbn. rewrite !Rmult_0_l, Rmult_0_r, Rminus_0_r, Rabs_R0. lra.
  - rewrite !sum_cons. cbn [List.length]. rewrite S_INR. unfold part in P. apply Rabs_le_inv in P. apply Rabs_le_inv in IH. apply Rabs_le. lra.
Qed.
Lemma pops_len eps t xs ds : pops_d eps t xs = Ok ds -> List.length ds = List.length xs.
Proof.
  revert ds. induction xs as [|[q r] xs IH]; intros ds H; cbn [pops_d] in H; [injection H as <-; reflexivity|].
  destruct (pop_d eps q (dmult r t)); try discriminate. cbn in H. destruct (pops_d eps t xs); try discriminate. cbn in H. injection H as <-. cbn. f_equal. apply IH. reflexivity.
Qed.
Definition cfg_ok (eps space thr : double) (qs rs : list double) : Prop :=
  is_finite eps = true /\ 0 <= B2R eps <= 1 /\ is_finite space = true /\ 0 <= B2R space <= pw 1000 /\ is_finite thr = true /\
  List.length qs = List.length rs /\ Forall quantity_d qs /\ Forall (fun q => B2R q <= pw 1000) qs /\ Forall share_ok rs /\
  (1 <= Z.of_nat (List.length rs) <= 2 ^ 20)%Z /\ Rabs (sum_of rs - 1) <= (4 * INR (List.length rs) + 4) * u.
Lemma F2_combine {A B C} (P : B -> C -> Prop) (R : A * B -> C -> Prop) qs rs ds : List.length qs = List.length rs -> (forall q r d, In q qs -> In r rs -> R (q, r) d -> P r d) ->
  Forall2 R (combine qs rs) ds -> Forall2 P rs ds.
Proof.
  revert rs ds. induction qs as [|q qs IH]; intros [|r rs] ds L I H; try discriminate; cbn [combine] in H; inversion H; subst; constructor; [apply (I q); [left|left|]; auto|].
  apply IH; [cbn in L; congruence| |assumption]. intros. apply (I q0); [right|right|]; assumption.
Qed.
Lemma F2_combine1 {A B C} (P : A -> C -> Prop) (R : A * B -> C -> Prop) qs rs ds : List.length qs = List.length rs -> (forall q r d, In q qs -> In r rs -> R (q, r) d -> P q d) ->
  Forall2 R (combine qs rs) ds -> Forall2 P qs ds.
Proof.
  revert rs ds. induction qs as [|q qs IH]; intros [|r rs] ds L I H; try discriminate; cbn [combine] in H; inversion H; subst; constructor; [apply (I q r); [left|left|]; auto|].
  apply (IH rs); [cbn in L; congruence| |assumption]. intros q' r' d' Q' R' X. apply (I q' r'); [right|right|]; assumption.
Qed.
Lemma sum_scaled (s t n : R) : 0 <= t -> 1 <= n -> n * u <= / 8589934592 -> Rabs (s - 1) <= (4 * n + 4) * u ->
  Rabs (s * t - t) <= (4 * n + 4) * u * t /\ 0 <= s * t <= 1.001 * t.
Proof.
  intros T N NU S. assert (0 < u) as U0 by apply pw_small. pose proof u_val as UV. apply Rabs_le_inv in S.
  replace ((4 * n + 4) * u) with (4 * (n * u) + 4 * u) in * by ring. set (e := 4 * (n * u) + 4 * u) in *. assert (0 <= e <= 0.001) as E.
  { unfold e. assert (0 <= n * u) by (apply Rmult_le_pos; lra). rewrite UV in *. lra. }
  assert (- (e * t) <= (s - 1) * t <= e * t) as W. { split; [rewrite Ropp_mult_distr_l|]; apply Rmult_le_compat_r; lra. }
  assert (e * t <= 0.001 * t) by (apply Rmult_le_compat_r; lra).
  split; [apply Rabs_le|]; lra.
Qed.
Lemma f2_len {A B} (P : A -> B -> Prop) l l' : Forall2 P l l' -> List.length l = List.length l'.
Proof. induction 1; cbn; congruence. Qed.
(** Sums of quantities taken, for a target [t]. *)
Lemma mixed_spec t rs ds : 0 <= t <= pw 1000 -> Forall2 (part t) rs ds -> Forall (fun d : double => is_finite d = true /\ 0 <= B2R d) ds ->
  (1 <= Z.of_nat (List.length rs) <= 2 ^ 20)%Z -> Rabs (sum_of rs - 1) <= (4 * INR (List.length rs) + 4) * u ->
  exists m, mixed_d ds = Ok m /\ is_finite m = true /\ Rabs (B2R m - t) <= (8 * INR (List.length rs) + 8) * u * t + pw (-1000) /\
    Rabs (B2R m - sum_of ds) <= 2 * INR (List.length rs) * u * sum_of ds.
Proof.
  intros T H F N S. set (n := List.length rs) in *. pose proof (len_u n (proj2 N)) as NU. assert (1 <= INR n) as N1. { rewrite INR_IZR_INZ. apply IZR_le. lia. }
  assert (INR n <= 1048576) as N2 by (rewrite INR_IZR_INZ; change 1048576 with (IZR (2 ^ 20)); apply IZR_le; lia).
  assert (0 < u) as U0 by apply pw_small. pose proof u_val as UV. pose proof (sum_nonneg ds F) as SN.
  pose proof (parts_sum t rs ds (proj1 T) H) as P. fold n in P. apply Rabs_le_inv in P.
  destruct (sum_scaled (sum_of rs) t (INR n) (proj1 T) N1 NU S) as [Q1 Q2]. apply Rabs_le_inv in Q1. set (y := sum_of rs * t) in *.
  assert (0 < INR n * pw (-1072) <= pw (-1052)) as TN.
  { split; [apply Rmult_lt_0_compat; [lra|apply pw_small]|]. change (pw (-1052)) with (pw (20 + -1072)). rewrite bpow_plus. apply Rmult_le_compat_r; [apply bpow_ge_0|change (pw 20) with 1048576; exact N2]. }
  assert (4 * u * y <= 4 * u * (1.001 * t)) as W1 by (apply Rmult_le_compat_l; lra).
  assert (u * t <= 0.001 * t) as W2 by (apply Rmult_le_compat_r; [lra|rewrite UV; lra]).
  assert (0 <= u * t) as W3 by (apply Rmult_le_pos; lra).
  assert (sum_of ds <= 1.01 * t + pw (-1052)) as SB by lra.
  destruct ds as [|d ds]; [exfalso; inversion H; subst; cbn in n; subst n; lia|]. inversion F as [|? ? [D1 D2] F']; subst. cbn [mixed_d]. eexists. split; [reflexivity|].
  rewrite sum_cons in *.
  assert (Datatypes.S (List.length ds) = n) as LN by (apply f2_len in H; symmetry; exact H).
  destruct (sum_err ds F' d (B2R d) 0 D1 D2 D2) as (F1 & F2 & F3).
  { rewrite Rminus_eq_0, Rabs_R0. cbn. lra. } { cbn [Nat.add]. lia. }
  { apply Rle_trans with (1 := SB). assert (pw (-1052) <= pw 1000) by (apply bpow_le; lia). apply Rle_trans with (4 * pw 1000); [lra|].
    change 4 with (pw 2). rewrite <- bpow_plus. apply bpow_le. lia. }
  split; [exact F1|]. cbn [Nat.add] in F3. set (sd := B2R d + sum_of ds) in *.
  assert (INR (List.length ds) = INR n - 1) as LE by (rewrite <- LN, S_INR; ring). rewrite LE in F3. apply Rabs_le_inv in F3.
  assert (0 <= u * sd) as US by (apply Rmult_le_pos; lra).
  replace (2 * (INR n - 1) * u * sd) with (2 * (INR n * u * sd) - 2 * (u * sd)) in F3 by ring.
  assert (INR n * u * sd <= INR n * u * (1.01 * t + pw (-1052))) as W4 by (apply Rmult_le_compat_l; [apply Rmult_le_pos; lra|exact SB]).
  assert (INR n * u * pw (-1052) <= 1 * pw (-1052)) as W5 by (apply Rmult_le_compat_r; [apply bpow_ge_0|lra]).
  assert (4 * pw (-1052) <= pw (-1000)) as W6 by (change 4 with (pw 2); rewrite <- bpow_plus; apply bpow_le; lia).
  assert (0 <= INR n * u * t) as W7 by (apply Rmult_le_pos; [apply Rmult_le_pos|]; lra).
  assert (u * t <= INR n * u * t) as W8 by (rewrite <- (Rmult_1_l u) at 1; apply Rmult_le_compat_r; [lra|apply Rmult_le_compat_r; lra]).
  split.
  - apply Rabs_le. replace ((8 * INR n + 8) * u * t) with (8 * (INR n * u * t) + 8 * (u * t)) by ring.
    replace ((4 * INR n + 4) * u * t) with (4 * (INR n * u * t) + 4 * (u * t)) in Q1 by ring.
    replace (4 * u * (1.001 * t)) with (4 * (1.001 * (u * t))) in W1 by ring.
    replace (INR n * u * (1.01 * t + pw (-1052))) with (1.01 * (INR n * u * t) + INR n * u * pw (-1052)) in W4 by ring. lra.
  - apply Rabs_le. replace (2 * INR n * u * sd) with (2 * (INR n * u * sd)) by ring. lra.
Qed.

Lemma mix_ind eps space thr qs rs : cfg_ok eps space thr qs rs ->
  let t := target_d space thr qs rs in
  (Bltb (of_int 0) t = false -> mix_d eps space thr qs rs = Ok None) /\
  (Bltb (of_int 0) t = true -> mix_target space thr qs rs (B2R t) /\
    (forall ds, pops_d eps t (combine qs rs) = Ok ds ->
      Forall2 taken qs ds /\ Forall2 (part (B2R t)) rs ds /\
      exists m, mixed_d ds = Ok m /\ is_finite m = true /\ Rabs (B2R m - B2R t) <= (8 * INR (List.length rs) + 8) * u * B2R t + pw (-1000) /\
        Rabs (B2R m - sum_of ds) <= 2 * INR (List.length rs) * u * sum_of ds) /\
    (Forall (fun q => B2R q < pw 34) qs -> pw (-20) < B2R eps -> exists ds, pops_d eps t (combine qs rs) = Ok ds)).
Proof.
  intros (E1 & E2 & S1 & S2 & T1 & L & Q1 & Q2 & R & N & SR). cbn zeta. pose proof (combine_ok qs rs Q1 R) as CO.
  destruct (target_spec space thr qs rs S1 T1 CO) as (A1 & A2 & A3 & A4). pose proof (target_attains space thr qs rs S1 T1 CO) as A5. cbn zeta in *.
  set (t := target_d space thr qs rs) in *. destruct (f_int 0 ltac:(reflexivity)) as [Z1 Z2]. split.
  { intro X. unfold mix_d. fold t. rewrite X. reflexivity. }
  intro X. rewrite Bltb_correct, Z2 in X by assumption. destruct (Rlt_bool_spec 0 (B2R t)) as [P|]; [|discriminate]. clear X.
  split; [split; [exact P|auto]|]. pose proof (combine_bounds qs rs _ Q2 R) as CB.
  destruct (pops_spec eps t (combine qs rs) A1 ltac:(lra) E1 E2 CO CB A4) as [W1 W2]. split.
  - intros ds D. specialize (W1 ds D). assert (Forall2 taken qs ds) as TK.
    { revert W1. apply F2_combine1; [exact L|]. intros q r d _ _ (D1 & D2 & _). split; assumption. }
    assert (Forall2 (part (B2R t)) rs ds) as PT.
    { revert W1. apply F2_combine; [exact L|]. intros q r d IQ IR DD. apply (drawn_part _ (q, r) d); [|lra|exact DD].
      rewrite Forall_forall in Q1, R. split; [apply Q1, IQ|apply R, IR]. }
    split; [exact TK|]. split; [exact PT|]. apply mixed_spec; [lra|exact PT| |exact N|exact SR].
    clear - TK. induction TK as [|q d qs ds [T1 T2] H IH]; constructor; [split; [exact T1|lra]|exact IH].
  - intros QS EP. apply W2; [|exact EP]. pose proof (combine_bounds qs rs _ QS R) as X. eapply Forall_impl; [|exact X]. intros x [Y _]. exact Y.
Qed.
Lemma mix_spec eps space thr qs rs ds m : cfg_ok eps space thr qs rs -> mix_d eps space thr qs rs = Ok (Some (ds, m)) ->
  exists t, mix_target space thr qs rs t /\ Forall2 taken qs ds /\ Forall2 (part t) rs ds /\ is_finite m = true /\
    Rabs (B2R m - t) <= (8 * INR (List.length rs) + 8) * u * t + pw (-1000).
Proof.
  intros C H. destruct (mix_ind eps space thr qs rs C) as [A B]. cbn zeta in *. unfold mix_d in *. set (t := target_d space thr qs rs) in *.
  destruct (Bltb (of_int 0) t); [|discriminate]. destruct (B eq_refl) as (B1 & B2 & _). destruct (pops_d eps t (combine qs rs)) as [ds'| | |]; try discriminate. cbn in H.
  destruct (B2 ds' eq_refl) as (T1 & T2 & m' & M1 & M2 & M3 & _). rewrite M1 in H. cbn in H. destruct (Bltb eps (dminus m' space)); [discriminate|].
  assert (ds' = ds /\ m' = m) as [<- <-] by (split; congruence). exists (B2R t). auto.
Qed.
Lemma taken_sum qs ds : Forall2 taken qs ds -> Forall (fun q => B2R q < pw 34) qs -> 0 <= sum_of ds <= INR (List.length qs) * pw 34.
Proof.
  induction 1 as [|q d qs ds [_ T] H IH]; intro F; [cbn; lra|]. inversion F; subst. specialize (IH H3). rewrite sum_cons. cbn [List.length]. rewrite S_INR. lra.
Qed.
Lemma mix_ok eps space thr qs rs : cfg_ok eps space thr qs rs -> Forall (fun q => B2R q < pw 34) qs -> 96 / 100000000 <= B2R eps ->
  (8 * INR (List.length rs) + 8) * B2R thr <= pw 33 \/ (8 * INR (List.length rs) + 8) * B2R space <= pw 33 \/ INR (List.length rs) * pw 35 <= B2R space ->
  exists r, mix_d eps space thr qs rs = Ok r.
Proof.
  intros C QS EP K. destruct (mix_ind eps space thr qs rs C) as [A B]. cbn zeta in *. destruct C as (E1 & E2 & S1 & S2 & T1 & L & Q1 & Q2 & R & N & SR).
  set (t := target_d space thr qs rs) in *. destruct (Bltb (of_int 0) t) eqn:X; [|eexists; apply A; reflexivity]. destruct (B eq_refl) as (B1 & B2 & B3).
  assert (pw (-20) = / 1048576) as PE by reflexivity.
  destruct (B3 QS ltac:(rewrite PE; lra)) as [ds D]. destruct (B2 ds D) as (T2 & T3 & m & M1 & M2 & M3 & M4). unfold mix_d. fold t. rewrite X, D. cbn. rewrite M1. cbn.
  destruct B1 as (P0 & P1 & P2 & _). set (n := List.length rs) in *. pose proof (len_u n (proj2 N)) as NU. assert (1 <= INR n) as N1. { rewrite INR_IZR_INZ. apply IZR_le. lia. }
  assert (0 < u) as U0 by apply pw_small. pose proof u_val as UV.
  assert (INR n <= 1048576) as N2 by (rewrite INR_IZR_INZ; change 1048576 with (IZR (2 ^ 20)); apply IZR_le; lia).
  pose proof (taken_sum qs ds T2 QS) as SD. rewrite L in SD. fold n in SD. apply Rabs_le_inv in M3. apply Rabs_le_inv in M4.
  assert (2 * INR n * u * sum_of ds <= 1 * sum_of ds) as W by (apply Rmult_le_compat_r; lra).
  assert (INR n * pw 34 <= pw 54) as NB. { change (pw 54) with (pw (20 + 34)). rewrite bpow_plus. apply Rmult_le_compat_r; [apply bpow_ge_0|change (pw 20) with 1048576; exact N2]. }
  assert (pw 54 <= pw 1000) as NB2 by (apply bpow_le; lia).
  destruct (f_minus m space M2 S1) as [F V].
  { apply Rabs_le. change (pw 1023) with (pw (23 + 1000)). rewrite bpow_plus. change (pw 23) with 8388608. lra. }
  rewrite Bltb_correct by assumption. rewrite V. rewrite Rlt_bool_false; [eexists; reflexivity|]. apply rnd_le_fmt; [apply fmt_B2R|].
  assert (pw (-1000) <= pw (-40)) as TI by (apply bpow_le; lia). assert (pw (-40) = / 1099511627776) as TV by reflexivity.
  assert ((8 * INR n + 8) * B2R t <= pw 33 -> B2R m - B2R space <= B2R eps) as G.
  { intro Y. assert ((8 * INR n + 8) * u * B2R t <= u * pw 33) as Z. { replace ((8 * INR n + 8) * u * B2R t) with (u * ((8 * INR n + 8) * B2R t)) by ring. apply Rmult_le_compat_l; lra. }
    assert (u * pw 33 = pw (-20)) as YE by (rewrite <- bpow_plus; reflexivity). rewrite YE, PE in Z. lra. }
  destruct K as [K|[K|K]].
  - apply G. apply Rle_trans with (2 := K). apply Rmult_le_compat_l; lra.
  - apply G. apply Rle_trans with (2 := K). apply Rmult_le_compat_l; lra.
  - change (pw 35) with (pw (1 + 34)) in K. rewrite bpow_plus in K. change (pw 1) with 2 in K. lra.
Qed.

Lemma ratios_full e : mixer_input e ->
  List.length (ratios_d e) = List.length e /\ Forall share_ok (ratios_d e) /\
  Rabs (sum_of (ratios_d e) - 1) <= (4 * INR (List.length e) + 4) * u /\ Forall2 (fair_share e) e (ratios_d e).
Proof. intros (Q & N & B & S). apply ratios_final; assumption. Qed.
Lemma cfg_full eps space thr qs e : mixer_input e -> mixer_state eps space thr qs -> List.length qs = List.length e -> cfg_ok eps space thr qs (ratios_d e).
Proof.
  intros I (E1 & E2 & S1 & S2 & T & Q1 & Q2) L. destruct (ratios_full e I) as (R1 & R2 & R3 & _). destruct I as (_ & N & _).
  unfold cfg_ok. rewrite R1. repeat (split; [assumption|]). exact R3.
Qed.
Lemma mix_full e eps space thr qs ds m : mixer_input e -> mixer_state eps space thr qs -> List.length qs = List.length e ->
  mix_d eps space thr qs (ratios_d e) = Ok (Some (ds, m)) ->
  exists t, mix_target space thr qs (ratios_d e) t /\ Forall2 taken qs ds /\ Forall2 (part t) (ratios_d e) ds /\ is_finite m = true /\
    Rabs (B2R m - t) <= (8 * INR (List.length e) + 8) * u * t + pw (-1000).
Proof. intros I S L H. destruct (ratios_full e I) as (R1 & _). rewrite <- R1. apply (mix_spec eps space thr qs (ratios_d e)); [apply cfg_full; assumption|exact H]. Qed.
Lemma mix_ok_full e eps space thr qs : mixer_input e -> mixer_state eps space thr qs -> List.length qs = List.length e ->
  96 / 100000000 <= B2R eps -> Forall (fun q => B2R q < pw 34) qs ->
  (8 * INR (List.length e) + 8) * B2R thr <= pw 33 \/ (8 * INR (List.length e) + 8) * B2R space <= pw 33 \/ INR (List.length e) * pw 35 <= B2R space ->
  exists r, mix_d eps space thr qs (ratios_d e) = Ok r.
Proof. intros I S L E Q K. destruct (ratios_full e I) as (R1 & _). rewrite <- R1 in K. apply mix_ok; [apply cfg_full; assumption|exact Q|exact E|exact K]. Qed.

Lemma idle_full e eps space thr qs : mixer_input e -> mixer_state eps space thr qs -> List.length qs = List.length e ->
  mix_d eps space thr qs (ratios_d e) = Ok None ->
  B2R space = 0 \/ B2R thr <= 0 \/ Exists (fun x => 0 < B2R (snd x) /\ B2R (fst x) / B2R (snd x) <= pw (-1073)) (combine qs (ratios_d e)).
Proof.
  intros I S L H. destruct (cfg_full eps space thr qs e I S L) as (E1 & E2 & S1 & S2 & T1 & L' & Q1 & Q2 & R & N & SR).
  pose proof (combine_ok qs (ratios_d e) Q1 R) as CO.
  destruct (target_spec space thr qs (ratios_d e) S1 T1 CO) as (A1 & _). pose proof (target_attains space thr qs (ratios_d e) S1 T1 CO) as A5. cbn zeta in *.
  unfold mix_d in H. set (t := target_d space thr qs (ratios_d e)) in *. destruct (f_int 0 ltac:(reflexivity)) as [Z1 Z2].
  destruct (Bltb (of_int 0) t) eqn:X.
  { exfalso. destruct (pops_d eps t (combine qs (ratios_d e))) as [ds| | |]; try discriminate. cbn in H. destruct (mixed_d ds); try discriminate. cbn in H.
    destruct (Bltb eps _); discriminate. }
  rewrite Bltb_correct, Z2 in X by assumption. destruct (Rlt_bool_spec 0 (B2R t)) as [|P]; [discriminate|]. destruct A5 as [A|[A|A]].
  - left. lra.
  - right; left. lra.
  - right; right. eapply Exists_impl; [|exact A]. intros x [X1 X2]. split; [exact X1|]. apply Rabs_le_inv in X2.
    assert (forall y, - (u * y + pw (-1074)) <= B2R t - y -> y <= pw (-1073)) as G; [|apply G, X2]. clear X2. intros y X2. pose proof (pw_small (-1074)) as T0.
    assert (pw (-1073) = 2 * pw (-1074)) as -> by (change (-1073)%Z with (1 + -1074)%Z; rewrite bpow_plus; reflexivity).
    destruct (Rle_or_lt 0 y) as [Y|Y]; [|lra]. assert (u * y <= / 2 * y) by (apply Rmult_le_compat_r; [exact Y|rewrite u_val; lra]). lra.
Qed.
