(** Proofs about the release of parcels by Storage in double precision. *)
From Coq Require Import ZArith Reals List Lia Lra.
From Flocq Require Import Core.Core IEEE754.BinarySingleNaN.
From Verif Require Import Outcome DoubleModel DoubleProofs DoubleFacts DoubleSpec MixerDoubleModel MixerDoubleSpec MixerDoubleProofs StorageDoubleModel StorageDoubleSpec.
Import ListNotations.
Local Open Scope R_scope.
Local Existing Instance double_prec.
Local Existing Instance double_emax.
Local Existing Instance fe_valid.

(** The loop takes parcels as long as the rounded sum, up to and including the next one, is within the limit. *)
Lemma loop_prefix max ready : forall cap done, exists k,
  discrete_loop_d cap max ready done = (done ++ firstn k ready, skipn k ready) /\ (k <= List.length ready)%nat.
Proof.
  induction ready as [|m r IH]; intros cap done; cbn [discrete_loop_d].
  - exists 0%nat. cbn. rewrite app_nil_r. auto.
  - destruct (Bleb cap max).
    + destruct (IH (dplus cap match r with [] => of_int 0 | m' :: _ => m' end) (done ++ [m])) as (k & E & K). exists (S k). rewrite E, <- app_assoc. cbn. split; [reflexivity|lia].
    + exists 0%nat. cbn. rewrite app_nil_r. split; [reflexivity|lia].
Qed.
Definition rsum (l : list double) : double := match l with [] => of_int 0 | m :: r => fold_left dplus r m end.
Lemma rsum_snoc l x : l <> [] -> rsum (l ++ [x]) = dplus (rsum l) x.
Proof. destruct l as [|m r]; [congruence|]. intros _. cbn [rsum app]. apply fold_left_app. Qed.
Lemma loop_rounded max ready : forall cap done moved rest,
  (forall m r, ready = m :: r -> cap = rsum (done ++ [m])) -> (done = [] \/ Bleb (rsum done) max = true) ->
  discrete_loop_d cap max ready done = (moved, rest) ->
  moved ++ rest = done ++ ready /\ (moved = [] \/ Bleb (rsum moved) max = true) /\
  (forall p r, rest = p :: r -> Bleb (rsum (moved ++ [p])) max = false).
Proof.
  induction ready as [|m r IH]; intros cap done moved rest C D H; cbn [discrete_loop_d] in H.
  - injection H as <- <-. rewrite app_nil_r. split; [reflexivity|]. split; [exact D|discriminate].
  - pose proof (C m r eq_refl) as ->. destruct (Bleb (rsum (done ++ [m])) max) eqn:B.
    + apply IH in H.
      * rewrite <- app_assoc in H. exact H.
      * intros m' r' ->. symmetry. apply rsum_snoc. destruct done; discriminate.
      * right. exact B.
    + injection H as <- <-. split; [reflexivity|]. split; [exact D|]. intros p r' E. injection E as <- <-. exact B.
Qed.

Lemma rsum_err l : Forall quantity_d l -> (Z.of_nat (List.length l) <= 2 ^ 20)%Z -> sum_of l <= pw 1000 ->
  is_finite (rsum l) = true /\ Rabs (B2R (rsum l) - sum_of l) <= 2 * INR (List.length l) * u * sum_of l.
Proof.
  intros Q L B. destruct l as [|m r].
  - cbn [rsum sum_of fold_right List.length INR]. destruct (f_int 0 ltac:(reflexivity)) as [Z1 Z2]. split; [exact Z1|]. rewrite Z2, Rminus_0_r, Rabs_R0. lra.
  - inversion Q as [|? ? Q1 Q2]; subst. pose proof (q_nonneg m Q1) as M0. cbn [rsum]. rewrite sum_cons in *. cbn [List.length] in *.
    destruct (sum_err r (fin_nonneg r Q2) m (B2R m) 1) as (A & _ & C); [apply Q1|exact M0|exact M0| |lia| |].
    + rewrite Rminus_diag_eq, Rabs_R0 by reflexivity. apply Rmult_le_pos; [|exact M0]. change (INR 1) with 1. pose proof (pw_small (-53)). lra.
    + apply Rle_trans with (1 := B). apply bpow_le. lia.
    + split; [exact A|]. exact C.
Qed.
Lemma sum_app l l' : sum_of (l ++ l') = sum_of l + sum_of l'.
Proof. induction l as [|x l IH]; [change (sum_of []) with 0; rewrite Rplus_0_l; reflexivity|]. rewrite <- app_comm_cons, !sum_cons, IH. ring. Qed.
Lemma sum_q l : Forall quantity_d l -> 0 <= sum_of l.
Proof. intro H. apply sum_nonneg, fin_nonneg, H. Qed.
Lemma leb_val (x y : double) : is_finite x = true -> is_finite y = true -> (Bleb x y = true <-> B2R x <= B2R y) /\ (Bleb x y = false <-> B2R y < B2R x).
Proof. intros X Y. rewrite Bleb_correct by assumption. destruct (Rle_bool_spec (B2R x) (B2R y)); split; split; intros; try lra; try discriminate; reflexivity. Qed.

(** In the loop the limit is the throughput. *)
Lemma release_cases (t q : double) ready moved rest : is_finite t = true -> is_finite q = true -> release_d t q ready = (moved, rest) ->
  (moved = ready /\ rest = [] /\ (ready = [] \/ B2R q <= B2R t)) \/
  (B2R t < B2R q /\ moved ++ rest = ready /\ (moved = [] \/ Bleb (rsum moved) t = true) /\ (forall p r, rest = p :: r -> Bleb (rsum (moved ++ [p])) t = false)).
Proof.
  intros T Q H. destruct ready as [|m r]; [cbn in H; injection H as <- <-; left; auto|]. unfold release_d in H. cbv zeta in H.
  unfold dmin in H. rewrite Bltb_correct in H by assumption. destruct (Rlt_bool_spec (B2R q) (B2R t)) as [L|L].
  - rewrite Beqb_correct in H by assumption. rewrite Req_bool_true in H by reflexivity. injection H as <- <-. left. split; [reflexivity|]. split; [reflexivity|]. right. lra.
  - rewrite Beqb_correct in H by assumption. destruct (Req_bool_spec (B2R t) (B2R q)) as [E|E].
    + injection H as <- <-. left. split; [reflexivity|]. split; [reflexivity|]. right. lra.
    + right. split; [lra|]. apply (loop_rounded t (m :: r) m []) in H; [exact H|intros m' r' X; injection X as -> ->; reflexivity|left; reflexivity].
Qed.

Lemma release_spec d (t q : double) ready moved rest : ready_state d t q ready -> 0 <= B2R t -> release_d t q ready = (moved, rest) ->
  let c := 4 * INR (List.length ready) * u in
  ready = moved ++ rest /\ sum_of moved <= (1 + c) * B2R t + d /\
  (forall p r, rest = p :: r -> B2R t < (1 + c) * (sum_of moved + B2R p)).
Proof.
  intros (T & Q & R & L & B & E) T0 H. cbn zeta. set (c := 4 * INR (List.length ready) * u).
  assert (0 <= INR (List.length ready) <= 1048576) as NB. { split; [apply pos_INR|]. rewrite INR_IZR_INZ. change 1048576 with (IZR (2 ^ 20)). apply IZR_le. lia. }
  assert (0 < u) as U0 by apply pw_small. pose proof u_val as UV.
  assert (0 <= c) as C0 by (apply Rmult_le_pos; lra). assert (0 <= c * B2R t) as CT by (apply Rmult_le_pos; lra).
  apply release_cases in H; [|assumption|assumption]. apply Rabs_le_inv in E. destruct H as [(-> & -> & H)|(TQ & H & H1 & H2)].
  - rewrite app_nil_r. split; [reflexivity|]. split; [|discriminate]. destruct H as [->|H].
    + cbn [sum_of fold_right] in *. assert (0 <= d) by lra. lra.
    + lra.
  - subst ready. split; [reflexivity|]. rewrite Forall_app in R. destruct R as [R1 R2]. rewrite app_length in L. rewrite sum_app in B, E. pose proof (sum_q _ R1) as P1. pose proof (sum_q _ R2) as P2.
    assert (0 <= d) as D0 by lra.
    assert (forall l, (List.length l <= List.length (moved ++ rest))%nat -> Forall quantity_d l -> sum_of l <= pw 1000 ->
      is_finite (rsum l) = true /\ Rabs (B2R (rsum l) - sum_of l) <= / 2 * c * sum_of l) as SUM.
    { intros l LL QL BL. destruct (rsum_err l QL) as [A1 A2]; [rewrite app_length in LL; lia|exact BL|]. split; [exact A1|]. apply Rle_trans with (1 := A2).
      apply Rmult_le_compat_r; [apply sum_q, QL|]. unfold c. replace (/ 2 * (4 * INR (List.length (moved ++ rest)) * u)) with (2 * INR (List.length (moved ++ rest)) * u) by field.
      apply Rmult_le_compat_r; [lra|]. apply Rmult_le_compat_l; [lra|]. apply le_INR. exact LL. }
    assert (c <= / 1048576) as C1 by (unfold c; rewrite UV; lra).
    split.
    + destruct H1 as [->|H1]; [cbn [sum_of fold_right]; lra|]. destruct (SUM moved) as [A1 A2]; [rewrite app_length; lia|exact R1|lra|].
      apply (proj1 (leb_val _ _ A1 T)) in H1. apply Rabs_le_inv in A2. set (s := sum_of moved) in *. assert (s - / 2 * c * s <= B2R t) as X by lra.
      assert (s * (1 - / 2 * c) <= B2R t) as X' by lra. assert (s * (1 - / 2 * c) * (1 + c) <= B2R t * (1 + c)) as Y by (apply Rmult_le_compat_r; lra).
      assert (0 <= s * (c * (/ 2 - / 2 * c))) as Z by (apply Rmult_le_pos; [lra|apply Rmult_le_pos; lra]). 
      replace (s * (1 - / 2 * c) * (1 + c)) with (s + s * (c * (/ 2 - / 2 * c))) in Y by field. lra.
    + intros p r ->. inversion R2 as [|? ? RP R3]; subst. rewrite sum_cons in *. pose proof (q_nonneg p RP) as PP. pose proof (sum_q _ R3) as P3.
      specialize (H2 p r eq_refl). destruct (SUM (moved ++ [p])) as [A1 A2].
      * rewrite !app_length. cbn. lia.
      * apply Forall_app. split; [exact R1|constructor; [exact RP|constructor]].
      * rewrite sum_app, sum_cons. change (sum_of []) with 0. lra.
      * apply (proj2 (leb_val _ _ A1 T)) in H2. rewrite sum_app in A2. replace (sum_of [p]) with (B2R p) in A2 by (rewrite sum_cons; change (sum_of []) with 0; ring). apply Rabs_le_inv in A2.
        assert (forall s x, 0 <= c * s -> x - s <= / 2 * c * s -> B2R t < x -> B2R t < (1 + c) * s) as G by (intros s x G1 G2 G3; nra).
        refine (G _ _ _ (proj2 A2) H2). apply Rmult_le_pos; [exact C0|lra].
Qed.

(** ** Multiples of a power of two *)
Lemma multiple_fmt k e : (-1074 <= e)%Z -> (Z.abs k <= 2 ^ 53)%Z -> fmt (IZR k * pw e).
Proof.
  intros E K. destruct (Z.eq_dec (Z.abs k) (2 ^ 53)) as [X|X].
  - assert (k = 2 ^ 53 \/ k = - 2 ^ 53)%Z as [->| ->] by lia.
    + change (IZR (2 ^ 53)) with (pw 53). rewrite <- bpow_plus. apply fmt_pw. lia.
    + rewrite opp_IZR. change (IZR (2 ^ 53)) with (pw 53). rewrite Ropp_mult_distr_l_reverse, <- bpow_plus. apply generic_format_opp, fmt_pw. lia.
  - change (IZR k * pw e) with (F2R (Float radix2 k e)). apply generic_format_F2R. intro N. cbn [Fnum Fexp].
    unfold cexp, SpecFloat.fexp, SpecFloat.emin.
    assert (mag radix2 (F2R (Float radix2 k e)) <= 53 + e)%Z; [|lia].
    apply mag_le_bpow; [intro Z; apply eq_0_F2R in Z; contradiction|]. rewrite <- F2R_Zabs. unfold F2R. cbn [Fnum Fexp]. rewrite bpow_plus.
    apply Rmult_lt_compat_r; [apply bpow_gt_0|]. change (pw 53) with (IZR (2 ^ 53)). apply IZR_lt. lia.
Qed.
Lemma multiple_sum e l : Forall (multiple e) l -> exists k : Z, sum_of l = IZR k * pw e.
Proof.
  induction 1 as [|x l [a A] H (k & IH)]; [exists 0%Z; cbn; ring|]. exists (a + k)%Z. rewrite sum_cons, A, IH, plus_IZR. ring.
Qed.
Lemma fold_exact e l : (-1074 <= e <= 900)%Z -> Forall quantity_d l -> Forall (multiple e) l -> forall s : double, is_finite s = true -> 0 <= B2R s -> multiple e s ->
  B2R s + sum_of l <= pw (e + 53) -> is_finite (fold_left dplus l s) = true /\ B2R (fold_left dplus l s) = B2R s + sum_of l.
Proof.
  intros E Q. induction Q as [|x l X Q IH]; intros M s S S0 [k K] B.
  - cbn [fold_left sum_of fold_right]. rewrite Rplus_0_r. auto.
  - inversion M as [|? ? [a A] M']; subst. rewrite sum_cons in *. cbn [fold_left]. pose proof (q_nonneg x X) as X0. pose proof (sum_q l Q) as L0.
    destruct (f_plus s x S (proj1 X)) as [F V].
    { rewrite Rabs_pos_eq by lra. apply Rle_trans with (pw (e + 53)); [lra|apply bpow_le; lia]. }
    assert (B2R s + B2R x = IZR (k + a) * pw e) as W by (rewrite plus_IZR, Rmult_plus_distr_r; congruence).
    assert (rnd (B2R s + B2R x) = B2R s + B2R x) as RV.
    { apply rnd_id. rewrite W. apply multiple_fmt; [lia|]. assert (0 <= B2R s + B2R x <= pw (e + 53)) as Y by lra. rewrite W, (Z.add_comm e 53), bpow_plus in Y. pose proof (pw_small e) as P.
      assert (0 <= IZR (k + a)) as Y0 by (apply Rmult_le_reg_r with (1 := P); lra). assert (IZR (k + a) <= pw 53) as Y1 by (apply Rmult_le_reg_r with (1 := P); lra).
      apply le_IZR in Y0. change (pw 53) with (IZR (2 ^ 53)) in Y1. apply le_IZR in Y1. lia. }
    rewrite RV in V. destruct (IH M' (dplus s x) F) as [I1 I2].
    + lra.
    + exists (k + a)%Z. rewrite V. exact W.
    + lra.
    + split; [exact I1|]. rewrite I2, V. lra.
Qed.
Lemma rsum_exact e l : (-1074 <= e <= 900)%Z -> Forall quantity_d l -> Forall (multiple e) l -> sum_of l <= pw (e + 53) -> is_finite (rsum l) = true /\ B2R (rsum l) = sum_of l.
Proof.
  intros E Q M B. destruct l as [|x l].
  - destruct (f_int 0 ltac:(reflexivity)) as [Z1 Z2]. split; [exact Z1|exact Z2].
  - inversion Q; inversion M; subst. rewrite sum_cons in *. cbn [rsum]. apply (fold_exact e); try assumption; [apply H1|apply q_nonneg; assumption].
Qed.
Lemma exact_spec e (t q : double) ready moved rest : (-1074 <= e <= 900)%Z -> is_finite t = true -> is_finite q = true -> Forall quantity_d ready -> 0 <= B2R t ->
  Forall (multiple e) ready -> sum_of ready <= pw (e + 53) -> B2R q = sum_of ready -> release_d t q ready = (moved, rest) ->
  ready = moved ++ rest /\ sum_of moved <= B2R t /\ (forall p r, rest = p :: r -> B2R t < sum_of moved + B2R p).
Proof.
  intros E T Q R T0 M B EQ H. apply release_cases in H; [|assumption|assumption]. destruct H as [(-> & -> & H)|(TQ & H & H1 & H2)].
  - rewrite app_nil_r. split; [reflexivity|]. split; [|discriminate]. destruct H as [->|H]; [exact T0|lra].
  - subst ready. split; [reflexivity|]. rewrite Forall_app in R, M. destruct R as [R1 R2]. destruct M as [M1 M2]. rewrite sum_app in B. pose proof (sum_q _ R1) as P1. pose proof (sum_q _ R2) as P2. split.
    + destruct H1 as [->|H1]; [exact T0|]. destruct (rsum_exact e moved E R1 M1) as [A1 A2]; [lra|]. apply (proj1 (leb_val _ _ A1 T)) in H1. lra.
    + intros p r ->. inversion R2 as [|? ? RP R3]; subst. inversion M2 as [|? ? MP M3]; subst. rewrite sum_cons in *. pose proof (sum_q _ R3) as P3. specialize (H2 p r eq_refl).
      destruct (rsum_exact e (moved ++ [p]) E) as [A1 A2].
      * apply Forall_app. split; [exact R1|constructor; [exact RP|constructor]].
      * apply Forall_app. split; [exact M1|constructor; [exact MP|constructor]].
      * rewrite sum_app. replace (sum_of [p]) with (B2R p) by (rewrite sum_cons; change (sum_of []) with 0; ring). lra.
      * apply (proj2 (leb_val _ _ A1 T)) in H2. rewrite A2, sum_app in H2. replace (sum_of [p]) with (B2R p) in H2 by (rewrite sum_cons; change (sum_of []) with 0; ring). exact H2.
Qed.
