(** Proofs about the start-up check of Separations in double precision. *)
From Coq Require Import ZArith Reals QArith Qreals List Lia Lra.
From Flocq Require Import Core.Core IEEE754.BinarySingleNaN.
From Verif Require Import Outcome DoubleModel DoubleProofs DoubleFacts DoubleSpec SeparationsDoubleModel.
Import ListNotations.
Local Open Scope R_scope.
Local Existing Instance double_prec.
Local Existing Instance double_emax.
Local Existing Instance fe_valid.

(** ** The accumulated efficiency of a key *)
Definition vals (k : Z) (l : list (Z * double)) : list double := map snd (filter (fun e => Z.eqb (fst e) k) l).
Definition total (l : list double) : double := fold_left dplus l (of_int 0).
Fixpoint afind (k : Z) (m : list (Z * double)) : option double :=
  match m with [] => None | (k', v) :: m' => if Z.eqb k' k then Some v else afind k m' end.
Lemma afind_add k k' v m : afind k (acc_add_d k' v m) =
  if Z.eqb k' k then Some (dplus (match afind k m with Some w => w | None => of_int 0 end) v) else afind k m.
Proof.
  induction m as [|[k0 v0] m IH]; cbn; [reflexivity|].
  destruct (Z.eqb_spec k0 k') as [E|E]; cbn.
  - subst k0. destruct (Z.eqb_spec k' k); reflexivity.
  - destruct (Z.eqb_spec k0 k) as [E2|E2]; [|exact IH]. subst k0. destruct (Z.eqb_spec k' k) as [E3|E3]; [subst; congruence|reflexivity].
Qed.
Lemma add_keys k v m x : In x (map fst (acc_add_d k v m)) -> x = k \/ In x (map fst m).
Proof.
  induction m as [|[k0 v0] m IH]; cbn; [intuition|]. destruct (Z.eqb_spec k0 k); cbn; [intuition|]. intros [H|H]; [auto|]. destruct (IH H); auto.
Qed.
Lemma add_nodup k v m : NoDup (map fst m) -> NoDup (map fst (acc_add_d k v m)).
Proof.
  induction m as [|[k0 v0] m IH]; cbn; intro H; [constructor; [intros []|constructor]|]. inversion H; subst.
  destruct (Z.eqb_spec k0 k); cbn; constructor; auto. intro X. apply add_keys in X. destruct X; congruence || contradiction.
Qed.
Lemma afind_in m k v : NoDup (map fst m) -> In (k, v) m -> afind k m = Some v.
Proof.
  induction m as [|[k0 v0] m IH]; cbn; intros N H; [contradiction|]. inversion N; subst. destruct H as [H|H].
  - injection H as -> ->. rewrite Z.eqb_refl. reflexivity.
  - destruct (Z.eqb_spec k0 k) as [->|]; [|auto]. exfalso. apply H2. apply (in_map fst) in H. exact H.
Qed.
Lemma afind_some m k v : afind k m = Some v -> In (k, v) m.
Proof. induction m as [|[k0 v0] m IH]; cbn; [discriminate|]. destruct (Z.eqb_spec k0 k) as [->|]; [intro H; injection H as ->; auto|auto]. Qed.
Lemma fold_find l k : forall m, afind k (fold_left (fun m e => acc_add_d (fst e) (snd e) m) l m) =
  match vals k l with [] => afind k m | _ => Some (fold_left dplus (vals k l) (match afind k m with Some w => w | None => of_int 0 end)) end.
Proof.
  induction l as [|[k0 v0] l IH]; intro m; [reflexivity|]. cbn [fold_left fst snd]. rewrite IH, afind_add. unfold vals. cbn [filter fst].
  destruct (Z.eqb_spec k0 k) as [->|]; cbn [map snd].
  - destruct (map snd (filter (fun e => Z.eqb (fst e) k) l)); reflexivity.
  - reflexivity.
Qed.
Lemma fold_nodup l : forall m, NoDup (map fst m) -> NoDup (map fst (fold_left (fun m e => acc_add_d (fst e) (snd e) m) l m)).
Proof. induction l as [|e l IH]; intros m H; [exact H|]. apply IH, add_nodup, H. Qed.
Lemma some_inj {A} (a b : A) : Some a = Some b -> a = b. Proof. intro H. injection H as ->. reflexivity. Qed.
Lemma check_ok streams : (forall k, Bltb (of_int 1) (total (vals k (List.concat streams))) = false) -> sep_check_d streams = Ok tt.
Proof.
  intro H. unfold sep_check_d. destruct (existsb _ _) eqn:E; [|reflexivity]. apply existsb_exists in E. destruct E as ([k v] & IN & B). cbn [snd] in B.
  apply afind_in in IN; [|apply fold_nodup; constructor]. rewrite fold_find in IN. cbn [afind] in IN. specialize (H k). unfold total in H.
  destruct (vals k (List.concat streams)) as [|w ws]; [discriminate|]. apply some_inj in IN. rewrite IN, B in H. discriminate.
Qed.
Lemma check_bad streams k : Bltb (of_int 1) (total (vals k (List.concat streams))) = true -> sep_check_d streams = Throw ValueError.
Proof.
  intro H. unfold sep_check_d. destruct (existsb _ _) eqn:E; [reflexivity|]. exfalso. apply Bool.not_true_iff_false in E. apply E. apply existsb_exists.
  exists (k, total (vals k (List.concat streams))). split; [|exact H]. apply afind_some. rewrite fold_find. cbn [afind]. unfold total in *.
  destruct (vals k (List.concat streams)); [vm_compute in H; discriminate|reflexivity].
Qed.

(** ** Reading decimals *)
Lemma double_of r : fmt r -> Rabs r < pw 1024 -> exists y : double, is_finite y = true /\ B2R y = r.
Proof.
  intros F B. set (m := Ztrunc (scaled_mantissa radix2 fe r)). set (e := cexp radix2 fe r).
  pose proof (binary_normalize_correct 53 1024 double_prec double_emax mode_NE m e false) as C. cbv zeta in C.
  assert (F2R (Float radix2 m e) = r) as E by (symmetry; exact F). rewrite E in C.
  change (round radix2 fe (round_mode mode_NE) r) with (rnd r) in C. rewrite rnd_id in C by exact F. rewrite Rlt_bool_true in C by exact B.
  destruct C as (C1 & C2 & _). eexists. split; [exact C2|exact C1].
Qed.
Lemma nearest_round x r : is_finite x = true -> B2R x = rnd r -> nearest x r.
Proof.
  intros F V. split; [exact F|]. intros y _. rewrite V. destruct (round_N_pt radix2 fe (fun z => negb (Z.even z)) r) as [_ N].
  apply N. apply fmt_double.
Qed.
Lemma nearest_error x r : nearest x r -> Rabs r <= pw 1000 -> Rabs (B2R x - r) <= Rabs (rnd r - r).
Proof.
  intros [_ N] B. destruct (double_of (rnd r) (fmt_rnd r)) as (y & FY & VY).
  - apply Rle_lt_trans with (pw 1000); [apply rnd_abs_le; [lia|exact B]|apply bpow_lt; lia].
  - rewrite <- VY. apply N, FY.
Qed.
Lemma zero_fin : fin (of_int 0) 0. Proof. apply (f_int 0). reflexivity. Qed.
Lemma one_fin : fin (of_int 1) 1. Proof. apply (f_int 1). reflexivity. Qed.
Lemma nearest_nonneg x r : nearest x r -> 0 <= r -> 0 <= B2R x.
Proof.
  intros [_ N] H. destruct zero_fin as [Z1 Z2]. specialize (N _ Z1). rewrite Z2 in N. rewrite (Rabs_left1 (0 - r)) in N by lra.
  destruct (Rle_or_lt 0 (B2R x)) as [|L]; [assumption|]. rewrite (Rabs_left1 (B2R x - r)) in N by lra. lra.
Qed.
Lemma nearest_le1 x r : nearest x r -> r <= 1 -> B2R x <= 1.
Proof.
  intros [_ N] H. destruct one_fin as [Z1 Z2]. specialize (N _ Z1). rewrite Z2 in N. rewrite (Rabs_pos_eq (1 - r)) in N by lra. apply Rabs_le_inv in N. lra.
Qed.
Lemma nearest_ge2 x r : nearest x r -> 2 <= r -> 2 <= B2R x.
Proof.
  intros [_ N] H. destruct (f_int 2 ltac:(reflexivity)) as [Z1 Z2]. specialize (N _ Z1). rewrite Z2 in N. rewrite (Rabs_left1 (2 - r)) in N by lra. apply Rabs_le_inv in N. lra.
Qed.
Lemma pw1000 : 2 <= pw 1000. Proof. change 2 with (pw 1). apply bpow_le. lia. Qed.
Lemma nearest_unit x r : nearest x r -> 0 <= r <= 1 -> Rabs (B2R x - r) <= pw (-54).
Proof.
  intros N R. pose proof pw1000. assert (Rabs r <= 1) by (rewrite Rabs_pos_eq; lra).
  apply Rle_trans with (1 := nearest_error x r N ltac:(lra)). apply abs_unit. assumption.
Qed.
Lemma nearest_two x r : nearest x r -> 0 <= r <= 2 -> Rabs (B2R x - r) <= pw (-52).
Proof.
  intros N R. pose proof pw1000. assert (Rabs r <= 2) by (rewrite Rabs_pos_eq; lra).
  apply Rle_trans with (1 := nearest_error x r N ltac:(lra)).
  destruct (Rle_or_lt 1 r) as [L|L].
  - apply Rle_trans with (u * Rabs r).
    + apply rel_normal. rewrite Rabs_pos_eq by lra. apply Rle_trans with (2 := L). change 1 with (pw 0). apply bpow_le. lia.
    + change (-52)%Z with (-53 + 1)%Z. rewrite bpow_plus. apply Rmult_le_compat_l; [apply bpow_ge_0|assumption].
  - apply Rle_trans with (pw (-54)); [|apply bpow_le; lia]. apply abs_unit. rewrite Rabs_pos_eq; lra.
Qed.

(** ** Acceptance *)
Fixpoint rsum (l : list R) : R := match l with [] => 0 | x :: l' => x + rsum l' end.
Definition vR (l : list double) : list R := map B2R l.
Definition unit_d (x : double) : Prop := is_finite x = true /\ 0 <= B2R x <= 1.
Lemma pw_1023 : 2 <= pw 1023. Proof. change 2 with (pw 1). apply bpow_le. lia. Qed.
Lemma unit_sum x y : unit_d x -> unit_d y -> fin (dplus x y) (rnd (B2R x + B2R y)).
Proof. intros [F R] [G S]. apply f_plus; [assumption|assumption|]. rewrite Rabs_pos_eq by lra. pose proof pw_1023. lra. Qed.
Lemma rsum_nonneg l : Forall unit_d l -> 0 <= rsum (vR l).
Proof. induction 1 as [|x l [F R] _ IH]; cbn; [lra|]. unfold vR in IH. lra. Qed.
Lemma accept_fold l : Forall unit_d l -> forall s, unit_d s -> B2R s + rsum (vR l) + INR (List.length l) * pw (-54) <= 1 ->
  unit_d (fold_left dplus l s).
Proof.
  induction 1 as [|x l X H IH]; intros s S B; [exact S|]. cbn [fold_left]. cbn [vR map rsum] in B. cbn [List.length] in B. rewrite S_INR in B.
  pose proof (rsum_nonneg l H) as P. pose proof (bpow_ge_0 radix2 (-54)) as P2.
  assert (0 <= INR (List.length l) * pw (-54)) as P3 by (apply Rmult_le_pos; [apply pos_INR|exact P2]). unfold vR in *.
  destruct (unit_sum s x S X) as [F V]. destruct S as [_ S]. destruct X as [_ X].
  assert (Rabs (B2R s + B2R x) <= 1) as U by (rewrite Rabs_pos_eq; lra). pose proof (abs_unit _ U) as E. apply Rabs_le_inv in E.
  apply IH.
  - split; [exact F|]. rewrite V. split; [apply rnd_nonneg; lra|]. apply rnd_le_fmt; [apply fmt_1|lra].
  - rewrite V. lra.
Qed.
Lemma accept_total l : Forall unit_d l -> rsum (vR l) + INR (List.length l) * pw (-54) <= 1 -> Bltb (of_int 1) (total l) = false.
Proof.
  intros H B. destruct zero_fin as [Z1 Z2]. destruct one_fin as [O1 O2].
  destruct (accept_fold l H (of_int 0)) as [F R]; [split; [exact Z1|rewrite Z2; lra]|rewrite Z2; lra|].
  fold (total l) in F, R. rewrite Bltb_correct by assumption. rewrite O2. apply Rlt_bool_false. lra.
Qed.
(** Half a unit above one is rounded to one. *)
Lemma tie : rnd (1 + pw (-53)) = 1.
Proof.
  destruct one_fin as [O1 O2].
  assert (fin (ddiv (of_int 1) (of_int (2 ^ 52))) (pw (-52))) as [H1 H2].
  { destruct (f_int (2 ^ 52) ltac:(reflexivity)) as [A B].
    assert (IZR (2 ^ 52) = pw 52) as E by (rewrite <- (IZR_Zpower radix2 52) by lia; reflexivity).
    assert (1 / pw 52 = pw (-52)) as D. { change (-52)%Z with (- (52))%Z. rewrite bpow_opp. unfold Rdiv. ring. }
    destruct (f_div (of_int 1) (of_int (2 ^ 52)) O1) as [X Y].
    - rewrite B, E. pose proof (bpow_gt_0 radix2 52). lra.
    - rewrite O2, B, E, D. rewrite Rabs_pos_eq by apply bpow_ge_0. apply bpow_le. lia.
    - rewrite O2, B, E, D in Y. rewrite rnd_id in Y by (apply fmt_pw; lia). split; assumption. }
  assert (fin (dmult (ddiv (of_int 1) (of_int (2 ^ 52))) (ddiv (of_int 1) (of_int 2))) (pw (-53))) as [G1 G2].
  { destruct (f_int 2 ltac:(reflexivity)) as [A B]. 
    destruct (f_div (of_int 1) (of_int 2) O1) as [X Y]; [rewrite B; lra|rewrite O2, B; rewrite Rabs_pos_eq by lra; pose proof pw_1023; lra|].
    assert (rnd (B2R (of_int 1) / B2R (of_int 2)) = pw (-1)) as E. { rewrite O2, B. replace (1 / 2) with (pw (-1)) by (cbn; lra). apply rnd_id, fmt_pw. lia. }
    rewrite E in Y. destruct (f_mult _ _ H1 X) as [M N].
    - rewrite H2, Y, <- bpow_plus, Rabs_pos_eq by apply bpow_ge_0. apply bpow_le. lia.
    - rewrite H2, Y, <- bpow_plus in N. rewrite rnd_id in N by (apply fmt_pw; lia). split; assumption. }
  destruct (f_plus (of_int 1) _ O1 G1) as [X Y].
  - rewrite O2, G2. rewrite Rabs_pos_eq by (pose proof (bpow_ge_0 radix2 (-53)); lra).
    apply Rle_trans with 2; [|apply pw_1023]. assert (pw (-53) <= pw 0) as LL by (apply bpow_le; lia). change (pw 0) with 1 in LL. lra.
  - rewrite O2, G2 in Y. rewrite <- Y. transitivity (B2R (of_int 1)); [vm_compute; reflexivity|exact O2].
Qed.
Lemma accept_two l : Forall unit_d l -> (List.length l <= 2)%nat -> rsum (vR l) <= 1 + pw (-53) -> Bltb (of_int 1) (total l) = false.
Proof.
  intros H N B. destruct zero_fin as [Z1 Z2]. destruct one_fin as [O1 O2].
  assert (is_finite (total l) = true /\ B2R (total l) <= 1) as [F R].
  { destruct l as [|x [|y [|? ?]]]; cbn in N; try lia; unfold total; cbn [fold_left].
    - rewrite Z2. split; [exact Z1|lra].
    - inversion H as [|? ? X _]; subst. destruct (unit_sum (of_int 0) x) as [F V]; [split; [exact Z1|rewrite Z2; lra]|exact X|].
      rewrite V, Z2, Rplus_0_l, rnd_id by apply fmt_double. split; [exact F|apply X].
    - inversion H as [|? ? X H']; subst. inversion H' as [|? ? Y _]; subst.
      destruct (unit_sum (of_int 0) x) as [F V]; [split; [exact Z1|rewrite Z2; lra]|exact X|]. rewrite Z2, Rplus_0_l, rnd_id in V by apply fmt_double.
      destruct (unit_sum (dplus (of_int 0) x) y) as [F2 V2]; [split; [exact F|rewrite V; apply X]|exact Y|]. rewrite V in V2.
      split; [exact F2|]. rewrite V2. apply Rle_trans with (rnd (1 + pw (-53))); [apply rnd_le; unfold vR in B; cbn [map rsum] in B; lra|]. rewrite tie. lra. }
  rewrite Bltb_correct by assumption. rewrite O2. apply Rlt_bool_false. exact R.
Qed.

(** ** Rejection *)
Definition pos_d (x : double) : Prop := is_finite x = true /\ 0 <= B2R x.
Definition big (s : double) : Prop := s = B754_infinity false \/ (is_finite s = true /\ 1 < B2R s).
Lemma big_lt s : big s -> Bltb (of_int 1) s = true.
Proof.
  destruct one_fin as [O1 O2]. intros [->|[F R]]; [vm_compute; reflexivity|]. rewrite Bltb_correct by assumption. rewrite O2. apply Rlt_bool_true, R.
Qed.
Lemma sign_pos (x : double) : is_finite x = true -> 0 < B2R x -> Bsign x = false.
Proof.
  destruct x as [b|b| |b m e H]; intros F P; try discriminate; cbn in *; [lra|].
  destruct b; [|reflexivity]. exfalso. pose proof (F2R_lt_0 radix2 (Float radix2 (Z.neg m) e) ltac:(reflexivity)). cbn in *. lra.
Qed.
Lemma big_plus (s x : double) : is_finite s = true -> is_finite x = true -> 1 < B2R s \/ 1 < B2R x -> 0 <= B2R s -> 0 <= B2R x -> big (dplus s x).
Proof.
  intros F G O S X. pose proof (Bplus_correct 53 1024 double_prec double_emax mode_NE s x F G) as C.
  change (round radix2 fe (round_mode mode_NE) (B2R s + B2R x)) with (rnd (B2R s + B2R x)) in C.
  destruct (Rlt_bool (Rabs (rnd (B2R s + B2R x))) (pw 1024)) eqn:E.
  - destruct C as (C1 & C2 & _). right. unfold dplus. rewrite C2, C1. split; [reflexivity|].
    destruct O as [O|O]; [apply Rlt_le_trans with (B2R s)|apply Rlt_le_trans with (B2R x)]; try assumption; apply rnd_ge_fmt; try apply fmt_double; lra.
  - destruct C as (C1 & C2). left. assert (Bsign s = false) as SG.
    { destruct O as [O|O]; [apply sign_pos; [exact F|lra]|]. rewrite C2. apply sign_pos; [exact G|lra]. }
    rewrite SG in C1. unfold dplus. destruct (Bplus mode_NE s x) as [b|b| |b m e H]; cbn in C1; try discriminate. injection C1 as ->. reflexivity.
Qed.
Lemma big_step s x : big s -> pos_d x -> big (dplus s x).
Proof.
  intros [->|[F R]] [G P].
  - left. destruct x; try discriminate; reflexivity.
  - apply big_plus; try assumption; [left; exact R|lra].
Qed.
Lemma big_fold l s : Forall pos_d l -> big s -> big (fold_left dplus l s).
Proof. intro H. revert s. induction H as [|x l X _ IH]; intros s B; [exact B|]. apply IH, big_step; assumption. Qed.
Lemma reject_fold l : Forall pos_d l -> forall s, unit_d s -> 1 + INR (List.length l) * pw (-52) < B2R s + rsum (vR l) -> big (fold_left dplus l s).
Proof.
  induction 1 as [|x l X H IH]; intros s S B; [cbn in B; destruct S; lra|]. cbn [fold_left]. cbn [vR map rsum List.length] in B. rewrite S_INR in B. unfold vR in *.
  destruct (Rlt_or_le 1 (B2R x)) as [L|L].
  - apply big_fold; [exact H|]. destruct S as [F S]. destruct X as [G X]. apply big_plus; try assumption; [right; exact L|lra].
  - assert (unit_d x) as UX by (destruct X; split; [assumption|lra]). destruct (unit_sum s x S UX) as [F V]. destruct S as [_ S]. destruct X as [_ X].
    pose proof (rel_sum (B2R s) (B2R x) (fmt_double s) (fmt_double x)) as E. rewrite (Rabs_pos_eq (B2R s + B2R x)) in E by lra. apply Rabs_le_inv in E.
    assert (u * (B2R s + B2R x) <= pw (-52)) as E2.
    { change (-52)%Z with (-53 + 1)%Z. rewrite bpow_plus. apply Rmult_le_compat_l; [apply bpow_ge_0|]. cbn. lra. }
    destruct (Rle_or_lt (rnd (B2R s + B2R x)) 1) as [K|K].
    + apply IH; [split; [exact F|rewrite V; split; [apply rnd_nonneg; lra|exact K]]|]. rewrite V. lra.
    + apply big_fold; [exact H|]. right. rewrite V. split; assumption.
Qed.

(** ** From the input to the doubles *)
Lemma vals_app k a b : vals k (a ++ b) = vals k a ++ vals k b.
Proof. unfold vals. rewrite filter_app, map_app. reflexivity. Qed.
Lemma read_vals k entered stored : read_as entered stored -> Forall2 (fun q x => nearest x (Q2R q)) (given k entered) (vals k (List.concat stored)).
Proof.
  unfold given. induction 1 as [|e x es xs H _ IH]; [constructor|]. cbn [List.concat]. rewrite vals_app, filter_app, map_app. apply Forall2_app; [|exact IH].
  unfold vals. induction H as [|a b l m [E N] _ IH']; [constructor|]. cbn [filter]. rewrite <- E. destruct (Z.eqb (fst a) k); [constructor; assumption|exact IH'].
Qed.
Lemma qsum_cons q l : qsum (q :: l) = (q + qsum l)%Q. Proof. reflexivity. Qed.
Lemma Q2R_qsum l : Q2R (qsum l) = rsum (map Q2R l).
Proof. induction l as [|q l IH]; [unfold Q2R; cbn; lra|]. cbn [qsum map rsum]. rewrite <- IH. apply Q2R_plus. Qed.
Lemma qsum_each l q : Forall (fun q => 0 <= q)%Q l -> In q l -> (q <= qsum l)%Q.
Proof.
  induction 1 as [|x l X H IH]; intro I; [contradiction|]. cbn [qsum]. 
  assert (0 <= qsum l)%Q as P. { clear - H. induction H as [|y l Y _ IH]; [apply Qle_refl|]. cbn [qsum]. rewrite <- (Qplus_0_l 0). apply Qplus_le_compat; assumption. }
  destruct I as [->|I].
  - rewrite <- (Qplus_0_r q) at 1. apply Qplus_le_compat; [apply Qle_refl|exact P].
  - rewrite <- (Qplus_0_l q). apply Qplus_le_compat; [exact X|apply IH, I].
Qed.
Lemma Q2R_nonneg q : (0 <= q)%Q -> 0 <= Q2R q.
Proof. intro H. apply Qle_Rle in H. rewrite RMicromega.Q2R_0 in H. exact H. Qed.
Lemma Q2R_le1 q : (q <= 1)%Q -> Q2R q <= 1.
Proof. intro H. apply Qle_Rle in H. rewrite RMicromega.Q2R_1 in H. exact H. Qed.
Lemma read_units l xs : Forall2 (fun q x => nearest x (Q2R q)) l xs -> Forall (fun q => 0 <= q)%Q l -> Forall (fun q => q <= 1)%Q l ->
  Forall unit_d xs /\ List.length xs = List.length l /\ rsum (vR xs) <= Q2R (qsum l) + INR (List.length l) * pw (-54).
Proof.
  induction 1 as [|q x l xs N _ IH]; intros A B.
  - split; [constructor|]. split; [reflexivity|]. cbn. unfold Q2R. cbn. lra.
  - inversion A as [|? ? A1 A2]; subst. inversion B as [|? ? B1 B2]; subst. destruct (IH A2 B2) as (I1 & I2 & I3).
    apply Q2R_nonneg in A1. apply Q2R_le1 in B1. split; [constructor; [|exact I1]|].
    + split; [apply N|]. split; [apply (nearest_nonneg x _ N A1)|apply (nearest_le1 x _ N B1)].
    + split; [cbn; congruence|]. rewrite qsum_cons. cbn [vR map rsum List.length]. rewrite Q2R_plus, S_INR. unfold vR in I3.
      pose proof (nearest_unit x _ N ltac:(lra)) as E. apply Rabs_le_inv in E. lra.
Qed.
Lemma each_le1 l : Forall (fun q => 0 <= q)%Q l -> (qsum l <= 1)%Q -> Forall (fun q => q <= 1)%Q l.
Proof. intros H S. apply Forall_forall. intros q I. apply Qle_trans with (2 := S). apply qsum_each; assumption. Qed.
Lemma few_final entered stored : read_as entered stored ->
  (forall n, Forall (fun q => 0 <= q)%Q (given n entered) /\ (List.length (given n entered) <= 2)%nat /\ (qsum (given n entered) <= 1)%Q) ->
  sep_check_d stored = Ok tt.
Proof.
  intros R H. apply check_ok. intro k. destruct (H k) as (P & L & S).
  destruct (read_units _ _ (read_vals k _ _ R) P (each_le1 _ P S)) as (U & LEN & B).
  apply accept_two; [exact U|rewrite LEN; exact L|]. apply Q2R_le1 in S. apply Rle_trans with (1 := B).
  assert (INR (List.length (given k entered)) <= 2) as I. { apply le_INR in L. cbn in L. lra. }
  assert (INR (List.length (given k entered)) * pw (-54) <= pw (-53)); [|lra].
  replace (pw (-53)) with (2 * pw (-54)).
  - apply Rmult_le_compat_r; [apply bpow_ge_0|exact I].
  - change 2 with (pw 1). rewrite <- bpow_plus. reflexivity.
Qed.
Lemma Q2R_pow k : Q2R (1 # (Pos.pow 2 k)) = pw (- Zpos k).
Proof.
  unfold Q2R. cbn [Qnum Qden]. rewrite bpow_opp. rewrite Rmult_1_l. f_equal.
  change (bpow radix2 (Z.pos k)) with (IZR (Zpower_pos radix2 k)). f_equal. rewrite Pos2Z.inj_pow. reflexivity.
Qed.
Lemma Q2R_nat n : Q2R (inject_Z (Z.of_nat n)) = INR n.
Proof. unfold Q2R, inject_Z. cbn [Qnum Qden]. rewrite INR_IZR_INZ. field. Qed.
Lemma accepts_final entered stored : read_as entered stored ->
  (forall n, Forall (fun q => 0 <= q)%Q (given n entered) /\
     (qsum (given n entered) + inject_Z (Z.of_nat (List.length (given n entered))) * (1 # 2 ^ 53) <= 1)%Q) ->
  sep_check_d stored = Ok tt.
Proof.
  intros R H. apply check_ok. intro k. destruct (H k) as (P & S). set (l := given k entered) in *.
  assert (0 <= inject_Z (Z.of_nat (List.length l)) * (1 # 2 ^ 53))%Q as P0.
  { apply Qmult_le_0_compat; [|discriminate]. change 0%Q with (inject_Z 0). rewrite <- Zle_Qle. lia. }
  assert (qsum l <= 1)%Q as S1. { apply Qle_trans with (2 := S). rewrite <- (Qplus_0_r (qsum l)) at 1. apply Qplus_le_compat; [apply Qle_refl|exact P0]. }
  destruct (read_units _ _ (read_vals k _ _ R) P (each_le1 _ P S1)) as (U & LEN & B). fold l in LEN, B.
  apply accept_total; [exact U|]. rewrite LEN. apply Qle_Rle in S. rewrite Q2R_plus, Q2R_mult, Q2R_nat, RMicromega.Q2R_1 in S.
  rewrite (Q2R_pow 53) in S. assert (pw (- (53)) = 2 * pw (-54)) as E. { change 2 with (pw 1). rewrite <- bpow_plus. reflexivity. }
  rewrite E in S. lra.
Qed.
Lemma read_pos l xs : Forall2 (fun q x => nearest x (Q2R q)) l xs -> Forall (fun q => 0 <= q)%Q l ->
  Forall pos_d xs /\ List.length xs = List.length l /\
  ((exists x, In x xs /\ 1 < B2R x) \/ Q2R (qsum l) - INR (List.length l) * pw (-52) <= rsum (vR xs)).
Proof.
  induction 1 as [|q x l xs N _ IH]; intros A.
  - split; [constructor|]. split; [reflexivity|]. right. cbn. unfold Q2R. cbn. lra.
  - inversion A as [|? ? A1 A2]; subst. destruct (IH A2) as (I1 & I2 & I3). apply Q2R_nonneg in A1.
    split; [constructor; [|exact I1]|].
    + split; [apply N|apply (nearest_nonneg x _ N A1)].
    + split; [cbn; congruence|]. destruct I3 as [(y & Y1 & Y2)|I3]; [left; exists y; split; [right; exact Y1|exact Y2]|].
      destruct (Rle_or_lt (Q2R q) 2) as [L|L].
      * right. rewrite qsum_cons. cbn [vR map rsum List.length]. rewrite Q2R_plus, S_INR. unfold vR in I3.
        pose proof (nearest_two x _ N ltac:(lra)) as E. apply Rabs_le_inv in E. lra.
      * left. exists x. split; [left; reflexivity|]. pose proof (nearest_ge2 x _ N ltac:(lra)). lra.
Qed.
Lemma some_big l s : Forall pos_d l -> (exists x, In x l /\ 1 < B2R x) -> big s \/ pos_d s -> big (fold_left dplus l s).
Proof.
  intro H. revert s. induction H as [|x l X H IH]; intros s (y & I & B) S; [contradiction|]. cbn [fold_left].
  destruct S as [S|S]; [apply big_fold; [exact H|apply big_step; assumption]|].
  destruct I as [->|I].
  - apply big_fold; [exact H|]. destruct S. destruct X. apply big_plus; auto.
  - apply IH; [exists y; auto|]. destruct (Rlt_or_le 1 (B2R s)) as [L|L]; [left; destruct S; destruct X; apply big_plus; auto|].
    destruct (Rlt_or_le 1 (B2R x)) as [L2|L2]; [left; destruct S; destruct X; apply big_plus; auto|]. right.
    destruct S as [S1 S2]. destruct X as [X1 X2]. destruct (unit_sum s x) as [F V]; [split; [assumption|lra]|split; [assumption|lra]|].
    split; [exact F|]. rewrite V. apply rnd_nonneg. lra.
Qed.
Lemma rejects_final entered stored n : read_as entered stored -> Forall (fun q => 0 <= q)%Q (given n entered) ->
  (1 + inject_Z (Z.of_nat (List.length (given n entered))) * (1 # 2 ^ 51) < qsum (given n entered))%Q ->
  sep_check_d stored = Throw ValueError.
Proof.
  intros R P S. apply (check_bad stored n). apply big_lt. destruct zero_fin as [Z1 Z2].
  destruct (read_pos _ _ (read_vals n _ _ R) P) as (U & LEN & B). unfold total. destruct B as [B|B].
  - apply some_big; [exact U|exact B|]. right. split; [exact Z1|rewrite Z2; lra].
  - apply reject_fold; [exact U|split; [exact Z1|rewrite Z2; lra]|]. rewrite Z2, LEN.
    apply Qlt_Rlt in S. rewrite Q2R_plus, Q2R_mult, Q2R_nat, RMicromega.Q2R_1, (Q2R_pow 51) in S.
    assert (pw (- (51)) = 2 * pw (-52)) as E. { change 2 with (pw 1). rewrite <- bpow_plus. reflexivity. }
    rewrite E in S. lra.
Qed.
(** The quotient of two ints is the nearest double. *)
Lemma read_decimal n d : (Z.abs n < 2 ^ 53)%Z -> (Zpos d < 2 ^ 53)%Z -> nearest (ddiv (of_int n) (of_int (Zpos d))) (Q2R (n # d)).
Proof.
  intros N D. destruct (f_int n N) as [N1 N2]. destruct (f_int (Zpos d)) as [D1 D2]; [lia|].
  assert (1 <= IZR (Zpos d)) as P by (apply IZR_le; lia).
  destruct (f_div (of_int n) (of_int (Zpos d)) N1) as [F V].
  - rewrite D2. lra.
  - rewrite N2, D2. unfold Rdiv. rewrite Rabs_mult. rewrite <- (Rmult_1_r (pw 1023)). apply Rmult_le_compat; try apply Rabs_pos.
    + rewrite <- abs_IZR. apply Rle_trans with (IZR (2 ^ 53)); [apply IZR_le; lia|]. change (2 ^ 53)%Z with (Zpower radix2 53). rewrite IZR_Zpower by lia. apply bpow_le. lia.
    + rewrite Rabs_pos_eq by (left; apply Rinv_0_lt_compat; lra). rewrite <- Rinv_1. apply Rinv_le; lra.
  - apply nearest_round; [exact F|]. rewrite V, N2, D2. reflexivity.
Qed.
