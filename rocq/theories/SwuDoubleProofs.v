(** Proofs for C117. *)
From Coq Require Import ZArith Reals List Lia Lra.
From Flocq Require Import Core.Core IEEE754.BinarySingleNaN.
From Verif Require Import Outcome DoubleModel DoubleProofs DoubleFacts DoubleSpec MixerDoubleModel MixerDoubleSpec MixerDoubleProofs
  StorageDoubleSpec StorageDoubleProofs SourceDoubleProofs SinkDoubleProofs SwuDoubleModel SwuDoubleSpec.
Import ListNotations.
Local Open Scope R_scope.
Local Existing Instance double_prec.
Local Existing Instance double_emax.
Local Existing Instance fe_valid.

Lemma account_fold ts : forall a, fold_left enrich_d ts a =
  {| sa_left := fold_left dminus (map fst ts) (sa_left a); sa_swu := fold_left dplus (map fst ts) (sa_swu a); sa_feed := fold_left dplus (map snd ts) (sa_feed a) |}.
Proof. induction ts as [|t ts IH]; intro a; [destruct a; reflexivity|]. cbn [fold_left map]. rewrite IH. reflexivity. Qed.
Lemma q_all l : Forall quantity_d l -> Forall (fun x : double => is_finite x = true /\ 0 <= B2R x) l.
Proof. apply Forall_impl. intros x X. split; [apply X|apply q_nonneg, X]. Qed.
Lemma total_val l : Forall quantity_d l -> (Z.of_nat (List.length l) <= 2 ^ 20)%Z -> sum_of l <= pw 1000 -> rounded (List.length l) (sum_of l) (fold_left dplus l (of_int 0)).
Proof.
  intros Q L B. destruct fin_zero as [F V]. destruct (sum_err l (q_all l Q) (of_int 0) 0 0%nat F) as (_ & _ & E).
  - rewrite V. lra.
  - lra.
  - rewrite V. rewrite Rminus_0_r, Rabs_R0. cbn [INR]. lra.
  - exact L.
  - assert (pw 1000 <= pw 1022) by (apply bpow_le; lia). lra.
  - rewrite Rplus_0_l in E. exact E.
Qed.
(** What is left, by induction over the enrichments. *)
Lemma left_room (c eg : double) l : 0 <= B2R c -> 0 <= B2R eg -> B2R c + B2R eg <= pw 1000 -> forall x : double, is_finite x = true -> B2R x <= B2R c -> Forall quantity_d l ->
  - B2R eg <= B2R x - sum_of l - INR (List.length l) * (u * (B2R c + B2R eg)) ->
  is_finite (fold_left dminus l x) = true /\ - B2R eg <= B2R (fold_left dminus l x) <= B2R c.
Proof.
  intros C G HB. assert (U0 : 0 <= u * (B2R c + B2R eg)) by (apply Rmult_le_pos; [apply bpow_ge_0|lra]).
  induction l as [|s l IH]; intros x F X Q H; cbn [fold_left].
  - change (sum_of []) with 0 in H. cbn [List.length INR] in H. split; [exact F|lra].
  - inversion Q as [|? ? Qs Ql]; subst. rewrite sum_cons in H. cbn [List.length] in H. rewrite S_INR in H. pose proof (q_nonneg s Qs) as S0. pose proof (sum_q l Ql) as L0.
    pose proof (pos_INR (List.length l)) as N. assert (NU : 0 <= INR (List.length l) * (u * (B2R c + B2R eg))) by (apply Rmult_le_pos; assumption).
    assert (P : pw 1000 <= pw 1023) by (apply bpow_le; lia).
    assert (A : Rabs (B2R x - B2R s) <= B2R c + B2R eg) by (apply Rabs_le; lra).
    destruct (f_minus x s F (proj1 Qs) ltac:(lra)) as [F1 V1].
    pose proof (rel_diff (B2R x) (B2R s) (fmt_double x) (fmt_double s)) as Er. rewrite <- V1 in Er.
    assert (W : u * Rabs (B2R x - B2R s) <= u * (B2R c + B2R eg)) by (apply Rmult_le_compat_l; [apply bpow_ge_0|exact A]).
    apply IH; try assumption.
    + rewrite V1. apply rnd_le_fmt; [apply fmt_double|lra].
    + revert Er. unfold Rabs at 1. destruct (Rcase_abs _); lra.
Qed.
Lemma neg_false (eg x : double) : is_finite eg = true -> is_finite x = true -> - B2R eg <= B2R x -> is_negative_d eg x = false.
Proof.
  intros E X H. unfold is_negative_d. rewrite Bltb_correct; [|exact X|rewrite is_finite_Bopp; exact E]. rewrite B2R_Bopp. apply Rlt_bool_false. exact H.
Qed.
Lemma neg_true (eg x : double) : is_finite eg = true -> is_finite x = true -> is_negative_d eg x = false -> - B2R eg <= B2R x.
Proof.
  intros E X H. unfold is_negative_d in H. rewrite Bltb_correct in H; [|exact X|rewrite is_finite_Bopp; exact E]. rewrite B2R_Bopp in H.
  destruct (Rlt_bool_spec (B2R x) (- B2R eg)); [discriminate|assumption].
Qed.
Lemma firsts ts : Forall (fun t : double * double => quantity_d (fst t) /\ quantity_d (snd t)) ts -> Forall quantity_d (map fst ts) /\ Forall quantity_d (map snd ts).
Proof. induction 1 as [|t ts [A B] H [I J]]; split; constructor; assumption. Qed.
Lemma within_ok eg c ts w f : swu_input eg c -> swu_trades ts -> swu_within eg c ts ->
  exists a, trades_swu_d eg ts {| sa_left := c; sa_swu := w; sa_feed := f |} = Ok a.
Proof.
  intros (E & E0 & C & B) (L & Q & _) W. destruct (firsts ts Q) as [Q1 _]. unfold trades_swu_d. rewrite account_fold. cbn [sa_left sa_swu sa_feed].
  destruct (left_room c eg (map fst ts) (q_nonneg c C) E0 B c (proj1 C) (Rle_refl _) Q1) as [F [V _]].
  - rewrite map_length. unfold swu_within in W. lra.
  - rewrite (neg_false _ _ E F V). eexists. reflexivity.
Qed.
(** What is recorded. *)
Lemma trades_account eg c ts w f a : swu_trades ts -> trades_swu_d eg ts {| sa_left := c; sa_swu := w; sa_feed := f |} = Ok a ->
  rounded (List.length ts) (sum_of (map fst ts)) (sa_swu a) /\ rounded (List.length ts) (sum_of (map snd ts)) (sa_feed a).
Proof.
  intros (L & Q & B1 & B2). destruct (firsts ts Q) as [Q1 Q2]. unfold trades_swu_d. rewrite account_fold. cbn [sa_left sa_swu sa_feed].
  destruct (is_negative_d _ _); [discriminate|]. intro H. injection H as <-. cbn [sa_swu sa_feed]. split.
  - rewrite <- (map_length fst ts) at 1. apply total_val; [exact Q1|rewrite map_length; exact L|exact B1].
  - rewrite <- (map_length snd ts) at 1. apply total_val; [exact Q2|rewrite map_length; exact L|exact B2].
Qed.
(** What is left, when it may be negative. *)
Lemma left_err M l : 0 <= M <= pw 1001 -> forall (x : double) g k, is_finite x = true -> Forall quantity_d l -> Rabs g <= M -> Rabs (g - sum_of l) <= M ->
  Rabs (B2R x - g) <= 2 * INR k * u * M -> (Z.of_nat (k + List.length l) <= 2 ^ 20)%Z ->
  is_finite (fold_left dminus l x) = true /\ Rabs (B2R (fold_left dminus l x) - (g - sum_of l)) <= 2 * INR (k + List.length l) * u * M.
Proof.
  intros HM. induction l as [|s l IH]; intros x g k F Q G G2 K L; cbn [fold_left].
  - change (sum_of []) with 0. cbn [List.length]. rewrite Nat.add_0_r, Rminus_0_r. split; assumption.
  - inversion Q as [|? ? Qs Ql]; subst. rewrite sum_cons in *. cbn [List.length] in *. pose proof (q_nonneg s Qs) as S0. pose proof (sum_q l Ql) as L0.
    assert (KU : 2 * INR k * u <= 1).
    { assert (INR k <= IZR (2 ^ 20)) by (rewrite INR_IZR_INZ; apply IZR_le; lia). rewrite u_val. change (IZR (2 ^ 20)) with 1048576 in H. lra. }
    assert (G1 : Rabs (g - B2R s) <= M). { apply Rabs_le_inv in G, G2. apply Rabs_le. lra. }
    assert (CM : 2 * INR k * u * M <= M) by (rewrite <- (Rmult_1_l M) at 2; apply Rmult_le_compat_r; [apply HM|exact KU]).
    assert (A : Rabs (B2R x - B2R s) <= 2 * M). { apply Rabs_le_inv in G1, K. apply Rabs_le. lra. }
    assert (P : 2 * pw 1001 <= pw 1023). { change 2 with (pw 1). rewrite <- bpow_plus. apply bpow_le. lia. }
    destruct (f_minus x s F (proj1 Qs) ltac:(lra)) as [F1 V1].
    pose proof (rel_diff (B2R x) (B2R s) (fmt_double x) (fmt_double s)) as Er. rewrite <- V1 in Er.
    assert (W : u * Rabs (B2R x - B2R s) <= u * (2 * M)) by (apply Rmult_le_compat_l; [apply bpow_ge_0|exact A]).
    destruct (IH (dminus x s) (g - B2R s) (Datatypes.S k)) as [I1 I2]; try assumption.
    + replace (g - B2R s - sum_of l) with (g - (B2R s + sum_of l)) by ring. exact G2.
    + rewrite S_INR. apply Rabs_le_inv in Er, K. apply Rabs_le. replace (2 * (INR k + 1) * u * M) with (2 * INR k * u * M + u * (2 * M)) by ring. lra.
    + lia.
    + split; [exact I1|]. replace (k + Datatypes.S (List.length l))%nat with (Datatypes.S k + List.length l)%nat by lia.
      replace (g - (B2R s + sum_of l)) with (g - B2R s - sum_of l) by ring. exact I2.
Qed.
Lemma trades_limit eg c ts w f a : swu_input eg c -> swu_trades ts -> trades_swu_d eg ts {| sa_left := c; sa_swu := w; sa_feed := f |} = Ok a ->
  sum_of (map fst ts) <= B2R c + B2R eg + 2 * INR (List.length ts) * u * (B2R c + sum_of (map fst ts)).
Proof.
  intros (E & E0 & C & B) (L & Q & B1 & B2). destruct (firsts ts Q) as [Q1 _]. pose proof (q_nonneg c C) as C0. pose proof (sum_q _ Q1) as S0.
  destruct (left_err (B2R c + sum_of (map fst ts)) (map fst ts)) with (x := c) (g := B2R c) (k := 0%nat) as [F V]; try assumption.
  - split; [lra|]. change 1001%Z with (1 + 1000)%Z. rewrite bpow_plus. change (pw 1) with 2. lra.
  - apply C.
  - apply Rabs_le. lra.
  - apply Rabs_le. lra.
  - rewrite Rminus_diag_eq, Rabs_R0 by reflexivity. cbn [INR]. lra.
  - cbn [Nat.add]. rewrite map_length. exact L.
  - unfold trades_swu_d. rewrite account_fold. cbn [sa_left sa_swu sa_feed]. destruct (is_negative_d _ _) eqn:N; [discriminate|]. intros _.
    apply (neg_true _ _ E F) in N. cbn [Nat.add] in V. rewrite map_length in V. apply Rabs_le_inv in V. lra.
Qed.

(** ** Lives *)
Lemma life_cons eg c a t ts rest : swu_life_d eg c a ((t :: ts) :: rest) =
  (let* '(a1, o) := swu_step_d eg c a (t :: ts) in let* os := swu_life_d eg c a1 rest in Ok (o :: os)).
Proof. reflexivity. Qed.
Lemma life_nil eg c a rest : swu_life_d eg c a ([] :: rest) =
  (let* os := swu_life_d eg c {| sa_left := c; sa_swu := sa_swu a; sa_feed := sa_feed a |} rest in Ok ((sa_swu a, sa_feed a) :: os)).
Proof. reflexivity. Qed.
Lemma life_ok eg c steps : swu_input eg c -> Forall (fun ts => swu_trades ts /\ swu_within eg c ts) steps -> forall a, exists os, swu_life_d eg c a steps = Ok os.
Proof.
  intros I H. induction H as [|ts steps [T W] H IH]; intro a; [eexists; reflexivity|]. destruct ts as [|t ts].
  - rewrite life_nil. destruct (IH {| sa_left := c; sa_swu := sa_swu a; sa_feed := sa_feed a |}) as [os ->]. eexists. reflexivity.
  - rewrite life_cons. unfold swu_step_d. destruct (within_ok eg c (t :: ts) (sa_swu a) (sa_feed a) I T W) as [a1 ->]. cbn [bind].
    destruct (IH a1) as [os ->]. eexists. reflexivity.
Qed.
Lemma life_account eg c steps : Forall swu_trades steps -> forall a os, swu_life_d eg c a steps = Ok os -> Forall2 account_of steps os.
Proof.
  intros H. induction H as [|ts steps T H IH]; intros a os; [intro L; injection L as <-; constructor|]. destruct ts as [|t ts].
  - rewrite life_nil. destruct (swu_life_d _ _ _ steps) as [os'| | |] eqn:R; try discriminate. cbn [bind]. intro L. injection L as <-. constructor; [|exact (IH _ _ R)].
    intro N. congruence.
  - rewrite life_cons. unfold swu_step_d. destruct (trades_swu_d _ _ _) as [a1| | |] eqn:A; try discriminate. cbn [bind].
    destruct (swu_life_d _ _ a1 steps) as [os'| | |] eqn:R; try discriminate. cbn [bind]. intro L. injection L as <-. constructor; [|exact (IH _ _ R)].
    intros _. exact (trades_account _ _ _ _ _ _ T A).
Qed.
Lemma life_limit eg c steps : swu_input eg c -> Forall swu_trades steps -> forall a os, swu_life_d eg c a steps = Ok os ->
  Forall (fun ts => sum_of (map fst ts) <= B2R c + B2R eg + 2 * INR (List.length ts) * u * (B2R c + sum_of (map fst ts))) steps.
Proof.
  intros I H. induction H as [|ts steps T H IH]; intros a os; [constructor|]. destruct ts as [|t ts].
  - rewrite life_nil. destruct (swu_life_d _ _ _ steps) as [os'| | |] eqn:R; try discriminate. intros _. constructor; [|exact (IH _ _ R)].
    destruct I as (_ & E0 & C & _). pose proof (q_nonneg c C). change (sum_of (map fst [])) with 0. cbn [List.length INR]. lra.
  - rewrite life_cons. unfold swu_step_d. destruct (trades_swu_d _ _ _) as [a1| | |] eqn:A; try discriminate. cbn [bind].
    destruct (swu_life_d _ _ a1 steps) as [os'| | |] eqn:R; try discriminate. intros _. constructor; [|exact (IH _ _ R)]. exact (trades_limit _ _ _ _ _ _ I T A).
Qed.
Lemma life_quiet eg c a steps os : swu_life_d eg c a ([] :: steps) = Ok os -> exists rest, os = (sa_swu a, sa_feed a) :: rest.
Proof. rewrite life_nil. destruct (swu_life_d _ _ _ steps) as [os'| | |]; try discriminate. cbn [bind]. intro L. injection L as <-. eexists. reflexivity. Qed.
