(** C104: the mixing fractions of fuel fabrication in double precision.  The axioms
    below are those of the standard library's real numbers, which Flocq's proofs use. *)
From Coq Require Import ZArith Reals Lia Lra.
From Flocq Require Import Core.Core IEEE754.BinarySingleNaN.
From Verif Require Import Outcome DoubleModel DoubleProofs DoubleFacts DoubleSpec FuelFabDoubleModel FuelFabDoubleProofs.
Local Open Scope R_scope.

(** ** C104.  Fractions exist exactly if the target lies between the two weights, and both are
    numbers from 0 to 1, whatever the rounding. *)
Theorem C104_range : forall w_low w_target w_high eps, weight w_low -> weight w_target -> weight w_high ->
  (B2R w_low <= B2R w_target <= B2R w_high ->
    (exists h, high_frac_d w_low w_target w_high eps = Ok h /\ is_finite h = true /\ 0 <= B2R h <= 1) /\
    (exists l, low_frac_d w_low w_target w_high eps = Ok l /\ is_finite l = true /\ 0 <= B2R l <= 1)) /\
  (~ (B2R w_low <= B2R w_target <= B2R w_high) ->
    high_frac_d w_low w_target w_high eps = Throw ValueError /\ low_frac_d w_low w_target w_high eps = Throw ValueError).
Proof. exact range_final. Qed.
Print Assumptions C104_range.

(** A richer target never gets a smaller fraction of the richer stream. *)
Theorem C104_monotone : forall w_low w w' w_high eps h h', weight w_low -> weight w -> weight w' -> weight w_high -> is_finite eps = true ->
  B2R w <= B2R w' -> high_frac_d w_low w w_high eps = Ok h -> high_frac_d w_low w' w_high eps = Ok h' -> B2R h <= B2R h'.
Proof. exact monotone_final. Qed.
Print Assumptions C104_monotone.

(** The fraction is the exact one up to the tolerance and four units of 2 ^ -53. *)
Theorem C104_accuracy : forall w_low w_target w_high eps h, weight w_low -> weight w_target -> weight w_high ->
  is_finite eps = true -> 0 <= B2R eps -> B2R w_low < B2R w_high -> high_frac_d w_low w_target w_high eps = Ok h ->
  Rabs (B2R h - (B2R w_target - B2R w_low) / (B2R w_high - B2R w_low)) <= B2R eps + 4 * bpow radix2 (-53).
Proof. exact accuracy_final. Qed.
Print Assumptions C104_accuracy.

(** The two fractions add up to one, up to half a unit of 2 ^ -53. *)
Theorem C104_low : forall w_low w_target w_high eps h l, weight w_low -> weight w_target -> weight w_high ->
  high_frac_d w_low w_target w_high eps = Ok h -> low_frac_d w_low w_target w_high eps = Ok l ->
  Rabs (B2R l - (1 - B2R h)) <= bpow radix2 (-54).
Proof. exact low_final. Qed.
Print Assumptions C104_low.

(** At the ends it is exact. *)
Theorem C104_ends : forall w_low w_high eps, weight w_low -> weight w_high -> is_finite eps = true -> 0 <= B2R eps <= / 2 -> B2R w_low < B2R w_high ->
  (forall w, weight w -> B2R w = B2R w_low -> exists h, high_frac_d w_low w w_high eps = Ok h /\ B2R h = 0) /\
  (forall w, weight w -> B2R w = B2R w_high -> exists h, high_frac_d w_low w w_high eps = Ok h /\ B2R h = 1).
Proof. exact ends_final. Qed.
Print Assumptions C104_ends.

(** The mass fraction of a stream is a number from 0 to 1, if there is any material, and what is
    drawn from the stream for an order is at most the order, and is the fraction of the order up to
    rounding. *)
Theorem C104_draws : forall n1 n2, Forall amount n1 -> Forall amount n2 ->
  (Z.of_nat (List.length n1) <= 2 ^ 50)%Z -> (Z.of_nat (List.length n2) <= 2 ^ 50)%Z ->
  (exists p, In p (n1 ++ n2) /\ bpow radix2 (-500) <= B2R (fst p) /\ bpow radix2 (-500) <= B2R (snd p)) ->
  is_finite (mass_frac_d n1 n2) = true /\ 0 <= B2R (mass_frac_d n1 n2) <= 1 /\
  forall qty, is_finite qty = true -> 0 <= B2R qty ->
    is_finite (draw_d (mass_frac_d n1 n2) qty) = true /\ 0 <= B2R (draw_d (mass_frac_d n1 n2) qty) <= B2R qty /\
    Rabs (B2R (draw_d (mass_frac_d n1 n2) qty) - B2R (mass_frac_d n1 n2) * B2R qty) <= bpow radix2 (-53) * (B2R (mass_frac_d n1 n2) * B2R qty) + bpow radix2 (-1074).
Proof. exact mass_frac_final. Qed.
Print Assumptions C104_draws.

(** The mass fraction is the stream's part of the exact total mass, up to 8 n + 8 units of 2 ^ -53 for n nuclides
    in all. *)
Theorem C104_mass_fraction : forall n1 n2, Forall amount n1 -> Forall amount n2 ->
  (Z.of_nat (List.length n1 + List.length n2) <= 2 ^ 20)%Z ->
  (exists p, In p (n1 ++ n2) /\ bpow radix2 (-500) <= B2R (fst p) /\ bpow radix2 (-500) <= B2R (snd p)) ->
  Rabs (B2R (mass_frac_d n1 n2) - exact_mass n1 / (exact_mass n1 + exact_mass n2))
    <= (8 * INR (List.length n1 + List.length n2) + 8) * bpow radix2 (-53).
Proof. exact mass_frac_accuracy. Qed.
Print Assumptions C104_mass_fraction.

(** A worked case: weights -1/3, 1/7 and 1, which are no doubles; tolerance 1e-6. *)
Definition fd_low : double := ddiv (of_int (-1)) (of_int 3).
Definition fd_tgt : double := ddiv (of_int 1) (of_int 7).
Definition fd_tgt2 : double := ddiv (of_int 1) (of_int 6).
Definition fd_high : double := of_int 1.
Definition fd_eps : double := ddiv (of_int 1) (of_int 1000000).
Lemma small_weight (x : double) : is_finite x = true -> Bleb x (of_int 4) = true -> Bleb (of_int (-4)) x = true -> weight x.
Proof.
  intros F A B. split; [exact F|]. destruct (f_int 4 ltac:(reflexivity)) as [P1 P2]. destruct (f_int (-4) ltac:(reflexivity)) as [N1 N2].
  rewrite Bleb_correct, P2 in A by assumption. rewrite Bleb_correct, N2 in B by assumption.
  destruct (Rle_bool_spec (B2R x) 4) as [A'|]; [|discriminate]. destruct (Rle_bool_spec (-4) (B2R x)) as [B'|]; [|discriminate].
  apply Rle_trans with 4; [apply Rabs_le; lra|]. apply Rle_trans with (bpow radix2 2); [cbn; lra|apply bpow_le; lia].
Qed.
Lemma ordered (x y : double) : is_finite x = true -> is_finite y = true -> Bltb x y = true -> B2R x < B2R y.
Proof. intros X Y H. rewrite Bltb_correct in H by assumption. destruct (Rlt_bool_spec (B2R x) (B2R y)); [assumption|discriminate]. Qed.
Definition between (a : Z) (r : outcome double) (b d : Z) : bool :=
  match r with Ok h => Bltb (ddiv (of_int a) (of_int d)) h && Bltb h (ddiv (of_int b) (of_int d)) | _ => false end.
Example C104_case : weight fd_low /\ weight fd_tgt /\ weight fd_tgt2 /\ weight fd_high /\ is_finite fd_eps = true /\ 0 < B2R fd_eps < / 2 /\
  B2R fd_low < B2R fd_tgt < B2R fd_high /\ B2R fd_tgt < B2R fd_tgt2 < B2R fd_high /\
  between 34 (high_frac_d fd_low fd_tgt fd_high fd_eps) 36 98 = true /\ between 62 (low_frac_d fd_low fd_tgt fd_high fd_eps) 64 98 = true.
Proof.
  split; [apply small_weight; vm_compute; reflexivity|]. split; [apply small_weight; vm_compute; reflexivity|]. split; [apply small_weight; vm_compute; reflexivity|].
  split; [apply small_weight; vm_compute; reflexivity|]. split; [vm_compute; reflexivity|]. split.
  { split.
    - destruct (f_int 0 ltac:(reflexivity)) as [Z1 Z2]. rewrite <- Z2. apply ordered; vm_compute; reflexivity.
    - apply Rlt_le_trans with (B2R (ddiv (of_int 1) (of_int 4))); [apply ordered; vm_compute; reflexivity|].
      replace (B2R (ddiv (of_int 1) (of_int 4))) with (/ 4); [lra|]. vm_compute. lra. }
  split; [split; apply ordered; vm_compute; reflexivity|]. split; [split; apply ordered; vm_compute; reflexivity|].
  split; vm_compute; reflexivity.
Qed.
(** Two nuclides in each stream (the case of both mass theorems). *)
Definition fd_n1 : list (double * double) := [(ddiv (of_int 1) (of_int 10), of_int 239); (ddiv (of_int 2) (of_int 10), of_int 240)].
Definition fd_n2 : list (double * double) := [(ddiv (of_int 7) (of_int 10), of_int 238); (of_int 0, of_int 235)].
Lemma small_amount (x y : double) : is_finite x = true -> is_finite y = true -> Bleb (of_int 0) x = true -> Bleb x (of_int 1024) = true ->
  Bleb (of_int 0) y = true -> Bleb y (of_int 1024) = true -> amount (x, y).
Proof.
  intros F G A B C D. destruct (f_int 0 ltac:(reflexivity)) as [P1 P2]. destruct (f_int 1024 ltac:(reflexivity)) as [N1 N2].
  rewrite Bleb_correct, P2 in A, C by assumption. rewrite Bleb_correct, N2 in B, D by assumption.
  destruct (Rle_bool_spec 0 (B2R x)) as [A'|]; [|discriminate]. destruct (Rle_bool_spec (B2R x) 1024) as [B'|]; [|discriminate].
  destruct (Rle_bool_spec 0 (B2R y)) as [C'|]; [|discriminate]. destruct (Rle_bool_spec (B2R y) 1024) as [D'|]; [|discriminate].
  assert (bpow radix2 10 = 1024) as E by reflexivity. unfold amount. cbn [fst snd]. rewrite E. auto.
Qed.
Example C104_draws_case : Forall amount fd_n1 /\ Forall amount fd_n2 /\
  (exists p, In p (fd_n1 ++ fd_n2) /\ bpow radix2 (-500) <= B2R (fst p) /\ bpow radix2 (-500) <= B2R (snd p)) /\
  Bltb (of_int 301) (draw_d (mass_frac_d fd_n1 fd_n2) (of_int 1000)) = true /\ Bltb (draw_d (mass_frac_d fd_n1 fd_n2) (of_int 1000)) (of_int 302) = true.
Proof.
  assert (forall p q : double * double, amount p -> amount q -> Forall amount [p; q]) as FA by (intros; constructor; [assumption|]; constructor; [assumption|constructor]).
  split; [apply FA; apply small_amount; vm_compute; reflexivity|]. split; [apply FA; apply small_amount; vm_compute; reflexivity|].
  split; [|split; vm_compute; reflexivity]. exists (ddiv (of_int 1) (of_int 10), of_int 239). split; [left; reflexivity|]. cbn [fst snd].
  destruct (f_int 239 ltac:(reflexivity)) as [P1 P2]. rewrite P2. split.
  - apply Rle_trans with (bpow radix2 (-4)); [apply bpow_le; lia|].
    replace (bpow radix2 (-4)) with (B2R (ddiv (of_int 1) (of_int 16))); [|vm_compute; lra]. left. apply ordered; vm_compute; reflexivity.
  - apply Rle_trans with (bpow radix2 0); [apply bpow_le; lia|]. cbn. lra.
Qed.
