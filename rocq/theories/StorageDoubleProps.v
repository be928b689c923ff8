(** C109: the release of parcels by Storage with discrete handling in double precision.  The axioms below are those of the
    standard library's real numbers, which Flocq's proofs use. *)
From Coq Require Import ZArith Reals QArith Qreals List Lia Lra.
From Flocq Require Import Core.Core IEEE754.BinarySingleNaN.
From Verif Require Import Outcome DoubleModel DoubleProofs DoubleFacts DoubleSpec MixerDoubleSpec SeparationsDoubleProofs StorageDoubleModel StorageDoubleSpec StorageDoubleProofs.
Import ListNotations.
Local Open Scope R_scope.

(** ** C109.  The parcels released in a step are the first ones ready; their mass exceeds the throughput, and falls short of
    it by more than the next parcel, by rounding only: 4 n units of 2 ^ -53 for n parcels, and what the buffer's own
    quantity is off. *)
Theorem C109_release_partial : forall off throughput ready_qty ready moved rest,
  ready_state off throughput ready_qty ready -> 0 <= B2R throughput -> release_d throughput ready_qty ready = (moved, rest) ->
  let c := 4 * INR (List.length ready) * bpow radix2 (-53) in
  ready = moved ++ rest /\ sum_of moved <= (1 + c) * B2R throughput + off /\
  (forall next others, rest = next :: others -> B2R throughput < (1 + c) * (sum_of moved + B2R next)).
Proof. exact release_spec. Qed.
Print Assumptions C109_release_partial.

(** Without rounding, for parcels that are multiples of a power of two and together at most 2 ^ 53 of it (for example whole
    kilograms), exactly the longest admissible prefix is released. *)
Theorem C109_exact : forall e throughput ready_qty ready moved rest, (-1074 <= e <= 900)%Z ->
  is_finite throughput = true -> is_finite ready_qty = true -> Forall quantity_d ready -> 0 <= B2R throughput ->
  Forall (multiple e) ready -> sum_of ready <= bpow radix2 (e + 53) -> B2R ready_qty = sum_of ready ->
  release_d throughput ready_qty ready = (moved, rest) ->
  ready = moved ++ rest /\ sum_of moved <= B2R throughput /\
  (forall next others, rest = next :: others -> B2R throughput < sum_of moved + B2R next).
Proof. exact exact_spec. Qed.
Print Assumptions C109_exact.

(** Worked cases: of parcels of 3, 4, 2 and 5 kg, two are released for a throughput of 8 kg. *)
Definition zd_ready : list double := [of_int 3; of_int 4; of_int 2; of_int 5].
Lemma zd_int n : (0 <= n < 2 ^ 53)%Z -> (match of_int n with B754_zero s | B754_finite s _ _ _ => s | _ => true end) = false -> quantity_d (of_int n) /\ multiple 0 (of_int n).
Proof.
  intros H S. destruct (f_int n) as [A B]; [lia|]. split; [split; [exact A|destruct (of_int n); try discriminate; exact S]|]. exists n. rewrite B. cbn. ring.
Qed.
Lemma zd_ok : Forall quantity_d zd_ready /\ Forall (multiple 0) zd_ready /\ sum_of zd_ready = 14.
Proof.
  assert (Forall (fun x => quantity_d x /\ multiple 0 x) zd_ready) as H by (repeat (constructor; [apply zd_int; [lia|vm_compute; reflexivity]|]); constructor).
  split; [eapply Forall_impl; [|exact H]; intros x X; apply X|]. split; [eapply Forall_impl; [|exact H]; intros x X; apply X|].
  unfold zd_ready. cbn [sum_of fold_right]. destruct (f_int 3 ltac:(reflexivity)) as [_ ->]. destruct (f_int 4 ltac:(reflexivity)) as [_ ->]. destruct (f_int 2 ltac:(reflexivity)) as [_ ->]. destruct (f_int 5 ltac:(reflexivity)) as [_ ->]. lra.
Qed.
Lemma zd_run : release_d (of_int 8) (of_int 14) zd_ready = ([of_int 3; of_int 4], [of_int 2; of_int 5]).
Proof.
  unfold release_d, zd_ready, MixerDoubleModel.dmin. cbn [discrete_loop_d].
  replace (Bltb (of_int 14) (of_int 8)) with false by (vm_compute; reflexivity). replace (Beqb (of_int 8) (of_int 14)) with false by (vm_compute; reflexivity).
  replace (Bleb (of_int 3) (of_int 8)) with true by (vm_compute; reflexivity). replace (Bleb (dplus (of_int 3) (of_int 4)) (of_int 8)) with true by (vm_compute; reflexivity).
  replace (Bleb (dplus (dplus (of_int 3) (of_int 4)) (of_int 2)) (of_int 8)) with false by (vm_compute; reflexivity). reflexivity.
Qed.
Example C109_case : ready_state 0 (of_int 8) (of_int 14) zd_ready /\ 0 <= B2R (of_int 8) /\ Forall (multiple 0) zd_ready /\ sum_of zd_ready <= bpow radix2 (0 + 53) /\
  B2R (of_int 14) = sum_of zd_ready /\ release_d (of_int 8) (of_int 14) zd_ready = ([of_int 3; of_int 4], [of_int 2; of_int 5]).
Proof.
  destruct zd_ok as (A & B & C). destruct (f_int 8 ltac:(reflexivity)) as [E1 E2]. destruct (f_int 14 ltac:(reflexivity)) as [F1 F2].
  assert (14 <= bpow radix2 4) as P by (change (bpow radix2 4) with 16; lra). rewrite C, E2, F2.
  split; [|split; [lra|split; [exact B|split; [apply Rle_trans with (1 := P); apply bpow_le; lia|split; [reflexivity|exact zd_run]]]]].
  split; [exact E1|]. split; [exact F1|]. split; [exact A|]. split; [cbn; lia|]. rewrite C, F2. split; [apply Rle_trans with (1 := P); apply bpow_le; lia|]. rewrite Rminus_diag_eq, Rabs_R0 by reflexivity. lra.
Qed.

(** The longest prefix that the entered numbers allow is not always released: with parcels of 0.1 kg and a throughput of
    0.3 kg only two are released, whatever follows, and so in every step. *)
Theorem C109_longest_refuted : exists throughput parcel, nearest throughput (Q2R (3 # 10)) /\ nearest parcel (Q2R (1 # 10)) /\
  forall ready_qty others, is_finite ready_qty = true -> B2R throughput < B2R ready_qty ->
    release_d throughput ready_qty (parcel :: parcel :: parcel :: others) = ([parcel; parcel], parcel :: others).
Proof.
  exists (ddiv (of_int 3) (of_int 10)), (ddiv (of_int 1) (of_int 10)).
  split; [apply (read_decimal 3 10); reflexivity|]. split; [apply (read_decimal 1 10); reflexivity|]. intros q l Q H.
  assert (is_finite (ddiv (of_int 3) (of_int 10)) = true) as F by (vm_compute; reflexivity).
  assert (Bleb (ddiv (of_int 1) (of_int 10)) (ddiv (of_int 3) (of_int 10)) = true) as E1 by (vm_compute; reflexivity).
  assert (Bleb (dplus (ddiv (of_int 1) (of_int 10)) (ddiv (of_int 1) (of_int 10))) (ddiv (of_int 3) (of_int 10)) = true) as E2 by (vm_compute; reflexivity).
  assert (Bleb (dplus (dplus (ddiv (of_int 1) (of_int 10)) (ddiv (of_int 1) (of_int 10))) (ddiv (of_int 1) (of_int 10))) (ddiv (of_int 3) (of_int 10)) = false) as E3 by (vm_compute; reflexivity).
  revert F H E1 E2 E3. generalize (ddiv (of_int 3) (of_int 10)) (ddiv (of_int 1) (of_int 10)). intros t a F H E1 E2 E3.
  unfold release_d, MixerDoubleModel.dmin. rewrite (Bltb_correct _ _ q t Q F), Rlt_bool_false by lra.
  rewrite (Beqb_correct _ _ t q F Q), Req_bool_false by lra. cbn [discrete_loop_d]. rewrite E1, E2, E3. reflexivity.
Qed.
Print Assumptions C109_longest_refuted.
