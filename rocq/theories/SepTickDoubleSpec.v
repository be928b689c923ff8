(** Vocabulary for the double-precision properties of the Tick of Separations: [B2R x] is the value of [x]. *)
From Coq Require Import ZArith Reals List.
From Flocq Require Import Core.Core IEEE754.BinarySingleNaN.
From Verif Require Import DoubleModel MixerDoubleSpec.
Local Open Scope R_scope.

(** A tolerance of at least 2 ^ -20; a quantity to separate between 2 ^ -900 and 2 ^ 100; space for all of it in the
    feed and in the leftover; at most 2 ^ 20 streams, each with less than [cap] of free space. *)
Definition sep_state (cap : R) (eps feed_space leftover_space orig : double) (xs : list (double * double)) : Prop :=
  (is_finite eps = true /\ bpow radix2 (-20) <= B2R eps <= 1) /\
  (is_finite orig = true /\ bpow radix2 (-900) <= B2R orig <= bpow radix2 100) /\
  (is_finite feed_space = true /\ B2R orig <= B2R feed_space <= bpow radix2 1000) /\
  (is_finite leftover_space = true /\ B2R orig <= B2R leftover_space <= bpow radix2 1000) /\
  (Z.of_nat (List.length xs) <= 2 ^ 20)%Z /\
  Forall (fun x => quantity_d (fst x) /\ quantity_d (snd x) /\ B2R (fst x) < cap /\ B2R (snd x) <= bpow radix2 100) xs.
(** The part [f] of what is staged for this stream fits in its free space, up to rounding. *)
Definition fits (f : R) (x : double * double) : Prop :=
  0 < B2R (snd x) -> f <= (1 + bpow radix2 (-53)) * (B2R (fst x) / B2R (snd x)) + bpow radix2 (-1074).
(** [p] is pushed to the stream [x]: at most what is staged, at most the free space and 2 ^ -20, and at most the part [f] of
    what is staged up to rounding. *)
Definition pushed (f : R) (x : double * double) (p : double) : Prop :=
  is_finite p = true /\ 0 <= B2R p <= B2R (snd x) /\ B2R p <= B2R (fst x) + bpow radix2 (-20) /\
  B2R p <= (1 + bpow radix2 (-53)) * (f * B2R (snd x)) + bpow radix2 (-1074).
