(** Vocabulary for the double-precision properties of the Mixer: [B2R x] is the value of the double [x]. *)
From Coq Require Import ZArith Reals List.
From Flocq Require Import Core.Core IEEE754.BinarySingleNaN.
From Verif Require Import DoubleModel.
Local Open Scope R_scope.

(** A number that is not negative: neither infinite nor NaN, nor the negative zero. *)
Definition quantity_d (x : double) : Prop := is_finite x = true /\ Bsign x = false.
(** The exact sum of the values of some doubles. *)
Definition sum_of (l : list double) : R := fold_right (fun x s => B2R x + s) 0 l.
(** The ratios entered for the streams: no negative ones, at most 2 ^ 20, each at most 2 ^ 500 and in sum
    zero or at least 2 ^ -500. *)
Definition mixer_input (rs : list double) : Prop :=
  Forall quantity_d rs /\ (1 <= Z.of_nat (List.length rs) <= 2 ^ 20)%Z /\ Forall (fun r => B2R r <= bpow radix2 500) rs /\
  (sum_of rs = 0 \/ bpow radix2 (-500) <= sum_of rs).
(** A tolerance from 0 to 1; free space in the output and stocks from 0 to 2 ^ 1000; a throughput. *)
Definition mixer_state (eps space throughput : double) (stocks : list double) : Prop :=
  is_finite eps = true /\ 0 <= B2R eps <= 1 /\ is_finite space = true /\ 0 <= B2R space <= bpow radix2 1000 /\
  is_finite throughput = true /\ Forall quantity_d stocks /\ Forall (fun q => B2R q <= bpow radix2 1000) stocks.
(** A ratio after normalisation. *)
Definition share_ok (r : double) : Prop := quantity_d r /\ B2R r <= 2.
(** [x] is the share of a stream with the entered ratio [r] among the entered ratios [rs], up to rounding: the part of
    [r] in their sum, or equal shares if all are zero. *)
Definition fair_share (rs : list double) (r x : double) : Prop :=
  let n := INR (List.length rs) in
  (sum_of rs = 0 -> Rabs (B2R x - / n) <= bpow radix2 (-53) * / n) /\
  (sum_of rs <> 0 -> Rabs (B2R x - B2R r / sum_of rs) <= (4 * n + 4) * bpow radix2 (-53) * (B2R r / sum_of rs) + bpow radix2 (-1074)).
(** [t] is the quantity for which the stock of this stream is just enough, up to rounding.  A stream is
    a pair of stock and ratio. *)
Definition attains (t : R) (x : double * double) : Prop :=
  0 < B2R (snd x) /\ Rabs (t - B2R (fst x) / B2R (snd x)) <= bpow radix2 (-53) * (B2R (fst x) / B2R (snd x)) + bpow radix2 (-1074).
(** [d] is the part of a stream with ratio [r] in the quantity [t], up to rounding. *)
Definition part (t : R) (r d : double) : Prop := Rabs (B2R d - B2R r * t) <= 4 * bpow radix2 (-53) * (B2R r * t) + bpow radix2 (-1072).
(** [d] can be taken from a stock [q]. *)
Definition taken (q d : double) : Prop := is_finite d = true /\ 0 <= B2R d <= B2R q.
(** [t] is the largest quantity that the space, the throughput and the stocks allow, up to rounding. *)
Definition mix_target (space thr : double) (qs rs : list double) (t : R) : Prop :=
  0 < t /\ t <= B2R space /\ t <= B2R thr /\ (t = B2R space \/ t = B2R thr \/ Exists (attains t) (combine qs rs)).
