(** Vocabulary for C112: [B2R x] is the value of the double [x]. *)
From Coq Require Import ZArith Reals List.
From Flocq Require Import Core.Core IEEE754.BinarySingleNaN.
From Verif Require Import DoubleModel MixerDoubleSpec StorageDoubleSpec.
Local Open Scope R_scope.

(** A number above zero. *)
Definition amount_d (x : double) : Prop := quantity_d x /\ 0 < B2R x.
(** The stock is not negative and at most 2 ^ 1022 kg; the trades are above zero. *)
Definition orderly (stock : double) (amts : list double) : Prop :=
  quantity_d stock /\ B2R stock <= bpow radix2 1022 /\ Forall amount_d amts.
(** Stock and trades are multiples of 2 ^ e, the stock at most 2 ^ 53 times 2 ^ e. *)
Definition on_grid (e : Z) (stock : double) (amts : list double) : Prop :=
  (-1074 <= e <= 900)%Z /\ multiple e stock /\ B2R stock <= bpow radix2 (e + 53) /\ Forall (multiple e) amts.
(** What the trades of each step take is within the throughput and what is left. *)
Definition within_offers (throughput stock : R) (steps : list (list double)) : Prop :=
  forall before step after, steps = before ++ step :: after -> sum_of step <= Rmin throughput (stock - sum_of (concat before)).
