(** Vocabulary for the double-precision properties of Storage: [B2R x] is the value of the double [x]. *)
From Coq Require Import ZArith Reals List.
From Flocq Require Import Core.Core IEEE754.BinarySingleNaN.
From Verif Require Import DoubleModel MixerDoubleSpec.
Local Open Scope R_scope.

(** At most 2 ^ 20 parcels of together at most 2 ^ 1000 kg; the buffer's quantity is their sum up to [d]. *)
Definition ready_state (d : R) (throughput ready_qty : double) (ready : list double) : Prop :=
  is_finite throughput = true /\ is_finite ready_qty = true /\ Forall quantity_d ready /\
  (Z.of_nat (List.length ready) <= 2 ^ 20)%Z /\ sum_of ready <= bpow radix2 1000 /\ Rabs (B2R ready_qty - sum_of ready) <= d.
(** A whole multiple of 2 ^ e. *)
Definition multiple (e : Z) (x : double) : Prop := exists k : Z, B2R x = IZR k * bpow radix2 e.
