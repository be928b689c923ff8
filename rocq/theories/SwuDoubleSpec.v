(** Vocabulary for C117: [B2R x] is the value of the double [x]. *)
From Coq Require Import ZArith Reals List.
From Flocq Require Import Core.Core IEEE754.BinarySingleNaN.
From Verif Require Import DoubleModel MixerDoubleSpec SwuDoubleModel.
Local Open Scope R_scope.

(** A tolerance and a capacity, together at most 2 ^ 1000. *)
Definition swu_input (eg capacity : double) : Prop :=
  is_finite eg = true /\ 0 <= B2R eg /\ quantity_d capacity /\ B2R capacity + B2R eg <= bpow radix2 1000.
(** At most 2 ^ 20 enrichments in a step, their SWU and feed not negative, each in total at most 2 ^ 1000. *)
Definition swu_trades (ts : list (double * double)) : Prop :=
  (Z.of_nat (List.length ts) <= 2 ^ 20)%Z /\ Forall (fun t => quantity_d (fst t) /\ quantity_d (snd t)) ts /\
  sum_of (map fst ts) <= bpow radix2 1000 /\ sum_of (map snd ts) <= bpow radix2 1000.
(** The SWU of a step are within capacity and tolerance with one unit of 2 ^ -53 of these to spare for each enrichment. *)
Definition swu_within (eg capacity : double) (ts : list (double * double)) : Prop :=
  sum_of (map fst ts) + INR (List.length ts) * (bpow radix2 (-53) * (B2R capacity + B2R eg)) <= B2R capacity + B2R eg.
(** [x] is [v] up to [n] roundings. *)
Definition rounded (n : nat) (v : R) (x : double) : Prop := Rabs (B2R x - v) <= 2 * INR n * bpow radix2 (-53) * v.
(** What is recorded for a step with enrichments. *)
Definition account_of (ts : list (double * double)) (o : double * double) : Prop :=
  ts <> nil -> rounded (List.length ts) (sum_of (map fst ts)) (fst o) /\ rounded (List.length ts) (sum_of (map snd ts)) (snd o).
