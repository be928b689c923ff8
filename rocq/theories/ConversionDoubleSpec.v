(** Vocabulary for C120: [B2R x] is the value of the double [x]. *)
From Coq Require Import ZArith Reals List.
From Flocq Require Import Core.Core IEEE754.BinarySingleNaN.
From Verif Require Import DoubleModel MixerDoubleSpec StorageDoubleSpec SourceDoubleSpec ConversionDoubleModel.
Import ListNotations.
Local Open Scope R_scope.

(** Everything received, sold and converted in a history. *)
Definition all_receipts (es : list conv_env_d) : list double := flat_map ce_receipts es.
Definition all_sales (es : list conv_env_d) : list double := flat_map ce_sales es.
Definition moved (o : conv_out_d) : list double := match co_moved o with Some x => [x] | None => [] end.
Definition all_moved (os : list conv_out_d) : list double := flat_map moved os.
(** The number of steps, deliveries and sales. *)
Definition operations (es : list conv_env_d) : nat := (List.length es + List.length (all_receipts es) + List.length (all_sales es))%nat.
(** Deliveries are not negative, sales above zero, at most 2 ^ 1000 kg and 2 ^ 40 steps, deliveries and sales. *)
Definition ordinary (es : list conv_env_d) : Prop :=
  Forall quantity_d (all_receipts es) /\ Forall amount_d (all_sales es) /\ sum_of (all_receipts es) <= bpow radix2 1000 /\
  (Z.of_nat (operations es) <= 2 ^ 40)%Z.
(** The tolerance is at least the rounding of [k] deliveries in one step, each of two units of 2 ^ -53 of the capacity. *)
Definition conv_input (eps capacity : double) (k : nat) : Prop :=
  is_finite eps = true /\ quantity_d capacity /\ B2R capacity <= bpow radix2 1000 /\ (Z.of_nat k <= 2 ^ 40)%Z /\
  (2 * INR k + 2) * bpow radix2 (-53) * B2R capacity <= B2R eps.
(** Sales above zero that leave the rounding of one unit of 2 ^ -53 of the [offer] for each of them; at most [k] deliveries,
    not negative, together within the request. *)
Definition honours (k : nat) (offer : double) (request : option double) (e : conv_env_d) : Prop :=
  Forall amount_d (ce_sales e) /\ sum_of (ce_sales e) + INR (List.length (ce_sales e)) * bpow radix2 (-53) * B2R offer <= B2R offer /\
  Forall quantity_d (ce_receipts e) /\ (List.length (ce_receipts e) <= k)%nat /\
  match request with None => ce_receipts e = [] | Some r => sum_of (ce_receipts e) <= B2R r end.

(** ** Without rounding *)
(** Throughput, deliveries and sales are multiples of 2 ^ e; at most 2 ^ 53 times 2 ^ e is received. *)
Definition conv_grid (e : Z) (throughput : double) (es : list conv_env_d) : Prop :=
  (-1074 <= e <= 900)%Z /\ multiple e throughput /\ Forall (multiple e) (all_receipts es) /\ Forall (multiple e) (all_sales es) /\
  sum_of (all_receipts es) <= bpow radix2 (e + 53).
(** The exact course of a facility with [i] kg of input and [o] kg of output: what each step converts, and what it holds in
    the end. *)
Fixpoint exact_course (throughput i o : R) (es : list conv_env_d) : list R * (R * R) :=
  match es with
  | [] => ([], (i, o))
  | e :: es' =>
      let x := Rmin i throughput in
      let r := exact_course throughput (i - x + sum_of (ce_receipts e)) (o + x - sum_of (ce_sales e)) es' in
      (x :: fst r, snd r)
  end.
(** In each step of this course the sales are within the output and the deliveries within the free input. *)
Fixpoint exact_within (throughput capacity i o : R) (es : list conv_env_d) : Prop :=
  match es with
  | [] => True
  | e :: es' =>
      let x := Rmin i throughput in
      sum_of (ce_sales e) <= o + x /\ sum_of (ce_receipts e) <= capacity - (i - x) /\
      exact_within throughput capacity (i - x + sum_of (ce_receipts e)) (o + x - sum_of (ce_sales e)) es'
  end.
