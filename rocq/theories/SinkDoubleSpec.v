(** Vocabulary for C115: [B2R x] is the value of the double [x]. *)
From Coq Require Import ZArith Reals List.
From Flocq Require Import Core.Core IEEE754.BinarySingleNaN.
From Verif Require Import DoubleModel MixerDoubleSpec StorageDoubleSpec SinkDoubleModel.
Local Open Scope R_scope.

(** A capacity; a size of at most 2 ^ 1000 kg; the resource tolerance is at least the rounding of [k] deliveries in one step,
    each of two units of 2 ^ -53 of the size, and of the request. *)
Definition sink_input (eps capacity size : double) (k : nat) : Prop :=
  is_finite eps = true /\ is_finite capacity = true /\ quantity_d size /\ B2R size <= bpow radix2 1000 /\
  (Z.of_nat k <= 2 ^ 40)%Z /\ (2 * INR k + 2) * bpow radix2 (-53) * B2R size <= B2R eps.
(** Everything delivered in a step, and in a history. *)
Definition delivered (e : sink_env_d) : list double := sd_mats e ++ sd_prods e.
Definition all_delivered (es : list sink_env_d) : list double := flat_map delivered es.
(** At most [k] deliveries, not negative; together they are within the request; a random request is between zero and the
    space available. *)
Definition respects (k : nat) (e : sink_env_d) (o : sink_out_d) : Prop :=
  (List.length (delivered e) <= k)%nat /\ Forall quantity_d (delivered e) /\
  match so_request o with None => delivered e = nil | Some r => sum_of (delivered e) <= B2R r end /\
  match sd_draw e with None => True | Some r => is_finite r = true /\ 0 <= B2R r <= B2R (so_available o) end.
(** Size and deliveries are multiples of 2 ^ e, the size at most 2 ^ 53 times 2 ^ e. *)
Definition sink_grid (e : Z) (size : double) (ms : list double) : Prop :=
  (-1074 <= e <= 900)%Z /\ multiple e size /\ B2R size <= bpow radix2 (e + 53) /\ Forall (multiple e) ms.
(** What is delivered in each step is within what is free at its start. *)
Definition within_space (size : R) (es : list sink_env_d) : Prop :=
  forall before e after, es = before ++ e :: after -> sum_of (delivered e) <= size - sum_of (all_delivered before).
