(** The quantities of cycamore::Conversion in IEEE 754 binary64 (/repo/src/conversion.cc:76-184).  ConversionModel.v has the
    same with exact rationals and compositions.  Both buffers are bulk buffers (26-27): the quantity of a buffer is that of its
    single parcel.  No proofs here. *)
From Flocq Require Import Core.Core IEEE754.BinarySingleNaN.
From Verif Require Import Outcome DoubleModel MixerDoubleModel SourceDoubleModel SinkDoubleModel.

(** input.quantity() and output.quantity(), /repo/src/conversion.h:122-127. *)
Record conv_d := { cd_in : double; cd_out : double }.
(** A newly built facility, /repo/src/conversion.cc:22-28. *)
Definition conv_empty_d : conv_d := {| cd_in := of_int 0; cd_out := of_int 0 |}.
(** Convert, /repo/src/conversion.cc:89-93; also the quantity moved, if any.  The output has no capacity. *)
Definition convert_d (throughput : double) (s : conv_d) : outcome (conv_d * option double) :=
  if Bltb (of_int 0) (cd_in s) then
    let x := dmin (cd_in s) throughput in
    let* rest := pop_plain_d (cd_in s) x in
    Ok ({| cd_in := rest; cd_out := dplus (cd_out s) x |}, Some x)
  else Ok (s, None).
(** AvailableFeedstockCapacity and the quantity requested, /repo/src/conversion.cc:84-86 and 99-107. *)
Definition conv_request_d (capacity : double) (s : conv_d) : option double :=
  let available := dminus capacity (cd_in s) in
  if Bleb available (of_int 0) then None else Some available.
(** What the surroundings of a step decide: the amounts of the trades (/repo/src/conversion.cc:173-184) and the quantities
    delivered (159-170). *)
Record conv_env_d := { ce_sales : list double; ce_receipts : list double }.
(** What is seen of a step: the input before it, the quantity converted (/repo/src/conversion.cc:89-93), the limit of the bids
    (152) and the request (99-107). *)
Record conv_out_d := { co_input : double; co_moved : option double; co_offer : double; co_request : option double }.
(** One time step, /repo/src/conversion.cc:76-184; a bulk buffer refuses a delivery as the inventory of Sink does. *)
Definition conv_step_d (eps throughput capacity : double) (s : conv_d) (e : conv_env_d) : outcome (conv_d * conv_out_d) :=
  let* '(s1, moved) := convert_d throughput s in
  let* out := trades_d (ce_sales e) (cd_out s1) in
  let* inp := sink_accept_d eps capacity (ce_receipts e) (cd_in s1) in
  Ok ({| cd_in := inp; cd_out := out |},
      {| co_input := cd_in s; co_moved := moved; co_offer := cd_out s1; co_request := conv_request_d capacity s1 |}).
(** Consecutive time steps, /repo/src/conversion.cc:76-184. *)
Fixpoint conv_life_d (eps throughput capacity : double) (s : conv_d) (es : list conv_env_d) : outcome (conv_d * list conv_out_d) :=
  match es with
  | [] => Ok (s, [])
  | e :: es' =>
      let* '(s1, o) := conv_step_d eps throughput capacity s e in
      let* '(s2, os) := conv_life_d eps throughput capacity s1 es' in
      Ok (s2, o :: os)
  end.
