(** The quantities of cycamore::Source in IEEE 754 binary64 (/repo/src/source.cc:75-178).  SourceModel.v has the same with
    exact rationals, compositions, packages and transport units; here material is not packaged and transport not limited
    (the defaults), so that the inventory stays the single parcel of Build (58-73).  No proofs here. *)
From Flocq Require Import Core.Core IEEE754.BinarySingleNaN.
From Verif Require Import Outcome DoubleModel MixerDoubleModel.

(** max_qty, /repo/src/source.cc:84: the limit of the bids and the supply recorded. *)
Definition offer_d (throughput stock : double) : double := dmin throughput stock.
(** The quantity of a bid, /repo/src/source.cc:104. *)
Definition bid_d (throughput stock target : double) : double := dmin target (offer_d throughput stock).
(** inventory.Pop(qty), /repo/src/source.cc:147, without a tolerance: what is left; as [items_pop_qty] in KernelResBuf.v, also
    in that popping nothing is an error. *)
Definition pop_plain_d (stock amt : double) : outcome double :=
  if Bltb stock amt then Throw ValueError else if Bleb amt (of_int 0) then Throw ZeroPop else Ok (dminus stock amt).
(** GetMatlTrades, /repo/src/source.cc:132-178; [amts] are the amounts of the trades. *)
Definition trades_d (amts : list double) (stock : double) : outcome double := loop pop_plain_d amts stock.
(** Time steps with the given trades; the result is the supply recorded in each step and what is left in the end
    (/repo/src/source.cc:75-178). *)
Fixpoint source_life_d (throughput : double) (steps : list (list double)) (stock : double) : outcome (list double * double) :=
  match steps with
  | [] => Ok ([], stock)
  | amts :: steps' =>
      let* stock1 := trades_d amts stock in
      let* '(offers, rest) := source_life_d throughput steps' stock1 in
      Ok (offer_d throughput stock :: offers, rest)
  end.
