(** The release of parcels by Storage with discrete handling in IEEE 754 binary64 (/repo/src/storage.cc:235-263).
    StorageModel.v has the same with exact rationals.  No proofs here. *)
From Flocq Require Import Core.Core IEEE754.BinarySingleNaN.
From Verif Require Import Outcome DoubleModel MixerDoubleModel.

(** The while loop, /repo/src/storage.cc:245-248; [cap_pop] already includes the parcel at the head.  Result: the
    quantities of the parcels moved and of those remaining. *)
Fixpoint discrete_loop_d (cap_pop max_pop : double) (ready moved : list double) : list double * list double :=
  match ready with
  | [] => (moved, [])
  | m :: ready' =>
      if Bleb cap_pop max_pop then
        discrete_loop_d (dplus cap_pop (match ready' with [] => of_int 0 | m' :: _ => m' end)) max_pop ready' (moved ++ [m])
      else (moved, ready)
  end.
(** ProcessMat_ with discrete_handling, /repo/src/storage.cc:236-249; [ready_qty] is ready.quantity(), a double that the
    buffer keeps. *)
Definition release_d (throughput ready_qty : double) (ready : list double) : list double * list double :=
  match ready with
  | [] => ([], [])
  | m0 :: _ =>
      let max_pop := dmin throughput ready_qty in
      if Beqb max_pop ready_qty then (ready, []) else discrete_loop_d m0 max_pop ready []
  end.
