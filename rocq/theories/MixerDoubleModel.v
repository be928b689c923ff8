(** The arithmetic of the Mixer in IEEE 754 binary64: the normalisation of the mixing ratios and the
    quantities of a tick (/repo/src/mixer.cc:41-122).  MixerModel.v has the same with exact rationals and
    compositions.  No proofs here. *)
From Flocq Require Import Core.Core IEEE754.BinarySingleNaN.
From Verif Require Import Outcome DoubleModel.

(** std::min of two doubles, /repo/src/mixer.cc:104, 107: the second if it is less, else the first (also
    if the second is NaN). *)
Definition dmin (x y : double) : double := if Bltb y x then y else x.
(** The normalisation of the ratios in EnterNotify, /repo/src/mixer.cc:72-90, without the warning. *)
Definition ratios_d (rs : list double) : list double :=
  let frac_sum := fold_left dplus rs (of_int 0) in
  if negb (Beqb frac_sum (of_int 0)) then map (fun r => dmult r (ddiv (of_int 1) frac_sum)) rs
  else map (fun _ => ddiv (of_int 1) (of_int (zlen rs))) rs.
(** tgt_qty, /repo/src/mixer.cc:99-107; [qs] are the quantities in the stream buffers. *)
Definition target_d (space throughput : double) (qs rs : list double) : double :=
  dmin (fold_left (fun t x => dmin t (ddiv (fst x) (snd x))) (combine qs rs) space) throughput.
(** streambufs[name].Pop(pop_qty, eps_rsrc()), /repo/src/mixer.cc:114, 117: what it takes from a buffer with
    the quantity [q]; as [items_pop_tol] in KernelResBuf.v. *)
Definition pop_d (eps q p : double) : outcome double :=
  if Bltb (dplus q eps) p then Throw ValueError else Ok (if Bleb q p then q else p).
(** The loop that takes the parts from the streams, /repo/src/mixer.cc:111-120. *)
Fixpoint pops_d (eps t : double) (xs : list (double * double)) : outcome (list double) :=
  match xs with
  | [] => Ok []
  | (q, r) :: xs' => let* d := pop_d eps q (dmult r t) in let* ds := pops_d eps t xs' in Ok (d :: ds)
  end.
(** m->Absorb(m_), /repo/src/mixer.cc:118: the quantity of the mixture.  Without a stream there is no material
    to push. *)
Definition mixed_d (ds : list double) : outcome double :=
  match ds with [] => UB NullDeref | d :: ds' => Ok (fold_left dplus ds' d) end.
(** Tick, /repo/src/mixer.cc:97-123, for an output buffer that is not full; [space] is output.space().  The
    result is what is taken from each stream, and the quantity pushed to the output; None if nothing
    is mixed.  output.Push throws if its space is exceeded by more than eps_rsrc(). *)
Definition mix_d (eps space throughput : double) (qs rs : list double) : outcome (option (list double * double)) :=
  let t := target_d space throughput qs rs in
  if Bltb (of_int 0) t then
    let* ds := pops_d eps t (combine qs rs) in
    let* m := mixed_d ds in
    if Bltb eps (dminus m space) then Throw ValueError else Ok (Some (ds, m))
  else Ok None.
