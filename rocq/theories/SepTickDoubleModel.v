(** The quantities of the Tick of Separations in IEEE 754 binary64 (/repo/src/separations.cc:99-158).
    SeparationsModel.v has the same with exact rationals and compositions.  No proofs here. *)
From Flocq Require Import Core.Core IEEE754.BinarySingleNaN.
From Verif Require Import Outcome DoubleModel.

(** maxfrac, /repo/src/separations.cc:109, 112-121.  A stream is a pair: the free space of its buffer
    (streambufs[name].space()) and the quantity staged for it (SepMaterial, 160-186), in the order of the map. *)
Definition sep_frac_d (xs : list (double * double)) : double :=
  fold_left (fun maxfrac x => let frac := ddiv (fst x) (snd x) in if Bltb frac maxfrac then frac else maxfrac) xs (of_int 1).
(** The loop that fills the streams, /repo/src/separations.cc:124-138: what is pushed to each stream, and what is
    left of the material.  ExtractComp throws if there is less material than asked for, Push if the
    space is exceeded by more than eps_rsrc(). *)
Fixpoint sep_push_d (eps maxfrac : double) (xs : list (double * double)) (mat : double) : outcome (list double * double) :=
  match xs with
  | [] => Ok ([], mat)
  | (space, m) :: xs' =>
      if Bltb (of_int 0) m then
        let qty := if Bltb mat m then mat else m in
        let x := dmult qty maxfrac in
        if Bltb mat x then Throw ValueError
        else if Bltb eps (dminus x space) then Throw ValueError
        else let* '(ps, r) := sep_push_d eps maxfrac xs' (dminus mat x) in Ok (x :: ps, r)
      else let* '(ps, r) := sep_push_d eps maxfrac xs' mat in Ok (of_int 0 :: ps, r)
  end.
(** What goes back to the feed, and what is left of the material then, /repo/src/separations.cc:140, 145-148. *)
Definition sep_back_d (eps maxfrac feed_space orig mat : double) : outcome (double * double) :=
  if Beqb maxfrac (of_int 1) then Ok (of_int 0, mat)
  else
    let back := dmult (dminus (of_int 1) maxfrac) orig in
    if Bltb mat back then Throw ValueError
    else if Bltb eps (dminus back feed_space) then Throw ValueError
    else Ok (back, dminus mat back).
(** What goes to the leftover, /repo/src/separations.cc:141-144, 149-152. *)
Definition sep_left_d (eps leftover_space mat : double) : outcome double :=
  if Bltb (of_int 0) mat then
    if Bltb eps (dminus mat leftover_space) then Throw ValueError else Ok mat
  else Ok (of_int 0).
(** Tick, /repo/src/separations.cc:107-158, for the quantity [orig] popped from the feed: the quantities pushed to the
    streams, back to the feed and to the leftover. *)
Definition sep_tick_d (eps feed_space leftover_space orig : double) (xs : list (double * double))
  : outcome (list double * double * double) :=
  let maxfrac := sep_frac_d xs in
  let* '(ps, mat) := sep_push_d eps maxfrac xs orig in
  let* '(back, rest) := sep_back_d eps maxfrac feed_space orig mat in
  let* l := sep_left_d eps leftover_space rest in
  Ok (ps, back, l).
