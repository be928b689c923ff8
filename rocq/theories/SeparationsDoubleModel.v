(** The start-up check of Separations in IEEE 754 binary64 (/repo/src/separations.cc:49-91).
    SeparationsModel.v has the same check with exact rationals.  No proofs here. *)
From Flocq Require Import Core.Core IEEE754.BinarySingleNaN.
From Verif Require Import Outcome DoubleModel.

(** efficiency_[k] += v with doubles, /repo/src/separations.cc:63; a new entry starts at 0. *)
Fixpoint acc_add_d (k : Z) (v : double) (m : list (Z * double)) : list (Z * double) :=
  match m with
  | [] => [(k, dplus (of_int 0) v)]
  | (k', v') :: m' => if Z.eqb k' k then (k', dplus v' v) :: m' else (k', v') :: acc_add_d k v m'
  end.
(** The check of the efficiencies in EnterNotify, /repo/src/separations.cc:62-64, 69-91; the streams are
    those of streams_, in the order of the map. *)
Definition sep_check_d (streams : list (list (Z * double))) : outcome unit :=
  let acc := fold_left (fun m e => acc_add_d (fst e) (snd e) m) (List.concat streams) [] in
  if existsb (fun e => Bltb (of_int 1) (snd e)) acc then Throw ValueError else Ok tt.
