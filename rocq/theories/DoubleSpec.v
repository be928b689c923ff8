(** Vocabulary for the properties that hold in double precision: the real number
    [B2R x] is the value of the double [x]. *)
From Coq Require Import ZArith Reals QArith Qreals List.
From Flocq Require Import Core.Core IEEE754.BinarySingleNaN.
From Verif Require Import Outcome DoubleModel.
Import ListNotations.
Local Open Scope R_scope.

(** A number (neither infinite nor NaN) of magnitude at most 2 ^ 1022. *)
Definition weight (w : double) : Prop := is_finite w = true /\ Rabs (B2R w) <= bpow radix2 1022.
(** An amount of a nuclide and its atomic mass, from 0 to 1024. *)
Definition amount (p : double * double) : Prop :=
  is_finite (fst p) = true /\ is_finite (snd p) = true /\ 0 <= B2R (fst p) <= bpow radix2 10 /\ 0 <= B2R (snd p) <= bpow radix2 10.
(** The mass of a stream of amounts, computed exactly: the sum of amount times atomic mass. *)
Definition exact_mass (n : list (double * double)) : R := fold_right (fun e s => B2R (fst e) * B2R (snd e) + s) 0 n.
(** [x] is a double nearest to the number [r]; this is how an input file's decimals are read. *)
Definition nearest (x : double) (r : R) : Prop :=
  is_finite x = true /\ forall y : double, is_finite y = true -> Rabs (B2R x - r) <= Rabs (B2R y - r).

(** The efficiencies entered for the nuclide or element [n], one list of entries per stream. *)
Definition given (n : Z) (streams : list (list (Z * Q))) : list Q := map snd (filter (fun e => Z.eqb (fst e) n) (List.concat streams)).
(** The stored doubles are those entered, as read from the input file. *)
Definition read_as (entered : list (list (Z * Q))) (stored : list (list (Z * double))) : Prop :=
  Forall2 (Forall2 (fun e x => fst e = fst x /\ nearest (snd x) (Q2R (snd e)))) entered stored.
