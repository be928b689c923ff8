(** Specification for C114: what memory guarantees. *)
From Verif Require Import Outcome.

(** The requests of one time step exist at the same time, so no two lie at the same address.
    Nothing is said about the addresses of different time steps. *)
Definition placed (addr : nat -> Z) : Prop := forall i j, addr i = addr j -> i = j.
