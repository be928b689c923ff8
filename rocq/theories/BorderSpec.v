(** Parts of a network (C153). *)
From Coq Require Import List ZArith QArith Bool.
From Verif Require Import Outcome KernelMaterial KernelResBuf KernelBuf NetworkSpec SimulationSpec.
Import ListNotations.
Local Open Scope Q_scope.

(** What the facilities at the positions [P] hold. *)
Definition part_holds (P : nat -> bool) (fs : list fac) : Q :=
  qsum (map (fun i => if P i then match nth_error fs i with Some f => qty_of (inside f) | None => 0 end else 0) (seq 0 (List.length fs))).
(** The trades that lead into the part, and those that lead out of it. *)
Definition into (P : nat -> bool) (ds : list trade) : list trade := filter (fun d => P (t_to d) && negb (P (t_from d))) ds.
Definition out_of (P : nat -> bool) (ds : list trade) : list trade := filter (fun d => P (t_from d) && negb (P (t_to d))) ds.
