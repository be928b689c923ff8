(** What a storage in a simulation has received and shipped (C151), from its diary (LifeSpec.v). *)
From Coq Require Import List ZArith.
From Verif Require Import Outcome KernelMaterial KernelResBuf KernelBuf NetworkSpec SimulationSpec LifeSpec.

(** All parcels delivered, in order; all parcels shipped, in order. *)
Definition received (ps : list page) : list mat := flat_map (fun p => map snd (pg_got p)) ps.
Definition dispatched (ps : list page) : list mat := flat_map pg_sent ps.
(** The parcels delivered more than [r] time steps before time [t]. *)
Definition aged (r t : Z) (ps : list page) : list mat := flat_map (fun p => if Z.ltb (pg_time p + r) t then map snd (pg_got p) else nil) ps.
