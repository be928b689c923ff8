(** Consecutive time steps of a network (C152). *)
From Coq Require Import List ZArith.
From Verif Require Import Outcome KernelMaterial KernelResBuf KernelBuf NetworkSpec SimulationSpec.
Import ListNotations.

(** [goes w t id fs t' id' fs' dss]: in time steps with the trades [dss], without deployments or retirements, the network [fs] at time [t] becomes [fs'] at time [t'];
    [id] and [id'] are the next free ids of objects. *)
Inductive goes (w : world) (t id : Z) (fs : list fac) : Z -> Z -> list fac -> list (list trade) -> Prop :=
| goes_nowhere : goes w t id fs t id fs []
| goes_on t1 id1 fs1 dss gs ds fs2 sent : goes w t id fs t1 id1 fs1 dss -> (forall i, signal_ok (gs i)) -> orderly w t1 gs fs1 ds -> nstep w t1 id1 gs fs1 ds fs2 sent ->
    goes w t id fs (t1 + 1) (id1 + zlen ds) fs2 (dss ++ [ds]).
