(** Simulations that are run side by side (C137). *)
From Verif Require Import Outcome KernelMaterial KernelResBuf KernelBuf NetworkSpec SimulationSpec IdSpec ApartSpec.
Local Open Scope Q_scope.

(** Simulations as in SimulationSpec.v, in which reactors start without entries in their tables of received objects (res_indexes, /repo/src/reactor.h:457-460). *)
Inductive simulated (w : world) : Z -> Z -> list fac -> Prop :=
| sim_start id : simulated w 0 id []
| sim_deploying t id fs f : simulated w t id fs -> deployed w t f -> blank_table f -> simulated w t id (fs ++ [f])
| sim_retiring t id a f b : simulated w t id (a ++ f :: b) -> simulated w t id (a ++ b)
| sim_stepping t id fs gs ds fs' sent : simulated w t id fs -> (forall i, signal_ok (gs i)) -> orderly w t gs fs ds ->
    nstep w t id gs fs ds fs' sent -> simulated w (t + 1) (id + zlen ds) fs'.
