(** Networks in which a new facility may take any place (C145). *)
From Coq Require Import List.
From Verif Require Import Outcome KernelMaterial NetworkSpec SimulationSpec.
Import ListNotations.

(** A trade between the same facilities when these have other places in the network: facility [i] is now at [p i]. *)
Definition reseat (p : nat -> nat) (d : trade) : trade :=
  {| t_from := p (t_from d); t_to := p (t_to d); t_commod := t_commod d; t_slot := t_slot d; t_amt := t_amt d; t_want := t_want d |}.

(** The networks that can arise when a facility is deployed at any place among the others, not only behind them (otherwise as SimulationSpec.v, [reached]). *)
Inductive seated (w : world) : Z -> Z -> list fac -> Prop :=
| seat_start id : seated w 0 id []
| seat_new t id a b f : seated w t id (a ++ b) -> deployed w t f -> seated w t id (a ++ f :: b)
| seat_gone t id a f b : seated w t id (a ++ f :: b) -> seated w t id (a ++ b)
| seat_step t id fs gs ds fs' sent : seated w t id fs -> (forall i, signal_ok (gs i)) -> orderly w t gs fs ds ->
    nstep w t id gs fs ds fs' sent -> seated w (t + 1) (id + zlen ds) fs'.
