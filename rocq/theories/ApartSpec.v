(** What it means that the parts of a simulation that do not trade with each other do not influence each other (C135). *)
From Verif Require Import Outcome KernelMaterial KernelResBuf KernelBuf NetworkSpec SimulationSpec IdSpec.
From Verif Require ReactorModel.
Local Open Scope Q_scope.

(** A network in which every facility carries a mark, which says to which of the two parts it belongs. *)
Definition marked := list (bool * fac).
Definition part (b : bool) (m : marked) : list fac := map snd (filter (fun x => Bool.eqb (fst x) b) m).
Definition side (m : marked) (i : nat) : option bool := option_map fst (nth_error m i).
(** Every trade is between facilities of the same part. *)
Definition kept_apart (m : marked) (ds : list trade) : Prop := Forall (fun d => side m (t_from d) = side m (t_to d)) ds.
(** A reactor starts without entries in its table of received objects (res_indexes, /repo/src/reactor.h:457-460). *)
Definition blank_table (f : fac) : Prop := match f with Reac _ s => ReactorModel.idx s = [] | _ => True end.

(** Simulations, as in SimulationSpec.v, in which the two parts never trade with each other. *)
Inductive apart (w : world) : Z -> Z -> marked -> Prop :=
| apart_start id : apart w 0 id []
| apart_deploying t id m b f : apart w t id m -> deployed w t f -> blank_table f -> apart w t id (m ++ [(b, f)])
| apart_retiring t id a x b : apart w t id (a ++ x :: b) -> apart w t id (a ++ b)
| apart_stepping t id m gs ds m' sent : apart w t id m -> (forall i, signal_ok (gs i)) -> orderly w t gs (map snd m) ds -> kept_apart m ds ->
    map fst m' = map fst m -> nstep w t id gs (map snd m) ds (map snd m') sent -> apart w (t + 1) (id + zlen ds) m'.
