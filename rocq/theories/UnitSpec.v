(** Simulations in which masses are counted in another unit (C138). *)
From Verif Require Import Outcome KernelMaterial KernelResBuf KernelBuf NetworkSpec SimulationSpec ScaleSpec.
From Verif Require SinkModel.
Local Open Scope Q_scope.

(** A scenario: what is done to a network, move by move.  A facility is started at a time; the facility at a position is retired; there is a time step in which the facilities are told
    and draw [gs] and the exchange decides on the trades [ds]. *)
Inductive move := Deploy (t : Z) (f : fac) | Retire (i : nat) | Trade (gs : nat -> signal) (ds : list trade).
(** [plays w id0 ms t id fs]: a simulation that hands out the numbers of objects from [id0] on has, with the moves [ms], arrived at the network [fs] at time [t]; the next free number is [id].
    (The simulations of SimulationSpec.v; see C138_scenarios.) *)
Inductive plays (w : world) (id0 : Z) : list move -> Z -> Z -> list fac -> Prop :=
| pl_start : plays w id0 [] 0 id0 []
| pl_deploy ms t id fs f : plays w id0 ms t id fs -> deployed w t f -> plays w id0 (ms ++ [Deploy t f]) t id (fs ++ [f])
| pl_retire ms t id a f b : plays w id0 ms t id (a ++ f :: b) -> plays w id0 (ms ++ [Retire (List.length a)]) t id (a ++ b)
| pl_trade ms t id fs gs ds fs' sent : plays w id0 ms t id fs -> (forall i, signal_ok (gs i)) -> orderly w t gs fs ds -> nstep w t id gs fs ds fs' sent ->
    plays w id0 (ms ++ [Trade gs ds]) (t + 1) (id + zlen ds) fs'.

(** The other unit: tolerances [k] times as large. *)
Definition world_more (k : Q) (w w' : world) : Prop := times k (w_eps w) (w_eps w') /\ times k (w_eg w) (w_eg w') /\ w_recipe w' = w_recipe w.
(** A facility of [k] times the size with [k] times as much in it. *)
Definition scaled (k : Q) (f f' : fac) : Prop :=
  match f, f' with
  | Conv c s, Conv c' s' => cv_cfg_more k c c' /\ cv_more k s s'
  | Stor c s, Stor c' s' => st_cfg_more k c c' /\ st_more k s s'
  | Mixr c s, Mixr c' s' => mx_cfg_more k c c' /\ mx_more k s s'
  | Srce c s, Srce c' s' => sr_cfg_more k c c' /\ sr_more k s s'
  | Snk c s, Snk c' s' => sk_cfg_more k c c' /\ sk_more k s s'
  | Reac c s, Reac c' s' => rx_cfg_more k c c' /\ rx_more k s s'
  | _, _ => False
  end.
(** Requests of others, random amounts and trades that are [k] times as large. *)
Definition signal_more (k : Q) (g g' : signal) : Prop :=
  (forall c, Forall2 (times k) (g_reqs g c) (g_reqs g' c)) /\ Forall2 (fun x y => fst x = fst y /\ more k (snd x) (snd y)) (g_wants g) (g_wants g') /\
  rng_more k (g_rng g) (g_rng g') /\ rng_more k (g_rng2 g) (g_rng2 g').
Definition trade_more (k : Q) (d d' : trade) : Prop :=
  t_from d = t_from d' /\ t_to d = t_to d' /\ t_commod d = t_commod d' /\ t_slot d = t_slot d' /\ t_want d = t_want d' /\ times k (t_amt d) (t_amt d').
(** The same scenario in the other unit. *)
Definition move_more (k : Q) (w' : world) (x y : move) : Prop :=
  match x, y with
  | Deploy t f, Deploy t' f' => t = t' /\ scaled k f f' /\ deployed w' t f'
  | Retire i, Retire j => i = j
  | Trade gs ds, Trade gs' ds' => (forall i, signal_more k (gs i) (gs' i)) /\ Forall2 (trade_more k) ds ds'
  | _, _ => False
  end.

(** Scenarios of which the last theorem of C138 speaks: random amounts depend only on the values of the numbers they are drawn with (not on how these fractions are written); what sources are asked for has a composition. *)
Definition plain_rng (g : SinkModel.rng) : Prop :=
  (forall a b a' b', a == a' -> b == b' -> SinkModel.g_uniform_real g a b == SinkModel.g_uniform_real g a' b') /\
  (forall m s a b m' s' a' b', m == m' -> s == s' -> a == a' -> b == b' -> SinkModel.g_normal_real g m s a b == SinkModel.g_normal_real g m' s' a' b').
Definition plain (x : move) : Prop :=
  match x with
  | Trade gs _ => forall i, plain_rng (g_rng (gs i)) /\ plain_rng (g_rng2 (gs i)) /\ Forall (fun r => ~ csum (m_comp (snd r)) == 0) (g_wants (gs i))
  | _ => True
  end.
