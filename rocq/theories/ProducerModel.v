(** What Source, Storage and Reactor advertise as their production capacity
    (cyclus::toolkit::CommodityProducer, a base of the three, see
    /repo/src/source.h:26, /repo/src/storage.h:68, /repo/src/reactor.h:56).  No proofs here. *)
From Verif Require Import Outcome KernelMaterial ReactorModel StorageModel.
From Verif Require SourceModel.
Local Open Scope Q_scope.

(** CommodInfo (kernel): capacity and cost; filled at /repo/src/source.cc:28, /repo/src/reactor.cc:51, 55-56. *)
Record pinfo := { pi_capacity : Q; pi_cost : Q }.
(** CommodityProducer (kernel): a std::map from commodities to CommodInfo, filled at
    /repo/src/source.cc:27, /repo/src/storage.cc:42-43, /repo/src/reactor.cc:50, 54. *)
Definition producer := list (string * pinfo).
(** Produces, Capacity and Cost (kernel), called at /repo/src/source.cc:35, 46, 49, /repo/src/storage.cc:127
    and by the managers of producers (/repo/src/manager_inst.cc:56): the entry of a commodity. *)
Fixpoint pd_find (p : producer) (c : string) : option pinfo :=
  match p with [] => None | (c', i) :: p' => if String.eqb c' c then Some i else pd_find p' c end.
(** CommodityProducer::Add (kernel), called at /repo/src/source.cc:27, /repo/src/storage.cc:42,
    /repo/src/reactor.cc:50, 54: std::map::insert, an existing entry stays. *)
Definition pd_add (p : producer) (c : string) (i : pinfo) : producer :=
  match pd_find p c with Some _ => p | None => p ++ [(c, i)] end.
(** CommodityProducer::SetCapacity (kernel), called at /repo/src/storage.cc:43. *)
Definition pd_set_capacity (p : producer) (c : string) (x : Q) : producer :=
  map (fun e => if String.eqb (fst e) c then (fst e, {| pi_capacity := x; pi_cost := pi_cost (snd e) |}) else e) p.
(** CommodityProducer::Copy (kernel), called in InitFrom(copy) at /repo/src/source.cc:21,
    /repo/src/storage.cc:34, /repo/src/reactor.cc:43: adds every entry of the original. *)
Definition pd_copy (from : producer) (p : producer) : producer := fold_left (fun q e => pd_add q (fst e) (snd e)) from p.

(** InitFrom(QueryableBackend) of Source, /repo/src/source.cc:24-29. *)
Definition sr_advertise (cfg : SourceModel.sr_cfg) : producer :=
  pd_add [] (SourceModel.sc_commod cfg)
    {| pi_capacity := SourceModel.sc_throughput cfg; pi_cost := SourceModel.sc_throughput cfg |}.
(** InitFrom(QueryableBackend) of Storage, /repo/src/storage.cc:38-44; [default] is the kernel's
    CommodInfo of a commodity that was added without one; front() of an empty list is undefined. *)
Definition st_advertise (default : pinfo) (cfg : st_cfg) : outcome producer :=
  let* '(c, x) := st_init_from_db cfg in
  Ok (pd_set_capacity (pd_add [] c default) c x).
(** InitFrom(QueryableBackend) of Reactor, /repo/src/reactor.cc:46-58; [power] is power_name. *)
Definition rx_advertise (power : string) (cfg : rx_cfg) : outcome producer :=
  loop (fun p i =>
      let* c := vec_at (side_products cfg) i in
      let* q := vec_at (side_qty cfg) i in
      Ok (pd_add p c {| pi_capacity := q; pi_cost := q |}))
    (seq 0 (List.length (side_products cfg)))
    (pd_add [] power {| pi_capacity := power_cap cfg; pi_cost := power_cap cfg |}).
