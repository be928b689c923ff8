(** Simulations that begin later (C139). *)
From Verif Require Import Outcome KernelMaterial KernelResBuf KernelBuf NetworkSpec SimulationSpec UnitSpec.
From Verif Require ReactorModel StorageModel SinkModel SeparationsModel.
Local Open Scope Z_scope.

(** A point in time, [d] time steps later; -1 stands for "never" (no lifetime, /repo/src/reactor.h:146-148; no schedule of purchases, /repo/src/sink.cc:257-271). *)
Definition after (d t : Z) : Z := if t =? -1 then -1 else d + t.
(** The same reactor with its schedule of changes and its end [d] time steps later. *)
Definition later_reactor (d : Z) (c : ReactorModel.rx_cfg) : ReactorModel.rx_cfg :=
  {| ReactorModel.n_batch := ReactorModel.n_batch c; ReactorModel.n_core := ReactorModel.n_core c; ReactorModel.n_fresh := ReactorModel.n_fresh c; ReactorModel.n_spent := ReactorModel.n_spent c;
     ReactorModel.assem := ReactorModel.assem c; ReactorModel.cycle_t := ReactorModel.cycle_t c; ReactorModel.refuel_t := ReactorModel.refuel_t c;
     ReactorModel.power_cap := ReactorModel.power_cap c; ReactorModel.incommods := ReactorModel.incommods c; ReactorModel.outcommods := ReactorModel.outcommods c;
     ReactorModel.side_products := ReactorModel.side_products c; ReactorModel.side_qty := ReactorModel.side_qty c; ReactorModel.decom_all := ReactorModel.decom_all c;
     ReactorModel.pc_times := map (Z.add d) (ReactorModel.pc_times c); ReactorModel.pc_commods := ReactorModel.pc_commods c; ReactorModel.pc_vals := ReactorModel.pc_vals c;
     ReactorModel.rc_times := map (Z.add d) (ReactorModel.rc_times c); ReactorModel.rc_commods := ReactorModel.rc_commods c; ReactorModel.rc_in := ReactorModel.rc_in c; ReactorModel.rc_out := ReactorModel.rc_out c;
     ReactorModel.exit_t := after d (ReactorModel.exit_t c) |}.
(** A facility [d] time steps later: what it remembers of the past (when a storage received what it holds) and what it plans (the schedule of a reactor, the next purchase of a sink) is [d] time steps later, and nothing else is different. *)
Definition later (d : Z) (f : fac) : fac :=
  match f with
  | Stor c s => Stor c {| StorageModel.ss_inventory := StorageModel.ss_inventory s; StorageModel.ss_processing := StorageModel.ss_processing s;
                          StorageModel.ss_entry_times := map (Z.add d) (StorageModel.ss_entry_times s); StorageModel.ss_ready := StorageModel.ss_ready s; StorageModel.ss_stocks := StorageModel.ss_stocks s |}
  | Snk c s => Snk c {| SinkModel.ks_prefs := SinkModel.ks_prefs s; SinkModel.ks_inv := SinkModel.ks_inv s; SinkModel.ks_amt := SinkModel.ks_amt s; SinkModel.ks_next := after d (SinkModel.ks_next s) |}
  | Reac c s => Reac (later_reactor d c) s
  | _ => f
  end.
(** Facilities in whose input and memory times are not negative: the end of a reactor's life is not before the beginning of the simulation; a sink does not plan purchases in the past. *)
Definition dated (f : fac) : Prop :=
  match f with
  | Stor _ s => Forall (fun x => 0 <= x) (StorageModel.ss_entry_times s)
  | Snk c s => (0 <= SinkModel.kc_freq_min c <= SinkModel.kc_freq_max c) /\ (SinkModel.ks_next s = -1 \/ 0 <= SinkModel.ks_next s)
  | Reac c _ => ReactorModel.exit_t c = -1 \/ 0 <= ReactorModel.exit_t c
  | _ => True
  end.
(** What a time step comes to, with the facility afterwards [d] time steps later. *)
Definition later_step (d : Z) (o : outcome (fac * list mat)) : outcome (fac * list mat) :=
  match o with Ok (f, ms) => Ok (later d f, ms) | Throw e => Throw e | UB u => UB u | Diverge => Diverge end.

(** The scenario [d] time steps later: nothing happens for [d] time steps, then everything happens as before. *)
Definition later_move (d : Z) (x : move) : move := match x with Deploy t f => Deploy (d + t) (later d f) | _ => x end.
Definition dated_move (x : move) : Prop := match x with Deploy _ f => dated f | _ => True end.
Definition waits (n : nat) (g : signal) : list move := repeat (Trade (fun _ => g) []) n.

(** Separations: the end of life is [d] time steps later; negative numbers stand for "never" (/repo/src/separations.cc:207-208). *)
Definition later_separations (d : Z) (c : SeparationsModel.sp_cfg) : SeparationsModel.sp_cfg :=
  {| SeparationsModel.pc_feed_commods := SeparationsModel.pc_feed_commods c; SeparationsModel.pc_feed_prefs := SeparationsModel.pc_feed_prefs c; SeparationsModel.pc_feed_recipe := SeparationsModel.pc_feed_recipe c;
     SeparationsModel.pc_feed_size := SeparationsModel.pc_feed_size c; SeparationsModel.pc_throughput := SeparationsModel.pc_throughput c; SeparationsModel.pc_leftover_commod := SeparationsModel.pc_leftover_commod c;
     SeparationsModel.pc_leftover_size := SeparationsModel.pc_leftover_size c; SeparationsModel.pc_streams := SeparationsModel.pc_streams c;
     SeparationsModel.pc_exit := if 0 <=? SeparationsModel.pc_exit c then d + SeparationsModel.pc_exit c else SeparationsModel.pc_exit c |}.
Definition later_env (d : Z) (e : SeparationsModel.sp_env) : SeparationsModel.sp_env :=
  {| SeparationsModel.pe_time := d + SeparationsModel.pe_time e; SeparationsModel.pe_reqs := SeparationsModel.pe_reqs e; SeparationsModel.pe_trades := SeparationsModel.pe_trades e; SeparationsModel.pe_receipts := SeparationsModel.pe_receipts e |}.
