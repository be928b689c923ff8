(** What it means that a facility lives through the same history a number of steps later (C119): everything the
    user or the kernel gives as an absolute time moves with it. *)
From Verif Require Import Outcome KernelMaterial.
From Verif Require ReactorModel StorageModel SinkModel SeparationsModel.
Local Open Scope Z_scope.

(** The last step of a facility; -1 stands for "never retires" and is not a time. *)
Definition end_later (d t : Z) : Z := if Z.eqb t (-1) then -1 else t + d.
Definition is_end (t : Z) : Prop := t = -1 \/ 0 <= t.

(** The same reactor with its end and all its dates of changes [d] steps later. *)
Definition reactor_later (d : Z) (c : ReactorModel.rx_cfg) : ReactorModel.rx_cfg :=
  let dates := map (fun t => t + d) in
  {| ReactorModel.n_batch := ReactorModel.n_batch c; ReactorModel.n_core := ReactorModel.n_core c;
     ReactorModel.n_fresh := ReactorModel.n_fresh c; ReactorModel.n_spent := ReactorModel.n_spent c;
     ReactorModel.assem := ReactorModel.assem c; ReactorModel.cycle_t := ReactorModel.cycle_t c;
     ReactorModel.refuel_t := ReactorModel.refuel_t c; ReactorModel.power_cap := ReactorModel.power_cap c;
     ReactorModel.incommods := ReactorModel.incommods c; ReactorModel.outcommods := ReactorModel.outcommods c;
     ReactorModel.side_products := ReactorModel.side_products c; ReactorModel.side_qty := ReactorModel.side_qty c;
     ReactorModel.decom_all := ReactorModel.decom_all c;
     ReactorModel.pc_times := dates (ReactorModel.pc_times c); ReactorModel.pc_commods := ReactorModel.pc_commods c;
     ReactorModel.pc_vals := ReactorModel.pc_vals c;
     ReactorModel.rc_times := dates (ReactorModel.rc_times c); ReactorModel.rc_commods := ReactorModel.rc_commods c;
     ReactorModel.rc_in := ReactorModel.rc_in c; ReactorModel.rc_out := ReactorModel.rc_out c;
     ReactorModel.exit_t := end_later d (ReactorModel.exit_t c) |}.

(** The same separations plant with its end [d] steps later. *)
Definition separations_later (d : Z) (c : SeparationsModel.sp_cfg) : SeparationsModel.sp_cfg :=
  {| SeparationsModel.pc_feed_commods := SeparationsModel.pc_feed_commods c;
     SeparationsModel.pc_feed_prefs := SeparationsModel.pc_feed_prefs c;
     SeparationsModel.pc_feed_recipe := SeparationsModel.pc_feed_recipe c;
     SeparationsModel.pc_feed_size := SeparationsModel.pc_feed_size c;
     SeparationsModel.pc_throughput := SeparationsModel.pc_throughput c;
     SeparationsModel.pc_leftover_commod := SeparationsModel.pc_leftover_commod c;
     SeparationsModel.pc_leftover_size := SeparationsModel.pc_leftover_size c;
     SeparationsModel.pc_streams := SeparationsModel.pc_streams c;
     SeparationsModel.pc_exit := end_later d (SeparationsModel.pc_exit c) |}.
(** The same requests, trades and deliveries [d] steps later. *)
Definition separations_step_later (d : Z) (e : SeparationsModel.sp_env) : SeparationsModel.sp_env :=
  {| SeparationsModel.pe_time := SeparationsModel.pe_time e + d; SeparationsModel.pe_reqs := SeparationsModel.pe_reqs e;
     SeparationsModel.pe_trades := SeparationsModel.pe_trades e; SeparationsModel.pe_receipts := SeparationsModel.pe_receipts e |}.
Definition storage_step_later (d : Z) (e : StorageModel.st_env) : StorageModel.st_env :=
  {| StorageModel.se_time := StorageModel.se_time e + d; StorageModel.se_sales := StorageModel.se_sales e;
     StorageModel.se_receipts := StorageModel.se_receipts e |}.

(** What is observable of a life: the outputs of all steps, or how it fails. *)
Definition seen {A B} (o : outcome (A * B)) : outcome B :=
  match o with Ok p => Ok (snd p) | Throw e => Throw e | UB u => UB u | Diverge => Diverge end.

(** The whole life of a sink that enters at time [t]. *)
Definition sink_life (eps eg : Q) (recipe : string -> option comp) (cfg : SinkModel.sk_cfg) (t : Z)
  (g : SinkModel.rng) (es : list SinkModel.sk_env) : outcome (list SinkModel.sk_out) :=
  match SinkModel.sk_enter cfg g t (SinkModel.sk_new cfg) with
  | Ok s => seen (SinkModel.sk_run eps eg recipe cfg t s es)
  | Throw e => Throw e | UB u => UB u | Diverge => Diverge
  end.
(** The whole life of a separations plant. *)
Definition separations_life (eps : Q) (recipe : string -> option comp) (cfg : SeparationsModel.sp_cfg)
  (es : list SeparationsModel.sp_env) : outcome (list SeparationsModel.sp_out) :=
  match SeparationsModel.sp_enter eps cfg (SeparationsModel.sp_new cfg) with
  | Ok (s, prefs) => seen (SeparationsModel.sp_run eps recipe cfg prefs s es)
  | Throw e => Throw e | UB u => UB u | Diverge => Diverge
  end.
(** The whole life of a reactor that enters at time [t]. *)
Definition reactor_life (eps : Q) (recipe : string -> option comp) (cfg : ReactorModel.rx_cfg) (t : Z)
  (new : ReactorModel.rx_state) (es : list ReactorModel.rx_env) : outcome (list ReactorModel.rx_out) :=
  match ReactorModel.enter_notify cfg new with
  | Ok s => ReactorModel.rx_run eps recipe cfg t s es
  | Throw e => Throw e | UB u => UB u | Diverge => Diverge
  end.
