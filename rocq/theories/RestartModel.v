(** Saving a facility in a snapshot and loading it again: Reactor, Storage,
    FuelFab, Enrichment, Source and Sink.  The functions are generated by
    cyclus' preprocessor from the declarations "#pragma cyclus var" of the
    members (see DESIGN.md section 1 for what is assumed about the generated
    code): every declared member is saved and read back, every declared ResBuf is
    emptied with PopN, saved and refilled with Push, and refilled with Push on
    loading; a "capacity" annotation sets the capacity of the new buffer first.
    Members without a declaration get no value.  On loading, EnterNotify is
    called but not Build (kernel, SimInit).  No proofs here. *)
From Verif Require Import Outcome KernelMaterial KernelResBuf KernelBuf.
From Verif Require Import ReactorModel FuelFabModel EnrichmentModel SinkModel StorageModel.
From Verif Require SourceModel.
Local Open Scope Q_scope.

(** Generated SnapshotInv for one buffer with a capacity: pops everything and pushes it back;
    from the declarations at /repo/src/reactor.h:441-445 and /repo/src/reactor.cc:37. *)
Definition rb_save (eps : Q) (b : resbuf) : outcome (list mat * resbuf) :=
  let* '(ms, b1) := rb_popn b (rb_count b) in
  let* b2 := rb_pushv eps b1 ms in
  Ok (ms, b2).
(** The same for the other buffers; from the declarations at /repo/src/fuel_fab.h:170, 204, 240,
    /repo/src/enrichment.h:382-384, /repo/src/source.h:154. *)
Definition b_save (eps : Q) (b : buf) : outcome (list mat * buf) :=
  let* b2 := b_pushv eps {| b_cap := b_cap b; b_items := [] |} (b_items b) in
  Ok (b_items b, b2).

(** ** Reactor *)
(** The declared members that change: /repo/src/reactor.h:200, 210, 228 (fuel tables), 344
    (cycle_step), 386 (hybrid_), 441-445 (inventories), 453 (discharged), 460 (res_indexes).
    The members that never change are the input [rx_cfg], saved and read back likewise. *)
Record rx_saved := {
  xv_inrecipes : list string; xv_outrecipes : list string; xv_prefs : list Q;
  xv_cyc : Z; xv_disch : bool; xv_idx : list (Z * nat); xv_hybrid : bool;
  xv_fresh : list mat; xv_core : list mat; xv_spent : list mat }.
(** Snapshot and SnapshotInv, generated: /repo/src/reactor.cc:35-37.  Also returns the reactor,
    which runs on. *)
Definition rx_save (eps : Q) (s : rx_state) : outcome (rx_saved * rx_state) :=
  let* '(fr, bf) := rb_save eps (fresh s) in
  let* '(co, bc) := rb_save eps (core s) in
  let* '(sp, bs) := rb_save eps (spent s) in
  Ok ({| xv_inrecipes := inrecipes s; xv_outrecipes := outrecipes s; xv_prefs := prefs s;
         xv_cyc := cyc s; xv_disch := disch s; xv_idx := idx s; xv_hybrid := hybrid s;
         xv_fresh := fr; xv_core := co; xv_spent := sp |},
      upd_spent (upd_core (upd_fresh s bf) bc) bs).
(** Loading: InitFrom (/repo/src/reactor.cc:46-58, generated part and side products), InitInv
    (generated, /repo/src/reactor.cc:39), EnterNotify (60-113). *)
Definition rx_load (eps : Q) (cfg : rx_cfg) (v : rx_saved) : outcome rx_state :=
  let s0 := rx_new cfg (xv_inrecipes v) (xv_outrecipes v) (xv_prefs v) (xv_cyc v) in
  let s1 := upd_hybrid (upd_idx (upd_cyc s0 (xv_cyc v) (xv_disch v)) (xv_idx v)) (xv_hybrid v) in
  let* _ := init_from cfg in
  let* bf := rb_pushv eps (fresh s1) (xv_fresh v) in
  let* bc := rb_pushv eps (core s1) (xv_core v) in
  let* bs := rb_pushv eps (spent s1) (xv_spent v) in
  enter_notify cfg (upd_spent (upd_core (upd_fresh s1 bf) bc) bs).

(** ** Storage *)
(** The declared members that change, /repo/src/storage.h:144, 211-226.  The state of the buy
    policy (kernel) is not saved and not modelled. *)
Record st_saved := { tv_prefs : list Q; tv_inventory : list mat; tv_stocks : list mat; tv_ready : list mat;
                     tv_times : list Z; tv_processing : list mat }.
(** Snapshot and SnapshotInv, generated: /repo/src/storage.cc:23, 27. [prefs] is the member
    in_commod_prefs as EnterNotify left it (85-94).  The buffers are unlimited, so that popping and
    pushing everything leaves them as they are. *)
Definition st_save (prefs : list Q) (s : st_state) : st_saved :=
  {| tv_prefs := prefs; tv_inventory := ss_inventory s; tv_stocks := ss_stocks s; tv_ready := ss_ready s;
     tv_times := ss_entry_times s; tv_processing := ss_processing s |}.
(** The input with the preferences read back, /repo/src/storage.h:144. *)
Definition st_with_prefs (cfg : st_cfg) (ps : list Q) : st_cfg :=
  {| sc_in_commods := sc_in_commods cfg; sc_in_prefs := ps; sc_out_commods := sc_out_commods cfg;
     sc_in_recipe := sc_in_recipe cfg; sc_residence := sc_residence cfg; sc_throughput := sc_throughput cfg;
     sc_max_inv := sc_max_inv cfg; sc_discrete := sc_discrete cfg; sc_package := sc_package cfg;
     sc_transport_unit := sc_transport_unit cfg; sc_reorder_point := sc_reorder_point cfg;
     sc_reorder_quantity := sc_reorder_quantity cfg; sc_cumulative_cap := sc_cumulative_cap cfg |}.
(** Loading: InitFrom (/repo/src/storage.cc:38-44), InitInv (generated, 21), EnterNotify (47-116). *)
Definition st_load (recipe : string -> option comp) (package unit : string -> bool) (cfg : st_cfg) (v : st_saved)
  : outcome (st_entered * st_state) :=
  let* _ := st_init_from_db cfg in
  let* en := st_enter recipe package unit (st_with_prefs cfg (tv_prefs v)) in
  Ok (en, {| ss_inventory := tv_inventory v; ss_processing := tv_processing v; ss_entry_times := tv_times v;
             ss_ready := tv_ready v; ss_stocks := tv_stocks v |}).

(** ** FuelFab *)
(** The declared members that change: the preferences (/repo/src/fuel_fab.h:153, 185; the pair is
    that of [ff_enter]: fissile, filler) and the inventories (/repo/src/fuel_fab.h:170, 204, 240). *)
Record ff_saved := { fv_prefs : list Q * list Q; fv_fill : list mat; fv_fiss : list mat; fv_topup : list mat }.
(** Snapshot and SnapshotInv, generated from /repo/src/fuel_fab.h:116. *)
Definition ff_save (eps : Q) (prefs : list Q * list Q) (s : ff_state) : outcome (ff_saved * ff_state) :=
  let* '(fl, bl) := b_save eps (fb_fill s) in
  let* '(fs, bs) := b_save eps (fb_fiss s) in
  let* '(tp, bt) := b_save eps (fb_topup s) in
  Ok ({| fv_prefs := prefs; fv_fill := fl; fv_fiss := fs; fv_topup := tp |},
      {| fb_fill := bl; fb_fiss := bs; fb_topup := bt |}).
(** The input with the preferences read back, /repo/src/fuel_fab.h:153, 185. *)
Definition ff_with_prefs (cfg : ff_cfg) (ps : list Q * list Q) : ff_cfg :=
  {| fc_fill_commods := fc_fill_commods cfg; fc_fill_prefs := snd ps; fc_fill_recipe := fc_fill_recipe cfg;
     fc_fill_size := fc_fill_size cfg;
     fc_fiss_commods := fc_fiss_commods cfg; fc_fiss_prefs := fst ps; fc_fiss_recipe := fc_fiss_recipe cfg;
     fc_fiss_size := fc_fiss_size cfg;
     fc_topup_commod := fc_topup_commod cfg; fc_topup_pref := fc_topup_pref cfg;
     fc_topup_recipe := fc_topup_recipe cfg; fc_topup_size := fc_topup_size cfg;
     fc_outcommod := fc_outcommod cfg; fc_throughput := fc_throughput cfg; fc_spectrum := fc_spectrum cfg |}.
(** Loading: InitFrom and InitInv (generated, /repo/src/fuel_fab.h:116), EnterNotify
    (/repo/src/fuel_fab.cc:139-165). *)
Definition ff_load (eps : Q) (cfg : ff_cfg) (v : ff_saved) : outcome (list Q * list Q * ff_state) :=
  let s0 := ff_new cfg in
  let* bl := b_pushv eps (fb_fill s0) (fv_fill v) in
  let* bs := b_pushv eps (fb_fiss s0) (fv_fiss v) in
  let* bt := b_pushv eps (fb_topup s0) (fv_topup v) in
  let* ps := ff_enter (ff_with_prefs cfg (fv_prefs v)) in
  Ok (ps, {| fb_fill := bl; fb_fiss := bs; fb_topup := bt |}).

(** ** Enrichment *)
(** The declared members that change: the two inventories, /repo/src/enrichment.h:381-384. *)
Record en_saved := { nv_inv : list mat; nv_tails : list mat }.
(** Snapshot and SnapshotInv, generated from /repo/src/enrichment.h:173. *)
Definition en_save (eps : Q) (s : en_state) : outcome (en_saved * en_state) :=
  let* '(iv, bi) := b_save eps (es_inv s) in
  let* '(tl, bt) := b_save eps (es_tails s) in
  Ok ({| nv_inv := iv; nv_tails := tl |},
      {| es_inv := bi; es_tails := bt; es_swu := es_swu s; es_iswu := es_iswu s; es_ifeed := es_ifeed s |}).
(** Loading: InitFrom and InitInv (generated, /repo/src/enrichment.h:173); EnterNotify
    (/repo/src/enrichment.cc:57-60) only deals with the position.  current_swu_capacity,
    intra_timestep_swu_ and intra_timestep_feed_ (/repo/src/enrichment.h:379, 388-389) are not declared. *)
Definition en_load (eps : Q) (cfg : en_cfg) (v : en_saved) : outcome en_state :=
  let s0 := en_new cfg in
  let* bi := b_pushv eps (es_inv s0) (nv_inv v) in
  let* bt := b_pushv eps (es_tails s0) (nv_tails v) in
  Ok {| es_inv := bi; es_tails := bt; es_swu := es_swu s0; es_iswu := es_iswu s0; es_ifeed := es_ifeed s0 |}.

(** ** Source *)
(** Snapshot and SnapshotInv, generated from /repo/src/source.h:54-55; the only declared member
    that changes is the inventory, /repo/src/source.h:152-154. *)
Definition sr_save (eps : Q) (s : SourceModel.sr_state) : outcome (list mat * SourceModel.sr_state) :=
  let* '(iv, b) := b_save eps (SourceModel.ss_inv s) in
  Ok (iv, {| SourceModel.ss_inv := b |}).
(** Loading: InitFrom (/repo/src/source.cc:24-29) and InitInv (generated, /repo/src/source.h:56);
    EnterNotify (/repo/src/source.cc:53-56) only deals with the position.  Build (58-73),
    which fills the inventory, is not called. *)
Definition sr_load (eps : Q) (v : list mat) : outcome SourceModel.sr_state :=
  let* b := b_pushv eps new_buf v in
  Ok {| SourceModel.ss_inv := b |}.

(** ** Sink *)
(** The declared members that change: in_commod_prefs (/repo/src/sink.h:136) and inventory
    (/repo/src/sink.h:168); requestAmt and nextBuyTime (/repo/src/sink.h:121-122) are not declared. *)
Record sk_saved := { kv_prefs : list Q; kv_inv : list rsrc }.
(** Push of several resources into the empty inventory, /repo/src/sink.h:167-168: the total is
    checked against the capacity. *)
Definition sk_pushv (eps : Q) (cfg : sk_cfg) (rs : list rsrc) : outcome (list rsrc) :=
  if Qltb eps (rsrcs_qty rs - Qmax 0 (kc_max_inv cfg)) then Throw ValueError else Ok rs.
(** Snapshot and SnapshotInv, generated: /repo/src/sink.cc:27-29. *)
Definition sk_save (eps : Q) (cfg : sk_cfg) (s : sk_state) : outcome (sk_saved * sk_state) :=
  let* rs := sk_pushv eps cfg (ks_inv s) in
  Ok ({| kv_prefs := ks_prefs s; kv_inv := ks_inv s |},
      {| ks_prefs := ks_prefs s; ks_inv := rs; ks_amt := ks_amt s; ks_next := ks_next s |}).
(** Loading at time [t]: InitFrom and InitInv (generated, /repo/src/sink.cc:31, 35), EnterNotify
    (40-75). *)
Definition sk_load (eps : Q) (cfg : sk_cfg) (g : rng) (t : Z) (v : sk_saved) : outcome sk_state :=
  let* rs := sk_pushv eps cfg (kv_inv v) in
  sk_enter cfg g t {| ks_prefs := kv_prefs v; ks_inv := rs; ks_amt := ks_amt (sk_new cfg); ks_next := ks_next (sk_new cfg) |}.
