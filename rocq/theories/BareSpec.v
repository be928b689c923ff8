(** What it means that two lives of a facility agree in everything but what the material is made of (C122): they are equal
    once all compositions are blanked out. *)
From Verif Require Import Outcome KernelMaterial KernelResBuf KernelBuf.
From Verif Require ReactorModel StorageModel SinkModel SourceModel ConversionModel MixerModel.
Local Open Scope Q_scope.

(** A material without its composition. *)
Definition bare (m : mat) : mat := Mat (m_id m) (m_qty m) [].
Definition bare_named (p : string * mat) : string * mat := (fst p, bare (snd p)).
Definition bare_numbered (p : nat * mat) : nat * mat := (fst p, bare (snd p)).
Definition bare_buf (b : buf) : buf := {| b_cap := b_cap b; b_items := map bare (b_items b) |}.
(** The same names are known as recipes. *)
Definition same_names (recipe recipe' : string -> option comp) : Prop := forall r, recipe r = None <-> recipe' r = None.
(** What a call gives, with [f] applied to its result; failures stay what they are. *)
Definition on {A B} (f : A -> B) (o : outcome A) : outcome B :=
  match o with Ok a => Ok (f a) | Throw e => Throw e | UB u => UB u | Diverge => Diverge end.

(** ** Reactor *)
Definition bare_rb (b : resbuf) : resbuf := {| rb_cap := rb_cap b; rb_items := map bare (rb_items b) |}.
Definition bare_reactor (s : ReactorModel.rx_state) : ReactorModel.rx_state :=
  {| ReactorModel.fresh := bare_rb (ReactorModel.fresh s); ReactorModel.core := bare_rb (ReactorModel.core s);
     ReactorModel.spent := bare_rb (ReactorModel.spent s); ReactorModel.inrecipes := ReactorModel.inrecipes s;
     ReactorModel.outrecipes := ReactorModel.outrecipes s; ReactorModel.prefs := ReactorModel.prefs s;
     ReactorModel.cyc := ReactorModel.cyc s; ReactorModel.disch := ReactorModel.disch s; ReactorModel.idx := ReactorModel.idx s;
     ReactorModel.hybrid := ReactorModel.hybrid s |}.
Definition bare_reactor_step (e : ReactorModel.rx_env) : ReactorModel.rx_env :=
  {| ReactorModel.e_reqs := ReactorModel.e_reqs e; ReactorModel.e_pick := ReactorModel.e_pick e;
     ReactorModel.e_deliv := map bare_named (ReactorModel.e_deliv e) |}.
Definition bare_request (r : ReactorModel.request) : ReactorModel.request :=
  {| ReactorModel.r_commod := ReactorModel.r_commod r; ReactorModel.r_pref := ReactorModel.r_pref r; ReactorModel.r_comp := [];
     ReactorModel.r_qty := ReactorModel.r_qty r |}.
Definition bare_bidport (p : ReactorModel.bidport) : ReactorModel.bidport :=
  {| ReactorModel.bp_commod := ReactorModel.bp_commod p; ReactorModel.bp_bids := map bare_numbered (ReactorModel.bp_bids p);
     ReactorModel.bp_cap := ReactorModel.bp_cap p |}.
Definition bare_reactor_out (o : ReactorModel.rx_out) : ReactorModel.rx_out :=
  {| ReactorModel.o_ticked := bare_reactor (ReactorModel.o_ticked o); ReactorModel.o_reqs := map (map bare_request) (ReactorModel.o_reqs o);
     ReactorModel.o_bids := map bare_bidport (ReactorModel.o_bids o); ReactorModel.o_shipped := map bare_named (ReactorModel.o_shipped o);
     ReactorModel.o_events := ReactorModel.o_events o; ReactorModel.o_state := bare_reactor (ReactorModel.o_state o) |}.

(** ** Storage *)
Definition bare_storage (s : StorageModel.st_state) : StorageModel.st_state :=
  {| StorageModel.ss_inventory := map bare (StorageModel.ss_inventory s); StorageModel.ss_processing := map bare (StorageModel.ss_processing s);
     StorageModel.ss_entry_times := StorageModel.ss_entry_times s; StorageModel.ss_ready := map bare (StorageModel.ss_ready s);
     StorageModel.ss_stocks := map bare (StorageModel.ss_stocks s) |}.
Definition bare_storage_step (e : StorageModel.st_env) : StorageModel.st_env :=
  {| StorageModel.se_time := StorageModel.se_time e; StorageModel.se_sales := StorageModel.se_sales e;
     StorageModel.se_receipts := map bare (StorageModel.se_receipts e) |}.
Definition bare_storage_out (o : StorageModel.st_out) : StorageModel.st_out :=
  {| StorageModel.so_sold := map bare (StorageModel.so_sold o);
     StorageModel.so_tock := {| StorageModel.to_released := map bare (StorageModel.to_released (StorageModel.so_tock o));
       StorageModel.to_demand := StorageModel.to_demand (StorageModel.so_tock o);
       StorageModel.to_supply := StorageModel.to_supply (StorageModel.so_tock o) |} |}.

(** ** Conversion *)
Definition bare_conversion (s : ConversionModel.cv_state) : ConversionModel.cv_state :=
  {| ConversionModel.vs_input := map bare (ConversionModel.vs_input s); ConversionModel.vs_output := map bare (ConversionModel.vs_output s) |}.
Definition bare_conversion_step (e : ConversionModel.cv_env) : ConversionModel.cv_env :=
  {| ConversionModel.ve_reqs := ConversionModel.ve_reqs e; ConversionModel.ve_sales := ConversionModel.ve_sales e;
     ConversionModel.ve_receipts := map bare (ConversionModel.ve_receipts e) |}.
Definition bare_conversion_out (o : ConversionModel.cv_out) : ConversionModel.cv_out :=
  {| ConversionModel.vo_ticked := bare_conversion (ConversionModel.vo_ticked o); ConversionModel.vo_requests := ConversionModel.vo_requests o;
     ConversionModel.vo_bids := option_map (fun p => (map bare_numbered (fst p), snd p)) (ConversionModel.vo_bids o);
     ConversionModel.vo_shipped := map bare (ConversionModel.vo_shipped o) |}.

(** ** Mixer *)
Definition bare_mixer (s : MixerModel.mx_state) : MixerModel.mx_state :=
  {| MixerModel.xs_ratios := MixerModel.xs_ratios s; MixerModel.xs_bufs := map bare_buf (MixerModel.xs_bufs s);
     MixerModel.xs_output := bare_buf (MixerModel.xs_output s); MixerModel.xs_extra := option_map (map bare) (MixerModel.xs_extra s) |}.
Definition bare_mixer_step (e : MixerModel.mx_env) : MixerModel.mx_env :=
  {| MixerModel.xe_sales := MixerModel.xe_sales e; MixerModel.xe_receipts := map bare_numbered (MixerModel.xe_receipts e) |}.
Definition bare_mixer_out (o : MixerModel.mx_out) : MixerModel.mx_out :=
  {| MixerModel.xo_ticked := bare_mixer (MixerModel.xo_ticked o); MixerModel.xo_supply := MixerModel.xo_supply o;
     MixerModel.xo_demand := MixerModel.xo_demand o; MixerModel.xo_requests := MixerModel.xo_requests o;
     MixerModel.xo_shipped := map bare (MixerModel.xo_shipped o) |}.

(** ** Source *)
Definition bare_source (s : SourceModel.sr_state) : SourceModel.sr_state := {| SourceModel.ss_inv := bare_buf (SourceModel.ss_inv s) |}.
Definition bare_source_step (e : SourceModel.sr_env) : SourceModel.sr_env :=
  {| SourceModel.se_fill_bids := SourceModel.se_fill_bids e; SourceModel.se_fill := SourceModel.se_fill e;
     SourceModel.se_ship := SourceModel.se_ship e; SourceModel.se_reqs := map bare_named (SourceModel.se_reqs e);
     SourceModel.se_trades := map (fun p => (fst p, bare (snd p))) (SourceModel.se_trades e) |}.
Definition bare_source_bid (b : SourceModel.sr_bid) : SourceModel.sr_bid :=
  {| SourceModel.sb_req := SourceModel.sb_req b; SourceModel.sb_mat := bare (SourceModel.sb_mat b) |}.
Definition bare_source_out (o : SourceModel.sr_out) : SourceModel.sr_out :=
  {| SourceModel.so_supply := SourceModel.so_supply o;
     SourceModel.so_port := option_map (fun p => {| SourceModel.sp_bids := map bare_source_bid (SourceModel.sp_bids p);
       SourceModel.sp_limit := SourceModel.sp_limit p |}) (SourceModel.so_port o);
     SourceModel.so_sent := map bare_numbered (SourceModel.so_sent o) |}.

(** ** Sink: a resource is a material or a product *)
Definition bare_rsrc (r : SinkModel.rsrc) : SinkModel.rsrc :=
  {| SinkModel.r_qty := SinkModel.r_qty r; SinkModel.r_comp := option_map (fun _ => []) (SinkModel.r_comp r) |}.
Definition bare_sink (s : SinkModel.sk_state) : SinkModel.sk_state :=
  {| SinkModel.ks_prefs := SinkModel.ks_prefs s; SinkModel.ks_inv := map bare_rsrc (SinkModel.ks_inv s);
     SinkModel.ks_amt := SinkModel.ks_amt s; SinkModel.ks_next := SinkModel.ks_next s |}.
Definition bare_sink_step (e : SinkModel.sk_env) : SinkModel.sk_env :=
  {| SinkModel.ke_rng := SinkModel.ke_rng e; SinkModel.ke_rng2 := SinkModel.ke_rng2 e;
     SinkModel.ke_mats := map bare (SinkModel.ke_mats e); SinkModel.ke_prods := SinkModel.ke_prods e |}.
Definition bare_sink_out (o : SinkModel.sk_out) : SinkModel.sk_out :=
  {| SinkModel.ko_demand := SinkModel.ko_demand o;
     SinkModel.ko_mat := option_map (fun q => {| SinkModel.mq_qty := SinkModel.mq_qty q;
       SinkModel.mq_comp := option_map (fun _ => []) (SinkModel.mq_comp q); SinkModel.mq_items := SinkModel.mq_items q |}) (SinkModel.ko_mat o);
     SinkModel.ko_gen := SinkModel.ko_gen o |}.

(** ** Whole lives: the final state and the outputs of every step *)
Definition bare_life {S O} (f : S -> S) (g : O -> O) (p : S * list O) : S * list O := (f (fst p), map g (snd p)).
