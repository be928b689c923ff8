(** What it means that the numbers of resource objects do not matter (C134). *)
From Verif Require Import Outcome KernelMaterial KernelResBuf KernelBuf NetworkSpec SimulationSpec.
From Verif Require ReactorModel StorageModel SinkModel SourceModel ConversionModel MixerModel.
From Verif Require Export BareSpec.
Local Open Scope Q_scope.

(** ** A reactor whose objects have other numbers: [rho] gives every object its new number.  The numbers are the keys of res_indexes
    (/repo/src/reactor.h:457-460, /repo/src/reactor.cc:461-504). *)
Definition ren (rho : Z -> Z) (m : mat) : mat := Mat (rho (m_id m)) (m_qty m) (m_comp m).
Definition ren_named (rho : Z -> Z) (p : string * mat) : string * mat := (fst p, ren rho (snd p)).
Definition ren_numbered (rho : Z -> Z) (p : nat * mat) : nat * mat := (fst p, ren rho (snd p)).
Definition ren_rb (rho : Z -> Z) (b : resbuf) : resbuf := {| rb_cap := rb_cap b; rb_items := map (ren rho) (rb_items b) |}.
Definition ren_idx (rho : Z -> Z) (m : list (Z * nat)) : list (Z * nat) := map (fun e => (rho (fst e), snd e)) m.
Definition ren_reactor (rho : Z -> Z) (s : ReactorModel.rx_state) : ReactorModel.rx_state :=
  {| ReactorModel.fresh := ren_rb rho (ReactorModel.fresh s); ReactorModel.core := ren_rb rho (ReactorModel.core s);
     ReactorModel.spent := ren_rb rho (ReactorModel.spent s); ReactorModel.inrecipes := ReactorModel.inrecipes s;
     ReactorModel.outrecipes := ReactorModel.outrecipes s; ReactorModel.prefs := ReactorModel.prefs s;
     ReactorModel.cyc := ReactorModel.cyc s; ReactorModel.disch := ReactorModel.disch s; ReactorModel.idx := ren_idx rho (ReactorModel.idx s);
     ReactorModel.hybrid := ReactorModel.hybrid s |}.
Definition ren_reactor_step (rho : Z -> Z) (e : ReactorModel.rx_env) : ReactorModel.rx_env :=
  {| ReactorModel.e_reqs := ReactorModel.e_reqs e; ReactorModel.e_pick := ReactorModel.e_pick e;
     ReactorModel.e_deliv := map (ren_named rho) (ReactorModel.e_deliv e) |}.
Definition ren_bidport (rho : Z -> Z) (p : ReactorModel.bidport) : ReactorModel.bidport :=
  {| ReactorModel.bp_commod := ReactorModel.bp_commod p; ReactorModel.bp_bids := map (ren_numbered rho) (ReactorModel.bp_bids p);
     ReactorModel.bp_cap := ReactorModel.bp_cap p |}.
(** The outputs of a step: requests and events are the same, bids and shipments are the same objects with their new numbers. *)
Definition ren_reactor_out (rho : Z -> Z) (o : ReactorModel.rx_out) : ReactorModel.rx_out :=
  {| ReactorModel.o_ticked := ren_reactor rho (ReactorModel.o_ticked o); ReactorModel.o_reqs := ReactorModel.o_reqs o;
     ReactorModel.o_bids := map (ren_bidport rho) (ReactorModel.o_bids o); ReactorModel.o_shipped := map (ren_named rho) (ReactorModel.o_shipped o);
     ReactorModel.o_events := ReactorModel.o_events o; ReactorModel.o_state := ren_reactor rho (ReactorModel.o_state o) |}.

(** ** The other facilities never look at the number of an object: two of them agree if they agree once all numbers are blanked out. *)
Definition anon : mat -> mat := ren (fun _ => 0%Z).
Definition anon_buf (b : buf) : buf := {| b_cap := b_cap b; b_items := map anon (b_items b) |}.
Definition anon_storage (s : StorageModel.st_state) : StorageModel.st_state :=
  {| StorageModel.ss_inventory := map anon (StorageModel.ss_inventory s); StorageModel.ss_processing := map anon (StorageModel.ss_processing s);
     StorageModel.ss_entry_times := StorageModel.ss_entry_times s; StorageModel.ss_ready := map anon (StorageModel.ss_ready s);
     StorageModel.ss_stocks := map anon (StorageModel.ss_stocks s) |}.
Definition anon_conversion (s : ConversionModel.cv_state) : ConversionModel.cv_state :=
  {| ConversionModel.vs_input := map anon (ConversionModel.vs_input s); ConversionModel.vs_output := map anon (ConversionModel.vs_output s) |}.
Definition anon_mixer (s : MixerModel.mx_state) : MixerModel.mx_state :=
  {| MixerModel.xs_ratios := MixerModel.xs_ratios s; MixerModel.xs_bufs := map anon_buf (MixerModel.xs_bufs s);
     MixerModel.xs_output := anon_buf (MixerModel.xs_output s); MixerModel.xs_extra := option_map (map anon) (MixerModel.xs_extra s) |}.
Definition anon_source (s : SourceModel.sr_state) : SourceModel.sr_state := {| SourceModel.ss_inv := anon_buf (SourceModel.ss_inv s) |}.

(** Two facilities that differ in the numbers of their objects only. *)
Definition alike (rho : Z -> Z) (f f' : fac) : Prop :=
  match f, f' with
  | Conv c s, Conv c' s' => c' = c /\ anon_conversion s' = anon_conversion s
  | Stor c s, Stor c' s' => c' = c /\ anon_storage s' = anon_storage s
  | Mixr c s, Mixr c' s' => c' = c /\ anon_mixer s' = anon_mixer s
  | Srce c s, Srce c' s' => c' = c /\ anon_source s' = anon_source s
  | Snk c s, Snk c' s' => c' = c /\ s' = s
  | Reac c s, Reac c' s' => c' = c /\ s' = ren_reactor rho s
  | _, _ => False
  end.
(** The same parcels but for their numbers. *)
Definition same_parcels (ms ms' : list mat) : Prop := map anon ms' = map anon ms.
(** Two calls end the same way: both give a result, and the results are related by [R], or both fail in the same way. *)
Definition agrees {A} (R : A -> A -> Prop) (o o' : outcome A) : Prop :=
  match o, o' with
  | Ok a, Ok a' => R a a'
  | Throw e, Throw e' => e' = e
  | UB u, UB u' => u' = u
  | Diverge, Diverge => True
  | _, _ => False
  end.
(** Deliveries of the same parcels under their new numbers. *)
Definition redelivered (rho : Z -> Z) (x : trade * mat) : trade * mat := (fst x, ren rho (snd x)).
Definition one_to_one (rho : Z -> Z) : Prop := forall x y, rho x = rho y -> x = y.
