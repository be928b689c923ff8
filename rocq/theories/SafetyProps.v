(** C110: in every modelled call of every archetype, wrong input, impossible demands and unknown names end in an exception
    or are served; nothing undefined happens and no loop runs for ever, apart from the cases that the hypotheses exclude.
    No assumption is made on quantities, compositions, recipes or the resources that other agents deliver. *)
From Coq Require Import List ZArith.
From Verif Require Import Outcome KernelMaterial KernelResBuf SafetySpec SafetyProofs SafetyReactor.
From Verif Require ReactorModel ReactorSpec ReactorExample StorageModel StorageProps SeparationsModel SeparationsProps MixerModel MixerProps
  FuelFabModel FuelFabProps EnrichmentModel EnrichmentProps SinkModel SinkProps SourceModel SourceProps ConversionModel ConversionProps
  InstModel InstProps RegionModel RegionProps.
Local Open Scope Q_scope.

(** ** The reactor *)
Theorem C110_reactor : forall eps recipe cfg inr outr pf c s t es,
  input_complete cfg inr outr pf -> ReactorModel.enter_notify cfg (ReactorModel.rx_new cfg inr outr pf c) = Ok s ->
  awards_waiting eps recipe cfg t s es -> reported (ReactorModel.rx_run eps recipe cfg t s es).
Proof. intros eps recipe cfg inr outr pf c s t es I E A. exact (safe_reported _ _ (life_safe eps recipe cfg inr outr pf c s t es I E A)). Qed.
Print Assumptions C110_reactor.
(** From any state with complete tables, for instance in mid-life. *)
Theorem C110_reactor_any_state : forall eps recipe cfg s t es, tables_complete cfg s ->
  awards_waiting eps recipe cfg t s es -> reported (ReactorModel.rx_run eps recipe cfg t s es).
Proof. intros eps recipe cfg s t es T A. exact (safe_reported _ _ (run_safe eps recipe cfg es t s T A)). Qed.
Print Assumptions C110_reactor_any_state.
Theorem C110_reactor_start : forall cfg s, reported (ReactorModel.enter_notify cfg s).
Proof. intros cfg s. exact (safe_reported _ _ (enter_safe cfg s)). Qed.
Print Assumptions C110_reactor_start.
(** 26 steps with awards, a full pool and retirement, ending in a delivery on a commodity the reactor did not ask for. *)
Definition rx_wrong : list ReactorModel.rx_env :=
  ReactorExample.ex_envs ++ [{| ReactorModel.e_reqs := fun _ => []; ReactorModel.e_pick := []; ReactorModel.e_deliv := [("z"%string, Mat 99 3 [])] |}].
Example C110_reactor_case : input_complete ReactorExample.ex_cfg ["fresh_a"; "fresh_b"]%string ["spent_a"; "spent_b"]%string [1; 2] /\
  ReactorModel.enter_notify ReactorExample.ex_cfg (ReactorModel.rx_new ReactorExample.ex_cfg ["fresh_a"; "fresh_b"]%string ["spent_a"; "spent_b"]%string [1; 2] 0)
    = Ok ReactorExample.ex_start /\
  awards_waiting 0 ReactorExample.ex_recipe ReactorExample.ex_cfg 0 ReactorExample.ex_start rx_wrong /\
  ReactorModel.rx_run 0 ReactorExample.ex_recipe ReactorExample.ex_cfg 0 ReactorExample.ex_start rx_wrong = Throw ValueError.
Proof.
  split; [constructor; cbn; first [discriminate | left; reflexivity | reflexivity | (right; reflexivity)]|]. split; [vm_compute; reflexivity|].
  split; [apply awards_waitingb_sound; vm_compute; reflexivity|vm_compute; reflexivity].
Qed.

(** ** Storage: what it accepts at start-up, with at least one input commodity. *)
Theorem C110_storage : forall recipe package unit eps cfg en s es, StorageModel.sc_in_commods cfg <> [] ->
  StorageModel.st_enter recipe package unit cfg = Ok en -> reported (StorageModel.st_run eps cfg s es).
Proof. intros recipe package unit eps cfg en s es N E. exact (safe_reported _ _ (st_life_safe recipe package unit eps cfg en s es N E)). Qed.
Print Assumptions C110_storage.
Theorem C110_storage_start : forall recipe package unit cfg, reported (StorageModel.st_enter recipe package unit cfg).
Proof. intros recipe package unit cfg. exact (safe_reported _ _ (st_enter_safe recipe package unit cfg)). Qed.
Print Assumptions C110_storage_start.
(** Selling more than there is. *)
Example C110_storage_case : (exists en, StorageModel.st_enter (fun _ => None) (fun _ => true) (fun _ => true) (StorageProps.sx_cfg true) = Ok en) /\
  StorageModel.st_run 0 (StorageProps.sx_cfg true) StorageModel.st_empty
    (StorageProps.sx_es ++ [{| StorageModel.se_time := 6; StorageModel.se_sales := [900]; StorageModel.se_receipts := [] |}]) = Throw ValueError.
Proof. split; [eexists; vm_compute; reflexivity|vm_compute; reflexivity]. Qed.
(** Without an input commodity it is accepted, and the first step reads outside a list. *)
Definition no_inputs : StorageModel.st_cfg := {|
  StorageModel.sc_in_commods := []; StorageModel.sc_in_prefs := [];
  StorageModel.sc_out_commods := ["aged"]%string; StorageModel.sc_in_recipe := ""; StorageModel.sc_residence := 2; StorageModel.sc_throughput := 5;
  StorageModel.sc_max_inv := 40; StorageModel.sc_discrete := true; StorageModel.sc_package := "unpackaged";
  StorageModel.sc_transport_unit := "unrestricted"; StorageModel.sc_reorder_point := -(1); StorageModel.sc_reorder_quantity := 0;
  StorageModel.sc_cumulative_cap := 0 |}.
Theorem C110_storage_refuted : exists recipe package unit cfg en e,
  StorageModel.st_enter recipe package unit cfg = Ok en /\ StorageModel.st_run 0 cfg StorageModel.st_empty [e] = UB OutOfBounds.
Proof.
  exists (fun _ => None), (fun _ => true), (fun _ => true), no_inputs. eexists.
  exists {| StorageModel.se_time := 0; StorageModel.se_sales := []; StorageModel.se_receipts := [] |}. split; [vm_compute; reflexivity|]. vm_compute. reflexivity.
Qed.
Print Assumptions C110_storage_refuted.

(** ** Separations (without the condition on preferences it is undefined: C29). *)
Theorem C110_separations : forall eps recipe cfg s0 s prefs es, SeparationsModel.pc_feed_commods cfg <> [] ->
  SeparationsModel.pc_feed_prefs cfg = [] \/ List.length (SeparationsModel.pc_feed_prefs cfg) = List.length (SeparationsModel.pc_feed_commods cfg) ->
  SeparationsModel.sp_enter eps cfg s0 = Ok (s, prefs) -> reported (SeparationsModel.sp_run eps recipe cfg prefs s es).
Proof. intros eps recipe cfg s0 s prefs es N L E. exact (safe_reported _ _ (sp_life_safe eps recipe cfg s0 s prefs es E N L)). Qed.
Print Assumptions C110_separations.
Theorem C110_separations_start : forall eps cfg s, reported (SeparationsModel.sp_enter eps cfg s).
Proof. intros eps cfg s. exact (safe_reported _ _ (sp_enter_safe eps cfg s)). Qed.
Print Assumptions C110_separations_start.
(** A delivery of more than the feed inventory holds. *)
Example C110_separations_case : exists s prefs,
  SeparationsModel.sp_enter 0 SeparationsProps.sx_cfg (SeparationsModel.sp_new SeparationsProps.sx_cfg) = Ok (s, prefs) /\
  SeparationsModel.sp_run 0 (fun _ => None) SeparationsProps.sx_cfg prefs s
    [{| SeparationsModel.pe_time := 3; SeparationsModel.pe_reqs := fun _ => []; SeparationsModel.pe_trades := []; SeparationsModel.pe_receipts := [Mat 5 400 SeparationsProps.sx_comp] |}]
    = Throw ValueError.
Proof. do 2 eexists. split; [vm_compute; reflexivity|]. vm_compute. reflexivity. Qed.

(** ** The mixer, with at least one input stream. *)
Theorem C110_mixer : forall eps cfg s es, MixerModel.xc_streams cfg <> [] ->
  MixerModel.mx_enter eps cfg (MixerModel.mx_new cfg) = Ok s -> reported (MixerModel.mx_run eps cfg s es).
Proof. intros eps cfg s es N E. exact (safe_reported _ _ (mx_life_safe eps cfg s es N E)). Qed.
Print Assumptions C110_mixer.
Theorem C110_mixer_start : forall eps cfg, reported (MixerModel.mx_enter eps cfg (MixerModel.mx_new cfg)).
Proof. intros eps cfg. exact (safe_reported _ _ (mx_start_safe eps cfg)). Qed.
Print Assumptions C110_mixer_start.
Example C110_mixer_case : MixerModel.xc_streams MixerProps.xx_cfg <> [] /\
  MixerModel.mx_enter 0 MixerProps.xx_cfg (MixerModel.mx_new MixerProps.xx_cfg) = Ok MixerProps.xx_s0 /\
  MixerModel.mx_run 0 MixerProps.xx_cfg MixerProps.xx_s0
    (MixerProps.xx_es ++ [{| MixerModel.xe_sales := [900]; MixerModel.xe_receipts := [] |}]) = Throw ValueError.
Proof. split; [discriminate|]. split; vm_compute; reflexivity. Qed.
(** Without a stream it is accepted, and the first tick stores a null pointer. *)
Theorem C110_mixer_refuted : exists cfg s e,
  MixerModel.mx_enter 0 cfg (MixerModel.mx_new cfg) = Ok s /\ MixerModel.mx_run 0 cfg s [e] = UB NullDeref.
Proof.
  exists {| MixerModel.xc_streams := []; MixerModel.xc_out_commod := "mix"; MixerModel.xc_out_size := 10; MixerModel.xc_throughput := 5 |}. eexists.
  exists {| MixerModel.xe_sales := []; MixerModel.xe_receipts := [] |}. split; [vm_compute; reflexivity|]. vm_compute. reflexivity.
Qed.
Print Assumptions C110_mixer_refuted.

(** ** The fuel fabrication facility, whatever its state and input. *)
Theorem C110_fuel_fab : forall eps nz D recipe cfg prefs s es,
  reported (FuelFabModel.ff_enter cfg) /\ reported (FuelFabModel.ff_run eps nz D recipe cfg prefs s es).
Proof.
  intros eps nz D recipe cfg prefs s es.
  exact (conj (safe_reported _ _ (ff_enter_safe cfg)) (safe_reported _ _ (ff_run_safe eps nz D recipe cfg prefs es s))).
Qed.
Print Assumptions C110_fuel_fab.
(** A trade for a request that was not made, and one larger than the inventories. *)
Example C110_fuel_fab_case :
  FuelFabModel.ff_run 0 FuelFabProps.fx_nz FuelFabProps.fx_D FuelFabProps.fx_recipe FuelFabProps.fx_cfg FuelFabProps.fx_prefs (FuelFabModel.ff_new FuelFabProps.fx_cfg)
    (FuelFabProps.fx_es ++ [{| FuelFabModel.fe_reqs := FuelFabProps.fx_reqs; FuelFabModel.fe_trades := [(0%nat, 90)]; FuelFabModel.fe_receipts := [] |}]) = Throw ValueError.
Proof. vm_compute. reflexivity. Qed.

(** ** The enrichment facility (C43_indeterminate_refuted is about the value that its Tock records before the first trade). *)
Theorem C110_enrichment : forall eps eg V aw recipe cfg s es,
  reported (EnrichmentModel.en_build eps recipe cfg) /\ reported (EnrichmentModel.en_run eps eg V aw recipe cfg s es).
Proof.
  intros eps eg V aw recipe cfg s es.
  exact (conj (safe_reported _ _ (en_build_safe eps recipe cfg)) (safe_reported _ _ (en_run_safe eps eg V aw recipe cfg es s))).
Qed.
Print Assumptions C110_enrichment.
(** Ordering the bids it received (undefined for some bids of equal assay: C45). *)
Theorem C110_enrichment_order : forall cfg bids, EnrichmentModel.ec_order_prefs cfg = false \/ EnrichmentModel.all_comparable bids = true ->
  reported (EnrichmentModel.en_adjust cfg bids).
Proof. intros cfg bids H. exact (safe_reported _ _ (en_adjust_safe cfg bids H)). Qed.
Print Assumptions C110_enrichment_order.
Example C110_enrichment_case : EnrichmentModel.all_comparable EnrichmentProps.nx_bids = true /\
  EnrichmentModel.en_run 0 EnrichmentProps.nx_eg EnrichmentProps.nx_V EnrichmentProps.nx_aw EnrichmentProps.nx_recipe EnrichmentProps.nx_cfg EnrichmentProps.nx_s0
    (EnrichmentProps.nx_es ++ [{| EnrichmentModel.ee_treqs := []; EnrichmentModel.ee_preqs := []; EnrichmentModel.ee_trades := [EnrichmentProps.nx_sale 90]; EnrichmentModel.ee_receipts := [] |}])
    = Throw ValueError.
Proof. split; vm_compute; reflexivity. Qed.

(** ** The sink, with at least one input commodity (as its input file requires). *)
Theorem C110_sink : forall eps eg recipe cfg g t s t' es, SinkModel.kc_commods cfg <> [] ->
  SinkModel.sk_enter cfg g t (SinkModel.sk_new cfg) = Ok s -> reported (SinkModel.sk_run eps eg recipe cfg t' s es).
Proof. intros eps eg recipe cfg g t s t' es N E. exact (safe_reported _ _ (sk_life_safe eps eg recipe cfg g t s es t' N E)). Qed.
Print Assumptions C110_sink.
Theorem C110_sink_start : forall cfg g t s, reported (SinkModel.sk_enter cfg g t s).
Proof. intros cfg g t s. exact (safe_reported _ _ (sk_enter_safe cfg g t s)). Qed.
Print Assumptions C110_sink_start.
Example C110_sink_case : SinkModel.kc_commods SinkProps.kx_c2 <> [] /\ exists s,
  SinkModel.sk_enter SinkProps.kx_c2 SinkProps.kx_low 4 (SinkModel.sk_new SinkProps.kx_c2) = Ok s /\
  SinkModel.sk_run 0 0 SinkProps.kx_recipe SinkProps.kx_c2 4 s (SinkProps.kx_es ++ [SinkProps.kx_env SinkProps.kx_low [Mat 9 90 SinkProps.kx_u] []]) = Throw ValueError.
Proof. split; [discriminate|]. eexists. split; [vm_compute; reflexivity|]. vm_compute. reflexivity. Qed.

(** ** The source, whatever its state and input, also packaged. *)
Theorem C110_source : forall eps eg recipe cfg s es,
  reported (SourceModel.sr_build eps recipe cfg) /\ reported (SourceModel.sr_run eps eg recipe cfg s es).
Proof.
  intros eps eg recipe cfg s es.
  exact (conj (safe_reported _ _ (sr_build_safe eps recipe cfg)) (safe_reported _ _ (sr_run_safe eps eg recipe cfg es s))).
Qed.
Print Assumptions C110_source.
Example C110_source_case : SourceProps.rx_run "no_such_recipe" SourceProps.rx_es = Throw KeyError.
Proof. vm_compute. reflexivity. Qed.

(** ** The conversion facility. *)
Theorem C110_conversion : forall eps cfg s es, reported (ConversionModel.cv_run eps cfg s es).
Proof. intros eps cfg s es. exact (safe_reported _ _ (cv_run_safe eps cfg es s)). Qed.
Print Assumptions C110_conversion.
Example C110_conversion_case : ConversionModel.cv_run 0 ConversionProps.vx_cfg ConversionModel.cv_empty
  (ConversionProps.vx_es ++ [{| ConversionModel.ve_reqs := []; ConversionModel.ve_sales := [90]; ConversionModel.ve_receipts := [] |}]) = Throw ValueError.
Proof. vm_compute. reflexivity. Qed.

(** ** The institutions and the region. *)
Theorem C110_institutions : forall strict now cfgs reg sched t protos k ch s es,
  reported (InstModel.di_build_all strict now cfgs reg) /\ reported (InstModel.deployed reg sched t) /\
  reported (InstModel.in_start reg protos k ch) /\ reported (InstModel.in_run reg protos s es).
Proof.
  intros strict now cfgs reg sched t protos k ch s es.
  exact (conj (safe_reported _ _ (di_all_safe strict now cfgs reg)) (conj (safe_reported _ _ (deployed_safe reg sched t))
    (conj (safe_reported _ _ (in_start_safe reg protos k ch)) (safe_reported _ _ (in_run_safe reg protos es s))))).
Qed.
Print Assumptions C110_institutions.
Example C110_institutions_case : InstModel.di_build_all true 3 [InstProps.ix_cfg; {| InstModel.di_protos := ["mine"; "bakery"]%string; InstModel.di_times := [5; 5]%Z;
  InstModel.di_nbuild := [2; 3]%Z; InstModel.di_lifes := [7; 7]%Z |}] InstProps.ix_reg = Throw KeyError.
Proof. vm_compute. reflexivity. Qed.
(** The demand functions are built by the kernel's factory, [bff]. *)
Theorem C110_region : forall bff reg cfg ch s es now st ts, (forall type params, reported (bff type params)) ->
  reported (RegionModel.rg_start bff cfg ch) /\ reported (RegionModel.rg_run bff cfg s es) /\ reported (RegionModel.rg_life reg cfg s now st ts).
Proof.
  intros bff reg cfg ch s es now st ts B. pose proof (fun a b => reported_safe _ (B a b)) as B'.
  exact (conj (safe_reported _ _ (rg_start_safe bff cfg ch B')) (conj (safe_reported _ _ (rg_run_safe bff cfg es B' s))
    (safe_reported _ _ (rg_life_safe reg cfg s ts now st)))).
Qed.
Print Assumptions C110_region.
Example C110_region_case : (forall type params, reported (RegionProps.gx_bff type params)) /\
  RegionModel.rg_start RegionProps.gx_bff [("heat", [(0%Z, ("cubic", "1"))])]%string RegionProps.gx_ch = Throw KeyError.
Proof.
  split; [|vm_compute; reflexivity]. intros type params. unfold RegionProps.gx_bff.
  destruct (String.eqb type "linear"); [|exact I]. destruct (String.eqb params "300 0"); [exact I|]. destruct (String.eqb params "-10 100"); exact I.
Qed.

(** ** The resource buffers they use, also empty or asked for too much. *)
Theorem C110_buffers : forall eps b m ms n q tol b',
  (reported (rb_push eps b m) /\ reported (rb_pushv eps b ms) /\ reported (rb_pop b) /\ reported (rb_popn b n)) /\
  (reported (KernelBuf.b_push eps b' m) /\ reported (KernelBuf.b_pushv eps b' ms) /\ reported (KernelBuf.b_pop_qty b' q) /\ reported (KernelBuf.b_pop_tol b' q tol)).
Proof. intros eps b m ms n q tol b'. exact (bufs_reported eps b m ms n q tol b'). Qed.
Print Assumptions C110_buffers.
Example C110_buffers_case : rb_pop {| rb_cap := 10; rb_items := [] |} = Throw ValueError /\
  rb_popn {| rb_cap := 10; rb_items := [Mat 1 3 []] |} 2 = Throw ValueError.
Proof. split; vm_compute; reflexivity. Qed.
