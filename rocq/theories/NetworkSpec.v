(** Networks of facilities that trade with each other (C95, C96). *)
From Coq Require Import Permutation.
From Verif Require Import Outcome KernelMaterial KernelResBuf KernelBuf KernelMass.
From Verif Require ReactorModel ReactorSpec StorageModel StorageSpec ConversionModel ConversionSpec
  SeparationsModel SeparationsSpec MixerModel MixerSpec FuelFabModel FuelFabSpec EnrichmentModel EnrichmentSpec
  SinkModel SinkSpec SourceModel SourceSpec.
Local Open Scope Q_scope.

(** The archetypes; a source with the name of its recipe (empty: none). *)
Inductive archetype := AReactor | AStorage | AConversion | ASeparations | AMixer | AFuelFab | AEnrichment | ASink
  | ASource (recipe : string).

(** What a simulation sees of one facility: its archetype, the time step in which it is deployed, the material it
    starts with, the material it holds at the end, and for each of its time steps the parcels
    it receives and the parcels it ships. *)
Record life := { l_kind : archetype; l_born : nat; l_initial : list mat; l_final : list mat;
                 l_in : list (list mat); l_out : list (list mat) }.

(** Data common to all facilities: the resource tolerance eps_rsrc(), the tolerance eps(), the
    tolerance and the nuclear data of fuel fabrication, the value function and atomic masses
    of enrichment, and the recipes. *)
Record world := { w_eps : Q; w_eg : Q; w_nz : Q; w_D : FuelFabModel.nucdata; w_V : Q -> Q; w_aw : Z -> Q;
                  w_recipe : string -> option comp }.
Definition world_ok (w : world) : Prop :=
  0 <= w_eps w /\ 0 <= w_eg w /\ EnrichmentSpec.recipes_ok (w_recipe w).

(** Material among the resources a sink holds (products are not material). *)
Definition sunk (rs : list SinkModel.rsrc) : list mat :=
  flat_map (fun r => match SinkModel.r_comp r with Some c => [Mat 0 (SinkModel.r_qty r) c] | None => [] end) rs.

(** The lives facilities of the various archetypes can lead.  Each is a run of the archetype's
    model; the conditions are those under which the archetype accounts for its
    material (see the property named). *)
Inductive lives (w : world) : life -> Prop :=
(** C02: the reactor's input is consistent and its exchange keeps to what was requested and offered. *)
| reactor_life b cfg t0 s0 es os :
    ReactorSpec.rx_history (w_eps w) (w_recipe w) cfg t0 s0 es os ->
    lives w {| l_kind := AReactor; l_born := b; l_initial := ReactorSpec.assemblies s0; l_final := ReactorSpec.assemblies (ReactorSpec.end_state s0 os);
               l_in := map (fun e => map snd (ReactorModel.e_deliv e)) es;
               l_out := map (fun o => map snd (ReactorModel.o_shipped o)) os |}
(** C15 *)
| storage_life b cfg es s os :
    StorageSpec.st_history es -> StorageModel.st_run (w_eps w) cfg StorageModel.st_empty es = Ok (s, os) ->
    lives w {| l_kind := AStorage; l_born := b; l_initial := [];
               l_final := StorageModel.ss_stocks s ++ StorageModel.ss_ready s ++ StorageModel.ss_processing s ++ StorageModel.ss_inventory s;
               l_in := map StorageModel.se_receipts es; l_out := map StorageModel.so_sold os |}
(** C52 *)
| conversion_life b cfg es s os :
    0 <= ConversionModel.vc_throughput cfg -> Forall (fun e => Forall mat_ok (ConversionModel.ve_receipts e)) es ->
    ConversionModel.cv_run (w_eps w) cfg ConversionModel.cv_empty es = Ok (s, os) ->
    lives w {| l_kind := AConversion; l_born := b; l_initial := []; l_final := ConversionModel.vs_input s ++ ConversionModel.vs_output s;
               l_in := map ConversionModel.ve_receipts es; l_out := map ConversionModel.vo_shipped os |}
(** C21 *)
| separations_life b cfg es s0 prefs s os :
    NoDup (map SeparationsModel.st_name (SeparationsModel.pc_streams cfg)) -> 0 <= SeparationsModel.pc_throughput cfg ->
    Forall SeparationsSpec.env_sane es ->
    SeparationsModel.sp_enter (w_eps w) cfg (SeparationsModel.sp_new cfg) = Ok (s0, prefs) ->
    SeparationsModel.sp_run (w_eps w) (w_recipe w) cfg prefs s0 es = Ok (s, os) ->
    lives w {| l_kind := ASeparations; l_born := b; l_initial := []; l_final := SeparationsSpec.parcels s;
               l_in := map SeparationsModel.pe_receipts es; l_out := map SeparationsModel.po_shipped os |}
(** C67 *)
| mixer_life b cfg es s os :
    MixerSpec.mx_sane es -> MixerSpec.mx_lived (w_eps w) cfg es s os ->
    lives w {| l_kind := AMixer; l_born := b; l_initial := []; l_final := MixerSpec.mx_held s;
               l_in := map (fun e => map snd (MixerModel.xe_receipts e)) es; l_out := map MixerModel.xo_shipped os |}
(** C38 *)
| fuelfab_life b cfg es s os :
    FuelFabSpec.ff_sane es -> FuelFabSpec.ff_lived (w_eps w) (w_nz w) (w_D w) (w_recipe w) cfg es s os ->
    lives w {| l_kind := AFuelFab; l_born := b; l_initial := []; l_final := FuelFabSpec.ff_held s;
               l_in := map (fun e => map snd (FuelFabModel.fe_receipts e)) es; l_out := map FuelFabModel.fo_shipped os |}
(** C74 *)
| enrichment_life b cfg es s0 s os :
    EnrichmentSpec.en_sane es ->
    EnrichmentSpec.en_lived (w_eps w) (w_eg w) (w_V w) (w_aw w) (w_recipe w) cfg es s0 s os ->
    lives w {| l_kind := AEnrichment; l_born := b; l_initial := EnrichmentSpec.en_held s0; l_final := EnrichmentSpec.en_held s;
               l_in := map EnrichmentModel.ee_receipts es; l_out := map EnrichmentModel.eo_shipped os |}
(** C78 *)
| sink_life b cfg g t0 es s os :
    0 <= SinkModel.kc_capacity cfg -> SinkSpec.rngs_ok es ->
    SinkSpec.sk_lived (w_eps w) (w_eg w) (w_recipe w) cfg g t0 es s os ->
    lives w {| l_kind := ASink; l_born := b; l_initial := []; l_final := sunk (SinkModel.ks_inv s);
               l_in := map SinkModel.ke_mats es; l_out := map (fun _ => []) os |}
(** C50: each trade is packed into at most one package. *)
| source_life b cfg es s0 s os :
    0 <= SourceModel.sc_inv_size cfg -> Forall SourceSpec.env_ok es -> Forall (SourceSpec.tidy (w_eg w)) es ->
    SourceModel.sr_build (w_eps w) (w_recipe w) cfg = Ok s0 ->
    SourceModel.sr_run (w_eps w) (w_eg w) (w_recipe w) cfg s0 es = Ok (s, os) ->
    lives w {| l_kind := ASource (SourceModel.sc_recipe cfg); l_born := b; l_initial := b_items (SourceModel.ss_inv s0); l_final := b_items (SourceModel.ss_inv s);
               l_in := map (fun _ => []) es; l_out := map (fun o => map snd (SourceModel.so_sent o)) os |}.

(** The parcels received and shipped in time step [k] of the simulation: nothing before the
    facility is deployed and nothing after its last step. *)
Definition during (k born : nat) (steps : list (list mat)) : list mat :=
  if Nat.ltb k born then [] else nth (k - born) steps [].
Definition received_at (k : nat) (l : life) : list mat := during k (l_born l) (l_in l).
Definition shipped_at (k : nat) (l : life) : list mat := during k (l_born l) (l_out l).

(** A closed network: in every time step exactly the parcels that are shipped by some facility
    are received by some facility.  Parcels are compared by quantity and composition; their
    object ids are tracked by the reactor model only. *)
Definition parcel (m : mat) : Q * comp := (m_qty m, m_comp m).
Definition closed (net : list life) : Prop :=
  forall k, Permutation (map parcel (flat_map (received_at k) net)) (map parcel (flat_map (shipped_at k) net)).

(** Everything in the network at the beginning (of each facility) and at the end. *)
Definition brought (net : list life) : list mat := flat_map l_initial net.
Definition present (net : list life) : list mat := flat_map l_final net.

(** Archetypes that keep every nuclide: not reactors (they transmute), not sources without a recipe
    (they give their material the composition asked for); separations and enrichment
    do so without a resource tolerance (see C21, C40). *)
Definition keeps_nuclides (w : world) (a : archetype) : Prop :=
  match a with
  | AReactor => False
  | ASource r => r <> ""%string
  | ASeparations | AEnrichment => w_eps w = 0
  | _ => True
  end.
