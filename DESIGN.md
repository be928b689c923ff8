# Formal model of cycamore: design

Source: `/repo` (cyclus/cycamore at the pinned commit), read as text and left unchanged.
Prover: Rocq / Coq 8.16.1, files in `rocq/theories`, logical name `Verif`.
Properties: `properties.jsonl`; results: `MANIFEST.json`; wrong programs tried: `seeded/LOG.jsonl`.

## 1. Approach

Every facility, institution and region is modelled function by function as total, executable Gallina code.
One C++ member function becomes one Gallina function from state to *outcome* of state:

    outcome A := Ok a | Throw e | UB why | Diverge

* `Throw e`  - the C++ code throws (the simulation aborts);
* `UB why`   - the C++ code would have undefined behaviour (index out of bounds, `back()` of an
  empty vector, null dereference, `std::sort` with a comparator that is not a strict weak order,
  an indeterminate member that is read ...);
* `Diverge`  - a loop that provably does not terminate.

Nothing is assumed away: error outcomes stay visible in the model, and the theorems either exclude them
by stated preconditions or characterise exactly when they occur.

Histories are lists of environment steps (what the exchange delivers and picks up, what random draws
return); the environment's obligations (the *exchange contract*: never deliver more than requested, never
pick up more than offered, exclusive trades have the exact size) are explicit predicates in the `*Spec.v`
files.  Theorems about histories are inductions over such lists, with no bound.

A property that is false of the model is not dropped or weakened silently: a theorem named `..._refuted`
gives a concrete, computed witness, and a theorem named `..._partial` the strongest restriction proved.

### Numbers

* C++ `int` is modelled by `Z`, unbounded (overflow of 32-bit ints is modelled for the Reactor, C107, and the calendars of Storage and
  Sink, C111).
* C++ `double` is modelled by exact rationals `Q` (`QArith`), compared with `==`.  Rounding, overflow and
  NaN propagation of IEEE arithmetic are **not** modelled, with exceptions: where the code relies on
  the IEEE result of a division by zero, the model spells the case out (`maxfrac` in Separations, the
  target quantity in Mixer).  The two kernel tolerances `eps()` and `eps_rsrc()` are
  parameters `>= 0`; the theorems hold for every value.
* The doubles of the Reactor's orders and last transmutation (counts and times, all ints) are also modelled in
  IEEE binary64 with Flocq (`DoubleModel.v`); C94 proves that the integer model agrees with it for all 32-bit inputs.
* The mixing fractions of FuelFab (`FuelFabDoubleModel.v`, C104), the efficiency check of Separations
  (`SeparationsDoubleModel.v`, C105), the quantities of the Mixer (`MixerDoubleModel.v`, C106), those of the Tick of
  Separations (`SepTickDoubleModel.v`, C108), the release of parcels by Storage (`StorageDoubleModel.v`, C109), the
  bids and trades of Source (`SourceDoubleModel.v`, C112), the requests and deliveries of Sink
  (`SinkDoubleModel.v`, C115), the separative-work account of Enrichment (`SwuDoubleModel.v`, C117) and the buffers of
  Conversion (`ConversionDoubleModel.v`, C120) are also modelled in IEEE binary64.
* The separative-work value function uses a logarithm; it is an arbitrary function `V : Q -> Q` in the
  model (every theorem holds for every `V`).

### Kernel (not in /repo)

The Cyclus kernel is a dependency that is not in the sandbox.  The parts of it used by cycamore are
modelled from their documented interface; these definitions are part of the trusted base:

* `KernelMaterial.v`: `Material` (quantity, composition), `Absorb`, `ExtractQty`, `ExtractComp` (with
  threshold), `Transmute`, compositions normalised.
* `KernelResBuf.v`, `KernelBuf.v`: `ResBuf`: FIFO; `Push` throws when it overflows the capacity by more than
  `eps_rsrc`; `Pop(q)` takes the oldest first, splitting the last parcel; throws if `q` exceeds the content
  (by more than the given tolerance) and when nothing is popped at all (zero quantity pop; see the
  comment at `/repo/src/fuel_fab.cc:464`, "this if block prevents zero qty ResBuf pop exceptions");
  `PopN` throws on too large `n`; `space() = max 0 (cap - qty)`; bulk buffers hold one parcel.
* `MatQuery`, `FeedQty`, `TailsQty`, `SwuRequired`, `UraniumAssayMass`: their textbook formulas
  (in `EnrichmentModel.v`).
* `CommodityProducerManager`, `Builder`, `Context::AddPrototype`, `SchedBuild`, `Timer` (in
  `InstModel.v`, `RegionModel.v`); both behaviours of `AddPrototype` for existing names (refuse, overwrite).
* `PiecewiseFunction` (in `RegionModel.v`); the basic functions (linear, exponential ...) are arbitrary.
* Dynamic resource exchange (solver): arbitrary, subject to the exchange contract stated in each theorem.
* `pyne` data (cross sections, atomic masses): arbitrary functions.
* Random numbers: arbitrary draws, within the requested range where a theorem says so.
* COIN build decision (`MakeBuildDecision`): arbitrary function.
* Time-step order (cyclus `Timer`): Tick; exchange (requests, bids, all suppliers' `GetMatlTrades`, then all
  requesters' `AcceptMatlTrades`; only called for traders with at least one trade); Tock; then builds and
  decommissionings.
* Code generated by `cycpp` from the `#pragma cyclus var` declarations (snapshot, restart; C27, C32, C62,
  C87-C92): every declared member is saved and read back unchanged, including the order and identity of the
  objects in a `ResBuf`; on saving, a `ResBuf` is emptied and filled again by `Push`; on loading, its
  `capacity` annotation is applied and its content pushed; a member without a declaration gets no value; on
  restart, `EnterNotify` is called, `Build` is not.
* `CommodityProducer` (in `ProducerModel.v`): `Add` is a map insertion (an existing entry stays), `Copy` adds
  every entry of the original.

## 2. Files

| file | content |
|---|---|
| `Outcome.v` | outcome monad, loops, vectors with bounds, rational helpers |
| `KernelMaterial.v`, `KernelResBuf.v`, `KernelBuf.v` | kernel model |
| `KernelFacts.v`, `KernelMass.v`, `KernelBufFacts.v` | lemmas about it |
| `<Fac>Model.v` | model of one archetype, no proofs, each definition cites file and lines |
| `<Fac>Spec.v` | small independent specification used in the statements |
| `<Fac>Proofs.v` and others (`Run`, `Glue`, `Math`, `Bids`, `History`, `Cycle`, `Trace`, `Fuel`, `Retire`, `Check`) | lemmas |
| `<Fac>Props.v` | property theorems only, each closed by `exact` or a computed witness, with `Print Assumptions` and an `Example` beside it |
| `<Fac>Validation.v` | scenarios of the C++ unit tests replayed in the model (tests of the reading, not proofs) |

`<Fac>` is Reactor, Storage, Conversion, Separations, Mixer, FuelFab, Enrichment, Sink, Source, Inst
(DeployInst and ManagerInst) and Region (GrowthRegion).  These are all archetypes of `/repo/src`.
`Restart*` covers saving and loading, `Producer*` the advertised production capacities, `Double*` the
double-precision arithmetic of the Reactor (and, as `FuelFabDouble*`, `SeparationsDouble*` and `MixerDouble*`, of these archetypes), `ReactorLog*` its event table and time series, `Network*` closed
networks of facilities of all archetypes.

## 3. Properties: what is modelled, how it is proved, result

Full statements are in `properties.jsonl`.

| id | property | what is modelled | how it is proved | result |
|---|---|---|---|---|
| C01 | Reactor inventories never exceed their configured sizes | Reactor phases, `ResBuf`, exchange contract | invariant, induction over histories; no `Throw`/`UB` | proved: `C01_inventories_bounded`, `C01_start_is_legitimate` |
| C02 | Reactor neither loses, duplicates nor splits assemblies | same, with the list of all shipped assemblies | permutation invariant, induction | proved: `C02_assemblies_conserved` |
| C03 | Power is reported exactly while a full core is in-cycle | `Tock`, `RecordSideProduct` | case analysis on every reachable state | proved: `C03_power_iff_full_and_in_cycle` |
| C04 | A started cycle delivers exactly cycle_time consecutive full-power steps | one time step as a whole, arbitrary exchange | induction on the steps of a cycle | proved: `C04_cycle_lasts_cycle_time` |
| C05 | No cycle restarts before refuelling is complete | trace of cycle starts and ends | invariant over traces | proved: `C05_restart_only_after_refuelling` |
| C06 | Exactly the oldest batch is burned and exactly that batch is discharged | `Transmute`, `Discharge`, `Load` | list equations; queue invariant over histories | proved: `C06_oldest_batch_burned`, `C06_nothing_else_burned`, `C06_burned_batch_is_discharged` |
| C07 | Discharge is all-or-nothing | `Discharge`, `Tick`, `Tock` | case analysis; induction for "no power until" | proved: `C07_discharge_all_or_nothing`, `C07_no_power_until_discharged` |
| C08 | Spent fuel is offered and shipped under the right commodity, oldest first | `PopSpent`, `PushSpent`, `GetMatlBids`, `GetMatlTrades` | refinement to one queue per commodity | proved: `C08_offers_and_shipments`, `C08_first_discharged_first_shipped`, `C08_shipped_on_its_own_commodity` |
| C09 | Fuel orders match the free space | `GetMatlRequests` | direct | proved: `C09_orders_match_free_space` |
| C10 | A reactor approaching retirement still orders all the fuel its remaining cycles need | `GetMatlRequests` near retirement | counting argument; computed counterexample | partial: `C10_orders_suffice_partial`, `C10_orders_suffice_refuted`, `C10_starvation` |
| C11 | Retirement empties the reactor and decommissioning never destroys fuel | retired branch of `Tick`, `CheckDecommissionCondition` | invariant; eventual decommissioning by a measure | proved: `C11_retirement`, `C11_decommissions_eventually` |
| C12 | Preference and recipe changes take effect exactly at their time | change loops of `Tick` | refinement to "the last change due wins" | proved: `C12_changes_exactly_on_time` |
| C13 | A reactor configuration accepted at start-up cannot later index out of bounds | `EnterNotify` and all phases with vector bounds | exact characterisation of the checks; invariant; computed counterexample | partial: `C13_startup_checks_exactly`, `C13_accepted_input_in_bounds_refuted`, `C13_consistent_input_in_bounds_partial` |
| C14 | Storage holds material at least, and no longer than, residence_time before it is ready | `BeginProcessing_`, `ReadyMatl_`, entry times | invariant: entry times parallel to parcels, sorted | proved: `C14_residence_exact` |
| C15 | Storage releases material in arrival order and conserves it | histories of Storage | queue refinement up to splitting and joining of neighbours | proved: `C15_arrival_order`, `C15_conserved` |
| C16 | Storage throughput limit | `ProcessMat_` | list induction | proved: `C16_throughput` |
| C17 | Discrete handling never splits or joins a batch, and moves the longest admissible prefix | `ProcessMat_` with discrete handling | list induction (longest prefix) | proved: `C17_never_split_or_joined`, `C17_longest_prefix` |
| C18 | A storage facility with discrete handling keeps making progress | `ProcessMat_` | list induction; counterexample | partial: `C18_progress_refuted`, `C18_progress_discrete_partial`, `C18_progress_continuous` |
| C19 | Storage never holds more than its maximum inventory | histories of Storage with `TotalInvTracker` | invariant | proved: `C19_capacity` |
| C20 | Storage start-up validation | `EnterNotify` decision table | direct | proved: `C20_startup_exact`, `C20_startup_rejects` |
| C21 | Separations conserves mass and every nuclide | `Tick`, `SepMaterial`, `ExtractComp` with threshold | algebra over Q, sums over nuclides, induction; counterexample | partial: `C21_total_mass`, `C21_history_mass`, `C21_history_nuclides_partial`, `C21_nuclides_partial`, `C21_nuclides_bounded`, `C21_nuclides_refuted` |
| C22 | Separations splits by efficiency | `SepMaterial` | algebra, induction over efficiencies | proved: `C22_split`, `C22_split_limited` |
| C23 | Separations respects throughput and stream buffer limits | `Tick`, buffers with capacity | invariant | proved: `C23_throughput`, `C23_stream_sizes` |
| C24 | Separations pauses instead of failing when its leftover buffer is full | `Tick` | algebra; counterexample | partial: `C24_pauses_refuted`, `C24_enough_room_partial` |
| C25 | A fully separated component never ends in the leftover | `Tick` | algebra; counterexample | partial: `C25_fully_separated_partial`, `C25_fully_separated_refuted` |
| C26 | Accepted separation efficiencies never add to more than one for any nuclide | `EnterNotify` checks | induction; counterexample | partial: `C26_validation_partial`, `C26_validation_refuted` |
| C27 | Separations survives snapshot and restart | `SnapshotInv` (assignments into the map of inventories), `InitInv`, `EnterNotify`, whole runs between two saves | direct; counterexample; invariant that the two extra streams keep the first saved feed and leftover | partial: `C27_restart_partial`, `C27_restart_refuted`, `C27_saved_after_a_restart` |
| C28 | Separations ships only what it has, from the right inventory | `GetMatlTrades` | list induction | proved: `C28_trades` |
| C29 | Separations orders feed only when useful | `EnterNotify`, `GetMatlRequests` | list induction; out-of-bounds witness | proved: `C29_requests`, `C29_default_preferences`, `C29_length_mismatch_refuted` |
| C30 | Mixer ratios are normalised | Mixer `EnterNotify` | algebra | proved: `C30_normalised` |
| C31 | Mixer output has exactly the configured ratios | Mixer `Tick` | algebra, induction over streams | proved: `C31_mixing` |
| C32 | Mixer survives snapshot and restart | `SnapshotInv`, `InitInv` | direct; counterexample | partial: `C32_restart_refuted`, `C32_streams_restored_partial`, `C32_restart_when_empty`, `C32_saved_after_a_restart` |
| C33 | Mixer receives each commodity into its own stream within limits | requests, `AcceptMatlTrades` | induction over trades; invariant | proved: `C33_requests`, `C33_right_stream`, `C33_sizes` |
| C34 | Blend fractions are proper and hit the target weight | `HighFrac`, `LowFrac` | field algebra | proved: `C34_fractions` |
| C35 | Atom-to-mass conversion of blend fractions is exact | `AtomToMassFrac` | field algebra | proved: `C35_atom_to_mass` |
| C36 | Fabricated fuel has the requested weight and quantity | bids, `GetMatlTrades` | algebra of mixtures, induction over trades | proved: `C36_offered`, `C36_traded` |
| C37 | Fuel fabrication trades respecting the published constraints can be filled | bids with constraints, `GetMatlTrades` | induction over trades; counterexample | partial: `C37_refuted`, `C37_C39_awards_partial` |
| C38 | Fuel fabrication conserves material and keeps streams homogeneous | histories of FuelFab | invariants | proved: `C38_homogeneous`, `C38_sizes`, `C38_requests`, `C38_right_inventory`, `C38_deliveries_accepted`, `C38_conserved` |
| C39 | Every fuel request the facility can weigh is filled or rejected without a crash | `GetMatlTrades` | case analysis; counterexample | partial: `C39_refuted`, `C37_C39_awards_partial` |
| C40 | Enrichment balances mass and every nuclide | `Enrich_` | algebra over Q | partial: `C40_total`, `C40_nuclides_partial`, `C40_nuclides_refuted` |
| C41 | Enrichment tails have the configured assay | `Enrich_` | algebra; counterexample | partial: `C41_tails_assay_partial`, `C41_tails_assay_refuted` |
| C42 | Enrichment never exceeds its SWU capacity in a time step | `Enrich_`, `Tick`, `GetMatlTrades` | invariant over trades | proved: `C42_swu_capacity` |
| C43 | The SWU and feed recorded for a time step are those used in that step | `RecordEnrichment_`, `Tock` with indeterminate members | induction over trades; counterexamples | partial: `C43_recorded_partial`, `C43_latest_partial`, `C43_recorded_refuted`, `C43_indeterminate_refuted` |
| C44 | Enrichment bids only on feasible assays | `ValidReq`, bids | direct; counterexample | partial: `C44_bids_partial`, `C44_bids_refuted` |
| C45 | Enrichment prefers feed richer in U-235 and refuses feed without it | `AdjustMatlPrefs` with an arbitrary sort | permutation argument; counterexample for ties | partial: `C45_preferences_partial`, `C45_any_arrangement`, `C45_ties_refuted` |
| C46 | Enrichment trades respecting the published constraints can be filled | converters, bids, `Enrich_` | algebra, induction over trades; counterexample | partial: `C46_filled_partial`, `C46_impure_refuted` |
| C47 | Sink requests and inventory stay within limits | Sink requests, accept | invariant, arbitrary draws | proved: `C47_requests`, `C47_inventory`, `C47_deliverable` |
| C48 | Sink buys exactly on its schedule and never stops buying | Sink `Tick`, `SetNextBuyTime` | induction over histories, arbitrary draws | proved: `C48_schedule`, `C48_every_step`, `C48_zero_interval` |
| C49 | Sink receives at most its capacity per step over all resource kinds | material and product requests | computed counterexamples | partial: `C47_requests`, `C49_capacity_refuted`, `C49_overflow_refuted` |
| C50 | Source never supplies more than its inventory, and loses nothing | Source `GetMatlTrades` with arbitrary packaging | induction over trades and packages | partial: `C50_never_more`, `C50_conserved_partial`, `C50_unpackaged`, `C81_bids`, `C50_lost_refuted`, `C50_eps_refuted` |
| C51 | Source supplies the promised composition | Source requests, trades | direct | proved: `C51_recipe`, `C51_requested` |
| C52 | Conversion conserves material and respects its throughput | Conversion | induction over histories | proved: `C52_conserved`, `C52_throughput`, `C52_capacity` |
| C53 | Conversion requests no more than it can process and hold | Conversion requests | direct; counterexample | partial: `C53_request_size_refuted`, `C53_request_bounded_partial` |
| C54 | Deployment follows the schedule exactly | DeployInst `Build` with the table of prototypes | induction over the schedule; injectivity of derived names; counterexamples | partial: `C54_schedule`, `C54_institutions`, `C54_rejects`, `C54_past`, `C54_clash_refuted`, `C54_institutions_refuted` |
| C55 | Institutions' producer registries equal their operating facilities | registers of both institutions | invariant over histories; counterexample | partial: `C55_manager`, `C55_manager_capacity`, `C55_deploy_partial`, `C55_deploy_capacity_partial`, `C55_deploy_refuted` |
| C56 | Growth region orders capacity exactly when demand is unmet | GrowthRegion `Tick`, `OrderBuilds` | induction over commodities and orders | partial: `C56_orders`, `C56_supply`, `C56_derived_refuted` |
| C57 | During an outage the core is refilled from the fresh inventory as far as possible | Reactor `Tick`/`Load` | invariant | proved: `C57_core_refilled_during_outage` |
| C58 | A running storage facility never fails | all phases of Storage | no-error lemmas; counterexample | partial: `C58_step_never_fails_partial`, `C58_step_never_fails_refuted` |
| C59 | Storage reports its true demand and supply | records of Storage | direct | proved: `C59_reports` |
| C60 | Conversion honours its offers | Conversion bids and trades | induction | proved: `C60_offer_honoured` |
| C61 | A conversion time step never fails when trades respect the offers | all phases of Conversion | no-error lemmas; counterexample | partial: `C61_step_never_fails_partial`, `C61_step_never_fails_refuted` |
| C62 | Conversion survives snapshot and restart | generated snapshot code of Conversion | direct; counterexample | partial: `C62_restart_refuted`, `C62_restart_input_partial` |
| C63 | Separations records what it moves | records of Separations | direct; counterexample | partial: `C63_records_partial`, `C63_processed_refuted` |
| C64 | Separations offers only what it holds, and offers all of it that is asked for | bids of Separations | list induction | proved: `C64_offers` |
| C65 | A full stream buffer pauses separations | `Tick` with a full stream | direct | proved: `C65_full_stream_pauses` |
| C66 | Mixer operation never fails | all phases of Mixer | no-error lemmas; counterexample | partial: `C66_never_fails_refuted`, `C66_never_fails_partial` |
| C67 | Mixer conserves every nuclide over its life | histories of Mixer | induction | proved: `C67_conserved` |
| C68 | Mixer records what it can supply and demands | records of Mixer | direct | proved: `C68_records` |
| C69 | The equivalence weight measures net neutron production per atom | `CosiWeight` with arbitrary cross sections | algebra of weighted sums | proved: `C69_weight`, `C69_references`, `C69_amount_irrelevant` |
| C70 | Fuel is offered for exactly the requests the streams can meet | bids of FuelFab and their portfolio constraints | case analysis on weights; an offered blend unfolded into its two streams | proved: `C70_offers`, `C70_streams`, `C70_blend`, `C70_when` |
| C71 | Supplied fuel has the same weight as the requested material | trades of FuelFab | algebra; counterexample | partial: `C71_same_weight_refuted`, `C37_C39_awards_partial` |
| C72 | Separations can be decommissioned only when nothing is left behind | `CheckDecommissionCondition` of Separations | direct; counterexample | partial: `C72_decommission_refuted`, `C72_decommission_partial` |
| C73 | Enrichment asks for exactly the free feed space and never overfills it | requests and accept of Enrichment | invariant | proved: `C73_request`, `C73_capacity` |
| C74 | Enrichment conserves material over its lifetime | histories of Enrichment | induction | partial: `C74_total`, `C74_nuclides_partial`, `C40_nuclides_refuted` |
| C75 | Every product assay that is bid on can be produced | `ValidReq` against `Enrich_` | algebra; counterexample | partial: `C75_served_refuted`, `C46_filled_partial` |
| C76 | Enrichment offers exactly its tails and sells them without touching feed or SWU | tails bids and trades | direct | proved: `C76_tails_bids`, `C76_tails_sale` |
| C77 | Sink asks for every commodity with its own preference, and records what it asks for | Sink requests and their record | list induction | proved: `C77_requests`, `C77_entry` |
| C78 | Sink keeps everything it receives | Sink accept | induction | proved: `C78_kept` |
| C79 | Sink's random request sizes follow the configured distribution | `SetRequestAmt` with an arbitrary generator | direct; counterexample | partial: `C79_real_partial`, `C79_int_refuted` |
| C80 | Source fills the trades it is awarded | Source trades | induction over trades | proved: `C80_filled`, `C80_transport`, `C51_requested` |
| C81 | Source offers what it has to everyone asking | Source bids | list induction | proved: `C81_bids` |
| C82 | A manager institution offers exactly its listed producer prototypes | ManagerInst `EnterNotify` | list induction | proved: `C82_builder` |
| C83 | Growth region's demand is the continuous curve its pieces describe | `AddCommodityDemand_`, piecewise functions | induction over pieces | proved: `C83_demand` |
| C84 | Capacity follows demand with one step delay | time steps of region, institutions and facilities | induction over histories | proved: `C84_growth` |
| C85 | Growth region's registers follow its institutions | registers of GrowthRegion | invariant; counterexample | partial: `C85_registers_partial`, `C85_present`, `C85_later_refuted` |
| C86 | Enrichment's constraints charge what the offer takes | the two converters of Enrichment | algebra | proved: `C86_charges` |
| C87 | Reactor: a restarted simulation goes on as if uninterrupted | generated snapshot code of Reactor, `InitFrom`, `EnterNotify` | the state invariant makes refilling the buffers succeed; induction over histories for what never changes | proved: `C87_reactor_restart` |
| C88 | Storage: a restarted simulation goes on as if uninterrupted | generated snapshot code of Storage, `EnterNotify` | `EnterNotify` is idempotent on preferences; splitting histories | proved: `C88_storage_restart` |
| C89 | FuelFab: a restarted simulation goes on as if uninterrupted | generated snapshot code of FuelFab, `EnterNotify` | buffers within capacity by invariant; splitting histories | proved: `C89_fuel_fab_restart` |
| C90 | Enrichment: a restarted simulation goes on as if uninterrupted | generated snapshot code of Enrichment | simulation between the interrupted and the uninterrupted history; counterexample | partial: `C90_enrichment_restart_partial`, `C90_recorded_usage_refuted` |
| C91 | Sink: a restarted simulation goes on as if uninterrupted | generated snapshot code of Sink, `EnterNotify` | simulation; counterexample | partial: `C91_sink_restart_partial`, `C91_random_frequency_refuted` |
| C92 | Source: a restarted simulation goes on as if uninterrupted | generated snapshot code of Source | splitting histories | proved: `C92_source_restart` |
| C93 | Advertised production capacities | `InitFrom` (both overloads) of Source, Storage, Reactor; kernel `CommodityProducer` | induction over the list of side products | proved: `C93_reactor`, `C93_reactor_undefined`, `C93_source`, `C93_storage` |
| C94 | Double-precision rounding never changes a reactor's orders | the double expressions of `GetMatlRequests` and `Tick` in IEEE binary64 (Flocq) | error bound of the rounded quotient against its distance from the next integer; exactness of sums below 2^53, monotonicity above | proved: `C94_need_exact`, `C94_cycles_exact`, `C94_requests_exact`, `C94_last_transmutation_exact` |
| C95 | A network of facilities neither makes nor loses mass | the models of all facility archetypes, joined by the exchange: what is shipped in a step is received in it | per-archetype balances (C02, C15, C21, C38, C50, C52, C67, C74, C78), sums over facilities and steps exchanged | proved: `C95_mass` |
| C96 | Without reactors no nuclide is made or lost in a network | as C95 | as C95, for every nuclide; total mass of Mixer and FuelFab from their nuclide balances | proved: `C96_nuclides` |
| C97 | A reactor's event table accounts for every assembly | `Record` calls in `Tick`, `Transmute`, `Discharge`, `Load`, `AcceptMatlTrades` | per-step balance of recorded counts and inventories, induction over histories | proved: `C97_counts_balance`, `C97_transmutations` |
| C98 | A reactor's recorded supply and demand are what it has and wants | `RecordTimeSeries` calls in `GetMatlRequests` and `Discharge`, `PeekSpent` | events of each phase of a step, filtered | proved: `C98_demand`, `C98_supply` |
| C99 | A well supplied reactor keeps its calendar | `Tick`, `Tock`, orders and deliveries of Reactor | phase of the calendar as a function of the step, induction over steps; filled orders fill the core | proved: `C99_calendar`, `C99_supplied` |
| C100 | A reactor offers spent fuel to everyone who asks | `GetMatlBids`, `PeekSpent` of Reactor | the offers to one request are a prefix of the waiting assemblies, by induction | proved: `C100_offers` |
| C101 | Separations keeps its feed and leftover within their sizes | Whole life of the separations facility (SeparationsModel.v), deliveries compared with the order of the same step. | Step invariant on capacities and contents in SeparationsSizes.v: the tick never raises the feed, each Push to the leftover respects the size up to the tolerance. | proved: `C101_store_sizes` |
| C102 | Separations with room for its products keeps working at full throughput | Tick and exchange of the separations facility after any history; `room` and `quiet` in SeparationsSpec.v. | SeparationsSizes.v: with tolerance zero traces cannot be dropped, the processable fraction is 1 and every extraction and Push succeeds. SeparationsTolerance.v: the same with a tolerance, for a batch without traces below it. For batches with traces a computed witness shows the abort (C102_keeps_working_refuted). | partial: `C102_keeps_working_partial`, `C102_keeps_working_tolerance_partial`, `C102_keeps_working_refuted` |
| C103 | An enrichment facility goes through any orderly simulation without failing | The whole time step of Enrichment (EnrichmentModel.v en_step), scenarios given by deliveries, requests and trades. | Induction over the scenario (EnrichmentLife.v): the feed store stays a blend of the two isotopes richer than the tails; each step succeeds by C46 (feed in stock) or by a direct argument for tails-only trades; deliveries fit. False in full: C46_impure_refuted, C75_served_refuted. | partial: `C103_keeps_working_partial`, `C46_impure_refuted`, `C75_served_refuted` |
| C104 | Fuel fabrication's mixing fractions survive floating-point rounding | `ValidWeights`, `HighFrac`, `LowFrac`, `AtomToMassFrac` and the draws of `GetMatlTrades` in IEEE binary64 (Flocq), FuelFabDoubleModel.v | monotonicity of rounding keeps quotients of ordered differences in [0, 1]; relative error bounds of sum, difference and quotient; differences of distinct doubles are not zero | proved: `C104_range`, `C104_monotone`, `C104_accuracy`, `C104_low`, `C104_ends`, `C104_draws`, `C104_mass_fraction` |
| C105 | Separations accepts efficiencies that add up to one and rejects those that add up to more | the check of `EnterNotify` in IEEE binary64, SeparationsDoubleModel.v; entered decimals are read as nearest doubles (DoubleSpec.v) | error bound of each rounded sum below one (2^-54) and induction over the summands; two summands below one cannot round above one; false for three streams (computed witness) | partial: `C105_two_streams_partial`, `C105_margin_partial`, `C105_rejects`, `C105_exact_refuted` |
| C106 | The Mixer mixes correctly and never fails despite floating-point rounding | the normalisation of the ratios and the quantities of `Tick` in IEEE binary64, MixerDoubleModel.v | relative error bounds of sums, quotients and products; a product of a rounded quotient exceeds the stock by at most one unit in the last place, which the tolerance covers below 2^34; computed witness above | partial: `C106_ratios`, `C106_mixture`, `C106_idle`, `C106_no_failure_partial`, `C106_no_failure_refuted` |
| C107 | A reactor's life is the same in machine arithmetic | `Tick`, `GetMatlRequests`, `AcceptMatlTrades`, `Tock`, `Discharge` and `Load` with every int operation checked for overflow and the doubles of C94, ReactorMachineModel.v | refinement step by step along a run: invariant of C01 plus cycle step minus clock does not grow; C94 for the doubles; computed witnesses outside the bounds | proved: `C107_machine_life`, `C107_long_cycle_refuted`, `C107_long_life_refuted` |
| C108 | Separating in floating point | the quantities of `Tick` in IEEE binary64, SepTickDoubleModel.v | relative error bounds of each push; the extractable rest is tracked by induction over the streams with its accumulated error; a failing extraction forces the rest to be within rounding of zero; computed witnesses of failures | partial: `C108_tick_partial`, `C108_never_fails_refuted`, `C108_large_space_refuted` |
| C109 | Releasing whole parcels in floating point | `ProcessMat_` with discrete handling in IEEE binary64, StorageDoubleModel.v | induction over the loop with the relative error of the running sum; exactness of sums on a grid of 2^53 multiples; symbolic witness with 0.1 and 0.3 | partial: `C109_release_partial`, `C109_exact`, `C109_longest_refuted` |
| C110 | Errors are reported, never undefined | all models (outcome `UB` and `Diverge` of every call); vocabulary in SafetySpec.v | a compositional safety predicate over the outcome monad, proved per function; invariants on the lengths of tables and, for the reactor, on the waiting assemblies; loop variants; computed witnesses where accepted input is undefined | partial: `C110_reactor`, `C110_reactor_any_state`, `C110_reactor_start`, `C110_storage`, `C110_storage_start`, `C110_storage_refuted`, `C110_separations`, `C110_separations_start`, `C110_mixer`, `C110_mixer_start`, `C110_mixer_refuted`, `C110_fuel_fab`, `C110_enrichment`, `C110_enrichment_order`, `C110_sink`, `C110_sink_start`, `C110_source`, `C110_conversion`, `C110_institutions`, `C110_region`, `C110_buffers` |
| C111 | The calendars of Storage and Sink in machine ints | ClockModel.v: the integer arithmetic of Storage::Tock/ReadyMatl_ and Sink::SetNextBuyTime with `mk_int`, everything else from StorageModel.v and SinkModel.v | equality with the exact model by induction over the history; invariant: parcels waiting and in process never exceed those that arrived | partial: `C111_storage`, `C111_storage_refuted`, `C111_sink`, `C111_sink_refuted` |
| C112 | A source's trades in double precision | `GetMatlBids` (quantities) and `GetMatlTrades` in IEEE binary64 without packages, SourceDoubleModel.v | relative error of each subtraction, accumulated by induction over the trades; monotonicity of rounding for two trades; exactness on a grid of 2^53 multiples; computed witness of three trades that fail | partial: `C112_bid`, `C112_fills_partial`, `C112_two`, `C112_exact`, `C112_conserved`, `C112_fills_refuted` |
| C113 | Neutronic weights do not depend on what was weighed before | WeightCacheModel.v: `CosiWeight` with its static tables and reference values per spectrum | invariant: every cached value is the one the nuclear data give; induction over the calls; computed witness for missing data | partial: `C113_history`, `C113_missing`, `C113_missing_refuted` |
| C114 | Results do not depend on memory addresses | AddressModel.v: `req_inventories_` as a map keyed by address, cleared only when something is received; everything else from FuelFabModel.v, MixerModel.v, EnrichmentModel.v | after registering, the newest entry of each address is the one of the present step (injectivity); simulation with the model by position; a buffer of at most one parcel makes the skipped call harmless; uniqueness of sorting for the preferences | proved: `C114_fuel_fab`, `C114_mixer`, `C114_enrichment` |
| C115 | A sink's requests and deliveries in double precision | `SpaceAvailable`, `SetRequestAmt`, the requests and the deliveries in IEEE binary64, SinkDoubleModel.v | induction over the deliveries of a step and over the steps: each addition errs by at most 2 units of 2^-53 of the size, the space by one; monotonicity of rounding far from full; exactness on a grid; computed witness of four deliveries that fail | partial: `C115_never_refuses_partial`, `C115_inventory`, `C115_request`, `C115_far_from_full`, `C115_exact`, `C115_refuted` |
| C116 | Preferences left out are one for each commodity; a wrong number of preferences is refused | the start-up functions (EnterNotify) of FuelFab, Sink, Storage, Reactor and Separations | case analysis on the list given; the preferences in force are read off the requests made in the first step; a reactor and a separations plant with a wrong number that start are shown for the refuted part | partial: `C116_fuel_fab`, `C116_sink`, `C116_storage`, `C116_reactor`, `C116_separations`, `C116_number_refuted` |
| C117 | Enrichment keeps its account of separative work in double precision | SwuDoubleModel.v: the separative work and feed accounts of Enrichment (Tick, Enrich_, Tock) in IEEE double precision | induction over the enrichments of a step with the relative error of each rounded subtraction and addition (Flocq); the refutation computes four enrichments of a plant of 2^36 SWU | partial: `C117_never_refused_partial`, `C117_recorded`, `C117_limit`, `C117_refuted` |
| C118 | Facilities with a throughput never idle while there is work | Conversion and Storage of C17, C18 and C40: no new model | induction over the steps: the cumulative amount processed satisfies the recursion min(received, processed + throughput), whose closed form is the minimum over all earlier moments | proved: `C118_conversion`, `C118_conversion_clears`, `C118_storage` |
| C119 | When a facility is deployed does not matter | the models of Reactor, Separations, Storage and Sink: no new model | every function is shown to commute with moving all times (entry times of Storage, next purchase of Sink, dates and end of Reactor and Separations); induction over the steps; for Storage the invariant that nothing entered before time 0, so that skipping the first steps of the simulation never skips a release | proved: `C119_reactor`, `C119_separations`, `C119_storage`, `C119_sink` |
| C120 | A conversion facility's balance in double precision | ConversionDoubleModel.v: the quantities of Conversion in IEEE double precision | invariant over the steps that counts the roundings, each at most two units of 2^-53 of everything received (Flocq); exactness on a grid by induction with an exact course in the reals; the refutations compute one history, and by induction any number of steps that convert 1 kg of 2^55 | partial: `C120_balance`, `C120_throughput`, `C120_never_fails_partial`, `C120_exact`, `C120_sales_refuted`, `C120_mass_refuted` |
| C121 | A faster facility never delivers less | Conversion and Storage of C17, C18 and C40: no new model | the closed forms of C118 of both facilities are compared at the moment where the faster one attains its minimum; with whole parcels, induction over the steps: a slower store that were ahead would have moved parcels the faster one had room for | proved: `C121_conversion`, `C121_storage`, `C121_storage_discrete` |
| C122 | What material is made of never influences amounts or timing | the six facilities of C01-C50: no new model | every function of the model commutes with blanking out all compositions (one lemma each, induction over the steps); two lives that are equal once blanked therefore have equal blanked results | proved: `C122_reactor`, `C122_storage`, `C122_conversion`, `C122_mixer`, `C122_source`, `C122_sink` |
| C123 | The order of the trades of a time step does not matter | trading functions of all material facilities on two orders of the same trades | what is left of a stock depends only on the total taken; permutation induction with a commutation lemma (Reactor sales); counterexamples | partial: `C123_conversion_sales`, `C123_conversion_deliveries`, `C123_storage`, `C123_sink`, `C123_tolerance_refuted`, `C123_enrichment_deliveries`, `C123_enrichment_sales`, `C123_mixer`, `C123_mixer_sales`, `C123_separations_deliveries`, `C123_separations_sales`, `C123_fuelfab`, `C123_reactor_deliveries`, `C123_reactor_sales`, `C123_source_partial`, `C123_source_refuted` |
| C124 | With doubles the same happens as with exact numbers, up to 2^53 units | the exact and the double-precision models of Conversion, Source, Sink and the release of Storage | refinement: a relation "the double has the value of the rational" is preserved by every operation on the grid (sums and differences are exact there), by every pop and push, step and life; counterexample just beyond the limit | proved: `C124_conversion`, `C124_limit_refuted`, `C124_source`, `C124_sink`, `C124_storage` |
| C125 | How deliveries are divided into parcels does not matter | whole runs of Separations, Conversion, Enrichment and Mixer on two divisions of the same deliveries: no new model | a relation "the oldest x kilograms hold the same for every x" (Separations, Mixer) or "the same content" (blending facilities) is preserved by every pop, push, extraction and step; counterexample beyond the request | proved: `C125_separations`, `C125_conversion`, `C125_enrichment`, `C125_mixer`, `C125_limit_refuted` |
| C126 | The unit of mass does not matter | whole lives of nine facilities in two units: no new model | a relation "k times as much of the same make-up" is kept by every operation on materials and buffers, every step and every life, failures included; reactivity weights and blend fractions are shown not to depend on the unit; a counterexample with an unchanged tolerance | proved: `C126_conversion`, `C126_storage`, `C126_sink`, `C126_source`, `C126_mixer`, `C126_separations`, `C126_reactor`, `C126_enrichment`, `C126_fuel_fab`, `C126_tolerance_refuted` |
| C127 | What a facility requests, offers and ships in a time step depends only on the past, not on what is delivered in that step | whole lives of eight facilities with two deliveries in one step: no new model | one lemma per facility says that what a step shows does not depend on the deliveries of the step; a generic induction extends it to lives with a common past; the power of a reactor is refuted by a computed witness | proved: `C127_conversion`, `C127_storage`, `C127_mixer`, `C127_separations`, `C127_fuel_fab`, `C127_enrichment`, `C127_sink`, `C127_reactor`, `C127_reactor_power_refuted` |
| C128 | A simulation of conversion facilities, storages, mixers, sources, sinks and reactors never fails in an orderly exchange | SimulationSpec.v composes the models of Conversion, Storage, Mixer, Source, Sink and Reactor into a network with deployment, retirement and an exchange that is any plan within the published requests and offers | an invariant per facility under which it answers, serves every sale within its offers, accepts every delivery within its requests and keeps the mass (one lemma per archetype); the time step of the network is assembled from these with C127 (shipments do not depend on deliveries); induction over the life of the network | proved: `C128_never_stuck`, `C128_nothing_lost` |
| C129 | In a simulation no facility ever holds more than its input allows | the networks of C128 (SimulationSpec.v); the bounds are stated in LedgerSpec.v | the bounds are part of the invariant of each facility in the network induction of C128 | proved: `C129_sizes` |
| C130 | The books of a whole simulation balance | LedgerSpec.v: the networks of C128 with a record of deployed and retired facilities | induction over the life of the network with the balance of each time step (C128); soundness of all material in the network gives the absence of foreign nuclides | proved: `C130_books`, `C130_balance`, `C130_nuclides`, `C130_foreign` |
| C131 | A simulation that is saved and loaded again goes on as if uninterrupted | NetRestartSpec.v: the networks of C128 saved and loaded with the functions of RestartModel.v | the facilities deployed by the archetype keep, over the life of the network, what the reload lemmas of C87, C88, C91 and C92 need; each reloaded facility publishes and steps as the saved one | proved: `C131_network_restart` |
| C132 | What a facility ships and receives over its whole life is bounded by its throughput and capacity, and its account balances | CareerSpec.v: the networks of C128 with the receipts and shipments of one facility | induction over the life with one lemma per archetype: finished stock plus shipments of a step grow by at most the throughput | proved: `C132_careers`, `C132_account`, `C132_throughput`, `C132_capacity`, `C132_each_step` |
| C133 | A nuclide is present only if it is in a recipe of a source or in a recipe to which a reactor burns fuel | the networks of C128 with the record of LedgerSpec.v; NuclideSpec.v names the recipes by which a facility makes material | facilities without reactions: the balance per nuclide of each step and soundness of all material; reactors: every assembly is one that was there, was delivered, or was burned to a recipe in use (NuclideReactor.v); shipments first, with no deliveries (C127), then deliveries; induction over the life of the network | proved: `C133_never_appears`, `C133_never_shipped`, `C133_origin` |
| C134 | The numbers of resource objects do not influence anything, as long as no two objects share one | IdSpec.v: reactors with renumbered objects and keys of res_indexes; facilities up to the numbers of their objects | equivariance of every function of the Reactor under one-to-one renumberings; every function of the other archetypes commutes with blanking out the numbers; the network by putting the steps of the facilities together | proved: `C134_reactor`, `C134_facility`, `C134_step`, `C134_network`, `C134_shared_numbers_refuted` |
| C135 | Parts of a simulation that do not trade with each other do not influence each other | ApartSpec.v: the networks of C128 with a mark on every facility | induction over the history with a one-to-one map from the numbers of the smaller simulation to those of the larger, extended in every time step; C134 for each facility; trades get new positions | proved: `C135_is_simulation`, `C135_alone` |
| C136 | What a facility lives through in a simulation is a history as the theorems about single facilities assume it | LifeSpec.v: the networks of C128 with the diary of one facility, and the input of one step of its model read off a page of the diary | induction over the diary: each step of the network is a step of the model of the facility; the assumptions of the theorems about single facilities (what an exchange may deliver, sound material, fair requests) follow from the rules of the exchange and the invariant of C128 | proved: `C136_diaries`, `C136_reactor`, `C136_conversion`, `C136_storage`, `C136_mixer`, `C136_source`, `C136_sink`, `C136_supplied` |
| C137 | Two simulations can be run side by side as one | TogetherSpec.v: the simulations of C128 whose reactors start with an empty table; ApartSpec.v for the whole | induction over both histories at once; every facility of the whole takes the step it took in its own simulation (C134), with new numbers for the objects delivered; trades get new positions | proved: `C137_together`, `C137_simulations` |
| C138 | The unit of mass does not matter to a simulation | the networks of C128 as scenarios (UnitSpec.v: deployments, retirements, trades), the relation "k times as much" of C126 | induction over the scenario: notices, trades, shipments and states of the two networks correspond step by step; the second network steps because of C128, and what it ships does not depend on what it receives | proved: `C138_unit`, `C138_scenarios`, `C138_counterpart` |
| C139 | A simulation that begins later goes the same way, later | DelaySpec.v: a facility with every time it remembers or plans d time steps later; scenarios as in C138 | facility by facility: every comparison of times has the same result on both sides; the comparison with the beginning of the simulation in the storage makes no difference as nothing can have been received before it; induction over the scenario. The counterexample is computed | partial: `C139_facility`, `C139_scenario`, `C139_separations`, `C139_schedule_refuted` |
| C140 | A scenario has one outcome, and what can follow depends only on where a simulation has arrived | scenarios as in C138 | induction over the scenario from its last move; a time step has one result (C128) | proved: `C140_same`, `C140_prefix`, `C140_onward`, `C140_goes_on` |
| C141 | A deployment plan drives a simulation: what is there is what was planned | PlanSpec.v: days of a simulation that follows a plan (deployments, exchange, decommissionings) over the networks of C128; the plan of a deployment institution from InstModel.v | induction over the days: each day is a sequence of moves of a scenario; a time step keeps the parameters of facilities; C54 for the schedule of the institution | proved: `C141_simulation`, `C141_goes_on`, `C141_roster`, `C141_institution` |
| C142 | A growth region drives a simulation: institutions know what is there, and demand is met by what is there | GrowthSpec.v: time steps of a region, its institutions (RegionModel.v, InstModel.v) and a network of C128 together | induction over the time steps with the invariant that the children of every institution are the facilities of the network that belong to it; C84 for the step of the region, C128 for that of the network; the capacity the region counts is that of the network, summed by institution | proved: `C142_simulation`, `C142_books`, `C142_demand`, `C142_goes_on` |
| C143 | A reactor that says it can be decommissioned holds no fuel | ReactorModel.v; histories as in C01-C13 | invariant of the operating reactor: with an empty core there is no fresh fuel, as fuel is loaded in the step in which it arrives or the core is discharged; C11 for the retired reactor; the counterexample is computed (DecomExample.v) | partial: `C143_operating`, `C143_network`, `C143_scheduled`, `C143_network_scheduled`, `C143_retired_partial`, `C143_retired_refuted` |
| C144 | A simulation can always go on, and the exchange may leave out any trades | the networks of C128 and exchanges as specified there; part of a list from PlanSpec.v | no facility offers a negative amount (one case per archetype, from the invariant of C128); limits on totals of positive amounts are inherited by parts; C128 for the time step; induction over the number of time steps | proved: `C144_idle`, `C144_fewer`, `C144_forever` |
| C145 | Which place a facility has in a network does not matter | SeatSpec.v: networks of C128 with deployment at any place; trades with other places | a permutation of a list is an injective map of positions; publishing and stepping of a facility do not depend on positions; induction over the simulation | proved: `C145_step`, `C145_anywhere`, `C145_never_stuck` |
| C146 | The order in which trades are carried out does not matter to how much each facility holds | the networks of C128 and exchanges as specified there | limits on totals do not depend on the order; C128 for the time step; the balance of each facility (C132) gives what it holds from the totals it bought and sold; the counterexample is computed (QueueExample.v) | proved: `C146_balance`, `C146_order`, `C146_composition_refuted` |
| C147 | Nothing passes through a facility within a time step | the networks of C128 and exchanges as specified there | the time step of a facility without deliveries succeeds as well (C128) and leaves a quantity that is not negative; shipments do not depend on deliveries (C127); the trades summed by seller | proved: `C147_held_before`, `C147_ships`, `C147_turnover` |
| C148 | What material is made of does not influence a simulation | GuiseSpec.v: facilities, trades and signals with blank compositions (BareSpec.v); the networks of C128 | the facilities one by one as in C122; limits of an exchange do not look at compositions; C128 for the time step with the other materials; induction over the simulation | proved: `C148_facility`, `C148_step`, `C148_network` |
| C149 | Sources only give, sinks keep | the networks of C128 and exchanges as specified there; lives of facilities as in C132 | a sink makes no bids and a source no requests, so the exchange has no such trades; deliveries are appended to what a sink holds; the account of C132 over the life | proved: `C149_sink`, `C149_source`, `C149_life` |
| C150 | Whether a trade is carried out in one lot or several does not matter to how much each facility holds | LotSpec.v: a trade with another amount; the networks of C128 and exchanges as specified there | limits on totals do not see how a total is divided, and only reactors have offers and requests of a fixed size; C128 for the time step; the balance of each facility as in C146; the counterexample is computed | proved: `C150_two_lots`, `C150_one_lot`, `C150_reactor_refuted` |
| C151 | In a simulation a storage keeps what it receives for its residence time and ships it in the order of arrival | CoolSpec.v: received, shipped and aged parcels from the diary of C136 | the diary of a storage is a history of its model (C136); C14 for the history without the last step, whose sales come from the stocks at its beginning; C15 for the order | proved: `C151_cooled`, `C151_order` |
| C152 | Material travels at most one facility per time step | TravelSpec.v: consecutive time steps of a network | shipments are taken from what a facility holds when the time step begins (C147), so with nuclide balances one without the nuclide ships none and receives none; induction on the number of time steps | proved: `C152_step`, `C152_reach` |
| C153 | The mass in any part of a network changes only by what is traded across its border | BorderSpec.v: what a set of facilities holds, and the trades that lead into it and out of it; TravelSpec.v: consecutive time steps | the balance of each facility in a time step (C132) summed over the set; trades within the set cancel; induction on the number of time steps | proved: `C153_step`, `C153_run`, `C153_closed` |

### Why properties are partial

* **C10** the claim is false of the code: capacity instead of content of the fresh inventory is subtracted; shortfall bounded by the free fresh space; a reactor whose fresh inventory can hold its life's fuel never orders and never runs
* **C13** false of the code: only change tables are checked; true for tables of equal length
* **C18** refuted for discrete handling when a parcel exceeds the throughput (blocks the queue forever); proved for continuous handling and for parcels within the throughput
* **C21** Total mass: proved for every tick and history. Per nuclide: exact over histories when the tolerance is zero, exact per tick when no trace below the tolerance is left, bounded drift in general; the exact claim with a positive tolerance is refuted (a trace left behind by a stream is dropped and its mass becomes the other nuclides).
* **C24** Refuted: with a full leftover buffer the tick throws. Proved: the tick succeeds whenever the leftover of the processable fraction fits.
* **C25** Holds when no stream buffer limits the step; refuted otherwise (the unprocessed part is returned as a blend of the already separated material).
* **C26** Holds when no nuclide is addressed both by itself and by its element; refuted otherwise.
* **C27** Feed, leftover and streams are restored, but feed and leftover are duplicated into two extra streams (refuted). When a restored facility is saved again, these extra streams overwrite the feed and leftover of that moment in the saved map: the second restart brings back the feed and leftover of the first save (C27_saved_after_a_restart).
* **C32** InitInv overwrites the saved output with the new empty one: the output is lost. Streams are restored exactly. A restart while the output is empty loses nothing (C32_restart_when_empty). A facility that was loaded once never saves mixed material again (C32_saved_after_a_restart).
* **C37** False when the fissile stream is empty and the target weighs the same as the top-up: top-up is charged but filler is drawn. Proved for awards whose targets lie strictly inside a served interval or that draw on one non-empty stream.
* **C39** A target of exactly the filler weight, with fissile material in stock, pops zero and throws. Otherwise no error.
* **C40** Total mass: proved. Per nuclide: false when the remainder of a nuclide is positive but below the resource tolerance (dropped); proved otherwise.
* **C41** False when the feed needed is within the generic tolerance of the whole stock (the whole stock is then drawn); proved when the feed drawn is the feed needed and no tails nuclide is below the tolerance.
* **C43** True in steps with trades; a step without trades records the last values again, or indeterminate ones.
* **C44** The lower limit is compared with the atom assay, not the mass assay; characterised exactly. U-235 presence follows from a non-negative tails assay only.
* **C45** Bids of different content: proved. Ties: std::sort with a <= comparison is undefined; any increasing arrangement gives right preferences.
* **C46** False with impure feed (the published constraint ignores impurities of the feed); proved for pure feed above the tails assay, products at least as rich as the feed and feed needs above the generic tolerance.
* **C49** True of each kind of resource alone; false together: twice the capacity can be received, and a step whose requests are both met can end in an error.
* **C50** Never more than the inventory, and the bid limits, for all packaging schemes; exact conservation without packaging and whenever a trade makes at most one package. False otherwise: further packages of a trade, and remainders up to eps(), are lost.
* **C53** the documented bound by the throughput is false; proved: request = free capacity exactly
* **C54** Proved for one institution, and for any number if the kernel lets a prototype be added again, when no prototype is named like a derived one ("X_life_5"). False otherwise: such a prototype is replaced or blocks the institution, and two institutions with the same prototype and lifetime cannot both be built if the kernel refuses duplicate names.
* **C55** Full for ManagerInst. For DeployInst only without restarts; false after one, because EnterNotify does not register the facilities it already has.
* **C56** Proved with the prototype name of the named agent. If that agent comes from a prototype derived by a DeployInst (another lifetime) this name is the original one, and the original is built instead.
* **C58** refuted for throughput 0 with continuous handling (zero pop throws); proved for positive throughput or discrete handling
* **C61** refuted for throughput 0; proved for positive throughput
* **C62** output buffer is not declared as state variable, hence not saved; generated code (cycpp) modelled from the declarations
* **C63** Separated amounts and supply series proved; the amount recorded as being separated includes what is put back into the feed (refuted).
* **C66** Zero next to positive ratios: popping zero from the zero-ratio stream throws. Holds for all positive or all zero ratios.
* **C71** Refuted by the case of C37; holds otherwise.
* **C72** Unprocessed feed is not looked at; products and leftovers are.
* **C74** Total: any tolerance. Each nuclide: tolerance 0.
* **C75** False for products poorer than the feed; proved for products at least as rich.
* **C79** Proved for UniformReal and NormalReal. UniformInt and NormalInt are documented but treated as no randomness.
* **C85** Proved when no institution is built after the region entered; only present institutions are ever registered. False for institutions built later: they are not registered before a restart.
* **C90** everything but the recorded use of SWU and feed is preserved; these are recorded correctly from the first step with a trade on. In the steps before it the loaded plant records members that were never given a value (refuted by a witness).
* **C91** proved for sinks without a random buying frequency. With one, the time of the next purchase is not saved but drawn anew, so that a purchase is missed (refuted by a witness).
* **C102** Proved for tolerance zero and, for any tolerance, when the feed consists of sane materials and the batch of the step leaves no traces below the tolerance. Missing: batches with such traces, for which it is false with the tolerance 1e-6 of the kernel: they are dropped from the material after the first stream and rescale the rest, so that a later stream may find less than its due and the tick aborts although all buffers have room and the efficiencies add to one (C102_keeps_working_refuted).
* **C103** Proved for feed of uranium-235 and -238 only that is richer than the tails, orders at least as rich as the feed, and trades that take at least the comparison tolerance of feed. Without these the claim is false: impure feed (C46_impure_refuted), product poorer than the feed (C75_served_refuted).
* **C105** In IEEE binary64 arithmetic (Flocq). Acceptance is proved for at most two streams per nuclide, or with a margin of 2^-53 per stream; rejection beyond an excess of 2^-51 per stream. In full it is false: 0.56, 0.34 and 0.1 add up to one but are refused (C105_exact_refuted).
* **C106** In IEEE binary64 arithmetic (Flocq). Absence of failures is proved for stocks below 2^34 kg and a throughput or free space of at most 2^33/(8n+8) kg (or a free space of at least 2^35 n kg). Without the bound on the stocks it is false: ratios 0.3 and 0.7 with 5e10 kg in the first stream make the tick throw (C106_no_failure_refuted).
* **C108** In IEEE binary64 arithmetic (Flocq). Proved but for the absence of failures: the tick can fail only if not all feed can be processed and (up to rounding) no leftover arises. There it does fail: 10 kg of feed all separated into one stream with 7 kg of space makes the tick throw (C108_never_fails_refuted). Beyond 2^33 kg of free space it fails also with a leftover (C108_large_space_refuted).
* **C109** In IEEE binary64 arithmetic (Flocq). Proved up to an explicit rounding term, and exactly for parcels that are multiples of a power of two. False in full: with parcels of 0.1 kg and a throughput of 0.3 kg only two parcels leave per step (C109_longest_refuted).
* **C110** Proved for all archetypes and all inputs, except accepted inputs that are undefined: a Storage without input commodities (C110_storage_refuted), a Mixer without streams (C110_mixer_refuted), tables of different lengths in Reactor and Separations (C13, C29), equal assays when Enrichment sorts (C45), its Tock before any trade (C43). Of the exchange only C110_reactor assumes something: no more assemblies are awarded than wait. Integer overflow is the subject of C107.
* **C111** Proved within the stated bounds. Outside them it is false: a negative residence time, which is outside the range given in storage.h but not rejected, overflows (C111_storage_refuted), and so does a sink whose interval has the largest int as its upper bound, which is the default (C111_sink_refuted).
* **C112** Bids are exact. Trades within the stock are all filled if there are at most two of them, if they leave a margin of 2^-53 of the stock for each, or if stock and trades are multiples of a power of two (then everything is exact). Without this it is false: of 1 kg, trades of 0.03, 0.87 and 0.1 kg, whose doubles do not sum to more than 1, are not all filled, an exception ends the simulation (C112_fills_refuted). Conservation holds up to 2^-53 of the stock per trade (C112_conserved). Packages and transport units are not part of this model (SourceModel.v has them with exact rationals).
* **C113** Proved for all sequences of calls when the reference data are known, and for the first call when they are missing. False for later calls when data are missing: if only plutonium-239 is missing, the static reference of uranium-238 has been set by the call that raised the exception, and the next identical call returns a number (C113_missing_refuted).
* **C115** Deliveries (materials and products together, see C49) within the request are taken if the resource tolerance covers the rounding of one step, (2k+2) units of 2^-53 of the size for k deliveries (with the tolerance 1e-6 and 100 deliveries a step: sizes up to 4e7 kg), if the sink is far from full, or if size and deliveries are multiples of a power of two (then everything is exact). Inventory and requests are right up to rounding. For large sinks it is false: a sink for 2^36 kg refuses the last of four deliveries that together are exactly its request (C115_refuted). The schedule, commodities and preferences are in SinkModel.v with exact rationals.
* **C116** Defaults and lists given are in force as stated for all five archetypes. Refusal is proved for FuelFab, Sink and Storage; it is false for Reactor and Separations, which start with any number of preferences (C116_number_refuted; Separations with too few then reads past the list, see C29). The Mixer gives a preference with each commodity in one map and cannot have a wrong number.
* **C117** Never refused if the work of a step is within capacity and tolerance with one unit of 2^-53 of these to spare for each enrichment. What is recorded, and the limit, hold up to rounding for at most 2^20 enrichments a step. Missing: steps that need exactly the capacity of a very large plant; there it is false: a plant of 2^36 SWU with the tolerance 1e-6 refuses four enrichments that need exactly its capacity (C117_refuted). SWU and feed of one enrichment (logarithms, in the kernel) are arbitrary numbers here. A step without trades records the sums of the step before once more (see C43).
* **C120** The converted quantity is exact. The balance holds up to two units of 2^-53 of everything received for each step, delivery and sale; it cannot hold exactly: C120_mass_refuted is a facility that produces mass from nothing. Missing: sales up to the whole output (C120_sales_refuted: 0.03, 0.87 and 0.1 of 1 kg) and inputs that are large for the tolerance. On a grid of multiples of a power of two everything is exact.
* **C123** Deliveries beyond the capacity but within the tolerance may be accepted in one order and refused in another (C123_tolerance_refuted). A source with a limited transport unit serves the trades that come first (C123_source_refuted); without that limit and without packaging the order does not matter (C123_source_partial). For Enrichment sales both orders are assumed to succeed. Sales of FuelFab are not covered.
* **C139** Proved in full for input and memory without negative times; C139_schedule_refuted shows a sink with a negative time between purchases, which is accepted. The networks of C128; enrichment, fuel fabrication and the remaining archetypes do not read the clock in their facility logic. Regions and institutions (whose demand curves and deployment times are absolute by design) are not part of it.
* **C143** True until the reactor retires (C143_network: in the networks of C128 such a decommissioning takes no material out of the network), and afterwards except in a step in which a full spent fuel inventory is collected all at once; false in that step: core and spent inventory are empty, fresh fuel is left, and the answer, which does not look at the fresh inventory, is yes (C143_retired_refuted). The decommissioning that a reactor schedules itself never costs fuel (C143_scheduled, C143_network_scheduled). That institutions ask is behaviour of the kernel and not modelled.

## 4. What is modelled and what is not

Modelled: every function of `/repo/src/*.cc` (tests excluded) that has an effect on materials, products,
trades, requests, bids, records used in a property, schedules or registers.  Each definition of a
`*Model.v` file cites the lines it models and says where it simplifies.

Not modelled:

* constructors that only set defaults, `str()`, log messages, `WriteProducerInformation` (logs only),
  positions (`InitializePosition`), the `Construct...` entry points, schemas and annotations;
* the cloning of prototypes by generated code (a clone is taken to have the parameters of its prototype);
* Reactor: packaging flags, the metadata of the output tables (only event names and values are kept);
* Storage: the kernel's buy and sell policies, apart from the limits they are initialised with; their
  deliveries and sales are arbitrary within these limits;
* Sink: packaging; Source: packaging is an arbitrary function from a quantity to a list of quantities;
* rounding of doubles outside C94, C104 to C109, C112, C115, C117, C120 and C124, overflow of ints outside C107 and C111 (section 1).

## 5. Trusted base

* Coq's kernel (the development is also checked by `coqchk` through `vcheck`);
* the reading of /repo into the model (each definition cites its lines);
* the kernel model and environment contracts of section 1.

Axioms: none of our own.  `Print Assumptions` stands below every property theorem and prints
"Closed under the global context" for each of them but those of C94, C104 to C109, C112, C115, C117, C120 and C124.  These use Flocq and list four axioms,
all of the standard library: `ClassicalDedekindReals.sig_not_dec`, `ClassicalDedekindReals.sig_forall_dec`,
`FunctionalExtensionality.functional_extensionality_dep`, `Classical_Prop.classic`.  The axioms that `vcheck` lists as
`library_axioms` are those of all loaded modules of the standard library (`Coq.Reals`, `Coq.ssr.ssrunder.Under_rel` among them); only the
four above are used by a theorem.

## 6. Wrong programs: what `seeded/LOG.jsonl` records

Each line is one edit of one definition of the model, tried in a copy outside this repository. How to read the lines:

* `theorems_failed` lists the theorems that no longer have a proof: the ones whose own proof broke, and all that use, directly or not, a lemma
  whose proof broke (found in the dependency graph of the compiled files). It does not say that each of them is false of the edited model: a proof may break
  although its theorem still holds. Only theorems of the claim named in the line have been looked for on purpose; long lists, above all those that start
  with an edit of the reactor or of a facility used in the networks of C128, are mostly a matter of dependency.
* Most runs stop as soon as a theorem of the claim has lost its proof. Theorems that would have failed later may be missing.
* In lines whose edit ends in "(line N)" the edit was generated mechanically, and the claim was filled in afterwards from the theorems that failed (at most three).
  These lines show that the edit is noticed; they are not predictions that came true.
* Lines with no failed theorems are edits that no theorem noticed. `theorems_tightened` then says what was strengthened; where it is empty the claim says why nothing
  was: mostly the edit has no observable effect; one is noticed by another property only, one run was inconclusive, one edit was rejected by Coq.
* Mechanical edits that did not give a well-typed model (113) are not listed, nor are those of the last 181 that were generated but not run.
