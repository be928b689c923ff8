{
 "claims": [
  {
   "property": "C01",
   "status": "proved",
   "theorems": [
    "C01_inventories_bounded",
    "C01_start_is_legitimate"
   ],
   "note": ""
  },
  {
   "property": "C02",
   "status": "proved",
   "theorems": [
    "C02_assemblies_conserved"
   ],
   "note": ""
  },
  {
   "property": "C03",
   "status": "proved",
   "theorems": [
    "C03_power_iff_full_and_in_cycle"
   ],
   "note": ""
  },
  {
   "property": "C04",
   "status": "proved",
   "theorems": [
    "C04_cycle_lasts_cycle_time"
   ],
   "note": "batch transmutation at the end: C06_oldest_batch_burned"
  },
  {
   "property": "C05",
   "status": "proved",
   "theorems": [
    "C05_restart_only_after_refuelling"
   ],
   "note": ""
  },
  {
   "property": "C06",
   "status": "proved",
   "theorems": [
    "C06_oldest_batch_burned",
    "C06_nothing_else_burned",
    "C06_burned_batch_is_discharged"
   ],
   "note": "second half for runs whose initial cycle_step, if positive, comes with a full core"
  },
  {
   "property": "C07",
   "status": "proved",
   "theorems": [
    "C07_discharge_all_or_nothing",
    "C07_no_power_until_discharged"
   ],
   "note": "retired reactors: C11_retirement (whole batches)"
  },
  {
   "property": "C08",
   "status": "proved",
   "theorems": [
    "C08_offers_and_shipments",
    "C08_first_discharged_first_shipped",
    "C08_shipped_on_its_own_commodity"
   ],
   "note": ""
  },
  {
   "property": "C09",
   "status": "proved",
   "theorems": [
    "C09_orders_match_free_space"
   ],
   "note": ""
  },
  {
   "property": "C10",
   "status": "partial",
   "theorems": [
    "C10_orders_suffice_partial",
    "C10_orders_suffice_refuted",
    "C10_starvation"
   ],
   "note": "the claim is false of the code: capacity instead of content of the fresh inventory is subtracted; shortfall bounded by the free fresh space; a reactor whose fresh inventory can hold its life's fuel never orders and never runs"
  },
  {
   "property": "C100",
   "status": "proved",
   "theorems": [
    "C100_offers"
   ],
   "note": ""
  },
  {
   "property": "C101",
   "status": "proved",
   "theorems": [
    "C101_store_sizes"
   ],
   "note": ""
  },
  {
   "property": "C102",
   "status": "partial",
   "theorems": [
    "C102_keeps_working_partial",
    "C102_keeps_working_tolerance_partial",
    "C102_keeps_working_refuted"
   ],
   "note": "Proved for tolerance zero and, for any tolerance, when the feed consists of sane materials and the batch of the step leaves no traces below the tolerance. Missing: batches with such traces, for which it is false with the tolerance 1e-6 of the kernel: they are dropped from the material after the first stream and rescale the rest, so that a later stream may find less than its due and the tick aborts although all buffers have room and the efficiencies add to one (C102_keeps_working_refuted)."
  },
  {
   "property": "C103",
   "status": "partial",
   "theorems": [
    "C103_keeps_working_partial",
    "C46_impure_refuted",
    "C75_served_refuted"
   ],
   "note": "Proved for feed of uranium-235 and -238 only that is richer than the tails, orders at least as rich as the feed, and trades that take at least the comparison tolerance of feed. Without these the claim is false: impure feed (C46_impure_refuted), product poorer than the feed (C75_served_refuted)."
  },
  {
   "property": "C104",
   "status": "proved",
   "theorems": [
    "C104_range",
    "C104_monotone",
    "C104_accuracy",
    "C104_low",
    "C104_ends",
    "C104_draws",
    "C104_mass_fraction"
   ],
   "note": "In IEEE binary64 arithmetic (Flocq). Uses the standard library axioms of the real numbers."
  },
  {
   "property": "C105",
   "status": "partial",
   "theorems": [
    "C105_two_streams_partial",
    "C105_margin_partial",
    "C105_rejects",
    "C105_exact_refuted"
   ],
   "note": "In IEEE binary64 arithmetic (Flocq). Acceptance is proved for at most two streams per nuclide, or with a margin of 2^-53 per stream; rejection beyond an excess of 2^-51 per stream. In full it is false: 0.56, 0.34 and 0.1 add up to one but are refused (C105_exact_refuted)."
  },
  {
   "property": "C106",
   "status": "partial",
   "theorems": [
    "C106_ratios",
    "C106_mixture",
    "C106_idle",
    "C106_no_failure_partial",
    "C106_no_failure_refuted"
   ],
   "note": "In IEEE binary64 arithmetic (Flocq). Absence of failures is proved for stocks below 2^34 kg and a throughput or free space of at most 2^33/(8n+8) kg (or a free space of at least 2^35 n kg). Without the bound on the stocks it is false: ratios 0.3 and 0.7 with 5e10 kg in the first stream make the tick throw (C106_no_failure_refuted)."
  },
  {
   "property": "C107",
   "status": "proved",
   "theorems": [
    "C107_machine_life",
    "C107_long_cycle_refuted",
    "C107_long_life_refuted"
   ],
   "note": "Whole-life refinement of the integer model by the model with checked 32-bit ints and IEEE binary64 doubles. The two refutations show the bounds are needed: cycle_time 2^31-1 with refuel_time 1, and a lifetime near 2^31 with batches of 4."
  },
  {
   "property": "C108",
   "status": "partial",
   "theorems": [
    "C108_tick_partial",
    "C108_never_fails_refuted",
    "C108_large_space_refuted"
   ],
   "note": "In IEEE binary64 arithmetic (Flocq). Proved but for the absence of failures: the tick can fail only if not all feed can be processed and (up to rounding) no leftover arises. There it does fail: 10 kg of feed all separated into one stream with 7 kg of space makes the tick throw (C108_never_fails_refuted). Beyond 2^33 kg of free space it fails also with a leftover (C108_large_space_refuted)."
  },
  {
   "property": "C109",
   "status": "partial",
   "theorems": [
    "C109_release_partial",
    "C109_exact",
    "C109_longest_refuted"
   ],
   "note": "In IEEE binary64 arithmetic (Flocq). Proved up to an explicit rounding term, and exactly for parcels that are multiples of a power of two. False in full: with parcels of 0.1 kg and a throughput of 0.3 kg only two parcels leave per step (C109_longest_refuted)."
  },
  {
   "property": "C11",
   "status": "proved",
   "theorems": [
    "C11_retirement",
    "C11_decommissions_eventually"
   ],
   "note": "fresh inventory empty at decommissioning for n_assem_spent >= 1"
  },
  {
   "property": "C110",
   "status": "partial",
   "theorems": [
    "C110_reactor",
    "C110_reactor_any_state",
    "C110_reactor_start",
    "C110_storage",
    "C110_storage_start",
    "C110_storage_refuted",
    "C110_separations",
    "C110_separations_start",
    "C110_mixer",
    "C110_mixer_start",
    "C110_mixer_refuted",
    "C110_fuel_fab",
    "C110_enrichment",
    "C110_enrichment_order",
    "C110_sink",
    "C110_sink_start",
    "C110_source",
    "C110_conversion",
    "C110_institutions",
    "C110_region",
    "C110_buffers"
   ],
   "note": "Proved for all archetypes and all inputs, except accepted inputs that are undefined: a Storage without input commodities (C110_storage_refuted), a Mixer without streams (C110_mixer_refuted), tables of different lengths in Reactor and Separations (C13, C29), equal assays when Enrichment sorts (C45), its Tock before any trade (C43). Of the exchange only C110_reactor assumes something: no more assemblies are awarded than wait. Integer overflow is the subject of C107."
  },
  {
   "property": "C111",
   "status": "partial",
   "theorems": [
    "C111_storage",
    "C111_storage_refuted",
    "C111_sink",
    "C111_sink_refuted"
   ],
   "note": "Proved within the stated bounds. Outside them it is false: a negative residence time, which is outside the range given in storage.h but not rejected, overflows (C111_storage_refuted), and so does a sink whose interval has the largest int as its upper bound, which is the default (C111_sink_refuted)."
  },
  {
   "property": "C112",
   "status": "partial",
   "theorems": [
    "C112_bid",
    "C112_fills_partial",
    "C112_two",
    "C112_exact",
    "C112_conserved",
    "C112_fills_refuted"
   ],
   "note": "Bids are exact. Trades within the stock are all filled if there are at most two of them, if they leave a margin of 2^-53 of the stock for each, or if stock and trades are multiples of a power of two (then everything is exact). Without this it is false: of 1 kg, trades of 0.03, 0.87 and 0.1 kg, whose doubles do not sum to more than 1, are not all filled, an exception ends the simulation (C112_fills_refuted). Conservation holds up to 2^-53 of the stock per trade (C112_conserved). Packages and transport units are not part of this model (SourceModel.v has them with exact rationals)."
  },
  {
   "property": "C113",
   "status": "partial",
   "theorems": [
    "C113_history",
    "C113_missing",
    "C113_missing_refuted"
   ],
   "note": "Proved for all sequences of calls when the reference data are known, and for the first call when they are missing. False for later calls when data are missing: if only plutonium-239 is missing, the static reference of uranium-238 has been set by the call that raised the exception, and the next identical call returns a number (C113_missing_refuted)."
  },
  {
   "property": "C114",
   "status": "proved",
   "theorems": [
    "C114_fuel_fab",
    "C114_mixer",
    "C114_enrichment"
   ],
   "note": "Responses answer requests of the same time step (a history in which they do not raises an exception in the model by position and is outside the theorems). For bids with equal uranium-235 content the preferences are undefined in any order, see C45_ties_refuted."
  },
  {
   "property": "C115",
   "status": "partial",
   "theorems": [
    "C115_never_refuses_partial",
    "C115_inventory",
    "C115_request",
    "C115_far_from_full",
    "C115_exact",
    "C115_refuted"
   ],
   "note": "Deliveries (materials and products together, see C49) within the request are taken if the resource tolerance covers the rounding of one step, (2k+2) units of 2^-53 of the size for k deliveries (with the tolerance 1e-6 and 100 deliveries a step: sizes up to 4e7 kg), if the sink is far from full, or if size and deliveries are multiples of a power of two (then everything is exact). Inventory and requests are right up to rounding. For large sinks it is false: a sink for 2^36 kg refuses the last of four deliveries that together are exactly its request (C115_refuted). The schedule, commodities and preferences are in SinkModel.v with exact rationals."
  },
  {
   "property": "C116",
   "status": "partial",
   "theorems": [
    "C116_fuel_fab",
    "C116_sink",
    "C116_storage",
    "C116_reactor",
    "C116_separations",
    "C116_number_refuted"
   ],
   "note": "Defaults and lists given are in force as stated for all five archetypes. Refusal is proved for FuelFab, Sink and Storage; it is false for Reactor and Separations, which start with any number of preferences (C116_number_refuted; Separations with too few then reads past the list, see C29). The Mixer gives a preference with each commodity in one map and cannot have a wrong number."
  },
  {
   "property": "C117",
   "status": "partial",
   "theorems": [
    "C117_never_refused_partial",
    "C117_recorded",
    "C117_limit",
    "C117_refuted"
   ],
   "note": "Never refused if the work of a step is within capacity and tolerance with one unit of 2^-53 of these to spare for each enrichment. What is recorded, and the limit, hold up to rounding for at most 2^20 enrichments a step. Missing: steps that need exactly the capacity of a very large plant; there it is false: a plant of 2^36 SWU with the tolerance 1e-6 refuses four enrichments that need exactly its capacity (C117_refuted). SWU and feed of one enrichment (logarithms, in the kernel) are arbitrary numbers here. A step without trades records the sums of the step before once more (see C43)."
  },
  {
   "property": "C118",
   "status": "proved",
   "theorems": [
    "C118_conversion",
    "C118_conversion_clears",
    "C118_storage"
   ],
   "note": "Quantities are exact rationals. Storage: for continuous handling; what is released with discrete handling is C17 and C18."
  },
  {
   "property": "C119",
   "status": "proved",
   "theorems": [
    "C119_reactor",
    "C119_separations",
    "C119_storage",
    "C119_sink"
   ],
   "note": "The other facilities never read the time: their models have no time at all. Deployments of institutions and demand of regions are given by absolute times and not claimed. The sink with the same random draws, none negative; times are not negative."
  },
  {
   "property": "C12",
   "status": "proved",
   "theorems": [
    "C12_changes_exactly_on_time"
   ],
   "note": ""
  },
  {
   "property": "C120",
   "status": "partial",
   "theorems": [
    "C120_balance",
    "C120_throughput",
    "C120_never_fails_partial",
    "C120_exact",
    "C120_sales_refuted",
    "C120_mass_refuted"
   ],
   "note": "The converted quantity is exact. The balance holds up to two units of 2^-53 of everything received for each step, delivery and sale; it cannot hold exactly: C120_mass_refuted is a facility that produces mass from nothing. Missing: sales up to the whole output (C120_sales_refuted: 0.03, 0.87 and 0.1 of 1 kg) and inputs that are large for the tolerance. On a grid of multiples of a power of two everything is exact."
  },
  {
   "property": "C121",
   "status": "proved",
   "theorems": [
    "C121_conversion",
    "C121_storage",
    "C121_storage_discrete"
   ],
   "note": "The facilities may differ in tolerance, size and sales."
  },
  {
   "property": "C122",
   "status": "proved",
   "theorems": [
    "C122_reactor",
    "C122_storage",
    "C122_conversion",
    "C122_mixer",
    "C122_source",
    "C122_sink"
   ],
   "note": "Enrichment, Separations and FuelFab are meant to look at compositions and are not part of the claim."
  },
  {
   "property": "C123",
   "status": "partial",
   "theorems": [
    "C123_conversion_sales",
    "C123_conversion_deliveries",
    "C123_storage",
    "C123_sink",
    "C123_tolerance_refuted",
    "C123_enrichment_deliveries",
    "C123_enrichment_sales",
    "C123_mixer",
    "C123_mixer_sales",
    "C123_separations_deliveries",
    "C123_separations_sales",
    "C123_fuelfab",
    "C123_reactor_deliveries",
    "C123_reactor_sales",
    "C123_source_partial",
    "C123_source_refuted"
   ],
   "note": "Deliveries beyond the capacity but within the tolerance may be accepted in one order and refused in another (C123_tolerance_refuted). A source with a limited transport unit serves the trades that come first (C123_source_refuted); without that limit and without packaging the order does not matter (C123_source_partial). For Enrichment sales both orders are assumed to succeed. Sales of FuelFab are not covered."
  },
  {
   "property": "C124",
   "status": "proved",
   "theorems": [
    "C124_conversion",
    "C124_limit_refuted",
    "C124_source",
    "C124_sink",
    "C124_storage"
   ],
   "note": "The source neither packages nor limits transport; the sink buys in every time step without random sizes. C124_limit_refuted: the limit of 2^53 units is needed. These theorems tie the exact models used by most properties to the double-precision models of C109, C112, C115 and C120."
  },
  {
   "property": "C125",
   "status": "proved",
   "theorems": [
    "C125_separations",
    "C125_conversion",
    "C125_enrichment",
    "C125_mixer",
    "C125_limit_refuted"
   ],
   "note": "Divisions into parcels of positive mass. For separations, what is put back into the feed must be proper material (the tolerance of extraction can otherwise leave mass without composition, C21). C125_limit_refuted: beyond the request the division matters."
  },
  {
   "property": "C126",
   "status": "proved",
   "theorems": [
    "C126_conversion",
    "C126_storage",
    "C126_sink",
    "C126_source",
    "C126_mixer",
    "C126_separations",
    "C126_reactor",
    "C126_enrichment",
    "C126_fuel_fab",
    "C126_tolerance_refuted"
   ],
   "note": "All tolerances change with the unit; C126_tolerance_refuted shows that this is needed. For enrichment the requested assays are not within the tolerance above the highest product assay, because cyclus::eps() is used for masses and for assays. For fuel fabrication CY_NEAR_ZERO is a tolerance on fractions (unchanged) and the least capacity reported with the bids (fuel_fab.cc:376-380, 706-719); the theorem says exactly how that capacity relates."
  },
  {
   "property": "C127",
   "status": "proved",
   "theorems": [
    "C127_conversion",
    "C127_storage",
    "C127_mixer",
    "C127_separations",
    "C127_fuel_fab",
    "C127_enrichment",
    "C127_sink",
    "C127_reactor",
    "C127_reactor_power_refuted"
   ],
   "note": "C127_reactor_power_refuted is the exception named in the statement. What a storage logs as processed is written after the deliveries and is not part of the claim."
  },
  {
   "property": "C128",
   "status": "proved",
   "theorems": [
    "C128_never_stuck",
    "C128_nothing_lost"
   ],
   "note": "Sources without packages and transport units; sinks without product trades. Enrichment, fuel fabrication and separations are not in these networks: they can fail within their offers (C46, C75, C102)."
  },
  {
   "property": "C129",
   "status": "proved",
   "theorems": [
    "C129_sizes"
   ],
   "note": "The networks of C128. A negative capacity of a conversion facility or storage is no capacity."
  },
  {
   "property": "C13",
   "status": "partial",
   "theorems": [
    "C13_startup_checks_exactly",
    "C13_accepted_input_in_bounds_refuted",
    "C13_consistent_input_in_bounds_partial"
   ],
   "note": "false of the code: only change tables are checked; true for tables of equal length"
  },
  {
   "property": "C130",
   "status": "proved",
   "theorems": [
    "C130_books",
    "C130_balance",
    "C130_nuclides",
    "C130_foreign"
   ],
   "note": "The networks of C128. C130_books: every network that can arise has such a record, and every record is of a network that can arise."
  },
  {
   "property": "C131",
   "status": "proved",
   "theorems": [
    "C131_network_restart"
   ],
   "note": "Conversion facilities and mixers are not in these networks: their restart is refuted (C62, C32); so is that of sinks with random buying times (C91). Members that never change are taken as saved and read back unchanged."
  },
  {
   "property": "C132",
   "status": "proved",
   "theorems": [
    "C132_careers",
    "C132_account",
    "C132_throughput",
    "C132_capacity",
    "C132_each_step"
   ],
   "note": "The networks of C128. The throughput bound is for a throughput of at least zero. C132_careers: every facility of every network has such a life."
  },
  {
   "property": "C133",
   "status": "proved",
   "theorems": [
    "C133_never_appears",
    "C133_never_shipped",
    "C133_origin"
   ],
   "note": "The networks of C128. Sources without a recipe are left out: they supply whatever composition is asked for."
  },
  {
   "property": "C134",
   "status": "proved",
   "theorems": [
    "C134_reactor",
    "C134_facility",
    "C134_step",
    "C134_network",
    "C134_shared_numbers_refuted"
   ],
   "note": "The facilities and networks of C128. C134_shared_numbers_refuted is the last sentence of the statement; the kernel hands out distinct numbers."
  },
  {
   "property": "C135",
   "status": "proved",
   "theorems": [
    "C135_is_simulation",
    "C135_alone"
   ],
   "note": "The networks of C128. What a facility is told of the requests of others is taken to be the same with and without the other part. A reactor starts with an empty table of received objects."
  },
  {
   "property": "C136",
   "status": "proved",
   "theorems": [
    "C136_diaries",
    "C136_reactor",
    "C136_conversion",
    "C136_storage",
    "C136_mixer",
    "C136_source",
    "C136_sink",
    "C136_supplied"
   ],
   "note": "The networks of C128. One theorem per archetype; C136_diaries says that every facility of a network has such a history, C136_supplied is the last sentence of the statement."
  },
  {
   "property": "C137",
   "status": "proved",
   "theorems": [
    "C137_together",
    "C137_simulations"
   ],
   "note": "The networks of C128; the converse of C135. What a facility is told of the requests of others is taken to be the same with and without the other part. A reactor starts with an empty table of received objects."
  },
  {
   "property": "C138",
   "status": "proved",
   "theorems": [
    "C138_unit",
    "C138_scenarios",
    "C138_counterpart"
   ],
   "note": "The networks of C128; lifts C126 from single facilities to whole simulations. As in C126 the tolerances are scaled too (with fixed tolerances the claim is false: C126_tolerance_refuted). C138_counterpart assumes that random amounts depend only on the values of the numbers they are drawn with."
  },
  {
   "property": "C139",
   "status": "partial",
   "theorems": [
    "C139_facility",
    "C139_scenario",
    "C139_separations",
    "C139_schedule_refuted"
   ],
   "note": "Proved in full for input and memory without negative times; C139_schedule_refuted shows a sink with a negative time between purchases, which is accepted. The networks of C128; enrichment, fuel fabrication and the remaining archetypes do not read the clock in their facility logic. Regions and institutions (whose demand curves and deployment times are absolute by design) are not part of it."
  },
  {
   "property": "C14",
   "status": "proved",
   "theorems": [
    "C14_residence_exact"
   ],
   "note": "exact characterisation of what is held back, queued and released after every tock"
  },
  {
   "property": "C140",
   "status": "proved",
   "theorems": [
    "C140_same",
    "C140_prefix",
    "C140_onward",
    "C140_goes_on"
   ],
   "note": "The networks of C128. The random numbers and the decisions of the exchange are part of the scenario."
  },
  {
   "property": "C141",
   "status": "proved",
   "theorems": [
    "C141_simulation",
    "C141_goes_on",
    "C141_roster",
    "C141_institution"
   ],
   "note": "The facilities of C128. How the kernel makes a facility of a prototype and when it decommissions is left open: both are arbitrary. The plan is a function of time; for the orders of a growth region, which depend on what has been decommissioned, see C142."
  },
  {
   "property": "C142",
   "status": "proved",
   "theorems": [
    "C142_simulation",
    "C142_books",
    "C142_demand",
    "C142_goes_on"
   ],
   "note": "The facilities of C128. How the kernel makes a facility of a prototype and when it decommissions is left open; so is the solver. The institutions of the region are there from the start (C85 says what happens to others)."
  },
  {
   "property": "C143",
   "status": "partial",
   "theorems": [
    "C143_operating",
    "C143_network",
    "C143_scheduled",
    "C143_network_scheduled",
    "C143_retired_partial",
    "C143_retired_refuted"
   ],
   "note": "True until the reactor retires (C143_network: in the networks of C128 such a decommissioning takes no material out of the network), and afterwards except in a step in which a full spent fuel inventory is collected all at once; false in that step: core and spent inventory are empty, fresh fuel is left, and the answer, which does not look at the fresh inventory, is yes (C143_retired_refuted). The decommissioning that a reactor schedules itself never costs fuel (C143_scheduled, C143_network_scheduled). That institutions ask is behaviour of the kernel and not modelled."
  },
  {
   "property": "C144",
   "status": "proved",
   "theorems": [
    "C144_idle",
    "C144_fewer",
    "C144_forever"
   ],
   "note": "For the networks of C128 and the exchange as specified there. Leaving out trades is leaving out whole trades; the order of the remaining ones is kept."
  },
  {
   "property": "C145",
   "status": "proved",
   "theorems": [
    "C145_step",
    "C145_anywhere",
    "C145_never_stuck"
   ],
   "note": "For the networks of C128 and the exchange as specified there. The order of the trades is kept; which trades a solver picks may depend on the order of the facilities and is not claimed."
  },
  {
   "property": "C146",
   "status": "proved",
   "theorems": [
    "C146_balance",
    "C146_order",
    "C146_composition_refuted"
   ],
   "note": "For the networks of C128. That the quantity cannot be replaced by the mass of each nuclide is shown by a witness: a storage ships first what came in first, so the buyer served first gets it."
  },
  {
   "property": "C147",
   "status": "proved",
   "theorems": [
    "C147_held_before",
    "C147_ships",
    "C147_turnover"
   ],
   "note": "For the networks of C128 and the exchange as specified there."
  },
  {
   "property": "C148",
   "status": "proved",
   "theorems": [
    "C148_facility",
    "C148_step",
    "C148_network"
   ],
   "note": "For the networks of C128 and the exchange as specified there; single facilities with any calls: C122."
  },
  {
   "property": "C149",
   "status": "proved",
   "theorems": [
    "C149_sink",
    "C149_source",
    "C149_life"
   ],
   "note": "For the networks of C128 and the exchange as specified there; that a facility without bids sells nothing and one without requests buys nothing is part of that specification."
  },
  {
   "property": "C15",
   "status": "proved",
   "theorems": [
    "C15_arrival_order",
    "C15_conserved"
   ],
   "note": "regroup relation: splitting/joining of adjacent parcels only"
  },
  {
   "property": "C150",
   "status": "proved",
   "theorems": [
    "C150_two_lots",
    "C150_one_lot",
    "C150_reactor_refuted"
   ],
   "note": "For the networks of C128 and the exchange as specified there. That a reactor's fuel cannot be divided is shown by a witness."
  },
  {
   "property": "C151",
   "status": "proved",
   "theorems": [
    "C151_cooled",
    "C151_order"
   ],
   "note": "For the networks of C128 and the exchange as specified there; C14 and C15 carried over to simulations by C136."
  },
  {
   "property": "C152",
   "status": "proved",
   "theorems": [
    "C152_step",
    "C152_reach"
   ],
   "note": "For the networks of C128 and the exchange as specified there; facilities that keep every nuclide (no reactors, no sources without an output recipe); C152_reach without deployments and retirements in between."
  },
  {
   "property": "C153",
   "status": "proved",
   "theorems": [
    "C153_step",
    "C153_run",
    "C153_closed"
   ],
   "note": "For the networks of C128 and the exchange as specified there; without deployments and retirements between the time steps (for those see C130)."
  },
  {
   "property": "C16",
   "status": "proved",
   "theorems": [
    "C16_throughput"
   ],
   "note": ""
  },
  {
   "property": "C17",
   "status": "proved",
   "theorems": [
    "C17_never_split_or_joined",
    "C17_longest_prefix"
   ],
   "note": ""
  },
  {
   "property": "C18",
   "status": "partial",
   "theorems": [
    "C18_progress_refuted",
    "C18_progress_discrete_partial",
    "C18_progress_continuous"
   ],
   "note": "refuted for discrete handling when a parcel exceeds the throughput (blocks the queue forever); proved for continuous handling and for parcels within the throughput"
  },
  {
   "property": "C19",
   "status": "proved",
   "theorems": [
    "C19_capacity"
   ],
   "note": ""
  },
  {
   "property": "C20",
   "status": "proved",
   "theorems": [
    "C20_startup_exact",
    "C20_startup_rejects"
   ],
   "note": "InitBuyPolicyParameters and buy_policy.Init are kernel code and not modelled"
  },
  {
   "property": "C21",
   "status": "partial",
   "theorems": [
    "C21_total_mass",
    "C21_history_mass",
    "C21_history_nuclides_partial",
    "C21_nuclides_partial",
    "C21_nuclides_bounded",
    "C21_nuclides_refuted"
   ],
   "note": "Total mass: proved for every tick and history. Per nuclide: exact over histories when the tolerance is zero, exact per tick when no trace below the tolerance is left, bounded drift in general; the exact claim with a positive tolerance is refuted (a trace left behind by a stream is dropped and its mass becomes the other nuclides)."
  },
  {
   "property": "C22",
   "status": "proved",
   "theorems": [
    "C22_split",
    "C22_split_limited"
   ],
   "note": "Efficiency split when no buffer limits the step (no traces below the tolerance), and the general case with the processable fraction."
  },
  {
   "property": "C23",
   "status": "proved",
   "theorems": [
    "C23_throughput",
    "C23_stream_sizes"
   ],
   "note": ""
  },
  {
   "property": "C24",
   "status": "partial",
   "theorems": [
    "C24_pauses_refuted",
    "C24_enough_room_partial"
   ],
   "note": "Refuted: with a full leftover buffer the tick throws. Proved: the tick succeeds whenever the leftover of the processable fraction fits."
  },
  {
   "property": "C25",
   "status": "partial",
   "theorems": [
    "C25_fully_separated_partial",
    "C25_fully_separated_refuted"
   ],
   "note": "Holds when no stream buffer limits the step; refuted otherwise (the unprocessed part is returned as a blend of the already separated material)."
  },
  {
   "property": "C26",
   "status": "partial",
   "theorems": [
    "C26_validation_partial",
    "C26_validation_refuted"
   ],
   "note": "Holds when no nuclide is addressed both by itself and by its element; refuted otherwise."
  },
  {
   "property": "C27",
   "status": "partial",
   "theorems": [
    "C27_restart_partial",
    "C27_restart_refuted",
    "C27_saved_after_a_restart"
   ],
   "note": "Feed, leftover and streams are restored, but feed and leftover are duplicated into two extra streams (refuted). When a restored facility is saved again, these extra streams overwrite the feed and leftover of that moment in the saved map: the second restart brings back the feed and leftover of the first save (C27_saved_after_a_restart)."
  },
  {
   "property": "C28",
   "status": "proved",
   "theorems": [
    "C28_trades"
   ],
   "note": ""
  },
  {
   "property": "C29",
   "status": "proved",
   "theorems": [
    "C29_requests",
    "C29_default_preferences",
    "C29_length_mismatch_refuted"
   ],
   "note": "Requests with as many preferences as commodities; defaults; a list of another length reads out of bounds (shown)."
  },
  {
   "property": "C30",
   "status": "proved",
   "theorems": [
    "C30_normalised"
   ],
   "note": "Independent definition of a share; equal shares when the ratios sum to zero."
  },
  {
   "property": "C31",
   "status": "proved",
   "theorems": [
    "C31_mixing"
   ],
   "note": "Non-negative ratios; every reachable state; largest mixable amount."
  },
  {
   "property": "C32",
   "status": "partial",
   "theorems": [
    "C32_restart_refuted",
    "C32_streams_restored_partial",
    "C32_restart_when_empty",
    "C32_saved_after_a_restart"
   ],
   "note": "InitInv overwrites the saved output with the new empty one: the output is lost. Streams are restored exactly. A restart while the output is empty loses nothing (C32_restart_when_empty). A facility that was loaded once never saves mixed material again (C32_saved_after_a_restart)."
  },
  {
   "property": "C33",
   "status": "proved",
   "theorems": [
    "C33_requests",
    "C33_right_stream",
    "C33_sizes"
   ],
   "note": "Requests equal the free space; deliveries go to the stream of the answered request, also with shared commodities."
  },
  {
   "property": "C34",
   "status": "proved",
   "theorems": [
    "C34_fractions"
   ],
   "note": "All rational weights; snapping spelled out."
  },
  {
   "property": "C35",
   "status": "proved",
   "theorems": [
    "C35_atom_to_mass"
   ],
   "note": ""
  },
  {
   "property": "C36",
   "status": "proved",
   "theorems": [
    "C36_offered",
    "C36_traded"
   ],
   "note": "Per trade, also within a sequence of trades, for every homogeneous state."
  },
  {
   "property": "C37",
   "status": "partial",
   "theorems": [
    "C37_refuted",
    "C37_C39_awards_partial"
   ],
   "note": "False when the fissile stream is empty and the target weighs the same as the top-up: top-up is charged but filler is drawn. Proved for awards whose targets lie strictly inside a served interval or that draw on one non-empty stream."
  },
  {
   "property": "C38",
   "status": "proved",
   "theorems": [
    "C38_homogeneous",
    "C38_sizes",
    "C38_requests",
    "C38_right_inventory",
    "C38_deliveries_accepted",
    "C38_conserved"
   ],
   "note": ""
  },
  {
   "property": "C39",
   "status": "partial",
   "theorems": [
    "C39_refuted",
    "C37_C39_awards_partial"
   ],
   "note": "A target of exactly the filler weight, with fissile material in stock, pops zero and throws. Otherwise no error."
  },
  {
   "property": "C40",
   "status": "partial",
   "theorems": [
    "C40_total",
    "C40_nuclides_partial",
    "C40_nuclides_refuted"
   ],
   "note": "Total mass: proved. Per nuclide: false when the remainder of a nuclide is positive but below the resource tolerance (dropped); proved otherwise."
  },
  {
   "property": "C41",
   "status": "partial",
   "theorems": [
    "C41_tails_assay_partial",
    "C41_tails_assay_refuted"
   ],
   "note": "False when the feed needed is within the generic tolerance of the whole stock (the whole stock is then drawn); proved when the feed drawn is the feed needed and no tails nuclide is below the tolerance."
  },
  {
   "property": "C42",
   "status": "proved",
   "theorems": [
    "C42_swu_capacity"
   ],
   "note": "For every lived state and every trade list served without an error."
  },
  {
   "property": "C43",
   "status": "partial",
   "theorems": [
    "C43_recorded_partial",
    "C43_latest_partial",
    "C43_recorded_refuted",
    "C43_indeterminate_refuted"
   ],
   "note": "True in steps with trades; a step without trades records the last values again, or indeterminate ones."
  },
  {
   "property": "C44",
   "status": "partial",
   "theorems": [
    "C44_bids_partial",
    "C44_bids_refuted"
   ],
   "note": "The lower limit is compared with the atom assay, not the mass assay; characterised exactly. U-235 presence follows from a non-negative tails assay only."
  },
  {
   "property": "C45",
   "status": "partial",
   "theorems": [
    "C45_preferences_partial",
    "C45_any_arrangement",
    "C45_ties_refuted"
   ],
   "note": "Bids of different content: proved. Ties: std::sort with a <= comparison is undefined; any increasing arrangement gives right preferences."
  },
  {
   "property": "C46",
   "status": "partial",
   "theorems": [
    "C46_filled_partial",
    "C46_impure_refuted"
   ],
   "note": "False with impure feed (the published constraint ignores impurities of the feed); proved for pure feed above the tails assay, products at least as rich as the feed and feed needs above the generic tolerance."
  },
  {
   "property": "C47",
   "status": "proved",
   "theorems": [
    "C47_requests",
    "C47_inventory",
    "C47_deliverable"
   ],
   "note": ""
  },
  {
   "property": "C48",
   "status": "proved",
   "theorems": [
    "C48_schedule",
    "C48_every_step",
    "C48_zero_interval"
   ],
   "note": "For a lower bound of at least 1, the documented range. C48_zero_interval: with a drawn interval of 0 the sink never buys again."
  },
  {
   "property": "C49",
   "status": "partial",
   "theorems": [
    "C47_requests",
    "C49_capacity_refuted",
    "C49_overflow_refuted"
   ],
   "note": "True of each kind of resource alone; false together: twice the capacity can be received, and a step whose requests are both met can end in an error."
  },
  {
   "property": "C50",
   "status": "partial",
   "theorems": [
    "C50_never_more",
    "C50_conserved_partial",
    "C50_unpackaged",
    "C81_bids",
    "C50_lost_refuted",
    "C50_eps_refuted"
   ],
   "note": "Never more than the inventory, and the bid limits, for all packaging schemes; exact conservation without packaging and whenever a trade makes at most one package. False otherwise: further packages of a trade, and remainders up to eps(), are lost."
  },
  {
   "property": "C51",
   "status": "proved",
   "theorems": [
    "C51_recipe",
    "C51_requested"
   ],
   "note": ""
  },
  {
   "property": "C52",
   "status": "proved",
   "theorems": [
    "C52_conserved",
    "C52_throughput",
    "C52_capacity"
   ],
   "note": ""
  },
  {
   "property": "C53",
   "status": "partial",
   "theorems": [
    "C53_request_size_refuted",
    "C53_request_bounded_partial"
   ],
   "note": "the documented bound by the throughput is false; proved: request = free capacity exactly"
  },
  {
   "property": "C54",
   "status": "partial",
   "theorems": [
    "C54_schedule",
    "C54_institutions",
    "C54_rejects",
    "C54_past",
    "C54_clash_refuted",
    "C54_institutions_refuted"
   ],
   "note": "Proved for one institution, and for any number if the kernel lets a prototype be added again, when no prototype is named like a derived one (\"X_life_5\"). False otherwise: such a prototype is replaced or blocks the institution, and two institutions with the same prototype and lifetime cannot both be built if the kernel refuses duplicate names."
  },
  {
   "property": "C55",
   "status": "partial",
   "theorems": [
    "C55_manager",
    "C55_manager_capacity",
    "C55_deploy_partial",
    "C55_deploy_capacity_partial",
    "C55_deploy_refuted"
   ],
   "note": "Full for ManagerInst. For DeployInst only without restarts; false after one, because EnterNotify does not register the facilities it already has."
  },
  {
   "property": "C56",
   "status": "partial",
   "theorems": [
    "C56_orders",
    "C56_supply",
    "C56_derived_refuted"
   ],
   "note": "Proved with the prototype name of the named agent. If that agent comes from a prototype derived by a DeployInst (another lifetime) this name is the original one, and the original is built instead."
  },
  {
   "property": "C57",
   "status": "proved",
   "theorems": [
    "C57_core_refilled_during_outage"
   ],
   "note": ""
  },
  {
   "property": "C58",
   "status": "partial",
   "theorems": [
    "C58_step_never_fails_partial",
    "C58_step_never_fails_refuted"
   ],
   "note": "refuted for throughput 0 with continuous handling (zero pop throws); proved for positive throughput or discrete handling"
  },
  {
   "property": "C59",
   "status": "proved",
   "theorems": [
    "C59_reports"
   ],
   "note": ""
  },
  {
   "property": "C60",
   "status": "proved",
   "theorems": [
    "C60_offer_honoured"
   ],
   "note": ""
  },
  {
   "property": "C61",
   "status": "partial",
   "theorems": [
    "C61_step_never_fails_partial",
    "C61_step_never_fails_refuted"
   ],
   "note": "refuted for throughput 0; proved for positive throughput"
  },
  {
   "property": "C62",
   "status": "partial",
   "theorems": [
    "C62_restart_refuted",
    "C62_restart_input_partial"
   ],
   "note": "output buffer is not declared as state variable, hence not saved; generated code (cycpp) modelled from the declarations"
  },
  {
   "property": "C63",
   "status": "partial",
   "theorems": [
    "C63_records_partial",
    "C63_processed_refuted"
   ],
   "note": "Separated amounts and supply series proved; the amount recorded as being separated includes what is put back into the feed (refuted)."
  },
  {
   "property": "C64",
   "status": "proved",
   "theorems": [
    "C64_offers"
   ],
   "note": ""
  },
  {
   "property": "C65",
   "status": "proved",
   "theorems": [
    "C65_full_stream_pauses"
   ],
   "note": ""
  },
  {
   "property": "C66",
   "status": "partial",
   "theorems": [
    "C66_never_fails_refuted",
    "C66_never_fails_partial"
   ],
   "note": "Zero next to positive ratios: popping zero from the zero-ratio stream throws. Holds for all positive or all zero ratios."
  },
  {
   "property": "C67",
   "status": "proved",
   "theorems": [
    "C67_conserved"
   ],
   "note": ""
  },
  {
   "property": "C68",
   "status": "proved",
   "theorems": [
    "C68_records"
   ],
   "note": ""
  },
  {
   "property": "C69",
   "status": "proved",
   "theorems": [
    "C69_weight",
    "C69_references",
    "C69_amount_irrelevant"
   ],
   "note": ""
  },
  {
   "property": "C70",
   "status": "proved",
   "theorems": [
    "C70_offers",
    "C70_streams",
    "C70_blend",
    "C70_when"
   ],
   "note": ""
  },
  {
   "property": "C71",
   "status": "partial",
   "theorems": [
    "C71_same_weight_refuted",
    "C37_C39_awards_partial"
   ],
   "note": "Refuted by the case of C37; holds otherwise."
  },
  {
   "property": "C72",
   "status": "partial",
   "theorems": [
    "C72_decommission_refuted",
    "C72_decommission_partial"
   ],
   "note": "Unprocessed feed is not looked at; products and leftovers are."
  },
  {
   "property": "C73",
   "status": "proved",
   "theorems": [
    "C73_request",
    "C73_capacity"
   ],
   "note": ""
  },
  {
   "property": "C74",
   "status": "partial",
   "theorems": [
    "C74_total",
    "C74_nuclides_partial",
    "C40_nuclides_refuted"
   ],
   "note": "Total: any tolerance. Each nuclide: tolerance 0."
  },
  {
   "property": "C75",
   "status": "partial",
   "theorems": [
    "C75_served_refuted",
    "C46_filled_partial"
   ],
   "note": "False for products poorer than the feed; proved for products at least as rich."
  },
  {
   "property": "C76",
   "status": "proved",
   "theorems": [
    "C76_tails_bids",
    "C76_tails_sale"
   ],
   "note": ""
  },
  {
   "property": "C77",
   "status": "proved",
   "theorems": [
    "C77_requests",
    "C77_entry"
   ],
   "note": ""
  },
  {
   "property": "C78",
   "status": "proved",
   "theorems": [
    "C78_kept"
   ],
   "note": ""
  },
  {
   "property": "C79",
   "status": "partial",
   "theorems": [
    "C79_real_partial",
    "C79_int_refuted"
   ],
   "note": "Proved for UniformReal and NormalReal. UniformInt and NormalInt are documented but treated as no randomness."
  },
  {
   "property": "C80",
   "status": "proved",
   "theorems": [
    "C80_filled",
    "C80_transport",
    "C51_requested"
   ],
   "note": ""
  },
  {
   "property": "C81",
   "status": "proved",
   "theorems": [
    "C81_bids"
   ],
   "note": ""
  },
  {
   "property": "C82",
   "status": "proved",
   "theorems": [
    "C82_builder"
   ],
   "note": ""
  },
  {
   "property": "C83",
   "status": "proved",
   "theorems": [
    "C83_demand"
   ],
   "note": ""
  },
  {
   "property": "C84",
   "status": "proved",
   "theorems": [
    "C84_growth"
   ],
   "note": ""
  },
  {
   "property": "C85",
   "status": "partial",
   "theorems": [
    "C85_registers_partial",
    "C85_present",
    "C85_later_refuted"
   ],
   "note": "Proved when no institution is built after the region entered; only present institutions are ever registered. False for institutions built later: they are not registered before a restart."
  },
  {
   "property": "C86",
   "status": "proved",
   "theorems": [
    "C86_charges"
   ],
   "note": ""
  },
  {
   "property": "C87",
   "status": "proved",
   "theorems": [
    "C87_reactor_restart"
   ],
   "note": ""
  },
  {
   "property": "C88",
   "status": "proved",
   "theorems": [
    "C88_storage_restart"
   ],
   "note": ""
  },
  {
   "property": "C89",
   "status": "proved",
   "theorems": [
    "C89_fuel_fab_restart"
   ],
   "note": ""
  },
  {
   "property": "C90",
   "status": "partial",
   "theorems": [
    "C90_enrichment_restart_partial",
    "C90_recorded_usage_refuted"
   ],
   "note": "everything but the recorded use of SWU and feed is preserved; these are recorded correctly from the first step with a trade on. In the steps before it the loaded plant records members that were never given a value (refuted by a witness)."
  },
  {
   "property": "C91",
   "status": "partial",
   "theorems": [
    "C91_sink_restart_partial",
    "C91_random_frequency_refuted"
   ],
   "note": "proved for sinks without a random buying frequency. With one, the time of the next purchase is not saved but drawn anew, so that a purchase is missed (refuted by a witness)."
  },
  {
   "property": "C92",
   "status": "proved",
   "theorems": [
    "C92_source_restart"
   ],
   "note": ""
  },
  {
   "property": "C93",
   "status": "proved",
   "theorems": [
    "C93_reactor",
    "C93_reactor_undefined",
    "C93_source",
    "C93_storage"
   ],
   "note": ""
  },
  {
   "property": "C94",
   "status": "proved",
   "theorems": [
    "C94_need_exact",
    "C94_cycles_exact",
    "C94_requests_exact",
    "C94_last_transmutation_exact"
   ],
   "note": "IEEE binary64 of Flocq; uses the standard library's axioms of the real numbers (sig_not_dec, sig_forall_dec, functional_extensionality_dep, classic)"
  },
  {
   "property": "C95",
   "status": "proved",
   "theorems": [
    "C95_mass"
   ],
   "note": ""
  },
  {
   "property": "C96",
   "status": "proved",
   "theorems": [
    "C96_nuclides"
   ],
   "note": ""
  },
  {
   "property": "C97",
   "status": "proved",
   "theorems": [
    "C97_counts_balance",
    "C97_transmutations"
   ],
   "note": ""
  },
  {
   "property": "C98",
   "status": "proved",
   "theorems": [
    "C98_demand",
    "C98_supply"
   ],
   "note": ""
  },
  {
   "property": "C99",
   "status": "proved",
   "theorems": [
    "C99_calendar",
    "C99_supplied"
   ],
   "note": ""
  }
 ]
}
