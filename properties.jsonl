{"id": "C01", "title": "Reactor inventories never exceed their configured sizes", "statement": "At every point of every simulation in which the exchange honours the reactor's requests and bids, the core holds at most n_assem_core assemblies, the fresh-fuel inventory at most n_assem_fresh and the spent-fuel inventory at most n_assem_spent, and none of the reactor's phases raises a buffer-overflow error.", "quantifier": "all well-formed configurations, all initial times and lifetimes, all sequences of time steps with arbitrary partial deliveries and arbitrary partial spent-fuel pickups", "why_tests_cant": "The overflow depends on the interleaving of partial deliveries, failed discharges, retirement and spent-fuel pickups over unboundedly many steps; tests only run a handful of fixed supply patterns.", "anchors": ["src/reactor.cc: Reactor::EnterNotify", "src/reactor.cc: Reactor::Tick", "src/reactor.cc: Reactor::GetMatlRequests", "src/reactor.cc: Reactor::AcceptMatlTrades", "src/reactor.cc: Reactor::Discharge", "src/reactor.cc: Reactor::Load"]}
{"id": "C02", "title": "Reactor neither loses, duplicates nor splits assemblies", "statement": "Every assembly ever accepted is, at any later time, in exactly one of core, fresh inventory, spent inventory or the list of shipped assemblies; its mass is unchanged.", "quantifier": "all histories of ticks, tocks, deliveries and pickups, for all batch and inventory sizes", "why_tests_cant": "A lost or duplicated assembly shows up only for particular combinations of batch size, core size and spent-pool fullness; tests count transactions for a few such combinations.", "anchors": ["src/reactor.cc: Reactor::Transmute", "src/reactor.cc: Reactor::Discharge", "src/reactor.cc: Reactor::Load", "src/reactor.cc: Reactor::GetMatlTrades", "src/reactor.cc: Reactor::PopSpent", "src/reactor.cc: Reactor::PushSpent"]}
{"id": "C03", "title": "Power is reported exactly while a full core is in-cycle", "statement": "In every tock of a non-retired reactor exactly one power value is recorded: power_cap if the core is full and the reactor is within its cycle, and 0 otherwise; side products are recorded with their configured quantity in exactly the same steps and with 0 otherwise; a retired reactor records nothing.", "quantifier": "all reachable reactor states, all times", "why_tests_cant": "Tests query the power table for a few fixed schedules; the equivalence must hold in every reachable state.", "anchors": ["src/reactor.cc: Reactor::Tock", "src/reactor.cc: Reactor::RecordSideProduct"]}
{"id": "C04", "title": "A started cycle delivers exactly cycle_time consecutive full-power steps", "statement": "Once a cycle starts (CYCLE_START), unless the reactor is retired meanwhile, the reactor reports full power in that step and the following cycle_time-1 steps, whatever is delivered or picked up meanwhile, and the cycle ends (CYCLE_END, batch transmutation) at the beginning of the step after the last of them.", "quantifier": "all configurations with cycle_time >= 1, all delivery and pickup schedules", "why_tests_cant": "Requires reasoning over every schedule of deliveries between start and end of a cycle.", "anchors": ["src/reactor.cc: Reactor::Tick", "src/reactor.cc: Reactor::Tock"]}
{"id": "C05", "title": "No cycle restarts before refuelling is complete", "statement": "After a cycle end the next cycle can start only if the spent batch was completely discharged, the core is full again and at least refuel_time steps passed since the end of the cycle.", "quantifier": "all configurations, all delivery and pickup schedules", "why_tests_cant": "The restart guard depends on state accumulated over arbitrarily long outages.", "anchors": ["src/reactor.cc: Reactor::Tock", "src/reactor.cc: Reactor::Discharge", "src/reactor.cc: Reactor::Load"]}
{"id": "C06", "title": "Exactly the oldest batch is burned and exactly that batch is discharged", "statement": "At a cycle end the min(n_assem_batch, core count) oldest assemblies in the core, and no others, take on the out-recipe that belongs to the fuel they were received as; the order in the core is unchanged; the subsequent discharge moves exactly those assemblies, in order, to the end of the spent inventory.", "quantifier": "all core contents, batch sizes, recipe tables", "why_tests_cant": "Tests look at one material of one batch; the claim is about every element of every core and its order.", "anchors": ["src/reactor.cc: Reactor::Transmute", "src/reactor.cc: Reactor::Discharge", "src/reactor.cc: Reactor::fuel_outrecipe"]}
{"id": "C07", "title": "Discharge is all-or-nothing", "statement": "A discharge either moves a whole batch (or the whole remaining core if smaller) into the spent inventory or, if the spent inventory lacks room for all of it, changes nothing and reports failure; the reactor then produces no power until the discharge succeeds.", "quantifier": "all core and spent inventories and batch sizes; all later schedules", "why_tests_cant": "Partial-discharge bugs appear only at exact fullness boundaries.", "anchors": ["src/reactor.cc: Reactor::Discharge", "src/reactor.cc: Reactor::Tick", "src/reactor.cc: Reactor::Tock"]}
{"id": "C08", "title": "Spent fuel is offered and shipped under the right commodity, oldest first", "statement": "A spent assembly is offered and shipped only on the out-commodity belonging to the fuel it was received as; among spent assemblies of one commodity those discharged first are shipped first, across any number of steps; assemblies not shipped stay in the spent inventory in the same relative order per commodity.", "quantifier": "all spent inventories, all trade lists the exchange may award on the offered commodities", "why_tests_cant": "FIFO order across steps with several commodities interleaved cannot be settled by a finite set of examples.", "anchors": ["src/reactor.cc: Reactor::GetMatlTrades", "src/reactor.cc: Reactor::GetMatlBids", "src/reactor.cc: Reactor::PeekSpent", "src/reactor.cc: Reactor::PopSpent", "src/reactor.cc: Reactor::PushSpent", "src/reactor.cc: Reactor::fuel_outcommod"]}
{"id": "C09", "title": "Fuel orders match the free space", "statement": "In each exchange the reactor places n independent exclusive orders of one assembly each where n is at most the number of free core and fresh positions (equal to it when no retirement is scheduled), each order being satisfiable by any of the fuel commodities with its recipe and preference; a retired or full reactor orders nothing.", "quantifier": "all reactor states, all fuel tables", "why_tests_cant": "Over-ordering only matters in states near fullness or near retirement that tests do not enumerate.", "anchors": ["src/reactor.cc: Reactor::GetMatlRequests"]}
{"id": "C10", "title": "A reactor approaching retirement still orders all the fuel its remaining cycles need", "statement": "If a retirement time is set, the orders placed plus the fuel on hand are enough for every refuelling that remains before retirement (limited only by free space).", "quantifier": "all configurations, times and fuel inventories", "why_tests_cant": "Depends on the relation of remaining life, cycle phase and current (not maximal) fresh inventory.", "anchors": ["src/reactor.cc: Reactor::GetMatlRequests (n_need)"]}
{"id": "C11", "title": "Retirement empties the reactor and decommissioning never destroys fuel", "statement": "After retirement the reactor records no power and orders no fuel; in the first retired step all (decom_transmute_all) or the older half (rounded up) of the core is transmuted, exactly once; core and fresh fuel move to the spent inventory as room permits; the reactor schedules its decommissioning only when no assembly is left in core, spent or fresh inventory.", "quantifier": "all retirement times, inventory levels, pickup schedules", "why_tests_cant": "Retirement races with full spent pools and arbitrary pickup histories.", "anchors": ["src/reactor.cc: Reactor::Tick (retired branch)", "src/reactor.cc: Reactor::CheckDecommissionCondition"]}
{"id": "C12", "title": "Preference and recipe changes take effect exactly at their time", "statement": "At the tick of time t every preference/recipe change scheduled for t is applied, in order, to the fuel whose in-commodity it names, and nothing else in the fuel tables changes; at other times the tables do not change.", "quantifier": "all change tables and fuel tables, all times", "why_tests_cant": "Tests use one commodity and one or two change times.", "anchors": ["src/reactor.cc: Reactor::Tick (lines 164-200)"]}
{"id": "C13", "title": "A reactor configuration accepted at start-up cannot later index out of bounds", "statement": "If the reactor's start-up validation accepts a configuration then no later phase reads or writes outside one of the configured lists.", "quantifier": "all list-valued parameters", "why_tests_cant": "Undefined behaviour is not observable by tests, and the claim ranges over all list lengths.", "anchors": ["src/reactor.cc: Reactor::EnterNotify", "src/reactor.cc: Reactor::GetMatlRequests", "src/reactor.cc: Reactor::Tick", "src/reactor.cc: Reactor::RecordSideProduct"]}
{"id": "C14", "title": "Storage holds material at least, and no longer than, residence_time before it is ready", "statement": "Material accepted in step t is moved to the outgoing-queue in the tock of step t+residence_time (first tock at or after it if a step is skipped), never earlier and never later; only queued material can become available for sale.", "quantifier": "all arrival histories, residence times, throughput values", "why_tests_cant": "A per-item timing claim over all arrival histories.", "anchors": ["src/storage.cc: Storage::Tock", "src/storage.cc: Storage::BeginProcessing_", "src/storage.cc: Storage::ReadyMatl_", "src/storage.h: ready_time"]}
{"id": "C15", "title": "Storage releases material in arrival order and conserves it", "statement": "At all times the material sold so far, then stocks, ready, processing and inventory, read in this order, is exactly the sequence of material received (up to splitting and joining of adjacent parcels): nothing is lost, created, or overtaken, in total and per nuclide.", "quantifier": "all histories of receipts, tocks and sales", "why_tests_cant": "Conservation and order over unbounded histories.", "anchors": ["src/storage.cc: Storage::BeginProcessing_", "src/storage.cc: Storage::ProcessMat_", "src/storage.cc: Storage::ReadyMatl_"]}
{"id": "C16", "title": "Storage throughput limit", "statement": "In one tock at most `throughput` of material becomes available for sale; without discrete handling it is exactly min(throughput, queued amount).", "quantifier": "all queue contents and throughput values", "why_tests_cant": "Boundary behaviour for all parcel-size combinations.", "anchors": ["src/storage.cc: Storage::ProcessMat_"]}
{"id": "C17", "title": "Discrete handling never splits or joins a batch, and moves the longest admissible prefix", "statement": "With discrete handling every parcel put up for sale is one of the parcels received, unmodified, and the parcels moved in one tock are the longest prefix of the queue whose total does not exceed the throughput.", "quantifier": "all queues and throughput values", "why_tests_cant": "Maximality and no-split must hold for each possible list of batch sizes.", "anchors": ["src/storage.cc: Storage::ProcessMat_"]}
{"id": "C18", "title": "A storage facility with discrete handling keeps making progress", "statement": "As long as there is queued material and positive throughput, some of it eventually becomes available for sale.", "quantifier": "all queues and throughput values", "why_tests_cant": "Liveness cannot be tested.", "anchors": ["src/storage.cc: Storage::ProcessMat_"]}
{"id": "C19", "title": "Storage never holds more than its maximum inventory", "statement": "If each purchase is at most the published remaining capacity, the total material held (all four buffers) never exceeds max_inv_size.", "quantifier": "all histories", "why_tests_cant": "Invariant over unbounded histories.", "anchors": ["src/storage.cc: Storage::EnterNotify", "src/storage.h: current_capacity"]}
{"id": "C20", "title": "Storage start-up validation", "statement": "Start-up succeeds with one preference per in-commodity (defaulting to the standard preference when none is given); it fails if the numbers differ, if an (R,Q) policy's reorder point plus reorder quantity exceeds max_inv_size, if the recipe, package or transport unit is unknown, or if there is not exactly one out-commodity; the purchase policy built is the one that the parameters describe.", "quantifier": "all parameter values", "why_tests_cant": "Decision table over all inputs.", "anchors": ["src/storage.cc: Storage::EnterNotify"]}
{"id": "C21", "title": "Separations conserves mass and every nuclide", "statement": "Each processing step, feed before + streams before + leftover before equals feed after + streams after + leftover after, in total mass and for every nuclide, whatever the efficiencies, buffer limits and feed composition.", "quantifier": "all feed materials, stream definitions, buffer levels, throughputs", "why_tests_cant": "Holds for all real-valued inputs including the partially-limited case.", "anchors": ["src/separations.cc: Separations::Tick", "src/separations.cc: SepMaterial"]}
{"id": "C22", "title": "Separations splits by efficiency", "statement": "When no output buffer limits the step, the amount of each nuclide sent to each stream is its efficiency (the one given for the nuclide, else the one for its element, else 0) times the amount processed, and the remainder goes to the leftover.", "quantifier": "all compositions, efficiency tables", "why_tests_cant": "Per-nuclide claim over all inputs.", "anchors": ["src/separations.cc: SepMaterial", "src/separations.cc: Separations::Tick"]}
{"id": "C23", "title": "Separations respects throughput and stream buffer limits", "statement": "In one tick at most `throughput` is taken from the feed, and no stream buffer is filled beyond its size.", "quantifier": "all states", "why_tests_cant": "Boundary behaviour of the limiting fraction for all combinations of streams.", "anchors": ["src/separations.cc: Separations::Tick"]}
{"id": "C24", "title": "Separations pauses instead of failing when its leftover buffer is full", "statement": "When there is no room in the leftover buffer the facility halts operation until there is room; it does not abort the simulation.", "quantifier": "all states in which the leftover buffer has less room than the step would need", "why_tests_cant": "Needs all fullness levels.", "anchors": ["src/separations.cc: Separations::Tick", "src/separations.h: leftoverbuf_size doc"]}
{"id": "C25", "title": "A fully separated component never ends in the leftover", "statement": "If a stream's efficiency for a nuclide is 1, no material of that nuclide is put into the leftover.", "quantifier": "all feed compositions and buffer levels", "why_tests_cant": "Fails only when an output buffer limits the step by a fraction.", "anchors": ["src/separations.cc: Separations::Tick"]}
{"id": "C26", "title": "Accepted separation efficiencies never add to more than one for any nuclide", "statement": "If start-up validation accepts the streams, for every nuclide the efficiencies applied to it over all streams sum to at most one.", "quantifier": "all stream definitions (elements and nuclides may be mixed)", "why_tests_cant": "Needs all mixtures of element- and nuclide-level efficiencies.", "anchors": ["src/separations.cc: Separations::EnterNotify", "src/separations.cc: SepMaterial"]}
{"id": "C27", "title": "Separations survives snapshot and restart", "statement": "Saving the inventories and restoring them into a freshly created facility reproduces the same feed, leftover and stream inventories.", "quantifier": "all inventory contents", "why_tests_cant": "Round-trip law over all states.", "anchors": ["src/separations.cc: Separations::SnapshotInv", "src/separations.cc: Separations::InitInv"]}
{"id": "C28", "title": "Separations ships only what it has, from the right inventory", "statement": "A trade awarded on a stream's commodity is filled from that stream's buffer (leftover commodity from leftover) with exactly the traded amount; inventories decrease by exactly what is shipped; if total trades per commodity do not exceed the amount offered no error occurs.", "quantifier": "all trade lists and inventories", "why_tests_cant": "All trade lists.", "anchors": ["src/separations.cc: Separations::GetMatlTrades", "src/separations.cc: Separations::GetMatlBids"]}
{"id": "C29", "title": "Separations orders feed only when useful", "statement": "Feed is requested exactly when the free space in the feed buffer reaches the resource tolerance and, if a lifetime is set, the current feed is not already enough to run at full throughput until the exit time; the amount requested equals the free feed space, on every feed commodity with its preference and the configured recipe.", "quantifier": "all times, lifetimes and feed inventories", "why_tests_cant": "Edge around remaining lifetime.", "anchors": ["src/separations.cc: Separations::GetMatlRequests"]}
{"id": "C30", "title": "Mixer ratios are normalised", "statement": "After start-up the mixing ratios sum to one and are proportional to the user's ratios; if the user's ratios sum to zero they are all equal.", "quantifier": "all non-empty ratio lists", "why_tests_cant": "All real lists.", "anchors": ["src/mixer.cc: Mixer::EnterNotify"]}
{"id": "C31", "title": "Mixer output has exactly the configured ratios", "statement": "Whenever a mixing step produces material, the amount drawn from stream i is ratio_i times the amount produced; total and nuclide masses are conserved; the amount produced is the largest permitted by throughput, output space and stream inventories.", "quantifier": "all inventories, ratios, throughput", "why_tests_cant": "All real inputs.", "anchors": ["src/mixer.cc: Mixer::Tick"]}
{"id": "C32", "title": "Mixer survives snapshot and restart", "statement": "Saving the inventories and restoring them into a freshly created facility reproduces the same stream and output inventories.", "quantifier": "all inventory contents", "why_tests_cant": "Round-trip law over all states.", "anchors": ["src/mixer.cc: Mixer::SnapshotInv", "src/mixer.cc: Mixer::InitInv"]}
{"id": "C33", "title": "Mixer receives each commodity into its own stream within limits", "statement": "A delivery is put into the stream whose request it answers, requests never exceed the stream's free space, so stream inventories never exceed their sizes.", "quantifier": "all stream definitions, also with a commodity shared by several streams", "why_tests_cant": "All assignments of commodities to streams.", "anchors": ["src/mixer.cc: Mixer::GetMatlRequests", "src/mixer.cc: Mixer::AcceptMatlTrades"]}
{"id": "C34", "title": "Blend fractions are proper and hit the target weight", "statement": "For low <= target <= high weight the high and low fractions lie in [0,1], sum to one, and the mixture of the two weights equals the target (within the resource tolerance times the weight difference); for any other target an error is raised.", "quantifier": "all real weights and tolerances", "why_tests_cant": "All real inputs including equality boundaries.", "anchors": ["src/fuel_fab.cc: HighFrac", "src/fuel_fab.cc: LowFrac", "src/fuel_fab.cc: ValidWeights"]}
{"id": "C35", "title": "Atom-to-mass conversion of blend fractions is exact", "statement": "Mixing mass fractions AtomToMassFrac(f,c1,c2) of c1 and AtomToMassFrac(1-f,c2,c1) of c2 gives fractions in [0,1] that sum to one, and the resulting mixture has atom fraction f of c1 and 1-f of c2.", "quantifier": "all compositions with positive atomic masses, all f in [0,1]", "why_tests_cant": "All compositions.", "anchors": ["src/fuel_fab.cc: AtomToMassFrac"]}
{"id": "C36", "title": "Fabricated fuel has the requested weight and quantity", "statement": "Fuel blended from two streams has exactly the traded quantity (short by at most the resource tolerance, and then only when a stream is used up) and, when both fractions are outside the snapping tolerance, exactly the equivalence weight of the requested material.", "quantifier": "all stream compositions, targets, spectra (any cross-section data), trade amounts", "why_tests_cant": "Real-valued identity over all compositions and nuclear data.", "anchors": ["src/fuel_fab.cc: FuelFab::GetMatlTrades", "src/fuel_fab.cc: CosiWeight"]}
{"id": "C37", "title": "Fuel fabrication trades respecting the published constraints can be filled", "statement": "If the trades awarded satisfy the bid constraints (fissile, filler, top-up usage and throughput), then each stream is drawn by exactly the amount the constraint charged and no stream is overdrawn.", "quantifier": "all sets of requests and awarded trades", "why_tests_cant": "Depends on the agreement of converter and fabrication code for each composition.", "anchors": ["src/fuel_fab.cc: FissConverter", "src/fuel_fab.cc: FillConverter", "src/fuel_fab.cc: TopupConverter", "src/fuel_fab.cc: FuelFab::GetMatlBids", "src/fuel_fab.cc: FuelFab::GetMatlTrades"]}
{"id": "C38", "title": "Fuel fabrication conserves material and keeps streams homogeneous", "statement": "Fissile, filler and top-up inventories hold at most one homogenised parcel each after any delivery; deliveries go to the inventory that requested them; inventories never exceed their sizes; blending neither creates nor destroys mass of any nuclide.", "quantifier": "all histories", "why_tests_cant": "Invariant over unbounded histories.", "anchors": ["src/fuel_fab.cc: FuelFab::AcceptMatlTrades", "src/fuel_fab.cc: FuelFab::GetMatlRequests", "src/fuel_fab.cc: FuelFab::GetMatlTrades"]}
{"id": "C39", "title": "Every fuel request the facility can weigh is filled or rejected without a crash", "statement": "A trade within the published constraints never raises an error.", "quantifier": "all targets, including targets whose weight equals that of one stream", "why_tests_cant": "Boundary equality cases of real-valued weights.", "anchors": ["src/fuel_fab.cc: FuelFab::GetMatlTrades (lines 427-486)"]}
{"id": "C40", "title": "Enrichment balances mass and every nuclide", "statement": "For each product trade feed consumed = product shipped + tails added, in total and for each nuclide; the product has exactly the traded quantity and consists of U-235/U-238 at the requested assay.", "quantifier": "all feed inventories, requested compositions and quantities", "why_tests_cant": "Real-valued identity over all inputs.", "anchors": ["src/enrichment.cc: Enrichment::Enrich_", "src/enrichment.cc: Enrichment::Offer_"]}
{"id": "C41", "title": "Enrichment tails have the configured assay", "statement": "The uranium in the tails produced by a trade has assay exactly tails_assay, whatever feed and product assay (tails < feed, tails < product).", "quantifier": "all assays and quantities", "why_tests_cant": "Algebraic identity over all inputs.", "anchors": ["src/enrichment.cc: Enrichment::Enrich_"]}
{"id": "C42", "title": "Enrichment never exceeds its SWU capacity in a time step", "statement": "The SWU consumed by all trades of a time step is at most swu_capacity (within the generic tolerance), otherwise an error is raised; each step starts with the full capacity.", "quantifier": "all trade lists", "why_tests_cant": "All trade lists.", "anchors": ["src/enrichment.cc: Enrichment::Tick", "src/enrichment.cc: Enrichment::GetMatlTrades", "src/enrichment.cc: Enrichment::Enrich_"]}
{"id": "C43", "title": "The SWU and feed recorded for a time step are those used in that step", "statement": "The value recorded at the end of a time step equals the SWU (feed) consumed by the trades of that step, zero if there were none.", "quantifier": "all histories of steps with and without trades", "why_tests_cant": "Stale values appear only after particular histories.", "anchors": ["src/enrichment.cc: Enrichment::Tock", "src/enrichment.cc: Enrichment::GetMatlTrades"]}
{"id": "C44", "title": "Enrichment bids only on feasible assays", "statement": "A bid is made on a product request exactly when there is feed, the requested material contains U-235 and U-238 with assay above tails_assay and not above max_enrich; the offer has the requested quantity and uranium assay.", "quantifier": "all requests", "why_tests_cant": "All compositions.", "anchors": ["src/enrichment.cc: Enrichment::GetMatlBids", "src/enrichment.cc: Enrichment::ValidReq"]}
{"id": "C45", "title": "Enrichment prefers feed richer in U-235 and refuses feed without it", "statement": "After preference adjustment, with ordering on, bids without U-235 have negative preference, and of two bids with U-235 the one with strictly larger U-235 fraction has the strictly larger preference.", "quantifier": "all bid lists", "why_tests_cant": "All permutations and values; ties hit undefined behaviour of the sort.", "anchors": ["src/enrichment.cc: Enrichment::AdjustMatlPrefs", "src/enrichment.cc: SortBids"]}
{"id": "C46", "title": "Enrichment trades respecting the published constraints can be filled", "statement": "If the awarded trades respect the published feed and SWU constraints, filling them never fails for lack of feed.", "quantifier": "all feed inventories (also with impurities) and trade lists", "why_tests_cant": "Needs feed with non-uranium content.", "anchors": ["src/enrichment.cc: Enrichment::GetMatlBids", "src/enrichment.h: NatUConverter", "src/enrichment.cc: Enrichment::Enrich_"]}
{"id": "C47", "title": "Sink requests and inventory stay within limits", "statement": "The amount requested (of material, and of products) never exceeds the per-step capacity nor the free space; if at most the requested amount is delivered per step, all kinds together, the inventory never exceeds max_inv_size and every such delivery is accepted without an error.", "quantifier": "all histories, all outcomes of the random draws", "why_tests_cant": "Random sizes: all draws; all histories.", "anchors": ["src/sink.cc: Sink::Tick", "src/sink.cc: Sink::SetRequestAmt", "src/sink.cc: Sink::GetMatlRequests", "src/sink.cc: Sink::AcceptMatlTrades", "src/sink.cc: Sink::AcceptGenRsrcTrades"]}
{"id": "C48", "title": "Sink buys exactly on its schedule and never stops buying", "statement": "With a random frequency the sink requests material only in its drawn buy steps; consecutive buy steps are separated by exactly the drawn intervals (so within [min,max]); it never stops having a future buy step. Without a random frequency every step is a buy step. With the default size a buy step asks for all that the capacity and the space allow.", "quantifier": "all draw sequences in the documented range of the bounds (lower bound at least 1)", "why_tests_cant": "Liveness over unbounded histories; zero draws.", "anchors": ["src/sink.cc: Sink::Tick", "src/sink.cc: Sink::SetNextBuyTime", "src/sink.cc: Sink::EnterNotify"]}
{"id": "C49", "title": "Sink receives at most its capacity per step over all resource kinds", "statement": "In one step the material and product requested together do not exceed the per-step capacity.", "quantifier": "all states", "why_tests_cant": "Combination of two request functions.", "anchors": ["src/sink.cc: Sink::GetMatlRequests", "src/sink.cc: Sink::GetGenRsrcRequests"]}
{"id": "C50", "title": "Source never supplies more than its inventory, and loses nothing", "statement": "Inventory left plus everything shipped equals the initial inventory at all times, and each bid is at most min(throughput, inventory, requested).", "quantifier": "all trade histories and packaging schemes", "why_tests_cant": "All histories.", "anchors": ["src/source.cc: Source::GetMatlBids", "src/source.cc: Source::GetMatlTrades", "src/source.cc: Source::Build"]}
{"id": "C51", "title": "Source supplies the promised composition", "statement": "Each shipment has the source's recipe composition if one is configured, and the requested composition otherwise.", "quantifier": "all trades", "why_tests_cant": "All trades.", "anchors": ["src/source.cc: Source::GetMatlTrades"]}
{"id": "C52", "title": "Conversion conserves material and respects its throughput", "statement": "Input + output + shipped equals everything accepted, per nuclide; one tick converts exactly min(throughput, input); input never exceeds its capacity.", "quantifier": "all histories", "why_tests_cant": "All histories.", "anchors": ["src/conversion.cc: Conversion::Convert", "src/conversion.cc: Conversion::AcceptMatlTrades", "src/conversion.cc: Conversion::GetMatlTrades"]}
{"id": "C53", "title": "Conversion requests no more than it can process and hold", "statement": "The amount requested per step is the minimum of throughput and free input capacity.", "quantifier": "all states", "why_tests_cant": "All states.", "anchors": ["src/conversion.cc: Conversion::GetMatlRequests", "src/conversion.h doc"]}
{"id": "C54", "title": "Deployment follows the schedule exactly", "statement": "A DeployInst whose lists have matching lengths, whose prototypes exist and whose build times lie in the future is built without an error, and at every time step exactly the facilities of the schedule are deployed: for each entry due then, n_build of the entry's prototype, with the entry's lifetime where lifetimes are given, under the original prototype's name. No existing prototype is changed. Inconsistent list lengths and past build times are rejected. The same holds for several institutions in one simulation.", "quantifier": "all schedules, prototype registries, lifetimes, and numbers of institutions", "why_tests_cant": "Name construction for lifetime-overridden prototypes may clash for some names.", "anchors": ["src/deploy_inst.cc: DeployInst::Build", "src/deploy_inst.cc: DeployInst::EnterNotify"]}
{"id": "C55", "title": "Institutions' producer registries equal their operating facilities", "statement": "After any history of builds, decommissionings and restarts the producers registered with a deploy or manager institution are exactly its operating commodity-producing facilities, and its total capacity for any commodity is the sum of theirs.", "quantifier": "all build/decommission/restart histories", "why_tests_cant": "Invariant over histories.", "anchors": ["src/deploy_inst.cc: DeployInst::BuildNotify", "src/deploy_inst.cc: DeployInst::DecomNotify", "src/manager_inst.cc: ManagerInst::EnterNotify", "src/manager_inst.cc: ManagerInst::BuildNotify", "src/manager_inst.cc: ManagerInst::DecomNotify"]}
{"id": "C56", "title": "Growth region orders capacity exactly when demand is unmet", "statement": "In each tick, for each demanded commodity, builds are ordered if and only if demand exceeds supply, for the difference, and exactly the number of each prototype the build decision names is scheduled for the next time step with the named builder; nothing else is scheduled. Supply is the capacity of the operating facilities of the registered institutions. Decisions naming something that is no institution or no agent are reported as an error.", "quantifier": "all demand functions, supplies, worlds and build decisions", "why_tests_cant": "All decisions of the solver.", "anchors": ["src/growth_region.cc: GrowthRegion::Tick", "src/growth_region.cc: GrowthRegion::OrderBuilds"]}
{"id": "C57", "title": "During an outage the core is refilled from the fresh inventory as far as possible", "statement": "From a cycle end until the next cycle start, after every tick either the core is full or no fresh assembly is left over.", "quantifier": "all histories, all steps between a cycle end and the following cycle start before retirement", "why_tests_cant": "Whether fuel is left unused while the core has room depends on the interleaving of failed discharges and partial deliveries over arbitrarily long outages.", "anchors": ["src/reactor.cc: Reactor::Tick", "src/reactor.cc: Reactor::Load"]}
{"id": "C58", "title": "A running storage facility never fails", "statement": "No time step of a storage facility with legal input (throughput and max_inv_size not negative, lists consistent) raises an error or has undefined behaviour, provided no more is sold than is in stock.", "quantifier": "all histories, throughputs, queue contents, both handling modes", "why_tests_cant": "tests use a few throughputs and short queues; an error can depend on the queue and on boundary values such as a zero throughput", "anchors": ["src/storage.cc: Storage::Tock", "src/storage.cc: Storage::ProcessMat_", "src/storage.cc: Storage::ReadyMatl_"]}
{"id": "C59", "title": "Storage reports its true demand and supply", "statement": "At the end of each step the demand recorded is the remaining capacity (never negative), filed under the most preferred in-commodity (the first one among equals), and the supply recorded is the amount available for sale, filed under the out-commodity.", "quantifier": "all histories, preference lists and buffer contents", "why_tests_cant": "depends on every preference list and on the combination of four buffers; tests do not read the time series", "anchors": ["src/storage.cc: Storage::Tock", "src/storage.h: current_capacity"]}
{"id": "C60", "title": "Conversion honours its offers", "statement": "While there is stock every positive request on the out-commodity receives a bid of min(stock, requested) of the stock's composition, the bids are limited by the stock, and everything shipped in the step has the composition that was offered; without stock there is no bid.", "quantifier": "all histories of deliveries, requests and awarded trades", "why_tests_cant": "the composition of the stock depends on the whole delivery history (bulk buffers blend); tests use one blank material", "anchors": ["src/conversion.cc: Conversion::GetMatlBids", "src/conversion.cc: Conversion::GetMatlTrades"]}
{"id": "C61", "title": "A conversion time step never fails when trades respect the offers", "statement": "If the traded amounts stay within the stock offered and deliveries within the amount requested, no error occurs and each trade is filled with exactly its amount.", "quantifier": "all histories, throughputs and capacities in the documented ranges, all sets of trades", "why_tests_cant": "tests use a single trade and one throughput; the failure needs a boundary throughput and a non-empty input", "anchors": ["src/conversion.cc: Conversion::Convert", "src/conversion.cc: Conversion::GetMatlTrades", "src/conversion.cc: Conversion::AcceptMatlTrades"]}
{"id": "C62", "title": "Conversion survives snapshot and restart", "statement": "Saving the inventories and restoring them into a freshly created facility reproduces the same input and output inventories.", "quantifier": "all reachable inventories", "why_tests_cant": "no test restarts a simulation; the set of saved buffers is decided by the declarations, not by any executed test", "anchors": ["src/conversion.h: output", "src/conversion.cc: snapshotinv / initinv pragmas"]}
{"id": "C63", "title": "Separations records what it moves", "statement": "In each tick that processes feed, the amounts recorded as separated add, per stream, to what the stream's inventory gained; the supply series holds the stream and leftover quantities after the tick; the amount recorded as being separated equals what the feed lost.", "quantifier": "all feed materials, stream definitions, buffer levels", "why_tests_cant": "Unit tests never read the operation log, and only a few compositions and unlimited buffers are tried.", "anchors": ["src/separations.cc: Separations::Tick, Separations::Record"]}
{"id": "C64", "title": "Separations offers only what it holds, and offers all of it that is asked for", "statement": "For every stream (and the leftover) that is requested and holds at least the tolerance, one bid portfolio exists; each request gets the parcels of that inventory in order until the request is covered, and the portfolio is limited by the inventory's quantity.", "quantifier": "all inventories and all sets of requests", "why_tests_cant": "Tests have one sink per commodity; number, order and size of parcels and requests are unbounded.", "anchors": ["src/separations.cc: Separations::GetMatlBids"]}
{"id": "C65", "title": "A full stream buffer pauses separations", "statement": "If some stream's buffer has no room and the feed contains material for that stream, the tick changes no quantity in any inventory: nothing is processed until there is room.", "quantifier": "all feed materials, stream definitions and states with a full stream buffer", "why_tests_cant": "No unit test fills a stream buffer; the claim ranges over all streams and compositions.", "anchors": ["src/separations.cc: Separations::Tick"]}
{"id": "C66", "title": "Mixer operation never fails", "statement": "With non-negative mixing ratios and an exchange that respects requests and stock, no sequence of time steps ends in an error.", "quantifier": "all configurations, all histories", "why_tests_cant": "All histories.", "anchors": ["src/mixer.cc: Mixer::Tick", "src/mixer.cc: Mixer::AcceptMatlTrades"]}
{"id": "C67", "title": "Mixer conserves every nuclide over its life", "statement": "At any time, for each nuclide, what was received equals what is held in the streams and the output plus what was shipped.", "quantifier": "all histories of deliveries and sales", "why_tests_cant": "All histories.", "anchors": ["src/mixer.cc: Mixer::Tick", "src/mixer.cc: Mixer::AcceptMatlTrades"]}
{"id": "C68", "title": "Mixer records what it can supply and demands", "statement": "Each step records as supply the mixed material on hand after mixing, and for each commodity of each stream the stream's free space as demand.", "quantifier": "all configurations, all histories", "why_tests_cant": "All histories.", "anchors": ["src/mixer.cc: Mixer::Tick", "src/mixer.cc: Mixer::GetMatlRequests"]}
{"id": "C69", "title": "The equivalence weight measures net neutron production per atom", "statement": "The weight of a composition is the atom-fraction average of the nuclides' net neutron production, shifted and scaled so that pure U238 weighs 0 and pure Pu239 weighs 1; it depends on the relative composition only.", "quantifier": "all compositions, spectra, nuclear data with different production for U238 and Pu239", "why_tests_cant": "All compositions and data.", "anchors": ["src/fuel_fab.cc: CosiWeight"]}
{"id": "C70", "title": "Fuel is offered for exactly the requests the streams can meet", "statement": "A facility whose recipes are known answers with a bid portfolio exactly if it has some throughput and its fuel is requested. A request is offered fuel exactly if its target weight lies between the weights of filler and fissile stream, or (with top-up in stock) of fissile and top-up stream. An offer has the requested quantity and is a blend of the two streams (each with the composition of its stock, or of its recipe while the stock is empty; the fissile stream has the filler's composition while it has neither). The conversions published with the offer say how many kilograms of each stream are in it, and the limits published are the stocks of the streams (or a negligible amount for an empty one) and the throughput.", "quantifier": "all states, requests, recipes", "why_tests_cant": "All real weights and stocks.", "anchors": ["src/fuel_fab.cc: FuelFab::GetMatlBids"]}
{"id": "C71", "title": "Supplied fuel has the same weight as the requested material", "statement": "All material supplied for a trade has the same equivalence weight as the requested material (facility documentation).", "quantifier": "all trades within the published constraints", "why_tests_cant": "Equality boundaries of real-valued weights.", "anchors": ["src/fuel_fab.h: class FuelFab documentation (lines 42-43)", "src/fuel_fab.cc: FuelFab::GetMatlTrades"]}
{"id": "C72", "title": "Separations can be decommissioned only when nothing is left behind", "statement": "The facility reports that it can be decommissioned exactly when it holds no material.", "quantifier": "all states", "why_tests_cant": "All states; no unit test covers it.", "anchors": ["src/separations.cc: Separations::CheckDecommissionCondition"]}
{"id": "C73", "title": "Enrichment asks for exactly the free feed space and never overfills it", "statement": "Each step the facility requests max_feed_inventory minus its feed (nothing if that is within the resource tolerance) of its feed recipe; if deliveries never exceed the requests the feed never exceeds max_feed_inventory by more than the tolerance.", "quantifier": "all histories", "why_tests_cant": "All histories of deliveries, sales and blending.", "anchors": ["src/enrichment.cc: Enrichment::GetMatlRequests", "src/enrichment.cc: Enrichment::Request_", "src/enrichment.cc: Enrichment::AddMat_"]}
{"id": "C74", "title": "Enrichment conserves material over its lifetime", "statement": "At every time initial feed + everything received = everything shipped (product and tails) + feed and tails held, in total and for each nuclide.", "quantifier": "all histories", "why_tests_cant": "Unbounded histories.", "anchors": ["src/enrichment.cc: Enrichment::Build", "src/enrichment.cc: Enrichment::AcceptMatlTrades", "src/enrichment.cc: Enrichment::GetMatlTrades"]}
{"id": "C75", "title": "Every product assay that is bid on can be produced", "statement": "If the facility bids on a request and the trade is awarded within the published constraints, the trade is served, whatever the requested assay above tails_assay.", "quantifier": "all requested assays, also below the feed assay", "why_tests_cant": "Needs a product poorer than the feed.", "anchors": ["src/enrichment.cc: Enrichment::ValidReq", "src/enrichment.cc: Enrichment::Enrich_"]}
{"id": "C76", "title": "Enrichment offers exactly its tails and sells them without touching feed or SWU", "statement": "With requests for tails and tails in stock every parcel of tails is offered to every request, limited to the tails held; a tails sale ships the smaller of the traded amount and the tails held, and leaves feed, SWU and the enrichment records alone.", "quantifier": "all stocks, requests and amounts", "why_tests_cant": "All stocks and amounts.", "anchors": ["src/enrichment.cc: Enrichment::GetMatlBids", "src/enrichment.cc: Enrichment::GetMatlTrades"]}
{"id": "C77", "title": "Sink asks for every commodity with its own preference, and records what it asks for", "statement": "Whenever the sink requests material it requests every input commodity, each with its own preference (1 if none are given) and all with the configured recipe; products are requested in the same amount for every commodity, and the recorded demand for each commodity is that amount. When it requests nothing, nothing is recorded. Preferences that do not match the commodities one to one are rejected on entry.", "quantifier": "all configurations and histories", "why_tests_cant": "All numbers of commodities, all histories and draws.", "anchors": ["src/sink.cc: Sink::EnterNotify", "src/sink.cc: Sink::GetMatlRequests", "src/sink.cc: Sink::GetGenRsrcRequests", "src/sink.cc: Sink::Tick"]}
{"id": "C78", "title": "Sink keeps everything it receives", "statement": "The inventory is at every time exactly the list of all resources delivered so far, unchanged and in the order of delivery.", "quantifier": "all histories", "why_tests_cant": "Unbounded histories.", "anchors": ["src/sink.cc: Sink::AcceptMatlTrades", "src/sink.cc: Sink::AcceptGenRsrcTrades"]}
{"id": "C79", "title": "Sink's random request sizes follow the configured distribution", "statement": "With random_size_type UniformReal or UniformInt (NormalReal or NormalInt) the size requested is a real or whole number drawn from the uniform (normal) distribution over the available amount.", "quantifier": "all documented distributions, all draws", "why_tests_cant": "The tests exercise only two of the four distributions.", "anchors": ["src/sink.cc: Sink::SetRequestAmt", "src/sink.h: random_size_type"]}
{"id": "C80", "title": "Source fills the trades it is awarded", "statement": "If the trades awarded in a step are positive and together within the source's constraint, all are served without an error and at most the throughput is sent in the step; without packaging and transport limits every trade gets exactly its amount, in order. No more packages are sent than the transport unit allows.", "quantifier": "all histories, packaging schemes and transport units", "why_tests_cant": "All histories, packaging schemes and transport units.", "anchors": ["src/source.cc: Source::GetMatlTrades"]}
{"id": "C81", "title": "Source offers what it has to everyone asking", "statement": "The source bids exactly when its commodity is requested and min(throughput, inventory) is at least the tolerance; this minimum is the recorded supply and the constraint on the trades. All offers to a request together are at most min(requested, throughput, inventory) and have the recipe's composition, or the requested one if there is no recipe; without packaging there is exactly one offer of that amount per request. With packaging the offers are the packages of that amount, in order; when fewer packages can be shipped than there are, they are the first ones, as many as can be shipped.", "quantifier": "all requests, histories, packaging schemes and transport units", "why_tests_cant": "All combinations of requests and stock.", "anchors": ["src/source.cc: Source::GetMatlBids"]}
{"id": "C82", "title": "A manager institution offers exactly its listed producer prototypes", "statement": "On entering the simulation a ManagerInst registers as buildable exactly those of its listed prototypes that produce a commodity, once per list entry and in order; a listed prototype that does not exist is reported as an error.", "quantifier": "all prototype lists, registries and existing facilities", "why_tests_cant": "All lists; the unit tests use none.", "anchors": ["src/manager_inst.cc: ManagerInst::EnterNotify"]}
{"id": "C83", "title": "Growth region's demand is the continuous curve its pieces describe", "statement": "The demand for a commodity is zero before the first start time, starts there with the value of the first function, and on each interval from one start time up to and including the next it grows as the function given for that interval; so it has no jumps between pieces.", "quantifier": "all demands with increasing start times, all functions, all times", "why_tests_cant": "The unit test registers one function by hand and never reads a piecewise demand.", "anchors": ["src/growth_region.cc: GrowthRegion::AddCommodityDemand_", "src/growth_region.cc: GrowthRegion::EnterNotify"]}
{"id": "C84", "title": "Capacity follows demand with one step delay", "statement": "In a simulation where every build decision is carried out by registered institutions and offers at least the capacity asked for, no step fails, and at each tick the capacity of the facilities operating under the region's institutions is at least the demand at the previous tick, less the capacity of facilities decommissioned in between, for every demanded commodity.", "quantifier": "all histories of decisions, decommissionings and other builds; all demands", "why_tests_cant": "A statement about region, institutions and kernel together over all histories.", "anchors": ["src/growth_region.cc: GrowthRegion::Tick", "src/growth_region.cc: GrowthRegion::OrderBuilds", "src/manager_inst.cc: ManagerInst::BuildNotify", "src/manager_inst.cc: ManagerInst::DecomNotify"]}
{"id": "C85", "title": "Growth region's registers follow its institutions", "statement": "After any history of institutions entering and leaving, and of restarts, the institutions counted for supply and available for building are exactly the region's present institutions that can manage producers or build.", "quantifier": "all histories of institutions and restarts", "why_tests_cant": "Invariant over histories; the unit tests register no institutions.", "anchors": ["src/growth_region.cc: GrowthRegion::EnterNotify", "src/growth_region.cc: GrowthRegion::Register_", "src/growth_region.cc: GrowthRegion::Unregister_", "src/growth_region.cc: GrowthRegion::DecomNotify"]}
{"id": "C86", "title": "Enrichment's constraints charge what the offer takes", "statement": "For an offered material containing uranium, the feed and SWU charges follow from the balance of uranium and uranium-235 between feed, product and tails: the feed charge is the uranium fed divided by the offer's uranium mass fraction, the SWU charge is the gain in separative value.", "quantifier": "all offers, also with impurities; all assays and value functions", "why_tests_cant": "The unit test compares two converters on one material.", "anchors": ["src/enrichment.h: SWUConverter", "src/enrichment.h: NatUConverter"]}
{"id": "C87", "title": "Reactor: a restarted simulation goes on as if uninterrupted", "statement": "Saving a reactor succeeds at every point of a history within the exchange contract and leaves the reactor as it is. Loading what was saved succeeds; the loaded reactor issues the same orders, offers, shipments, power and event records in all remaining steps.", "quantifier": "all inputs, all histories, every step at which the simulation is saved", "why_tests_cant": "The unit tests never save and reload a facility in the middle of a history; the claim is about every point of every history.", "anchors": ["src/reactor.h: #pragma cyclus var members", "src/reactor.cc: InitFrom, SnapshotInv, InitInv, EnterNotify"]}
{"id": "C88", "title": "Storage: a restarted simulation goes on as if uninterrupted", "statement": "Saving and loading a storage facility at any step preserves everything it holds, how long each parcel has waited, its preferences and limits; all later releases, sales and records are the same for the same deliveries (what the toolkit's buying policy remembers aside).", "quantifier": "all inputs, all histories, every step at which the simulation is saved", "why_tests_cant": "The unit tests never save and reload a facility in the middle of a history; the claim is about every point of every history.", "anchors": ["src/storage.h: #pragma cyclus var members", "src/storage.cc: InitFrom, EnterNotify"]}
{"id": "C89", "title": "FuelFab: a restarted simulation goes on as if uninterrupted", "statement": "Saving a fuel fabrication plant succeeds at any step; the loaded plant has the same inventories and preferences and requests, offers, ships and accepts the same from then on.", "quantifier": "all inputs, all histories, every step at which the simulation is saved", "why_tests_cant": "The unit tests never save and reload a facility in the middle of a history; the claim is about every point of every history.", "anchors": ["src/fuel_fab.h: #pragma cyclus var members", "src/fuel_fab.cc: EnterNotify"]}
{"id": "C90", "title": "Enrichment: a restarted simulation goes on as if uninterrupted", "statement": "Saving an enrichment plant succeeds at any step; the loaded plant has the same feed and tails and from then on requests, offers, ships and records the same, including the recorded use of SWU and feed per time step.", "quantifier": "all inputs, all histories, every step at which the simulation is saved", "why_tests_cant": "The unit tests never save and reload a facility in the middle of a history; the claim is about every point of every history.", "anchors": ["src/enrichment.h: #pragma cyclus var members, intra_timestep_swu_, intra_timestep_feed_", "src/enrichment.cc: Tock"]}
{"id": "C91", "title": "Sink: a restarted simulation goes on as if uninterrupted", "statement": "Saving a sink succeeds at any step; the loaded sink has the same inventory and preferences and asks for the same in all remaining steps, for the same random draws.", "quantifier": "all inputs, all histories, every step at which the simulation is saved", "why_tests_cant": "The unit tests never save and reload a facility in the middle of a history; the claim is about every point of every history.", "anchors": ["src/sink.h: nextBuyTime, requestAmt", "src/sink.cc: EnterNotify, GetMatlRequests, Tick"]}
{"id": "C92", "title": "Source: a restarted simulation goes on as if uninterrupted", "statement": "Saving a source succeeds at any step; the loaded source has the remaining inventory (it is not filled again) and offers and ships the same from then on.", "quantifier": "all inputs, all histories, every step at which the simulation is saved", "why_tests_cant": "The unit tests never save and reload a facility in the middle of a history; the claim is about every point of every history.", "anchors": ["src/source.h: #pragma cyclus var members", "src/source.cc: InitFrom, Build"]}
{"id": "C93", "title": "Advertised production capacities", "statement": "A source advertises to institutions and regions exactly its throughput of its commodity; a storage facility its throughput of its first output commodity; a reactor its power and each side product with its quantity, the first entry counting if a commodity appears twice. Clones of any generation advertise the same. Too few side product quantities are undefined behaviour.", "quantifier": "all inputs, commodities and generations of clones", "why_tests_cant": "The unit tests query one commodity of one facility.", "anchors": ["src/source.cc: InitFrom", "src/storage.cc: InitFrom", "src/reactor.cc: InitFrom"]}
{"id": "C94", "title": "Double-precision rounding never changes a reactor's orders", "statement": "The number of assemblies a reactor still needs until its retirement, and the number it transmutes when it retires, are computed in double precision (division, ceiling, products, sums, conversion to int). For all 32-bit inputs the result is the exact one; if the exact number does not fit an int the conversion is undefined, and not otherwise.", "quantifier": "all 32-bit ints for times, cycle lengths and assembly counts", "why_tests_cant": "Rounding of a quotient past an integer would show for a few of 2^64 pairs only; tests try a handful.", "anchors": ["src/reactor.cc: GetMatlRequests (n_cycles_left, n_need)", "src/reactor.cc: Tick (Transmute(ceil(...)))"]}
{"id": "C95", "title": "A network of facilities neither makes nor loses mass", "statement": "Take any number of facilities of any archetypes, deployed at any time steps, whose trades are closed: in every time step the parcels shipped by some of them are exactly the parcels received by some of them (regardless of object ids). Then the mass all of them hold at the end is the mass they were built with (sources' inventories, enrichment's initial feed, reactors' initial fuel). Conditions: those under which each archetype by itself accounts for its material, in particular a source packs each trade into at most one package (see C50).", "quantifier": "all networks, all configurations, all histories of any length, all tolerances >= 0", "why_tests_cant": "A leak may need a particular combination of archetypes, deployment times and partial trades; tests run single facilities or tiny scenarios.", "anchors": ["src/reactor.cc", "src/storage.cc", "src/conversion.cc", "src/separations.cc", "src/mixer.cc", "src/fuel_fab.cc", "src/enrichment.cc", "src/sink.cc", "src/source.cc"]}
{"id": "C96", "title": "Without reactors no nuclide is made or lost in a network", "statement": "In a closed network (C95) without reactors and without sources that lack a recipe, the mass of every nuclide held at the end is the mass the facilities were built with; for separations and enrichment this is claimed for resource tolerance zero (it is false otherwise, see C21 and C40).", "quantifier": "all networks, all nuclides, all configurations, all histories of any length", "why_tests_cant": "Same as C95, and tests compare a few nuclides of a few recipes.", "anchors": ["src/storage.cc", "src/conversion.cc", "src/separations.cc", "src/mixer.cc", "src/fuel_fab.cc", "src/enrichment.cc", "src/sink.cc", "src/source.cc"]}
{"id": "C97", "title": "A reactor's event table accounts for every assembly", "statement": "The counts in a reactor's LOAD, DISCHARGE and TRANSMUTE records are true: at any time the core holds what it held at the start plus the assemblies recorded as loaded minus those recorded as discharged; fresh and spent inventory together hold what they held plus received minus loaded plus discharged minus shipped, and until retirement this also holds of each of them. Until retirement a TRANSMUTE record appears exactly in steps with a CYCLE_END record and names a full batch, or the whole core if it has fewer assemblies; after retirement nothing is loaded, and the only TRANSMUTE record is that of the first step, which names all or (rounded up) half of the configured core, as far as present.", "quantifier": "all consistent configurations, all legitimate start states, all histories of any length, all exchange results that honour the contract", "why_tests_cant": "The counts have to add up over histories in which discharges fail, fuel is short, deliveries exceed the free core space and the reactor retires mid-cycle.", "anchors": ["src/reactor.cc: Reactor::Tick", "src/reactor.cc: Reactor::AcceptMatlTrades", "src/reactor.cc: Reactor::Load", "src/reactor.cc: Reactor::Discharge", "src/reactor.cc: Reactor::Transmute", "src/reactor.cc: Reactor::Record"]}
{"id": "C98", "title": "A reactor's recorded supply and demand are what it has and wants", "statement": "In every step a reactor records, for each assembly it orders, a demand of one assembly size on the first of its fuel commodities with the highest preference in force, and no other demand. In every step before retirement in which a discharge succeeds it records for each fuel (in configured order) the mass of spent fuel then waiting to leave on that fuel's output commodity; in a step without a discharge it records no supply.", "quantifier": "all consistent configurations, all legitimate start states, all histories of any length", "why_tests_cant": "Preferences and recipes change on schedule, and the waiting mass depends on the whole history of discharges and trades.", "anchors": ["src/reactor.cc: Reactor::GetMatlRequests", "src/reactor.cc: Reactor::Discharge", "src/reactor.cc: Reactor::PeekSpent"]}
{"id": "C99", "title": "A well supplied reactor keeps its calendar", "statement": "From a CYCLE_START on, as long as no discharge fails and the core is full whenever a refuelling period ends, cycles start exactly every cycle_time + refuel_time steps and full power is reported in exactly the first cycle_time steps of each such period. In particular a new reactor without retirement date, whose orders are all filled and whose spent fuel is all taken away in each step, keeps this calendar from its first step on (if the spent inventory can hold a batch).", "quantifier": "all consistent configurations with cycle_time >= 1 and refuel_time >= 0, all histories of any length before retirement", "why_tests_cant": "Tests simulate a few periods of a few configurations; a drift of the calendar may need many periods or particular sizes of batch, core and inventories.", "anchors": ["src/reactor.cc: Reactor::Tick", "src/reactor.cc: Reactor::Tock", "src/reactor.cc: Reactor::GetMatlRequests", "src/reactor.cc: Reactor::AcceptMatlTrades"]}
{"id": "C100", "title": "A reactor offers spent fuel to everyone who asks", "statement": "In each exchange the reactor bids on an out-commodity exactly if it is requested and spent fuel of that commodity is waiting, with one portfolio per commodity. Each request is offered the oldest waiting assemblies of the commodity: the fewest that cover the requested quantity, all if they do not suffice, and at least one.", "quantifier": "all histories, all requests by others", "why_tests_cant": "All combinations of waiting fuel and requests.", "anchors": ["src/reactor.cc: Reactor::GetMatlBids", "src/reactor.cc: Reactor::PeekSpent"]}
{"id": "C101", "title": "Separations keeps its feed and leftover within their sizes", "statement": "Over its whole life, the feed store never holds more than its configured size when deliveries stay within what was ordered, and the leftover store never exceeds its size by more than the resource tolerance per time step.", "quantifier": "all configurations and histories of requests, trades and deliveries", "why_tests_cant": "Needs all interleavings of deliveries, limited steps that put feed back, and sales.", "anchors": ["src/separations.cc: Separations::Tick", "src/separations.cc: Separations::GetMatlRequests", "src/separations.cc: Separations::AcceptMatlTrades"]}
{"id": "C102", "title": "Separations with room for its products keeps working at full throughput", "statement": "Whenever every product buffer has room for one step's throughput, the tick succeeds and processes min(throughput, feed), and trades and deliveries within the offers and orders are carried out exactly; whatever the feed's composition and the (valid) efficiencies.", "quantifier": "all valid configurations, all histories of requests, trades and deliveries", "why_tests_cant": "A failure depends on rare combinations of trace amounts and stream definitions.", "anchors": ["src/separations.cc: Separations::Tick", "src/separations.cc: SepMaterial", "src/separations.cc: Separations::GetMatlTrades", "src/separations.cc: Separations::AcceptMatlTrades"]}
{"id": "C103", "title": "An enrichment facility goes through any orderly simulation without failing", "statement": "If every delivery stays within what was asked for and every trade is awarded on the facility's bids within its published constraints, no time step of the simulation fails and every trade is served in full with exactly the material offered.", "quantifier": "all configurations, all scenarios of deliveries, requests and awarded trades, of any length", "why_tests_cant": "A failure in a late step depends on the blend of feed left by all earlier deliveries and sales.", "anchors": ["src/enrichment.cc: Enrichment::GetMatlBids", "src/enrichment.cc: Enrichment::GetMatlTrades", "src/enrichment.cc: Enrichment::Enrich_", "src/enrichment.cc: Enrichment::AddMat_"]}
{"id": "C104", "title": "Fuel fabrication's mixing fractions survive floating-point rounding", "statement": "Computed in double precision, the fractions of the two streams exist exactly if the target's weight lies between those of the streams; they are numbers from 0 to 1, never NaN or infinite, and add up to one up to half a rounding unit; a richer target never gets less of the richer stream; the fraction differs from the exact one by at most the tolerance and four rounding units; at the ends it is exactly 0 or 1. The mass fraction is the stream's part of the total mass up to a few rounding units per nuclide. What is drawn from each stream for an order is that fraction of the order up to rounding, never negative and never more than the order.", "quantifier": "all double weights of magnitude up to 2^1022, all tolerances, all compositions of up to 2^50 nuclides, all order sizes", "why_tests_cant": "There are 2^192 triples of doubles, and rounding faults show for few of them.", "anchors": ["src/fuel_fab.cc: ValidWeights", "src/fuel_fab.cc: HighFrac", "src/fuel_fab.cc: LowFrac", "src/fuel_fab.cc: AtomToMassFrac", "src/fuel_fab.cc: FuelFab::GetMatlTrades"]}
{"id": "C105", "title": "Separations accepts efficiencies that add up to one and rejects those that add up to more", "statement": "If the efficiencies entered for a nuclide or element add up to at most one over all streams, the facility starts; if they add up to more than one, it refuses its input. Floating-point rounding makes no difference.", "quantifier": "all numbers of streams, all efficiencies as decimal numbers of the input file, read as the nearest doubles", "why_tests_cant": "Whether rounding pushes a sum over one depends on the digits and the order of the summands.", "anchors": ["src/separations.cc: Separations::EnterNotify"]}
{"id": "C106", "title": "The Mixer mixes correctly and never fails despite floating-point rounding", "statement": "Computed in double precision, the mixing ratios in use are the shares entered, and add up to one, up to a few rounding units; each tick mixes the largest quantity that stocks, space and throughput allow, and mixes nothing only if one of them is zero; it takes from no stream more than its stock, takes parts in the ratios asked for, and the mixture is their sum, all up to a few rounding units; and no tick fails because of rounding.", "quantifier": "all double ratios, stocks, spaces and throughputs (in the ranges stated), up to 2^20 streams", "why_tests_cant": "Whether a product of a rounded quotient exceeds the stock depends on the digits of the ratio and the stock.", "anchors": ["src/mixer.cc: Mixer::EnterNotify", "src/mixer.cc: Mixer::Tick"]}
{"id": "C107", "title": "A reactor's life is the same in machine arithmetic", "statement": "Over its whole life, a reactor computing with 32-bit ints and double-precision floats stores, orders, offers, ships and records exactly what unbounded integers and exact fractions of cycles would give, and meets no integer overflow and no undefined conversion, as long as its assembly counts, times and the number of assemblies needed until its exit time fit an int. Where they do not fit, its first time step can already be undefined although every single input is an int.", "quantifier": "all consistent configurations, start states, histories of the exchange and lifetimes within the bounds", "why_tests_cant": "Overflow depends on sums of inputs, the cycle counter and the clock over the whole life; no test runs near the limits of an int.", "anchors": ["src/reactor.cc: Reactor::Tick", "src/reactor.cc: Reactor::GetMatlRequests", "src/reactor.cc: Reactor::AcceptMatlTrades", "src/reactor.cc: Reactor::Tock", "src/reactor.cc: Reactor::Discharge", "src/reactor.cc: Reactor::Load"]}
{"id": "C108", "title": "Separating in floating point", "statement": "Computed in double precision, a time step of a separations facility separates the largest part of its feed for which every product stream fits its buffer, pushes to each stream at most its share, returns the unprocessed part to the feed and the rest to the leftover, with quantities that add up to the feed up to a few units in the last place; and the step never fails.", "quantifier": "all feeds, product streams and free spaces within wide magnitude bounds", "why_tests_cant": "Whether the rounded quantity to put back exceeds what is left depends on the last bit of two products; round numbers in tests hide it.", "anchors": ["src/separations.cc: Separations::Tick"]}
{"id": "C109", "title": "Releasing whole parcels in floating point", "statement": "With discrete handling, computed in double precision, a storage facility releases in each step the longest run of waiting parcels, first come first, whose mass does not exceed the throughput.", "quantifier": "all throughputs and lists of waiting parcels", "why_tests_cant": "The running sum is rounded after each parcel; whether the last parcel still fits depends on the last bit. Tests use whole numbers, where no rounding happens.", "anchors": ["src/storage.cc: Storage::ProcessMat_"]}
{"id": "C110", "title": "Errors are reported, never undefined", "statement": "Whatever is configured, requested, delivered and traded, every call of every archetype (start-up, tick, requests, bids, trades, deliveries, tock, building and decommissioning of facilities) ends normally or with an exception: no list is read outside its bounds, no empty container or null pointer is used, no indeterminate value is read and no loop runs for ever.", "quantifier": "all configurations accepted at start-up, all states and histories, all quantities, compositions, recipes and prototypes, also unknown or absurd ones", "why_tests_cant": "Undefined behaviour need not show in a test run, and the inputs that reach it are the ones nobody thought of testing.", "anchors": ["src/reactor.cc: Reactor::Tick", "src/storage.cc: Storage::Tock", "src/mixer.cc: Mixer::Tick", "src/separations.cc: Separations::GetMatlRequests", "src/fuel_fab.cc: FuelFab::GetMatlTrades", "src/enrichment.cc: Enrichment::Enrich_", "src/sink.cc: Sink::GetMatlRequests", "src/source.cc: Source::GetMatlTrades", "src/deploy_inst.cc: DeployInst::Build", "src/growth_region.cc: GrowthRegion::Tick"]}
{"id": "C111", "title": "The calendars of Storage and Sink in machine ints", "statement": "The times at which a storage facility releases what it holds and a sink buys next, computed in 32-bit ints, are the exact ones: a storage facility with any non-negative residence time and fewer than 2^31 parcels, and a sink whose upper bound for the interval between purchases, added to the last simulated time, is an int, behave step by step as with unbounded integers.", "quantifier": "all configurations, states, clocks, random generators and histories", "why_tests_cant": "The bounds involve all residence times, all draws and all lengths of simulations; an overflow is undefined behaviour that a test need not notice.", "anchors": ["src/storage.h: Storage::ready_time", "src/storage.cc: Storage::ReadyMatl_", "src/storage.cc: Storage::Tock", "src/sink.cc: Sink::SetNextBuyTime", "src/sink.cc: Sink::Tick"]}
{"id": "C112", "title": "A source's trades in double precision", "statement": "In double precision, a source offers exactly the least of what is asked for, its throughput and its stock, and fills all trades that together do not exceed its stock; over its life, what it shipped and what is left add up to the initial stock.", "quantifier": "all stocks, throughputs, time steps and trades, as IEEE 754 binary64 numbers", "why_tests_cant": "Whether rounding makes the last trade exceed what is left depends on all trades before; three-trade sequences that fail are rare and look like any others.", "anchors": ["src/source.cc: Source::GetMatlBids", "src/source.cc: Source::GetMatlTrades"]}
{"id": "C113", "title": "Neutronic weights do not depend on what was weighed before", "statement": "The neutronic weight of a composition in a spectrum is the same whenever it is computed in a process, however many compositions were weighed before, in whichever spectra, by whichever facilities; if cross sections of the reference nuclides uranium-238 or plutonium-239 are missing, computing a weight raises an exception each time.", "quantifier": "all nuclear data and all sequences of calls of CosiWeight with any spectra and compositions", "why_tests_cant": "The function keeps tables and reference values in static variables per spectrum; whether some order of calls in a process makes a later result wrong cannot be settled by sampling orders.", "anchors": ["src/fuel_fab.cc: CosiWeight"]}
{"id": "C114", "title": "Results do not depend on memory addresses", "statement": "A fuel fabrication facility or a mixer puts every delivery into the inventory its request was made for, and behaves in the same way, wherever the requests of each time step lie in memory, also when memory of requests of an earlier time step is used again and when earlier requests were never answered. The preferences an enrichment facility gives to bids do not depend on where the bids lie in memory.", "quantifier": "all histories, all placements of the requests of each time step at different addresses, all orders of visiting bids", "why_tests_cant": "Addresses depend on the allocator and on everything else in the process; a test sees one placement, and whether addresses are reused at a bad moment is not under its control.", "anchors": ["src/fuel_fab.cc: FuelFab::GetMatlRequests, FuelFab::AcceptMatlTrades", "src/mixer.cc: Mixer::GetMatlRequests, Mixer::AcceptMatlTrades", "src/enrichment.cc: Enrichment::AdjustMatlPrefs"]}
{"id": "C115", "title": "A sink's requests and deliveries in double precision", "statement": "In double precision, a sink never asks for more than its capacity, asks for the smaller of its capacity and the free space, takes every delivery that is within its request, and reports as its inventory what was delivered to it.", "quantifier": "all capacities, sizes, tolerances, time steps, random request sizes and deliveries, as IEEE 754 binary64 numbers", "why_tests_cant": "The inventory is a sum rounded at each delivery; whether the last delivery then exceeds the free space by more than the tolerance depends on all deliveries before.", "anchors": ["src/sink.h: Sink::SpaceAvailable", "src/sink.cc: Sink::SetRequestAmt", "src/sink.cc: Sink::GetMatlRequests", "src/sink.cc: Sink::AcceptMatlTrades", "src/sink.cc: Sink::AcceptGenRsrcTrades"]}
{"id": "C116", "title": "Preferences left out are one for each commodity; a wrong number of preferences is refused", "statement": "A facility whose list of preferences for its input commodities is left empty uses the preference 1 for each of them, one whose list is given uses exactly that list; a list with neither no entry nor one entry for each commodity is refused with an error when the facility starts.", "quantifier": "all facility types with preferences, all lists of commodities and preferences", "why_tests_cant": "Tests give one list of each length; that no other list is accepted or changed needs all of them.", "anchors": ["src/fuel_fab.cc: FuelFab::EnterNotify", "src/sink.cc: Sink::EnterNotify", "src/storage.cc: Storage::EnterNotify", "src/reactor.cc: Reactor::EnterNotify", "src/separations.cc: Separations::EnterNotify"]}
{"id": "C117", "title": "Enrichment keeps its account of separative work in double precision", "statement": "In double precision, a step whose enrichments need no more separative work than the capacity is never refused; the separative work and feed recorded for a step are what its enrichments took; no step takes more separative work than the capacity allows.", "quantifier": "all capacities, tolerances, numbers of steps and enrichments with any SWU and feed, as IEEE 754 binary64 numbers", "why_tests_cant": "The capacity left is rounded after each enrichment; whether it ends below minus the tolerance depends on the sizes and the order of all enrichments of the step.", "anchors": ["src/enrichment.cc: Enrichment::Tick", "src/enrichment.cc: Enrichment::Tock", "src/enrichment.cc: Enrichment::GetMatlTrades", "src/enrichment.cc: Enrichment::Enrich_"]}
{"id": "C118", "title": "Facilities with a throughput never idle while there is work", "statement": "Up to any moment a conversion facility has converted as much as its throughput and its deliveries allow: the smallest, over all earlier moments, of what had been received by then plus the full throughput of every step since. Without further deliveries its input inventory shrinks by the throughput each step until it is empty. A storage facility that may split material has likewise released the smallest, over all earlier moments, of what had matured by then plus the full throughput of every step since.", "quantifier": "all throughputs, tolerances, histories of deliveries and shipments of any length", "why_tests_cant": "Tests follow a few steps with constant deliveries; that no history makes the facility lose throughput it could have used is a statement about all of them.", "anchors": ["src/conversion.cc: Conversion::Convert", "src/storage.cc: Storage::ProcessMat_", "src/storage.cc: Storage::Tock"]}
{"id": "C119", "title": "When a facility is deployed does not matter", "statement": "A facility deployed any number of steps later, into the same requests, trades and deliveries and with its retirement and its dates of changes as much later, does the same things in each of its steps, or fails in the same way: the simulation time enters its behaviour only through the time since its deployment.", "quantifier": "all facilities that read the time (reactor, separations, storage, sink), all delays, all histories of any length", "why_tests_cant": "Tests deploy a facility at one or two times; independence of the time is a statement about all of them.", "anchors": ["src/reactor.cc: Reactor::Tick", "src/reactor.cc: Reactor::GetMatlRequests", "src/separations.cc: Separations::GetMatlRequests", "src/storage.cc: Storage::Tock", "src/storage.cc: Storage::ReadyMatl_", "src/sink.cc: Sink::Tick", "src/sink.cc: Sink::SetNextBuyTime"]}
{"id": "C120", "title": "A conversion facility's balance in double precision", "statement": "In double precision, each step of a conversion facility converts exactly the smaller of its input and its throughput; input and output hold what was received less what was converted, and what was converted less what was sold; no step fails whose deliveries are within the request and whose sales are within the output.", "quantifier": "all throughputs, capacities, tolerances and histories of deliveries and sales, as IEEE 754 binary64 numbers", "why_tests_cant": "Both buffers are rounded at each delivery, conversion and sale; how far they drift from the true balance, and whether a sale of the rest then fails, depends on the whole history.", "anchors": ["src/conversion.cc: Conversion::Convert", "src/conversion.cc: Conversion::AvailableFeedstockCapacity", "src/conversion.cc: Conversion::GetMatlRequests", "src/conversion.cc: Conversion::AcceptMatlTrades", "src/conversion.cc: Conversion::GetMatlTrades"]}
{"id": "C121", "title": "A faster facility never delivers less", "statement": "Of two conversion facilities, the one with no less throughput that had received no less before every step has converted no less. Of two stores with the same arrivals, the one with no less throughput and no longer residence time has released no less, provided it may split parcels or both keep parcels whole; in the latter case it has released the same parcels in the same order, and possibly more.", "quantifier": "all pairs of configurations so related, all pairs of histories of deliveries and sales", "why_tests_cant": "It compares two whole executions; greedy bin-like scheduling of whole parcels is exactly where more capacity can make things worse, and only an argument over all parcel sizes excludes it.", "anchors": ["src/conversion.cc: Conversion::Convert", "src/storage.cc: Storage::ProcessMat_", "src/storage.cc: Storage::ReadyMatl_"]}
{"id": "C122", "title": "What material is made of never influences amounts or timing", "statement": "Take two lives of the same reactor, store, conversion facility, mixer, source or sink that differ only in compositions: of what it holds, of what is delivered to it, of what others ask of it and of the recipes. Then both do the same: the same requests, preferences, bids, shipments, quantities, power, records and failures, step by step; only compositions differ.", "quantifier": "all configurations, all starting states, all recipe books with the same names, all pairs of histories equal up to compositions", "why_tests_cant": "It compares pairs of whole executions (non-interference): no finite set of compositions excludes a hidden dependency on some nuclide or some empty composition.", "anchors": ["src/reactor.cc", "src/storage.cc", "src/conversion.cc", "src/mixer.cc", "src/source.cc", "src/sink.cc"]}
{"id": "C123", "title": "The order of the trades of a time step does not matter", "statement": "The exchange hands a facility the deliveries and sales of a time step in some order. As long as they fit its stores, any other order also succeeds, every customer receives the amount awarded, and the facility ends up with the same material: the same parcels, or the same amount of every nuclide. A reactor ships the same assemblies and holds the same ones; an enrichment plant records the same separative work and feed.", "quantifier": "all facilities, all states, all lists of trades and all their permutations", "why_tests_cant": "The number of orders is factorial in the number of trades, and tests see only the one order their solver happens to produce.", "anchors": ["src/conversion.cc: Conversion::GetMatlTrades, AcceptMatlTrades", "src/storage.cc", "src/sink.cc: Sink::AcceptMatlTrades", "src/enrichment.cc: Enrichment::AcceptMatlTrades, GetMatlTrades", "src/mixer.cc: Mixer::AcceptMatlTrades", "src/separations.cc: Separations::AcceptMatlTrades, GetMatlTrades", "src/fuel_fab.cc: FuelFab::AcceptMatlTrades", "src/reactor.cc: Reactor::GetMatlTrades, AcceptMatlTrades", "src/source.cc: Source::GetMatlTrades"]}
{"id": "C124", "title": "With doubles the same happens as with exact numbers, up to 2^53 units", "statement": "When all amounts a conversion facility, a source, a sink or a storage with discrete handling deals with are whole multiples of some power of two (whole kilograms, say) and no total exceeds 2^53 such units, then computing with doubles makes no difference at all: over its whole life every request, offer, recorded supply and stock has exactly the value that exact arithmetic gives, and an error is reported if and only if exact arithmetic reports the same one. Beyond 2^53 units this fails.", "quantifier": "all facilities of the four kinds, all grids 2^e with -1074 <= e <= 900, all histories of deliveries and sales on the grid", "why_tests_cant": "A test compares a few runs on a few numbers; only a proof relates every double computation of a whole life with its exact counterpart.", "anchors": ["src/conversion.cc: Conversion", "src/source.cc: Source", "src/sink.cc: Sink", "src/storage.cc: Storage::ProcessMat_"]}
{"id": "C125", "title": "How deliveries are divided into parcels does not matter", "statement": "A separations facility, a mixer, a conversion or an enrichment facility that receives the same material in other parcels (one parcel of 8 kg, or 3 kg and 5 kg of the same material one after the other) behaves the same for ever after: it asks for the same amounts, offers and ships the same materials, records the same, and ends in the same state but for the division of its feed; it never fails with one division and works with another. Conversion and enrichment facilities blend what they receive, so there the order of the deliveries within a time step does not matter either. This holds as long as the deliveries of a time step stay within the request; beyond it a tolerance that is granted to each parcel makes the division matter.", "quantifier": "all facilities of the four kinds, all histories of deliveries and sales, all divisions of all deliveries into parcels of positive mass, all tolerances, all value functions", "why_tests_cant": "There are infinitely many ways to divide the deliveries of a history; a test compares two.", "anchors": ["src/separations.cc: Separations::Tick", "src/separations.cc: Separations::AcceptMatlTrades", "src/conversion.cc: Conversion", "src/enrichment.cc: Enrichment::AddMat_", "src/enrichment.cc: Enrichment::Enrich_", "src/mixer.cc: Mixer::Tick", "src/mixer.cc: Mixer::AcceptMatlTrades"]}
{"id": "C126", "title": "The unit of mass does not matter", "statement": "A user may write a scenario in kilograms, grams or tonnes. A facility whose capacities, throughputs, stocks, deliveries, requests and sales are all given in another unit (and the tolerances too) does the same thing in every time step of every history: it asks for, offers, ships and records the same amounts in that unit, of the same compositions, keeps the same stocks, makes the same yes/no decisions, and fails in one unit exactly when it fails in the other, with the same error. This holds for conversion, storage, sink, source, mixer, separations, reactor, enrichment (where separative work is in the unit of mass too) and fuel fabrication. The tolerances, and the smallest capacity a fuel fabrication facility reports with its bids, are the only masses built into these facilities: with an unchanged tolerance the same facility may refuse in one unit what it accepts in the other.", "quantifier": "all positive factors between the units, all facilities of the nine kinds, all states, all histories of requests, trades and deliveries, all tolerances, all recipes with material in them, all value functions, all answers of random numbers and packages that respect the unit", "why_tests_cant": "Every test of the project is written in one unit; that no comparison, sum or branch anywhere mixes a mass with a fixed number is a statement about all inputs and all factors.", "anchors": ["src/conversion.cc: Conversion", "src/storage.cc: Storage::Tock", "src/sink.cc: Sink::Tick", "src/source.cc: Source::GetMatlTrades", "src/mixer.cc: Mixer::Tick", "src/separations.cc: Separations::Tick", "src/reactor.cc: Reactor::Tick", "src/enrichment.cc: Enrichment::Enrich_", "src/fuel_fab.cc: FuelFab::GetMatlTrades"]}
{"id": "C127", "title": "What a facility requests, offers and ships in a time step depends only on the past, not on what is delivered in that step", "statement": "In one time step all facilities first publish their requests and offers, then trade, and only then hold what they receive. A facility must not be able to sell, offer or decline on the strength of material that reaches it later in the same step. Take two histories which agree until some time step, in that step differ only in what is delivered, and afterwards differ in any way: until and including that step the facility shows the same. For conversion, mixer, separations, fuel fabrication, enrichment and sink that is everything they report (requests, bids, shipments, records); for storage, what it sells; for a reactor the fuel it moves at the beginning of the step, its requests, bids and shipments. A reactor's power of the step is the exception: an assembly is loaded and burned in the step in which it arrives, so the power depends on the delivery.", "quantifier": "all facilities of the eight kinds that receive material, all states, all histories, all pairs of deliveries in a step, all continuations, all tolerances and recipes", "why_tests_cant": "A statement about pairs of unbounded histories with arbitrary deliveries; the tests run one history each and never compare two.", "anchors": ["src/conversion.cc: Conversion::GetMatlBids", "src/storage.cc: Storage::Tick", "src/mixer.cc: Mixer::Tick", "src/separations.cc: Separations::GetMatlBids", "src/fuel_fab.cc: FuelFab::GetMatlTrades", "src/enrichment.cc: Enrichment::Tock", "src/sink.cc: Sink::GetGenRsrcRequests", "src/reactor.cc: Reactor::Tock"]}
{"id": "C128", "title": "A simulation of conversion facilities, storages, mixers, sources, sinks and reactors never fails in an orderly exchange", "statement": "Facilities are deployed and retired at any time; in every time step each of them publishes requests and offers, the exchange decides on trades, the sellers ship and the buyers receive. Suppose the exchange keeps to what is published: positive amounts of commodities on offer, in total no more than offered, requested commodities, each portfolio of requests with no more in total than asked for, exclusive requests and offers in their size. Then, in every network of these six archetypes that can arise, whatever was traded before: every facility publishes its requests and offers without an error; the time step succeeds, with exactly one result; every trade is served with exactly the amount decided; the mass in the network does not change, nor the mass of any nuclide if there is no reactor and no source that supplies whatever is asked for.", "quantifier": "all networks of any number of the six kinds of facilities with sensible input, all deployments and retirements, all orderly exchanges, all random numbers within their ranges, all tolerances and recipes, all lengths of the simulation", "why_tests_cant": "A statement about all networks and all ways the exchange may decide, over simulations of any length; the tests run single facilities against fixed partners.", "anchors": ["src/conversion.cc: Conversion::GetMatlTrades", "src/storage.cc: Storage::Tick", "src/mixer.cc: Mixer::AcceptMatlTrades", "src/source.cc: Source::GetMatlTrades", "src/sink.cc: Sink::AcceptMatlTrades", "src/reactor.cc: Reactor::GetMatlTrades", "src/reactor.cc: Reactor::AcceptMatlTrades"]}
{"id": "C129", "title": "In a simulation no facility ever holds more than its input allows", "statement": "In every network of conversion facilities, storages, mixers, sources, sinks and reactors that can arise from deployments, retirements and time steps in which the exchange keeps to what the facilities request and offer: a conversion facility's input stays within its input capacity, all stages of a storage together within its maximum inventory, each stream of a mixer within the size of its buffer and the blend within the size of the output buffer, a source within its initial inventory, a sink within its maximum inventory, and a reactor within its numbers of fresh, core and spent assemblies, each of the assembly size.", "quantifier": "all networks, deployments, retirements, orderly exchanges, random numbers, tolerances and recipes; all lengths of the simulation", "why_tests_cant": "An invariant of all networks over simulations of any length; tests look at single facilities with fixed partners.", "anchors": ["src/conversion.h: input_capacity", "src/storage.h: max_inv_size", "src/mixer.h: in_buf_sizes", "src/mixer.h: out_buf_size", "src/source.h: inventory_size", "src/sink.h: max_inv_size", "src/reactor.h: n_assem_fresh"]}
{"id": "C130", "title": "The books of a whole simulation balance", "statement": "Record, over a whole simulation of the networks of C128, the facilities ever deployed and the facilities retired with what they held. At any time the mass held by the facilities of the network and by the retired ones is the initial inventory of all the sources ever deployed. If no reactor and no source that supplies whatever is asked for was ever deployed, the same holds for every nuclide, and a nuclide in no source's recipe never appears anywhere.", "quantifier": "all simulations of the networks of C128, of any length, with any deployments and retirements", "why_tests_cant": "A sum over all facilities and all time steps of any simulation; tests check single transactions.", "anchors": ["src/source.cc: Source::Build", "src/conversion.cc: Conversion::Convert", "src/storage.cc: Storage::ProcessMat_", "src/mixer.cc: Mixer::Tick", "src/sink.cc: Sink::AcceptMatlTrades", "src/reactor.cc: Reactor::Transmute"]}
{"id": "C131", "title": "A simulation that is saved and loaded again goes on as if uninterrupted", "statement": "Take any network of storages, sources, reactors and sinks without random buying times that can arise from deployments, retirements and time steps with an orderly exchange. Saving the whole network succeeds and leaves the running simulation as it is. Loading it succeeds. The loaded network holds exactly the same material in every facility, every facility publishes the same requests and offers, and for every decision of the exchange the next time step of the loaded network is a time step of the uninterrupted one and conversely, with the same shipments and the same network as result.", "quantifier": "all such networks at any time, all packages and transport units known to the simulation, all random numbers drawn on loading, all decisions of the exchange", "why_tests_cant": "Snapshot and restart of a network in an arbitrary reachable state; the tests only check that single facilities can be initialised.", "anchors": ["src/reactor.cc: Reactor::InitInv", "src/storage.cc: Storage::InitInv", "src/source.cc: Source::InitInv", "src/sink.cc: Sink::InitInv", "src/sink.cc: Sink::EnterNotify", "src/storage.cc: Storage::EnterNotify"]}
{"id": "C132", "title": "What a facility ships and receives over its whole life is bounded by its throughput and capacity, and its account balances", "statement": "Follow one facility of a network of C128 from its deployment at time t0 to time t, with the mass it has received and the mass it has shipped. What it holds plus what it has shipped is its initial inventory plus what it has received. A conversion facility, storage, mixer or source has shipped at most its throughput times (t - t0); a sink has received at most its capacity times (t - t0). In each single time step a source ships at most its throughput and a sink receives at most its capacity.", "quantifier": "all networks of C128, all facilities in them, all lengths of life, all deployments and retirements of others meanwhile", "why_tests_cant": "A bound over the whole life of a facility among arbitrary partners; the tests look at a few time steps with fixed partners.", "anchors": ["src/conversion.h: throughput", "src/storage.h: throughput", "src/mixer.h: throughput", "src/source.h: throughput", "src/sink.h: capacity", "src/source.cc: Source::GetMatlBids", "src/sink.cc: Sink::GetMatlRequests"]}
{"id": "C133", "title": "A nuclide is present only if it is in a recipe of a source or in a recipe to which a reactor burns fuel", "statement": "In a simulation of the networks of C128 in which every source deployed has a recipe: a nuclide that is in no recipe of a source ever deployed and in no spent fuel recipe of a reactor ever deployed (given at the start or by a recipe change) is in no material held by a facility, held by a retired facility or shipped. Equivalently, every nuclide found anywhere is in one of these recipes.", "quantifier": "all nuclides, all simulations of the networks of C128 of any length, with reactors of any input and recipe changes at any time", "why_tests_cant": "Absence of a nuclide in all material of all simulations; tests check compositions of single parcels.", "anchors": ["src/reactor.cc: Reactor::Transmute", "src/reactor.cc: Reactor::Tick", "src/reactor.h: fuel_outrecipes", "src/reactor.h: recipe_change_out", "src/source.cc: Source::GetMatlTrades", "src/source.h: outrecipe"]}
{"id": "C134", "title": "The numbers of resource objects do not influence anything, as long as no two objects share one", "statement": "Give the objects in a facility, and those delivered to it, other distinct numbers (resource ids). A reactor then makes the same requests and records the same events, and bids and ships the same objects under their new numbers, over its whole life, or fails in the same way. A conversion facility, storage, mixer, source or sink publishes, ships and keeps the same apart from numbers. A network of C128 in which every object has a number that is k higher gives the exchange the same choices and takes the same course; so the number with which a simulation starts counting does not matter. If two objects share a number this is false: a reactor then offers a spent assembly as the wrong commodity.", "quantifier": "all configurations, states and histories of a reactor and all one-to-one renumberings; all facilities and networks of C128; all shifts of the numbering", "why_tests_cant": "Independence of the numbering quantifies over all numberings; a test run sees one, handed out by a global counter.", "anchors": ["src/reactor.h: res_indexes", "src/reactor.cc: Reactor::index_res", "src/reactor.cc: Reactor::fuel_outcommod", "src/reactor.cc: Reactor::fuel_outrecipe", "src/reactor.cc: Reactor::GetMatlTrades"]}
{"id": "C135", "title": "Parts of a simulation that do not trade with each other do not influence each other", "statement": "Take a simulation of the networks of C128 whose facilities fall into two parts that never trade with each other. Each part by itself is a simulation: leaving out the other part, the same deployments, retirements and trades of this part are possible, and lead at the same time to facilities in the same states, holding the same parcels, apart from the numbers of objects.", "quantifier": "all networks of C128, all divisions into two parts, all histories in which no trade crosses the division", "why_tests_cant": "Absence of interference between arbitrary groups of facilities over whole histories; a test runs one scenario.", "anchors": ["src/reactor.cc: Reactor::AcceptMatlTrades", "src/reactor.cc: Reactor::GetMatlTrades", "src/storage.cc: Storage::Tock", "src/conversion.cc: Conversion::GetMatlTrades", "src/mixer.cc: Mixer::Tick", "src/source.cc: Source::GetMatlTrades", "src/sink.cc: Sink::AcceptMatlTrades"]}
{"id": "C136", "title": "What a facility lives through in a simulation is a history as the theorems about single facilities assume it", "statement": "Take any facility of any simulation of the networks of C128, from the step in which it was deployed. What it was told, sold out of and delivered, step by step, forms a history of the kind that the properties of a single reactor, conversion facility, storage, mixer, source or sink quantify over, with the facility starting empty, and what the facility shipped and became is what that history says. So the properties of single facilities hold for every facility in every network. In particular a reactor without retirement date whose orders are all filled and whose spent fuel is all taken away in the step in which it is offered produces its power according to plan from the step in which it is deployed.", "quantifier": "all networks of C128, all orderly histories of them, all facilities in them and all steps since their deployment", "why_tests_cant": "The bridge from a facility by itself to a facility in a simulation quantifies over all networks and over every course of the exchange; a test runs one of them.", "anchors": ["src/reactor.cc: Reactor::Tick", "src/reactor.cc: Reactor::Tock", "src/reactor.cc: Reactor::GetMatlRequests", "src/storage.cc: Storage::Tock", "src/conversion.cc: Conversion::Tock", "src/mixer.cc: Mixer::Tick", "src/source.cc: Source::GetMatlTrades", "src/sink.cc: Sink::GetMatlRequests"]}
{"id": "C137", "title": "Two simulations can be run side by side as one", "statement": "Take two simulations of the networks of C128, with the same recipes, that have each arrived at the same time. One simulation of all their facilities, in which the facilities of the first never trade with those of the second, can make the same deployments, retirements and trades, and then has every facility in the same state, holding the same parcels, as in its own simulation, apart from the numbers of objects. With C135: facilities that do not trade with each other can be simulated together or separately with the same results.", "quantifier": "all networks of C128 and all pairs of orderly histories of the same duration", "why_tests_cant": "A statement about every pair of scenarios and their combination; a test runs one combination.", "anchors": ["src/reactor.cc: Reactor::AcceptMatlTrades", "src/reactor.cc: Reactor::GetMatlTrades", "src/storage.cc: Storage::Tock", "src/conversion.cc: Conversion::GetMatlTrades", "src/mixer.cc: Mixer::Tick", "src/source.cc: Source::GetMatlTrades", "src/sink.cc: Sink::AcceptMatlTrades"]}
{"id": "C138", "title": "The unit of mass does not matter to a simulation", "statement": "Take a simulation of the networks of C128 and count every mass in it in a unit k times smaller: sizes, throughputs, requests, random amounts, trades and the tolerances become k times as large. Then the same deployments, retirements and trades can be made in it, up to the same time and with the same numbers of objects, and at the end there are the same facilities with k times as much in them, parcel by parcel and nuclide by nuclide. Every facility that can be deployed has such a counterpart, and so has every scenario.", "quantifier": "all k > 0, all networks of C128 and all orderly histories of any length", "why_tests_cant": "A relation between every simulation and its rescaled counterpart, at every positive factor; a test compares two runs.", "anchors": ["src/reactor.cc: Reactor::Tick", "src/storage.cc: Storage::Tock", "src/conversion.cc: Conversion::Tick", "src/mixer.cc: Mixer::Tick", "src/source.cc: Source::GetMatlBids", "src/sink.cc: Sink::GetMatlRequests"]}
{"id": "C139", "title": "A simulation that begins later goes the same way, later", "statement": "Facilities count time steps from their own past and towards their own schedule, never from the beginning of the simulation. Moved d time steps later (with reactor schedules, ends of life and planned purchases d steps later as well), a facility says the same to the exchange, does the same with the same trades, fails in the same cases and ships the same. If nothing happens for d time steps and then a scenario is played, the outcome is the outcome of the scenario d steps later: the same facilities with the same material and the same object numbers. This needs times between purchases of a sink that are not negative: otherwise a sink started at time 0 may buy in every step where, started later with the same draws, it never buys.", "quantifier": "all d >= 0, all networks of C128 and all orderly histories of any length; all histories of a separations facility", "why_tests_cant": "A relation between every simulation and each of its delayed versions; a test compares two runs.", "anchors": ["src/storage.cc: Storage::Tock", "src/sink.cc: Sink::SetNextBuyTime", "src/reactor.cc: Reactor::Tick", "src/reactor.cc: Reactor::GetMatlRequests", "src/separations.cc: Separations::GetMatlRequests"]}
{"id": "C140", "title": "A scenario has one outcome, and what can follow depends only on where a simulation has arrived", "statement": "The same deployments, retirements, draws and trades lead to the same time, the same object numbers and the same network, down to the last parcel. A scenario can be stopped after any of its moves. Two simulations that have arrived at the same network, time and next free number go on in the same way, however they came there. Every orderly exchange can be carried out, whatever came before.", "quantifier": "all networks of C128 and all orderly histories of any length", "why_tests_cant": "A statement about every pair of runs; a test that repeats a run shows it for that run.", "anchors": ["src/reactor.cc: Reactor::Tick", "src/storage.cc: Storage::Tock", "src/conversion.cc: Conversion::Tick", "src/mixer.cc: Mixer::Tick", "src/source.cc: Source::GetMatlTrades", "src/sink.cc: Sink::Tick"]}
{"id": "C141", "title": "A deployment plan drives a simulation: what is there is what was planned", "statement": "Let institutions deploy facilities by a plan, let the exchange keep to its rules, and let facilities be decommissioned at any time. Such a run is one of the simulations of C128 and its deployments are those of the plan, at their times and in order. No orderly exchange and no decommissioning can stop it. At every time the network consists of planned facilities with the parameters they were planned with, and exactly as many are missing as have been decommissioned. For a deployment institution with sensible input the plan is what its input asks for: prototypes, lifetimes, numbers and times.", "quantifier": "all plans, all sensible inputs of a deployment institution, all orderly exchanges and decommissionings, any length", "why_tests_cant": "A statement about every plan, every history of trades and every order of decommissionings.", "anchors": ["src/deploy_inst.cc: DeployInst::Build", "src/deploy_inst.cc: DeployInst::EnterNotify", "src/reactor.cc: Reactor::Tick", "src/source.cc: Source::GetMatlBids", "src/sink.cc: Sink::GetMatlRequests"]}
{"id": "C142", "title": "A growth region drives a simulation: institutions know what is there, and demand is met by what is there", "statement": "Let a growth region order facilities in every time step, let the exchange keep to its rules, let facilities be decommissioned at any time and let others be built. Such a run is one of the simulations of C128. At every time the facilities an institution knows are exactly those in the network that belong to it, each once, its producers are those of them that make something, and every facility was made of the prototype under which its institution knows it. If the kernel's solver decides adequately, the facilities in the network that belong to the region's institutions have after every time step, together with those that left at its end, the capacity that was in demand; and no orderly exchange and no decommissioning can stop the run.", "quantifier": "all regions with sensible demand, all decisions of the solver (adequate ones for the demand), all orderly exchanges, decommissionings and other builds, any length", "why_tests_cant": "A statement about every demand, every solver and every history of trades, builds and decommissionings.", "anchors": ["src/growth_region.cc: GrowthRegion::Tick", "src/growth_region.cc: GrowthRegion::OrderBuilds", "src/manager_inst.cc: ManagerInst::BuildNotify", "src/manager_inst.cc: ManagerInst::DecomNotify", "src/deploy_inst.cc: DeployInst::BuildNotify"]}
{"id": "C143", "title": "A reactor that says it can be decommissioned holds no fuel", "statement": "Whenever the reactor answers that it can be decommissioned (its institution asks from the end of its lifetime on), it holds no assembly in its core, spent or fresh inventory, so that decommissioning it destroys no fuel.", "quantifier": "all reactors with a core, all histories with an orderly exchange, all times", "why_tests_cant": "Depends on how full the inventories are when the reactor retires and on when and how fast spent fuel is collected; the unit tests collect spent fuel at once.", "anchors": ["src/reactor.cc: Reactor::CheckDecommissionCondition", "src/reactor.cc: Reactor::Tick (retired branch)", "src/reactor.cc: Reactor::AcceptMatlTrades", "src/reactor.cc: Reactor::Load"]}
{"id": "C144", "title": "A simulation can always go on, and the exchange may leave out any trades", "statement": "In every network of conversion facilities, storages, mixers, sources, sinks and reactors that can arise, the resource exchange may decide on no trade at all, and from any set of admissible trades it may leave out any; the time step then takes place and the remaining trades are served in full. So every simulation can be continued for any number of time steps without losing mass.", "quantifier": "all networks of C128, all times, all signals and random numbers, all admissible sets of trades and all their subsets, all numbers of further time steps", "why_tests_cant": "The exchange is a solver that may leave any request unmatched; a test sees the matches of one solver in one scenario.", "anchors": ["src/conversion.cc: Conversion::GetMatlBids", "src/storage.cc: Storage::Tock", "src/mixer.cc: Mixer::Tick", "src/source.cc: Source::GetMatlBids", "src/sink.cc: Sink::GetMatlRequests", "src/reactor.cc: Reactor::GetMatlRequests, Reactor::GetMatlBids"]}
{"id": "C145", "title": "Which place a facility has in a network does not matter", "statement": "When the facilities of a simulation are listed in another order, the same exchange between them is possible in every time step, the same parcels are sent and every facility ends the step in the same state. So a simulation in which new facilities take any place among the others is, up to the order, one in which they are appended; it never fails, every trade is served in full and no mass is lost.", "quantifier": "all networks of conversion facilities, storages, mixers, sources, sinks and reactors, all permutations of them, all admissible trades, signals, random numbers and times; all sequences of deployments at any place, retirements and time steps", "why_tests_cant": "A test deploys its facilities in one order; the number of orders grows factorially and the facilities interact only through the exchange.", "anchors": ["src/conversion.cc: Conversion::GetMatlTrades, Conversion::AcceptMatlTrades", "src/storage.cc: Storage::Tock", "src/mixer.cc: Mixer::Tick", "src/source.cc: Source::GetMatlTrades", "src/sink.cc: Sink::AcceptMatlTrades", "src/reactor.cc: Reactor::GetMatlTrades, Reactor::AcceptMatlTrades"]}
{"id": "C146", "title": "The order in which trades are carried out does not matter to how much each facility holds", "statement": "After a time step every facility holds what it held before, and what it bought, less what it sold. When the trades of a time step are carried out in another order, the step succeeds just as well, every trade is served with its amount and every facility holds the same quantity; only which material it holds may depend on the order.", "quantifier": "all networks of conversion facilities, storages, mixers, sources, sinks and reactors that can arise, all admissible sets of trades and all their orders, all times, signals and random numbers", "why_tests_cant": "The order of the trades is that of the solver's internal lists; a test sees one order per scenario.", "anchors": ["src/conversion.cc: Conversion::GetMatlTrades, Conversion::AcceptMatlTrades", "src/storage.cc: Storage::Tock", "src/mixer.cc: Mixer::AcceptMatlTrades", "src/source.cc: Source::GetMatlTrades", "src/sink.cc: Sink::AcceptMatlTrades", "src/reactor.cc: Reactor::GetMatlTrades, Reactor::AcceptMatlTrades"]}
{"id": "C147", "title": "Nothing passes through a facility within a time step", "statement": "In a time step a facility sells no more than it holds when the step begins, and what it ships does not depend on what is delivered to it in the same step; no kilogram is traded twice in a time step, so all trades of a step together are no more than the mass in the network.", "quantifier": "all networks of conversion facilities, storages, mixers, sources, sinks and reactors that can arise, all admissible sets of trades (also of a facility with itself and around cycles), all times, signals and random numbers", "why_tests_cant": "A test checks the stocks of one facility after one exchange; that no sequence of trades within a step, around any cycle of facilities, hands the same kilogram on twice is a statement about all networks and exchanges.", "anchors": ["src/conversion.cc: Conversion::GetMatlBids, Conversion::GetMatlTrades", "src/storage.cc: Storage::EnterNotify, Storage::Tock", "src/mixer.cc: Mixer::Tick", "src/source.cc: Source::GetMatlBids, Source::GetMatlTrades", "src/reactor.cc: Reactor::GetMatlBids, Reactor::GetMatlTrades"]}
{"id": "C148", "title": "What material is made of does not influence a simulation", "statement": "In a network of conversion facilities, storages, mixers, sources, sinks and reactors, recipes can be replaced by any others of the same names, and material held or delivered by any other of the same quantity: every facility requests and offers the same, the same trades are admissible, the same quantities move at the same times and are held in the same places. Only what the material is made of differs.", "quantifier": "all recipes (of the same names), all such networks that can arise, all admissible sets of trades, all times, signals and random numbers, simulations of any length with any deployments and retirements", "why_tests_cant": "A test runs one scenario with one set of recipes; that no decision anywhere in a simulation looks at a composition is a statement about pairs of executions over all recipes.", "anchors": ["src/reactor.cc: Reactor::Tick, Reactor::GetMatlRequests, Reactor::GetMatlBids, Reactor::Transmute", "src/source.cc: Source::GetMatlBids, Source::GetMatlTrades", "src/sink.cc: Sink::GetMatlRequests", "src/storage.cc: Storage::Tock", "src/mixer.cc: Mixer::Tick", "src/conversion.cc: Conversion::Convert, Conversion::GetMatlBids"]}
{"id": "C149", "title": "Sources only give, sinks keep", "statement": "In a simulation a sink never sells: it keeps every parcel it has received, unchanged in quantity and composition, and at any time holds exactly what was ever sent to it. A source never buys: at any time it has left what it was given at the start less what it has shipped, and it never ships more than that.", "quantifier": "all networks of conversion facilities, storages, mixers, sources, sinks and reactors that can arise, all admissible sets of trades, all times, signals and random numbers, whole lives of any length", "why_tests_cant": "A test looks at a sink or a source after a few deliveries; that nothing is ever lost from a sink or returned to a source, in any network and after any sequence of exchanges, takes an induction over all simulations.", "anchors": ["src/sink.cc: Sink::AcceptMatlTrades, Sink::GetMatlRequests", "src/source.cc: Source::GetMatlBids, Source::GetMatlTrades"]}
{"id": "C150", "title": "Whether a trade is carried out in one lot or several does not matter to how much each facility holds", "statement": "In a simulation a trade between facilities other than reactors can be divided into two of the same total, and two such trades can be joined into one: the exchange may decide on either if it may decide on the other, everything is served, and every facility holds the same quantity afterwards. Fuel for a reactor cannot be divided, as it asks for whole assemblies.", "quantifier": "all networks of conversion facilities, storages, mixers, sources, sinks and reactors that can arise, all admissible sets of trades, all divisions of a trade into positive amounts (repeated: into any number), all times, signals and random numbers", "why_tests_cant": "A test makes one set of trades; that every way of dividing them leaves the same quantities everywhere compares pairs of executions over all networks and amounts.", "anchors": ["src/conversion.cc: Conversion::GetMatlTrades, Conversion::AcceptMatlTrades", "src/source.cc: Source::GetMatlTrades", "src/sink.cc: Sink::AcceptMatlTrades", "src/reactor.cc: Reactor::GetMatlRequests"]}
{"id": "C151", "title": "In a simulation a storage keeps what it receives for its residence time and ships it in the order of arrival", "statement": "In any simulation and at any time, all that a storage has ever shipped, in total and of each nuclide, is no more than what had been delivered to it more than its residence time before; and what it has shipped followed by what it holds is what it has received, in the order of arrival, up to the division into parcels.", "quantifier": "all networks of conversion facilities, storages, mixers, sources, sinks and reactors that can arise, every storage in them and every time step of its life, all admissible sets of trades, all residence times, throughputs and capacities", "why_tests_cant": "A test follows one storage through a few deliveries with one residence time; here the deliveries are whatever any network around the storage and any exchange can bring about, for lives of any length.", "anchors": ["src/storage.cc: Storage::Tock, Storage::BeginProcessing_, Storage::ReadyMatl_, Storage::ProcessMat_"]}
{"id": "C152", "title": "Material travels at most one facility per time step", "statement": "In any simulation, a facility that holds none of a nuclide, and whose suppliers in a time step hold none of it when the time step begins, holds none of it when the time step ends. So, without reactors and without sources that supply whatever is asked for, a nuclide that can get to a facility only by k or more successive trades is not there before k time steps are over.", "quantifier": "all networks of conversion facilities, storages, mixers, sources with an output recipe and sinks that can arise (for the single time step: any network, in which the facility and its suppliers are of these kinds), all nuclides, all admissible sets of trades, any number of time steps", "why_tests_cant": "A test follows one material through one chain; the claim is about every path that any sequence of trades may open in a network of any shape, cycles included.", "anchors": ["src/conversion.cc: Conversion::GetMatlTrades, Conversion::AcceptMatlTrades", "src/storage.cc: Storage::Tick, Storage::Tock", "src/mixer.cc: Mixer::Tick, Mixer::AcceptMatlTrades", "src/source.cc: Source::GetMatlTrades", "src/sink.cc: Sink::AcceptMatlTrades"]}
{"id": "C153", "title": "The mass in any part of a network changes only by what is traded across its border", "statement": "For any set of facilities in a simulation, what they hold together after any number of time steps is what they held before, plus what they bought from facilities outside the set, minus what they sold to facilities outside it. In particular facilities that trade only among themselves keep their mass.", "quantifier": "all networks of conversion facilities, storages, mixers, sources, sinks and reactors that can arise, all sets of facilities in them, all admissible sets of trades, any number of time steps", "why_tests_cant": "A test adds up the inventories of one small network; here every subset of every network is balanced, whatever the facilities in it do with the material and whatever they trade among themselves.", "anchors": ["src/conversion.cc: Conversion::GetMatlTrades, Conversion::AcceptMatlTrades", "src/storage.cc: Storage::Tock", "src/mixer.cc: Mixer::Tick, Mixer::AcceptMatlTrades", "src/source.cc: Source::GetMatlTrades", "src/sink.cc: Sink::AcceptMatlTrades", "src/reactor.cc: Reactor::GetMatlTrades, Reactor::AcceptMatlTrades"]}
