-Q theories Verif
theories/Outcome.v
theories/KernelMaterial.v
theories/KernelResBuf.v
theories/KernelFacts.v
theories/KernelMass.v
theories/ReactorModel.v
theories/ReactorSpec.v
theories/ReactorProofs.v
theories/ReactorTradeProofs.v
theories/ReactorHistory.v
theories/ReactorCycle.v
theories/ReactorTrace.v
theories/ReactorFuel.v
theories/ReactorRetire.v
theories/ReactorCheck.v
theories/ReactorGlue.v
theories/ReactorExample.v
theories/ReactorProps.v
theories/ReactorLogSpec.v
theories/ReactorLog.v
theories/ReactorLogProps.v
theories/ReactorCalendar.v
theories/ReactorOffers.v
theories/ReactorServiceProps.v
theories/ReactorValidation.v
theories/StorageModel.v
theories/StorageSpec.v
theories/StorageProofs.v
theories/StorageGlue.v
theories/StorageProps.v
theories/StorageValidation.v
theories/ConversionModel.v
theories/ConversionSpec.v
theories/ConversionProofs.v
theories/ConversionProps.v
theories/ConversionValidation.v
theories/KernelBuf.v
theories/KernelBufFacts.v
theories/SeparationsModel.v
theories/SeparationsSpec.v
theories/SeparationsProofs.v
theories/SeparationsGlue.v
theories/SeparationsRun.v
theories/SeparationsProps.v
theories/SeparationsSizes.v
theories/SeparationsTolerance.v
theories/SeparationsServiceProps.v
theories/SeparationsValidation.v
theories/MixerModel.v
theories/MixerSpec.v
theories/MixerProofs.v
theories/MixerRun.v
theories/MixerProps.v
theories/MixerValidation.v
theories/FuelFabModel.v
theories/FuelFabSpec.v
theories/FuelFabMath.v
theories/FuelFabProofs.v
theories/FuelFabRun.v
theories/FuelFabProps.v
theories/FuelFabValidation.v
theories/EnrichmentModel.v
theories/EnrichmentSpec.v
theories/EnrichmentProofs.v
theories/EnrichmentRun.v
theories/EnrichmentBids.v
theories/EnrichmentLife.v
theories/EnrichmentProps.v
theories/EnrichmentLifeProps.v
theories/EnrichmentValidation.v
theories/SinkModel.v
theories/SinkSpec.v
theories/SinkProofs.v
theories/SinkProps.v
theories/SinkValidation.v
theories/SourceModel.v
theories/SourceSpec.v
theories/SourceProofs.v
theories/SourceProps.v
theories/SourceValidation.v
theories/InstModel.v
theories/InstSpec.v
theories/InstProofs.v
theories/InstProps.v
theories/InstValidation.v
theories/RegionModel.v
theories/RegionSpec.v
theories/RegionProofs.v
theories/RegionProps.v
theories/RestartModel.v
theories/RestartReactor.v
theories/RestartProofs.v
theories/RestartProps.v
theories/ProducerModel.v
theories/ProducerSpec.v
theories/ProducerProofs.v
theories/ProducerProps.v
theories/DoubleModel.v
theories/DoubleProofs.v
theories/DoubleProps.v
theories/NetworkSpec.v
theories/NetworkProofs.v
theories/NetworkProps.v
theories/DoubleFacts.v
theories/DoubleSpec.v
theories/FuelFabDoubleModel.v
theories/FuelFabDoubleProofs.v
theories/FuelFabDoubleProps.v
theories/SeparationsDoubleModel.v
theories/SeparationsDoubleProofs.v
theories/SeparationsDoubleProps.v
theories/MixerDoubleModel.v
theories/MixerDoubleSpec.v
theories/MixerDoubleProofs.v
theories/MixerDoubleProps.v
theories/ReactorMachineModel.v
theories/ReactorMachineSpec.v
theories/ReactorMachineProofs.v
theories/ReactorMachineProps.v
theories/SepTickDoubleModel.v
theories/SepTickDoubleSpec.v
theories/SepTickDoubleProofs.v
theories/SepTickDoubleProps.v
theories/StorageDoubleModel.v
theories/StorageDoubleSpec.v
theories/StorageDoubleProofs.v
theories/StorageDoubleProps.v
theories/SafetySpec.v
theories/SafetyProofs.v
theories/SafetyReactor.v
theories/SafetyProps.v
theories/ClockModel.v
theories/ClockSpec.v
theories/ClockProofs.v
theories/ClockProps.v
theories/SourceDoubleModel.v
theories/SourceDoubleSpec.v
theories/SourceDoubleProofs.v
theories/SourceDoubleProps.v
theories/SinkDoubleModel.v
theories/SinkDoubleSpec.v
theories/SinkDoubleProofs.v
theories/SinkDoubleProps.v
theories/WeightCacheModel.v
theories/WeightCacheSpec.v
theories/WeightCacheProofs.v
theories/WeightCacheProps.v
theories/AddressModel.v
theories/AddressSpec.v
theories/AddressProofs.v
theories/AddressProps.v
theories/PreferenceSpec.v
theories/PreferenceProofs.v
theories/PreferenceProps.v
theories/SwuDoubleModel.v
theories/SwuDoubleSpec.v
theories/SwuDoubleProofs.v
theories/SwuDoubleProps.v
theories/BacklogSpec.v
theories/BacklogProofs.v
theories/BacklogProps.v
theories/LaterSpec.v
theories/LaterProofs.v
theories/LaterProps.v
theories/ConversionDoubleModel.v
theories/ConversionDoubleSpec.v
theories/ConversionDoubleProofs.v
theories/ConversionDoubleProps.v
theories/MixerRestartSpec.v
theories/MixerRestartProofs.v
theories/MixerRestartProps.v
theories/MonotoneSpec.v
theories/MonotoneProofs.v
theories/MonotoneProps.v
theories/BareSpec.v
theories/BareReactor.v
theories/BareProofs.v
theories/BareProps.v
theories/SepRestartSpec.v
theories/SepRestartProofs.v
theories/SepRestartProps.v
theories/OrderSpec.v
theories/OrderProofs.v
theories/OrderFacilities.v
theories/OrderReactor.v
theories/OrderProps.v
theories/RefineSpec.v
theories/RefineProofs.v
theories/RefineFacilities.v
theories/RefineProps.v
theories/DivisionSpec.v
theories/DivisionProofs.v
theories/DivisionComp.v
theories/DivisionSeparations.v
theories/DivisionConversion.v
theories/DivisionEnrichment.v
theories/DivisionMixer.v
theories/DivisionProps.v
theories/ScaleSpec.v
theories/ScaleProofs.v
theories/ScaleSimple.v
theories/ScaleFlow.v
theories/ScaleSeparations.v
theories/ScaleReactor.v
theories/ScaleEnrichment.v
theories/ScaleFuelFab.v
theories/ScaleProps.v
theories/CausalitySpec.v
theories/CausalityProofs.v
theories/CausalityProps.v
theories/SimulationSpec.v
theories/SimulationProofs.v
theories/SimulationStorage.v
theories/SimulationMixer.v
theories/SimulationSource.v
theories/SimulationSink.v
theories/SimulationReactor.v
theories/SimulationNetwork.v
theories/SimulationCheck.v
theories/SimulationProps.v
theories/LedgerSpec.v
theories/LedgerProofs.v
theories/LedgerProps.v
theories/NetRestartSpec.v
theories/NetRestartProofs.v
theories/NetRestartProps.v
theories/CareerSpec.v
theories/CareerProofs.v
theories/CareerProps.v
theories/NuclideSpec.v
theories/NuclideReactor.v
theories/NuclideProofs.v
theories/NuclideProps.v
theories/IdSpec.v
theories/IdReactor.v
theories/IdProofs.v
theories/IdProps.v
theories/ApartSpec.v
theories/ApartProofs.v
theories/ApartProps.v
theories/LifeSpec.v
theories/LifeProofs.v
theories/LifeReactor.v
theories/LifeProps.v
theories/TogetherSpec.v
theories/TogetherProofs.v
theories/TogetherProps.v
theories/FuelFabBids.v
theories/FuelFabBidsProps.v
theories/UnitSpec.v
theories/UnitProofs.v
theories/UnitExists.v
theories/UnitProps.v
theories/DelaySpec.v
theories/DelayProofs.v
theories/DelayProps.v
theories/ReplayProofs.v
theories/ReplayProps.v
theories/PlanSpec.v
theories/PlanProofs.v
theories/PlanProps.v
theories/GrowthSpec.v
theories/GrowthProofs.v
theories/GrowthProps.v
theories/DecomProofs.v
theories/DecomNetProofs.v
theories/DecomExample.v
theories/DecomProps.v
theories/DecomNetExample.v
theories/IdleProofs.v
theories/IdleProps.v
theories/SeatSpec.v
theories/SeatProofs.v
theories/SeatProps.v
theories/QueueProofs.v
theories/QueueExample.v
theories/QueueProps.v
theories/PassProofs.v
theories/PassProps.v
theories/GuiseSpec.v
theories/GuiseProofs.v
theories/GuiseProps.v
theories/EndsProofs.v
theories/EndsProps.v
theories/LotSpec.v
theories/LotProofs.v
theories/LotProps.v
theories/CoolSpec.v
theories/CoolProofs.v
theories/CoolProps.v
theories/TravelSpec.v
theories/TravelProofs.v
theories/TravelProps.v
theories/BorderSpec.v
theories/BorderProofs.v
theories/BorderProps.v
