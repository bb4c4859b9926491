-Q theories Verif
theories/Prelude.v
theories/RealizationModel.v
theories/RealizationSpec.v
theories/RealizationProofs.v
theories/RealizationProps.v
theories/RealizationProps2.v
theories/LoaderModel.v
theories/LoaderSpec.v
theories/LoaderProofs.v
theories/LoaderProps.v
theories/HaloStateModel.v
theories/HaloStateProofs.v
theories/HaloFrame.v
theories/HaloStateSpec.v
theories/HaloStateLemmas.v
theories/HaloStateProps.v
theories/TnfwModel.v
theories/TnfwSpec.v
theories/CubicProofs.v
theories/TnfwProofs.v
theories/TnfwProps.v
theories/MassFnModel.v
theories/MassFnSpec.v
theories/MassFnProofs.v
theories/MassFnProofs2.v
theories/MassFnProps.v
theories/Interp.v
theories/SpaceModel.v
theories/SpaceSpec.v
theories/SpaceProofs.v
theories/SpaceProofs2.v
theories/SpaceProofs3.v
theories/SpaceProps.v
theories/SpaceProps2.v
theories/GeometryProps.v
theories/RenderModel.v
theories/RenderSpec.v
theories/RenderProofs.v
theories/RenderProofs2.v
theories/RenderProps.v
theories/CorrProps.v
theories/TwoHaloProps.v
theories/ExtModel.v
theories/ExtSpec.v
theories/ExtProofs.v
theories/ExtProofs2.v
theories/ExtProofs3.v
theories/ExtProps.v
theories/ExtProps2.v
theories/PopModel.v
theories/PopSpec.v
theories/PopProofs.v
theories/PopProofs2.v
theories/PopProps.v
theories/PopProofs3.v
theories/PopProps2.v
theories/InfallModel.v
theories/InfallSpec.v
theories/InfallProofs.v
theories/InfallProps.v
theories/ConcModel.v
theories/ConcSpec.v
theories/ConcProofs.v
theories/ConcProofs2.v
theories/ConcProofs3.v
theories/ConcProps.v
theories/InterpError.v
theories/ConcProps2.v
theories/MassLossTables.v
theories/MassLossModel.v
theories/MassLossSpec.v
theories/MassLossProofs.v
theories/MassLossProps.v
theories/TidalModel.v
theories/TidalSpec.v
theories/TidalProofs.v
theories/TidalInt.v
theories/TidalTotal.v
theories/TidalHalf.v
theories/TidalHalf2.v
theories/TidalTable.v
theories/TidalStep.v
theories/TidalProps.v
theories/NfwModel.v
theories/NfwSpec.v
theories/NfwProofs.v
theories/NfwProofs2.v
theories/NfwProofs3.v
theories/NfwProps.v
theories/SidmModel.v
theories/SidmProofs.v
theories/SidmProofs2.v
theories/SidmProps.v
theories/CompositeModel.v
theories/CompositeProps.v
theories/ProfileModel.v
theories/ProfileProps.v
theories/JaffeProps.v
theories/UldmProps.v
theories/GalacticusModel.v
theories/GalacticusProps.v
theories/GalacticusProps2.v
theories/PresetModel.v
theories/PresetProofs.v
theories/PresetProps.v
theories/PresetProps2.v
theories/PresetProps3.v
theories/PresetProps4.v
theories/PresetProps5.v
theories/BatchModel.v
theories/BatchSpec.v
theories/BatchProofs.v
theories/BatchProps.v
theories/TruncModel.v
theories/TruncProps.v
theories/DirectModel.v
theories/DirectProps.v
theories/TwoPointModel.v
theories/TwoPointSpec.v
theories/TwoPointProofs.v
theories/TwoPointProps.v
theories/TwoPointProps2.v
theories/RayModel.v
theories/RayProps.v
theories/SlopeModel.v
theories/SlopeProps.v
theories/SlopeProps2.v
theories/WaveModel.v
theories/WaveProps.v
theories/GalaxyModel.v
theories/GalaxyProps.v
theories/ViewModel.v
theories/ViewProps.v
theories/SampleModel.v
theories/SampleProps.v
theories/RescaleModel.v
theories/RescaleProps.v
theories/TauModel.v
theories/TauProofs.v
theories/TauProps.v
theories/SharedModel.v
theories/SharedProps.v
theories/WholeModel.v
theories/WholeProps.v
theories/InterfaceModel.v
theories/InterfaceProps.v
theories/NfwHaloModel.v
theories/NfwHaloProps.v
theories/ConcClassModel.v
theories/ConcClassProps.v
theories/GcoreModel.v
theories/GcoreProps.v
theories/SetupModel.v
theories/SetupProps.v
theories/DensModel.v
theories/DensProps.v
theories/PlotModel.v
theories/PlotProps.v
theories/HostModel.v
theories/HostProps.v
theories/AgeModel.v
theories/AgeProps.v
theories/KeeleyTables.v
theories/KeeleyModel.v
theories/KeeleyProps.v
theories/StuckerModel.v
theories/StuckerProps.v
theories/EmuHaloModel.v
theories/EmuHaloProps.v
theories/Plot2Model.v
theories/Plot2Props.v
theories/PlaceModel.v
theories/PlaceProps.v
theories/CoredModel.v
theories/CoredProps.v
theories/KeeleyTableProps.v
theories/SpaceArrayProps.v
theories/CorrMapProps.v
theories/CutsProps.v
theories/AdditiveProps.v
theories/MeanMassProps.v
theories/BalanceProps.v
theories/DeltaMeanProps.v
