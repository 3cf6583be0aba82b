-Q theories Verif
theories/Base.v
theories/PartModel.v
theories/PartSpec.v
theories/PartProofs.v
theories/PartGeom.v
theories/PartGeom2.v
theories/PartProps.v
theories/DecompModel.v
theories/DecompSpec.v
theories/DecompProofs.v
theories/DecompProofs2.v
theories/DecompProofs3.v
theories/DecompProps.v
theories/HaloModel.v
theories/HaloSpec.v
theories/HaloProofs.v
theories/HaloProps.v
theories/HaloExchange.v
theories/HaloPack.v
theories/HaloNetSpec.v
theories/HaloNet.v
theories/HaloCube.v
theories/HaloNetEnd.v
theories/HaloNetProps.v
theories/LocalModel.v
theories/LocalSpec.v
theories/LocalProofs.v
theories/LocalProps.v
theories/PoolModel.v
theories/PoolProofs.v
theories/PoolProps.v
theories/CacheModel.v
theories/CacheProofs.v
theories/CacheProps.v
theories/Dict.v
theories/TimerModel.v
theories/TimerProofs.v
theories/TimerProps.v
theories/UpdaterModel.v
theories/UpdaterProofs.v
theories/UpdaterProps.v
theories/ViewModel.v
theories/ViewProofs.v
theories/ViewProps.v
theories/QuantModel.v
theories/QuantProofs.v
theories/QuantProps.v
theories/GridModel.v
theories/GridProofs.v
theories/GridProps.v
theories/CompileModel.v
theories/CompileProofs.v
theories/CompileProps.v
theories/ColumnModel.v
theories/ColumnProofs.v
theories/ColumnProps.v
theories/SliceModel.v
theories/SliceProofs.v
theories/SliceProps.v
theories/PerfModel.v
theories/PerfProofs.v
theories/PerfProps.v
theories/UtilModel.v
theories/UtilProofs.v
theories/UtilProps.v
theories/NetcdfModel.v
theories/NetcdfProofs.v
theories/NetcdfProps.v
theories/ZarrModel.v
theories/ZarrProofs.v
theories/ZarrProps.v
theories/ThreshModel.v
theories/ThreshProofs.v
theories/ThreshProps.v
theories/FactoryModel.v
theories/FactoryProofs.v
theories/FactoryProps.v
theories/BundleModel.v
theories/BundleProofs.v
theories/BundleProps.v
theories/StateModel.v
theories/StateProofs.v
theories/StateProps.v
theories/ArgsModel.v
theories/ArgsProps.v
theories/DebugModel.v
theories/DebugProps.v
theories/RestartModel.v
theories/RestartProps.v
theories/MetricModel.v
theories/MetricProps.v
theories/CornerModel.v
theories/CornerProofs.v
theories/CornerProps.v
theories/MergeModel.v
theories/MergeProofs.v
theories/MergeMem.v
theories/MergeProps.v
theories/GpuModel.v
theories/GpuProofs.v
theories/GpuProps.v
theories/SyncModel.v
theories/SyncProofs.v
theories/SyncCube.v
theories/SyncProps.v
theories/VecModel.v
theories/VecNet.v
theories/VecCube.v
theories/VecProps.v
theories/DistModel.v
theories/DistProofs.v
theories/DistProps.v
theories/RefineModel.v
theories/RefineProofs.v
theories/RefineProps.v
theories/RanksModel.v
theories/RanksProps.v
theories/TwinModel.v
theories/TwinProps.v
theories/FrozenModel.v
theories/FrozenProps.v
theories/SnapModel.v
theories/SnapProps.v
theories/TgridModel.v
theories/TgridProps.v
theories/SphereModel.v
theories/SphereProofs.v
theories/SphereProps.v
theories/SphereProps2.v
theories/SphereProps3.v
theories/SphereProps4.v
theories/GnomModel.v
theories/GnomProofs.v
theories/GnomProps.v
theories/MirrorModel.v
theories/MirrorProofs.v
theories/MirrorProps.v
theories/TilesModel.v
theories/TilesProofs.v
theories/TilesProps.v
theories/EdgeModel.v
theories/EdgeProofs.v
theories/EdgeProps.v
theories/UnitModel.v
theories/UnitProps.v
theories/WindModel.v
theories/WindProps.v
theories/TrigModel.v
theories/TrigProps.v
theories/StorModel.v
theories/StorProps.v
theories/AreaModel.v
theories/AreaProofs.v
theories/AreaProps.v
theories/LenProps.v
theories/CgridModel.v
theories/CgridProofs.v
theories/CgridProps.v
theories/CgridProps2.v
theories/MinmaxProps.v
theories/LazyModel.v
theories/LazyProofs.v
theories/LazyProofs2.v
theories/LazyProofs3.v
theories/LazyProps.v
theories/HelpModel.v
theories/HelpProps.v
theories/VertModel.v
theories/VertProps.v
theories/AllocModel.v
theories/AllocProofs.v
theories/AllocProps.v
theories/XarProps.v
theories/SaveModel.v
theories/SaveProofs.v
theories/SaveProps.v
theories/MakeModel.v
theories/MakeProps.v
theories/RunModel.v
theories/RunProps.v
theories/CoriModel.v
theories/CoriProps.v
theories/CartModel.v
theories/CartProps.v
theories/StenModel.v
theories/StenProps.v
theories/RedModel.v
theories/RedProps.v
theories/LoadModel.v
theories/LoadProps.v
theories/PertModel.v
theories/PertProps.v
theories/OrchModel.v
theories/OrchProofs.v
theories/OrchProps.v
theories/PlotModel.v
theories/PlotProofs.v
theories/PlotProps.v
theories/ConvModel.v
theories/ConvProofs.v
theories/ConvProps.v
theories/VerdModel.v
theories/VerdProofs.v
theories/VerdProps.v
theories/CaseModel.v
theories/CaseProofs.v
theories/CaseProps.v
theories/InfoModel.v
theories/InfoProofs.v
theories/InfoProps.v
theories/GstModel.v
theories/GstProofs.v
theories/GstProps.v
theories/TrapModel.v
theories/TrapProofs.v
theories/TrapProps.v
theories/MemoModel.v
theories/MemoProofs.v
theories/MemoProps.v
theories/LabelModel.v
theories/LabelProofs.v
theories/LabelProps.v
theories/CleanModel.v
theories/CleanProofs.v
theories/CleanProps.v
theories/HueModel.v
theories/HueProofs.v
theories/HueProps.v
theories/TempModel.v
theories/TempProofs.v
theories/TempProps.v
theories/BackModel.v
theories/BackProofs.v
theories/BackProps.v
theories/XumModel.v
theories/XumProofs.v
theories/XumProps.v
theories/OpsModel.v
theories/OpsProofs.v
theories/OpsProps.v
theories/WrapModel.v
theories/WrapProps.v
theories/FleetModel.v
theories/FleetProofs.v
theories/FleetProps.v
theories/StashModel.v
theories/StashProps.v
theories/SizerModel.v
theories/SizerProps.v
theories/TellModel.v
theories/TellProofs.v
theories/TellProps.v
theories/OpenModel.v
theories/OpenProps.v
theories/AxialModel.v
theories/AxialProps.v
theories/PassModel.v
theories/PassProofs.v
theories/PassProps.v
theories/AskModel.v
theories/AskProps.v
theories/CrowdModel.v
theories/CrowdProps.v
theories/GlobeModel.v
theories/GlobeProps.v
theories/ConstModel.v
theories/ConstProps.v
theories/SelModel.v
theories/SelProps.v
theories/C2lModel.v
theories/C2lProps.v
theories/RimModel.v
theories/RimProps.v
theories/DepModel.v
theories/DepProps.v
theories/FolderModel.v
theories/FolderProps.v
theories/PipeModel.v
theories/PipeProps.v
theories/GuardModel.v
theories/GuardProps.v
theories/BestModel.v
theories/BestProps.v
