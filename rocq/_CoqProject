-Q theories Verif
theories/AccretionModel.v
theories/BHModel.v
theories/BHProps.v
theories/BinModel.v
theories/BinProps.v
theories/BinaryModel.v
theories/BinaryProps.v
theories/BinarySpec.v
theories/BrakingProps.v
theories/CEEModel.v
theories/CEEOrbitProps.v
theories/CEEParModel.v
theories/CEEParProps.v
theories/CEEProps.v
theories/ChanModel.v
theories/ChanProofs.v
theories/ChanProps.v
theories/ChanSpec.v
theories/CheckFlowProps.v
theories/CheckProps.v
theories/ClassProps.v
theories/CmdLineModel.v
theories/CmdLineProps.v
theories/CollapseModel.v
theories/CollapseProps.v
theories/CombineTasksModel.v
theories/CombineTasksProps.v
theories/CompareModel.v
theories/CompareProps.v
theories/CompressModel.v
theories/CompressProps.v
theories/ConfigModel.v
theories/ConfigProps.v
theories/ConstraintModel.v
theories/ConstraintProps.v
theories/DepletionProps.v
theories/DetEndProps.v
theories/DetSpinProps.v
theories/DetStepModel.v
theories/DetStoreModel.v
theories/DetStoreProps.v
theories/DetTimeProps.v
theories/DetachedModel.v
theories/DetachedProps.v
theories/DetectProps.v
theories/DistModel.v
theories/DistProofs.v
theories/DistProps.v
theories/DistSpec.v
theories/DoubleCOProps.v
theories/DownloadModel.v
theories/DownloadProps.v
theories/DownsampleModel.v
theories/DownsampleProofs.v
theories/DownsampleProps.v
theories/DrawProofs.v
theories/DtypeModel.v
theories/DtypeProps.v
theories/DynGridModel.v
theories/DynGridProps.v
theories/EEPModel.v
theories/EEPProps.v
theories/EddingtonProps.v
theories/EnergyProps.v
theories/EngineModel.v
theories/EngineProps.v
theories/EnvelopeModel.v
theories/EnvelopeProps.v
theories/EvolveProofs.v
theories/ExportModel.v
theories/ExportProofs.v
theories/ExportProps.v
theories/FlowChartModel.v
theories/FlowChartProofs.v
theories/FlowChartProps.v
theories/FlowChartRules.v
theories/FlowChartSpec.v
theories/FromRunModel.v
theories/FromRunProofs.v
theories/FromRunProps.v
theories/GRBModel.v
theories/GRBProps.v
theories/GenProofs.v
theories/GravModel.v
theories/GravProps.v
theories/GravRadProps.v
theories/GridEntryModel.v
theories/GridEntryProps.v
theories/GridFileProps.v
theories/GridFlowProps.v
theories/GridStepModel.v
theories/GridStepProps.v
theories/HistoSampleProofs.v
theories/HistoryProofs.v
theories/HookProofs.v
theories/IFModel.v
theories/IFPredictProps.v
theories/IFProps.v
theories/IFStepModel.v
theories/IFStepProps.v
theories/IFStepSNProps.v
theories/ImfProps.v
theories/IniModel.v
theories/IniProps.v
theories/InlistModel.v
theories/InlistProps.v
theories/InspiralModel.v
theories/InspiralProofs.v
theories/InspiralTimeProps.v
theories/IntegralLemmas.v
theories/InterpModel.v
theories/InterpProofs.v
theories/InterpProps.v
theories/InterpSpec.v
theories/InverseModel.v
theories/InverseProofs.v
theories/InverseSpec.v
theories/JoinModel.v
theories/JoinProps.v
theories/KickModel.v
theories/KickProps.v
theories/LambdaProps.v
theories/LogProps.v
theories/MTFlagProps.v
theories/MTModel.v
theories/MTProofs.v
theories/MTProps.v
theories/MTSpec.v
theories/MaskList.v
theories/MatchDataProps.v
theories/MatchModel.v
theories/MatchProps.v
theories/MergeModel.v
theories/MergeProps.v
theories/MergeThms.v
theories/MoeModel.v
theories/MoeProofs.v
theories/MoeProps.v
theories/MoeSampleProps.v
theories/NameProps.v
theories/NeighbourModel.v
theories/NeighbourProps.v
theories/OrbitModel.v
theories/OrbitProofs.v
theories/OrbitProps.v
theories/OverflowProps.v
theories/PISNProps.v
theories/ParseModel.v
theories/ParseProps.v
theories/PipeTasksModel.v
theories/PipeTasksProps.v
theories/PopCombine.v
theories/PopInitModel.v
theories/PopInitProps.v
theories/PopLoop.v
theories/PopModel.v
theories/PopProofs.v
theories/PopProps.v
theories/PopRun.v
theories/PopSpec.v
theories/PostFileProps.v
theories/PostModel.v
theories/PostProofs.v
theories/PostProps.v
theories/PostRowProps.v
theories/PyBase.v
theories/PyList.v
theories/PyNum.v
theories/PyReplace.v
theories/PySplit.v
theories/PyStr.v
theories/PyStrip.v
theories/RateModel.v
theories/RateProofs.v
theories/RateProps.v
theories/RealLemmas.v
theories/ReasonModel.v
theories/ReasonProps.v
theories/RembarProps.v
theories/RerunLogicProps.v
theories/RerunModel.v
theories/RerunProps.v
theories/RescueModel.v
theories/RescueParse.v
theories/RescueProofs.v
theories/RescueProps.v
theories/RescueSpec.v
theories/RloModel.v
theories/RloProps.v
theories/RolesProps.v
theories/RunGridModel.v
theories/RunGridProps.v
theories/RunScriptModel.v
theories/RunScriptProps.v
theories/SNModel.v
theories/SNNameModel.v
theories/SNNameProps.v
theories/SNTypeProps.v
theories/SampleModel.v
theories/SampleProofs.v
theories/SampleProps.v
theories/SampleSpec.v
theories/SamplerModel.v
theories/SamplerProofs.v
theories/SamplerProps.v
theories/SamplerSpec.v
theories/SanaProps.v
theories/ScalerModel.v
theories/ScalerProps.v
theories/ScrubModel.v
theories/ScrubProofs.v
theories/ScrubProps.v
theories/SeparationProps.v
theories/SetupModel.v
theories/SetupProps.v
theories/SfhModel.v
theories/SfhProofs.v
theories/SfhProps.v
theories/SfhSpec.v
theories/ShellCollapseProps.v
theories/SimPropLists.v
theories/SimPropLoad.v
theories/SimPropModel.v
theories/SimPropProofs.v
theories/SimPropProps.v
theories/SingleRunProps.v
theories/SpinModel.v
theories/SpinProps.v
theories/StarInitModel.v
theories/StarInitProofs.v
theories/StarInitProps.v
theories/StarProofs.v
theories/StaticInlistModel.v
theories/StaticInlistProps.v
theories/StepSNModel.v
theories/StepSNProps.v
theories/SubsetModel.v
theories/SubsetProps.v
theories/TFlagModel.v
theories/TableModel.v
theories/TableProofs.v
theories/TableProps.v
theories/TableSpec.v
theories/ThinProofs.v
theories/TideStrengthProps.v
theories/TidesProps.v
theories/TimesModel.v
theories/TrackGridModel.v
theories/TrackGridProps.v
theories/TransModel.v
theories/TransProps.v
theories/WarnModel.v
theories/WarnProofs.v
theories/WarnProps.v
theories/WarnSpec.v
theories/WeightModel.v
theories/WeightProofs.v
theories/WeightProps.v
theories/WindAccretionProps.v
