-Q theories Verif
theories/Base.v
theories/BaseProofs.v
theories/TemporalModel.v
theories/TemporalSpec.v
theories/TemporalProofs.v
theories/DfMatchModel.v
theories/DfMatchSpec.v
theories/DfMatchProofs.v
theories/TemporalProps.v
theories/FiltersModel.v
theories/FiltersSpec.v
theories/FiltersProofs.v
theories/ExpFilterProofs.v
theories/FiltersProps.v
theories/Calendar.v
theories/AnomalyModel.v
theories/AnomalySpec.v
theories/AnomalyProofs.v
theories/AnomalyProps.v
theories/GroupingModel.v
theories/GroupingSpec.v
theories/GroupingProofs.v
theories/DistributorProofs.v
theories/GroupingProps.v
theories/CdfModel.v
theories/CdfSpec.v
theories/CdfProofs.v
theories/CdfFitProofs.v
theories/CdfProps.v
theories/ScalingModel.v
theories/RStats.v
theories/RStatsProofs.v
theories/MeanStdModel.v
theories/MeanStdProofs.v
theories/ScalingProofs.v
theories/ScalingProps.v
theories/NamesModel.v
theories/NamesSpec.v
theories/SortProofs.v
theories/NamesProofs.v
theories/NamesProps.v
theories/MatchersModel.v
theories/MatchersSpec.v
theories/MatchersProofs.v
theories/MatchersProps.v
theories/ReadModel.v
theories/ReadSpec.v
theories/ReadProofs.v
theories/UpscaleProofs.v
theories/ReadProps.v
theories/ValidationModel.v
theories/ValidationSpec.v
theories/ValidationProofs.v
theories/ValidationProofs2.v
theories/MaskProofs.v
theories/ValidationProps.v
theories/ResultsModel.v
theories/ResultsSpec.v
theories/ResultsProofs.v
theories/ResultsProofs2.v
theories/ResultsProps.v
theories/StoredModel.v
theories/StoredProofs.v
theories/StoredProps.v
theories/AdaptersModel.v
theories/AdaptersSpec.v
theories/AdaptersProofs.v
theories/AdaptersProofs2.v
theories/AdaptersProps.v
theories/MetricsModel.v
theories/MetricsSpec.v
theories/MetricsProofs.v
theories/MetricsProofs2.v
theories/MetricsNdProofs.v
theories/MetricsProps.v
theories/RollingModel.v
theories/RollingSpec.v
theories/RollingProofs.v
theories/RollingProps.v
theories/TcolModel.v
theories/TcolSpec.v
theories/TcolProofs.v
theories/TcolProofs2.v
theories/TcolProps.v
theories/DfMetricsModel.v
theories/DfMetricsSpec.v
theories/DfMetricsProofs.v
theories/DfMetricsProofs2.v
theories/DfMetricsProps.v
theories/ConfintModel.v
theories/ConfintSpec.v
theories/ConfintProofs.v
theories/ConfintProofs2.v
theories/ConfintProps.v
theories/CalcModel.v
theories/CalcSpec.v
theories/CalcProofs.v
theories/CalcProofs2.v
theories/CalcProofs3.v
theories/CalcProofs4.v
theories/CalcProps.v
theories/CalcPairsModel.v
theories/CalcPairsSpec.v
theories/CalcPairsProofs.v
theories/CalcPairsProofs2.v
theories/CalcPairsProps.v
theories/SubsetModel.v
theories/SubsetSpec.v
theories/SubsetProofs.v
theories/SubsetProps.v
theories/SubsetBasic.v
theories/CalcTcmProofs.v
theories/CalcTcmProps.v
theories/LinregProps.v
theories/CalcValueProps.v
theories/DfMatchProps.v
theories/CalendarProps.v
theories/ResultsTsProps.v
theories/GroupingMoreProps.v
theories/SmallProps.v
theories/CdfMoreProps.v
theories/ValidationInputProps.v
theories/CalcTripleProps.v
theories/SmallProps2.v
theories/DctModel.v
theories/DctSpec.v
theories/DctProofs1.v
theories/DctProofs2.v
theories/DctProofs3.v
theories/DctProofs4.v
theories/DctProofs5.v
theories/DctProofs6.v
theories/DctProofs7.v
theories/DctProofs8.v
theories/DctProofs9.v
theories/DctProofs10.v
theories/DctProofs11.v
theories/DctProofs12.v
theories/DctProps.v
theories/StartModel.v
theories/StartSpec.v
theories/StartProofs.v
theories/StartProofs2.v
theories/StartProofs3.v
theories/StartProofs4.v
theories/StartProps.v
theories/FloatModel.v
theories/FloatSpec.v
theories/FloatProofs.v
theories/FloatProofs2.v
theories/FloatProofs3.v
theories/FloatProofs4.v
theories/FloatProofs5.v
theories/FloatProps.v
theories/FloatProps2.v
theories/TightProps.v
theories/TightProps2.v
theories/TightProps3.v
theories/TightProps4.v
theories/TightProps5.v
theories/UniqModel.v
theories/UniqProofs.v
theories/UniqProofs2.v
theories/UniqProofs3.v
theories/UniqProofs4.v
theories/UniqProps.v
theories/DctAutoSpec.v
theories/DctAutoProofs.v
theories/DctAutoProofs2.v
theories/DctAutoProofs3.v
theories/DctAutoProofs4.v
theories/DctAutoProofs5.v
theories/DctAutoProps.v
theories/TsColumnProps.v
theories/DctAutoProofs6.v
theories/RunSpec.v
theories/RunProofs.v
theories/RunProofs2.v
theories/RunProps.v
theories/MaskProofs2.v
theories/MaskProps.v
theories/PointProps.v
theories/InvarianceProofs.v
theories/InvarianceProps.v
theories/UnitSpec.v
theories/UnitProofs.v
theories/UnitProps.v
theories/MeanStdUnitProps.v
theories/FilterUnitProofs.v
theories/FilterUnitProps.v
theories/ExpUnitProps.v
theories/ShiftProofs.v
theories/ShiftProps.v
theories/RollingShiftProps.v
theories/RunScaleSpec.v
theories/RunScaleProofs.v
theories/RunScaleProofs2.v
theories/RunScaleProps.v
theories/TightProps6.v
theories/TightProps7.v
theories/FloatRollProps.v
theories/ZoneModel.v
theories/ZoneSpec.v
theories/ZoneProofs.v
theories/ZoneProps.v
theories/TightProps8.v
theories/ClimModel.v
theories/ClimProofs.v
theories/ClimProofs2.v
theories/ClimProps.v
theories/OwnModel.v
theories/OwnSpec.v
theories/OwnProofs.v
theories/OwnProps.v
theories/OwnProps2.v
theories/CdfIntModel.v
theories/CdfIntProps.v
theories/ShiftIndexProofs.v
theories/ShiftIndexProps.v
theories/DfWrapModel.v
theories/DfWrapProofs.v
theories/DfWrapProofs2.v
theories/DfWrapProps.v
theories/TightProps9.v
theories/TypedModel.v
theories/TypedSpec.v
theories/TypedProofs.v
theories/TypedProofs2.v
theories/TypedProps.v
theories/TightProps10.v
theories/ArgsModel.v
theories/ArgsProps.v
theories/RollRefModel.v
theories/RollRefProofs.v
theories/RollRefProps.v
theories/ReuseModel.v
theories/ReuseProofs.v
theories/ReuseProps.v
theories/FindProofs.v
theories/FindProps.v
theories/JdModel.v
theories/JdSpec.v
theories/JdProofs.v
theories/JdProofs2.v
theories/JdProofs3.v
theories/JdProps.v
theories/TightProps11.v
theories/ExpFloatModel.v
theories/ExpFloatSpec.v
theories/ExpFloatProofs.v
theories/ExpFloatProofs2.v
theories/ExpFloatProofs3.v
theories/ExpFloatProofs4.v
theories/ExpFloatProps.v
theories/TightProps12.v
theories/FilterUnitProps2.v
theories/DfWrapProps2.v
theories/ReuseProps2.v
theories/BoxFloatModel.v
theories/BoxFloatSpec.v
theories/BoxFloatProofs.v
theories/BoxFloatProofs2.v
theories/BoxFloatProps.v
theories/DfMatchProps2.v
theories/ResultsTsProps2.v
theories/LinFloatModel.v
theories/LinFloatProofs.v
theories/LinFloatProps.v
theories/DctExclProps.v
theories/MeanFloatModel.v
theories/MeanFloatSpec.v
theories/MeanFloatProofs.v
theories/MeanFloatProps.v
theories/CdfSeqModel.v
theories/CdfSeqSpec.v
theories/CdfSeqProofs.v
theories/CdfSeqProps.v
theories/EcolModel.v
theories/EcolSpec.v
theories/EcolProofs.v
theories/EcolProofs2.v
theories/EcolProofs3.v
theories/EcolProofs4.v
theories/EcolProofs5.v
theories/EcolProofs6.v
theories/EcolProofs7.v
theories/EcolProps.v
theories/DctIntModel.v
theories/DctIntSpec.v
theories/DctIntProofs.v
theories/DctIntProofs2.v
theories/DctIntProps.v
theories/EcolUnitSpec.v
theories/EcolUnitProofs.v
theories/EcolUnitProps.v
theories/ConfNestSpec.v
theories/ConfNestProofs.v
theories/ConfNestProofs2.v
theories/ConfNestProps.v
theories/TimeNumModel.v
theories/TimeNumProofs.v
theories/TimeNumSpec.v
theories/TimeNumProps.v
theories/ResAttrModel.v
theories/ResAttrSpec.v
theories/ResAttrProofs.v
theories/ResAttrProps.v
theories/DsNamesModel.v
theories/DsNamesSpec.v
theories/DsNamesProofs.v
theories/DsNamesProps.v
theories/RollStoreModel.v
theories/RollStoreProps.v
theories/StoredValModel.v
theories/StoredValSpec.v
theories/StoredValProofs.v
theories/StoredValProps.v
theories/IndepProps.v
theories/RenameProps.v
theories/OptionProps.v
theories/TwiceSpec.v
theories/TwiceProofs.v
theories/TwiceProps.v
theories/RematchProps.v
theories/ThreeProps.v
theories/StackProps.v
theories/ClimAdapterModel.v
theories/ClimAdapterSpec.v
theories/ClimAdapterProofs.v
theories/ClimAdapterProps.v
theories/AgreeSpec.v
theories/AgreeProofs.v
theories/AgreeProps.v
theories/AgreeTripleProps.v
theories/UniqProofs5.v
theories/TsMaskProps.v
theories/AgreeTcPairsProps.v
theories/AgreeHsafProps.v
theories/LocalProofs.v
theories/LocalProps.v
theories/CycleProofs.v
theories/CycleProps.v
theories/FadeProofs.v
theories/FadeProps.v
theories/PiecesProofs.v
theories/PiecesProps.v
theories/AfterScaleProofs.v
theories/AfterScaleProps.v
theories/DfMatchProps3.v
theories/FloatNanProps.v
theories/ArgsProps2.v
theories/FloatSignProofs.v
theories/FloatSignProps.v
theories/FloatSignProofs2.v
theories/FloatSignProps2.v
theories/FloatSignProofs3.v
theories/FloatSignProps3.v
theories/PiecesProps2.v
theories/TemporalIntProps.v
theories/MonoSpec.v
theories/MonoFloatProofs.v
theories/MonoClimProofs.v
theories/MonoProps.v
theories/GridSpec.v
theories/GridProofs.v
theories/GridProps.v
theories/BackSpec.v
theories/BackProofs.v
theories/BackProps.v
theories/GridMoreProps.v
theories/GridBiasProps.v
theories/ConstFloatProofs.v
theories/ConstFloatProps.v
theories/ConstGridProps.v
theories/PowFloatSpec.v
theories/PowFloatProofs.v
theories/PowFloatProps.v
theories/PowMoreProps.v
theories/PowCollProps.v
theories/PowBoxProps.v
