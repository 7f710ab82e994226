-Q theories Verif
theories/ValueModel.v
theories/ValueSpec.v
theories/ValueProofs.v
theories/BalanceModel.v
theories/BalanceSpec.v
theories/BalanceProofs.v
theories/CounterModel.v
theories/CounterProofs.v
theories/CoreProps.v
theories/StoreModel.v
theories/StoreSpec.v
theories/StoreProofs.v
theories/StoreProps.v
theories/FraosModel.v
theories/FraosSpec.v
theories/FraosProofs.v
theories/FraosLogProofs.v
theories/FraosCrashProofs.v
theories/FraosHistProofs.v
theories/FraosConcModel.v
theories/FraosConcProofs.v
theories/FraosProps.v
theories/FraosCases.v
theories/FraosRoModel.v
theories/FraosRoSpec.v
theories/FraosRoProofs.v
theories/FraosRoProps.v
theories/FraosDropProps.v
theories/FraosMemProps.v
theories/FraosLateSpec.v
theories/FraosLateProofs.v
theories/FraosLateFaults.v
theories/FraosPowerModel.v
theories/FraosPowerSpec.v
theories/FraosPowerProofs.v
theories/FraosPowerHist.v
theories/FraosPowerProps.v
theories/FraosPowerCases.v
theories/FraosViewModel.v
theories/FraosViewSpec.v
theories/FraosViewProps.v
theories/ILogMapModel.v
theories/ILogMapSpec.v
theories/ILogMapProofs.v
theories/ILogMapConcProofs.v
theories/ILogMapProps.v
theories/ILogMapCases.v
theories/ILogConcCrash.v
theories/ILogFaultModel.v
theories/ILogFaults.v
theories/ILogLate.v
theories/IMapPowerModel.v
theories/IMapPowerSpec.v
theories/IMapPowerProofs.v
theories/IMapPowerProps.v
theories/IMapPowerCases.v
theories/MultiverseModel.v
theories/MultiverseSpec.v
theories/MultiverseProofs.v
theories/MultiverseHistProofs.v
theories/MultiverseQueryProofs.v
theories/MultiverseProps.v
theories/MultiverseCases.v
theories/MultiverseCrashModel.v
theories/MultiverseCrashProps.v
theories/TimeModel.v
theories/TimeProps.v
theories/ClockModel.v
theories/ClockProps.v
theories/SourceModel.v
theories/SourceSpec.v
theories/SourceProofs.v
theories/SourceRunProofs.v
theories/SourceForkProofs.v
theories/SourceForkGrowProofs.v
theories/SourceProps.v
theories/SourceRestartProps.v
theories/SourceCrashModel.v
theories/SourceCrashProps.v
theories/SourceForkCrashProps.v
theories/SourceFirstCrashProps.v
theories/SelModel.v
theories/SelSpec.v
theories/SelProofs.v
theories/SelChangeProofs.v
theories/SelLargestProofs.v
theories/SelFewestProofs.v
theories/SelProps.v
theories/RandModel.v
theories/RandProofs.v
theories/RandSelProofs.v
theories/RandProps.v
theories/SelCases.v
theories/ThermoModel.v
theories/ThermoProofs.v
theories/ThermoRunProofs.v
theories/ThermoFeeProofs.v
theories/ThermoShapeProofs.v
theories/ThermoExtraProofs.v
theories/ThermoCountProofs.v
theories/ThermoProps.v
theories/ThermoToldProps.v
theories/ThermoSplitProps.v
theories/ThermoTotalProofs.v
theories/ThermoPanicProofs.v
theories/ThermoTotalProps.v
theories/ThermoTokenProofs.v
theories/ThermoTokenProps.v
theories/EstimModel.v
theories/EstimProps.v
theories/PipelineProps.v
theories/SizeProps.v
theories/UtilModel.v
theories/UtilProofs.v
theories/UtilProps.v
theories/CardanoModel.v
theories/CardanoSpec.v
theories/CardanoProofs.v
theories/CardanoProps.v
theories/CardanoLiveProps.v
theories/CardanoConnProps.v
theories/StackModel.v
theories/StackSpec.v
theories/StackProofs.v
theories/StackRunProofs.v
theories/StackProps.v
theories/StackLiveProofs.v
theories/StackLiveProps.v
theories/StackForkProofs.v
theories/StackForkProps.v
theories/StackRestartModel.v
theories/StackRestartProps.v
theories/StackCrashModel.v
theories/StackCrashProps.v
theories/CardanoDeliverProps.v
theories/JsonModel.v
theories/JsonSpec.v
theories/JsonProofs.v
theories/JsonProps.v
theories/JsonPointProps.v
theories/JsonCases.v
theories/ILogOpenModel.v
theories/ILogOpenProps.v
theories/ILogOpenCases.v
theories/MultisigModel.v
theories/CborSpec.v
theories/CborProofs.v
theories/MultisigProps.v
theories/MiscCases.v
theories/CoverProps.v
theories/FetchModel.v
theories/FetchProofs.v
theories/FetchProps.v
theories/WalletModel.v
theories/WalletProps.v
theories/ConfigModel.v
theories/ConfigSpec.v
theories/ConfigProofs.v
theories/ConfigProps.v
theories/OuraModel.v
theories/OuraSpec.v
theories/OuraProps.v
theories/FirstAddrModel.v
theories/FirstAddrSpec.v
theories/FirstAddrProps.v
theories/CmlModel.v
theories/CmlSpec.v
theories/CmlProps.v
theories/DivModel.v
theories/DivProofs.v
theories/DivProps.v
theories/CoreCases.v
