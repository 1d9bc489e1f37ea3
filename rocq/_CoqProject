-Q theories Verif
theories/Num.v
theories/Ledger.v
theories/SnapshotModel.v
theories/SnapshotProofs.v
theories/XykModel.v
theories/XykProofs.v
theories/Hist.v
theories/XykSpec.v
theories/XykProps.v
theories/StakingModel.v
theories/StakingProofs.v
theories/StakingProps.v
theories/StakingTimeProps.v
theories/Amap.v
theories/VestingModel.v
theories/VestingSpec.v
theories/VestingProofs.v
theories/VestingProps.v
theories/OwnershipModel.v
theories/OwnershipProps.v
theories/TransmuterModel.v
theories/TransmuterSpec.v
theories/TransmuterProofs.v
theories/TransmuterProps.v
theories/BufferModel.v
theories/BufferProofs.v
theories/BufferProps.v
theories/ObservationModel.v
theories/ObservationSpec.v
theories/ObservationProofs.v
theories/ObservationQuery.v
theories/ObservationSma.v
theories/ObservationProps.v
theories/XykLpProps.v
theories/SnapshotTrack.v
theories/TrackerModel.v
theories/TrackerProps.v
theories/XTokenModel.v
theories/XTokenProps.v
theories/OracleModel.v
theories/OracleProps.v
theories/Bytes.v
theories/FactoryModel.v
theories/FactoryProps.v
theories/RouterModel.v
theories/RouterProps.v
theories/StableMath.v
theories/StableProofs.v
theories/StableAcc.v
theories/StableModel.v
theories/StablePair.v
theories/StableProps.v
theories/IncentivesModel.v
theories/IncentivesSched.v
theories/IncentivesPool.v
theories/IncentivesPay.v
theories/IncentivesOps.v
theories/IncentivesInv.v
theories/IncentivesStep.v
theories/IncentivesSpec.v
theories/IncentivesProofs.v
theories/IncentivesExact.v
theories/IncentivesPending.v
theories/IncentivesMove.v
theories/IncentivesFund.v
theories/IncentivesLock.v
theories/IncentivesProps.v
theories/IncentivesEmission.v
theories/IncentivesBudget.v
theories/IncentivesEmissionProps.v
theories/MakerModel.v
theories/MakerSpec.v
theories/MakerProofs.v
theories/MakerInv.v
theories/MakerProps.v
theories/IncentivesRoleProps.v
theories/RegistryModel.v
theories/RegistryProps.v
theories/FeeGranterModel.v
theories/FeeGranterProps.v
theories/ConverterModel.v
theories/ConverterProps.v
theories/XastroPairModel.v
theories/WhitelistModel.v
theories/WhitelistProps.v
theories/XastroPairProps.v
theories/SaleTaxModel.v
theories/SaleTaxProps.v
theories/PclMath.v
theories/PclModel.v
theories/PclParamProps.v
theories/PclProofs.v
theories/PclSwapProps.v
theories/PclProbeProps.v
theories/PclFeeProps.v
theories/PclLpProps.v
theories/PclTradeProps.v
theories/DualityModel.v
theories/DualityProofs.v
theories/DualityProps.v
theories/DualityOrderProps.v
theories/DualityWitnessProps.v
theories/ObMigrateModel.v
theories/ObMigrateProps.v
theories/PclExtraProps.v
theories/AttachModel.v
theories/AttachProps.v
theories/PclRoundProps.v
theories/PclCurveSpec.v
theories/PclApprox.v
theories/PclAccuracy.v
theories/PclCurveProps.v
theories/PairGovSpec.v
theories/PairGovProps.v
theories/MakerRouteProps.v
theories/StableTradeProps.v
theories/StableValueProps.v
theories/IncentivesExitSpec.v
theories/IncentivesExit.v
theories/IncentivesExitProps.v
theories/VestedModel.v
theories/VestedSpec.v
theories/VestedProofs.v
theories/VestedProps.v
theories/PclApproxY.v
theories/PclAccuracyY.v
theories/PclCurveExists.v
theories/PclSwapCurveProps.v
theories/VestMigrateModel.v
theories/VestMigrateProps.v
theories/FactMigrateModel.v
theories/FactMigrateProps.v
theories/XykMigrateModel.v
theories/XykMigrateProps.v
theories/MiscMigrateModel.v
theories/MiscMigrateProps.v
theories/IncQueryModel.v
theories/IncQueryProps.v
theories/IncInfoModel.v
theories/IncInfoProps.v
theories/XykExitProps.v
theories/StakeWorldModel.v
theories/StakeWorldSpec.v
theories/StakeWorldProofs.v
theories/StakeWorldProps.v
theories/RegWorldModel.v
theories/RegWorldSpec.v
theories/RegWorldProofs.v
theories/RegWorldProps.v
theories/RouteWorldModel.v
theories/RouteWorldSpec.v
theories/RouteWorldProofs.v
theories/RouteWorldProps.v
theories/FacPairModel.v
theories/FacPairSpec.v
theories/FacPairProofs.v
theories/FacPairProps.v
theories/MixRouteModel.v
theories/MixRouteSpec.v
theories/MixRouteProofs.v
theories/MixRouteProps.v
theories/MakerPoolModel.v
theories/MakerPoolSpec.v
theories/MakerPoolProofs.v
theories/MakerPoolProps.v
theories/StableExitProps.v
theories/StableConv.v
theories/StableConv2.v
theories/StableConv3.v
theories/StableConv4.v
theories/StableConv5.v
theories/StableLiveProps.v
theories/MakerMigrateModel.v
theories/MakerMigrateProps.v
theories/StableDepositProps.v
theories/StableReverseProps.v
theories/MixRouteExecProps.v
theories/MixBooksProps.v
theories/VestLimitProps.v
theories/StableConv6.v
theories/StableAskProps.v
theories/StableMoreProps.v
theories/XykSplitProps.v
theories/XykPartsProps.v
theories/SaleTaxMoreProps.v
