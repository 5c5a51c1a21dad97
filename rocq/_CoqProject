-Q theories Verif
theories/AppsModel.v
theories/AppsOptions.v
theories/AppsPrint.v
theories/AppsProofs.v
theories/AppsSpec.v
theories/AppsTheorems.v
theories/AscentCases.v
theories/AscentProofs.v
theories/AscentSlda.v
theories/AscentTheorems.v
theories/Base.v
theories/BoundProofs.v
theories/BoundRefute.v
theories/BoundSpec.v
theories/BoundTheorems.v
theories/BuilderModel.v
theories/BuilderProofs.v
theories/BuilderSpec.v
theories/BuilderTheorems.v
theories/CommandCases.v
theories/CommandFiles.v
theories/CommandMeaning.v
theories/CommandModel.v
theories/CommandProofs.v
theories/CommandSpec.v
theories/CommandTheorems.v
theories/CorpusModel.v
theories/CorpusProofs.v
theories/CorpusTheorems.v
theories/CrashProofs.v
theories/CrashTheorems.v
theories/DescentLogistic.v
theories/DescentProofs.v
theories/DescentSpec.v
theories/DescentTheorems.v
theories/DigammaProofs.v
theories/DiskModel.v
theories/DiskProofs.v
theories/DoubleArith.v
theories/DoubleCases.v
theories/DoubleClassCases.v
theories/DoubleClassSpec.v
theories/DoubleClassTheorems.v
theories/DoubleCorrEpoch.v
theories/DoubleCorrTrain.v
theories/DoubleCorrTrainCases.v
theories/DoubleCorrTrainRefute.v
theories/DoubleCorrTrainSpec.v
theories/DoubleCorrTrainTheorems.v
theories/DoubleCorrespondence.v
theories/DoubleCorrespondenceRefute.v
theories/DoubleFast.v
theories/DoubleFastCases.v
theories/DoubleFastRefute.v
theories/DoubleFastSpec.v
theories/DoubleFastTheorems.v
theories/DoubleInfer.v
theories/DoubleInferCases.v
theories/DoubleInferSpec.v
theories/DoubleInferTheorems.v
theories/DoubleMultiTrain.v
theories/DoubleMultiTrainCases.v
theories/DoubleMultiTrainRefute.v
theories/DoubleMultiTrainSpec.v
theories/DoubleMultiTrainTheorems.v
theories/DoubleMultinomial.v
theories/DoubleMultinomialRefute.v
theories/DoubleProofs.v
theories/DoubleRefute.v
theories/DoubleSearch.v
theories/DoubleSearchCases.v
theories/DoubleSearchProofs.v
theories/DoubleSearchRefute.v
theories/DoubleSearchSpec.v
theories/DoubleSearchTheorems.v
theories/DoubleSearchTrain.v
theories/DoubleSpec.v
theories/DoubleTheorems.v
theories/DoubleTrain.v
theories/DoubleTrainRefute.v
theories/DoubleTrainSpec.v
theories/DoubleTrainTheorems.v
theories/DoubleUtils.v
theories/EStepAny.v
theories/EStepCorr.v
theories/EStepElbo.v
theories/EStepFloat.v
theories/EStepModel.v
theories/EStepOpt.v
theories/EStepReal.v
theories/EStepSlda.v
theories/EStepSpec.v
theories/EStepStop.v
theories/EStepTheorems.v
theories/EStepZero.v
theories/EventsModel.v
theories/EventsProofs.v
theories/EventsSpec.v
theories/EventsTheorems.v
theories/ExpTable.v
theories/FreshCases.v
theories/FreshProofs.v
theories/FreshSpec.v
theories/FreshTheorems.v
theories/FreshTrain.v
theories/HelperModel.v
theories/HelperProofs.v
theories/HelperTheorems.v
theories/HostModel.v
theories/HostProofs.v
theories/InferProofs.v
theories/InferSpec.v
theories/InferTheorems.v
theories/LdaModel.v
theories/LgammaProofs.v
theories/LgammaSpec.v
theories/MStepAny.v
theories/MStepBatch.v
theories/MStepModel.v
theories/MStepOnline.v
theories/MStepReal.v
theories/MStepSpec.v
theories/MStepTheorems.v
theories/Mat.v
theories/MoreSpec.v
theories/MoreTrain.v
theories/NumpyModel.v
theories/NumpyNegative.v
theories/NumpyProofs.v
theories/NumpySpec.v
theories/NumpyTheorems.v
theories/OptModel.v
theories/OptProofs.v
theories/OptReal.v
theories/OptSpec.v
theories/OptTheorems.v
theories/OwnerFit.v
theories/OwnerProofs.v
theories/OwnerSpec.v
theories/OwnerTheorems.v
theories/PermTac.v
theories/PoolDone.v
theories/PoolModel.v
theories/PoolOrder.v
theories/PoolProofs.v
theories/PoolSpec.v
theories/PoolTheorems.v
theories/PrintProofs.v
theories/PrintSpec.v
theories/PrintTheorems.v
theories/PrngCoin.v
theories/PrngModel.v
theories/PrngProofs.v
theories/PrngSpec.v
theories/PrngTheorems.v
theories/ProgramProofs.v
theories/ProgramSpec.v
theories/ProgramTheorems.v
theories/RealLemmas.v
theories/RenameBase.v
theories/RenameEStep.v
theories/RenameFit.v
theories/RenameMStep.v
theories/RenameOnce.v
theories/RenameOpt.v
theories/RenameRefute.v
theories/RenameSpec.v
theories/RenameTheorems.v
theories/ReproFloat.v
theories/ReproModel.v
theories/ReproProofs.v
theories/ReproSpec.v
theories/ReproTheorems.v
theories/ResumeProofs.v
theories/ResumeSpec.v
theories/ResumeTheorems.v
theories/RootCases.v
theories/RootFreshCases.v
theories/RootFreshProofs.v
theories/RootFreshSpec.v
theories/RootFreshTheorems.v
theories/RootListen.v
theories/RootModel.v
theories/RootProgress.v
theories/RootProofs.v
theories/RootQuery.v
theories/RootSaveProofs.v
theories/RootSaveTheorems.v
theories/RootScore.v
theories/RootScoreProofs.v
theories/RootScoreTheorems.v
theories/RootSnapCases.v
theories/RootSnapProofs.v
theories/RootSnapSpec.v
theories/RootSnapTheorems.v
theories/RootSpec.v
theories/RootTheorems.v
theories/RouteCases.v
theories/RouteModel.v
theories/RouteProofs.v
theories/RouteSpec.v
theories/RouteTheorems.v
theories/Scalar.v
theories/SettingsCases.v
theories/SettingsModel.v
theories/SettingsProofs.v
theories/SettingsSpec.v
theories/SettingsTheorems.v
theories/ShapeProofs.v
theories/ShapeSpec.v
theories/ShapeTheorems.v
theories/SnapshotProofs.v
theories/SnapshotTheorems.v
theories/TrainFit.v
theories/TrainPerm.v
theories/TrainProofs.v
theories/TrainSizes.v
theories/TrainSpec.v
theories/TrainTheorems.v
theories/UpdateCases.v
theories/UpdateProofs.v
theories/UpdateRefute.v
theories/UpdateReport.v
theories/UpdateSlda.v
theories/UpdateSpec.v
theories/UpdateTheorems.v
theories/UtilsFloat.v
theories/UtilsModel.v
theories/UtilsProofs.v
theories/UtilsSpec.v
theories/UtilsTheorems.v
