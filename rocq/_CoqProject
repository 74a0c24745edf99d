-Q theories Verif

theories/XReal.v
theories/ModelUtils.v
theories/ModelKernels.v
theories/ModelSfh.v
theories/RealFacts.v
theories/XFacts.v
theories/SpecCore.v
theories/SigmoidProofs.v
theories/TriweightProofs.v
theories/QuenchProofs.v
theories/IntegralProofs.v
theories/SfhProofs.v
theories/PopProofs.v
theories/DtProofs.v
theories/GasProofs.v
theories/FstarProofs.v
theories/ModelPopTables.v
theories/ModelPop.v
theories/SpecPop.v
theories/PopParamProofs.v
theories/PopKernelProofs.v
theories/MatrixProofs.v
theories/PopMcProofs.v
theories/ModelHist.v
theories/SpecHist.v
theories/HistProofs.v
theories/SmhmProofs.v
theories/LossProofs.v
theories/PopLossProofs.v
theories/ModelFit.v
theories/SpecFit.v
theories/FitProofs.v
theories/OptProofs.v
theories/FitTopProofs.v
theories/ModelLoad.v
theories/ModelIO.v
theories/SpecIO.v
theories/SpecLoad.v
theories/TextProofs.v
theories/TableProofs.v
theories/SplitProofs.v
theories/LoadProofs.v
theories/ScriptProofs.v
theories/MoreLoadProofs.v
theories/LoadTopProofs.v
theories/ModelTargets.v
theories/SpecTargets.v
theories/SnapshotProofs.v
theories/TargetProofs.v
theories/TargetDataProofs.v
theories/TargetTopProofs.v
theories/SpecMeasure.v
theories/MeasureProofs.v
theories/MeasureTopProofs.v
theories/ModelQuality.v
theories/SpecQuality.v
theories/QualityProofs.v
theories/QualityTopProofs.v
theories/ModelPopFit.v
theories/SpecPopFit.v
theories/LossDataProofs.v
theories/LossTargetProofs.v
theories/SsfrDataProofs.v
theories/PopFitTop.v
theories/FitLoopProofs.v
theories/SaveProofs.v
theories/SentinelProofs.v
theories/PropKernels.v
theories/PropSfh.v
theories/PropGas.v
theories/PropUtils.v
theories/PropPop.v
theories/PropHist.v
theories/SpecClose.v
theories/TightFit.v
theories/TightLoad.v
theories/TightTargets.v
theories/TightScaling.v
theories/TightAdam.v
theories/PropFit.v
theories/PropIO.v
theories/PropLoad.v
theories/PropTargets.v
theories/PropPopFit.v
theories/PropMeasure.v
theories/ModelSubvol.v
theories/SpecSubvol.v
theories/SubvolProofs.v
theories/SubvolTopProofs.v
theories/PropSubvol.v
theories/ModelMah.v
theories/SpecMah.v
theories/MahProofs.v
theories/MahTopProofs.v
theories/PropMah.v
theories/ModelSmhmFit.v
theories/SpecLossChain.v
theories/LossChainProofs.v
theories/LossChainTop.v
theories/PropLossChain.v
theories/ModelPopProgram.v
theories/SpecPopProgram.v
theories/PopProgramProofs.v
theories/PopProgramTop.v
theories/PopProgramDemo.v
theories/PropPopProgram.v
theories/SpecScaling.v
theories/ScalingProofs.v
theories/ScalingTop.v
theories/PropScaling.v
theories/ModelFloat.v
theories/SpecFloat32.v
theories/FloatProofs.v
theories/FloatConst.v
theories/FloatRange.v
theories/FloatTop.v
theories/FloatAccuracy.v
theories/FloatClose.v
theories/FloatDemo.v
theories/FloatApi.v
theories/PropFloat.v
theories/ModelGalacticus.v
theories/SpecGalacticus.v
theories/GalacticusProofs.v
theories/PropGalacticus.v
theories/ModelFloatMass.v
theories/SpecFloatMass.v
theories/FloatMassProofs.v
theories/FloatMassTop.v
theories/PropFloatMass.v
theories/ModelGrad.v
theories/SpecGrad.v
theories/GradProofs.v
theories/GradTop.v
theories/PropGrad.v
theories/ModelFloatTw.v
theories/SpecFloatTw.v
theories/FloatTwProofs.v
theories/FloatTwTop.v
theories/PropFloatTw.v
theories/ModelFloatSfh.v
theories/SpecFloatSfh.v
theories/FloatSfhProofs.v
theories/FloatSfhTop.v
theories/PropFloatSfh.v
theories/CommittedProofs.v
theories/PropCommitted.v
theories/ModelPopGrad.v
theories/SpecPopGrad.v
theories/CholeskyProofs.v
theories/CholeskyDraw.v
theories/PopGradProofs.v
theories/PopGradTables.v
theories/PopGradGal.v
theories/PopGradHist.v
theories/PopGradLoss.v
theories/PopGradTop.v
theories/PopGradClaims.v
theories/PopGradDemo.v
theories/PopGradSat.v
theories/PropPopGrad.v
theories/SpecPopNaN.v
theories/PopGradNaN.v
theories/PopNaNDemo.v
theories/PropPopNaN.v
theories/ModelAdam.v
theories/SpecAdam.v
theories/AdamProofs.v
theories/AdamFit.v
theories/AdamLoop.v
theories/PropAdam.v
theories/SpecAdamPop.v
theories/AdamPop.v
theories/PropAdamPop.v
theories/SpecRefine.v
theories/RefineProofs.v
theories/DirectionProofs.v
theories/RefineExamples.v
theories/PropRefine.v
theories/ModelWrappers.v
theories/SpecWrappers.v
theories/WrapperProofs.v
theories/PropWrappers.v
theories/FstarRefine.v
theories/ModelWeighted.v
theories/SpecWeighted.v
theories/WeightedProofs.v
theories/TightQuality.v
theories/PropQuality.v
theories/PropWeighted.v
theories/SpecLate.v
theories/LateFit.v
theories/PropLate.v
theories/SpecSymmetry.v
theories/SymmetryProofs.v
theories/IdentifyProofs.v
theories/EarlyProofs.v
theories/PeakProofs.v
theories/PropSymmetry.v
theories/SpecBudget.v
theories/BudgetProofs.v
theories/BudgetPop.v
theories/BudgetLoss.v
theories/PropBudget.v
theories/SpecRobust.v
theories/RobustProofs.v
theories/PropRobust.v
theories/RobustTable.v
theories/PropTable.v
