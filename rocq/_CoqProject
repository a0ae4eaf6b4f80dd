-Q theories Verif
theories/Base.v
theories/BaseProofs.v
theories/Ops.v
theories/Mem.v
theories/MemProofs.v
theories/Kernels.v
theories/KernelProofs.v
theories/KernelProofs2.v
theories/Activation.v
theories/ActivationProofs.v
theories/Loss.v
theories/Neuralnet.v
theories/NetKernels.v
theories/ForwardProofs.v
theories/BackpropProofs.v
theories/OpsR.v
theories/SpecReal.v
theories/RealForward.v
theories/RealGrad.v
theories/LossGrad.v
theories/GradProofs.v
theories/OpsB32.v
theories/SpecMem.v
theories/Ex_Mem.v
theories/Prop_Kernels.v
theories/KernelProofs3.v
theories/Prop_Matrix.v
theories/SpecBits.v
theories/BitsProofs.v
theories/B32Facts.v
theories/PredictProofs.v
theories/Prop_Predict.v
theories/Exp256.v
theories/ActAccuracy.v
theories/ActPropProofs.v
theories/Prop_Activation.v
theories/Names.v
theories/GradPropProofs.v
theories/ParamProofs.v
theories/Prop_Params.v
theories/Prop_Grad.v
theories/Prop_SoftmaxGrad.v
theories/SpecMetric.v
theories/MetricProofs.v
theories/MetricB32.v
theories/MetricGrad.v
theories/Prop_Metrics.v
theories/Batch.v
theories/BatchProofs.v
theories/BlasProofs.v
theories/Prop_Batch.v
theories/Optimizer.v
theories/OptKernels.v
theories/OptProofs.v
theories/OptEpochs.v
theories/Pivot.v
theories/Prop_Pivot.v
theories/SpecOpt.v
theories/OptReal.v
theories/OptTrain.v
theories/Prop_Optimizer.v
theories/Prop_Rules.v
theories/Ex_Train.v
theories/Prop_Rules2.v
theories/Evaluate.v
theories/EvalProofs.v
theories/EvalReal.v
theories/Prop_Evaluate.v
theories/Callbacks.v
theories/SpecCallback.v
theories/CallbackProofs.v
theories/Prop_Callbacks.v
theories/Logger.v
theories/SpecLog.v
theories/LoggerProofs.v
theories/Prop_Logger.v
theories/Progress.v
theories/Prop_Progress.v
theories/Npy.v
theories/SpecNpy.v
theories/NpyProofs.v
theories/NpyProofs2.v
theories/Prop_Npy.v
theories/NpyList.v
theories/SpecList.v
theories/ListProofs.v
theories/Prop_List.v
theories/Prop_List2.v
theories/Registry.v
theories/SpecRegistry.v
theories/Prop_Registry.v
theories/Create.v
theories/SpecCreate.v
theories/CreateProofs.v
theories/Prop_Create.v
theories/NetFile.v
theories/SpecNetFile.v
theories/LoadProofs.v
theories/SaveProofs.v
theories/Prop_NetFile.v
theories/Init.v
theories/SpecInit.v
theories/InitProofs.v
theories/Prop_Init.v
theories/OptCreate.v
theories/SpecOptCreate.v
theories/Prop_OptCreate.v
theories/SpecRound.v
theories/RoundProofs.v
theories/Prop_Round.v
theories/Index32.v
theories/SpecIndex.v
theories/Prop_Index.v
theories/Cblas.v
theories/SpecCblas.v
theories/CblasProofs.v
theories/Prop_Cblas.v
theories/Prop_Npy2.v
theories/Prop_Sizes.v
theories/Exp256B32.v
theories/Exp256Reduce.v
theories/ExpB32Proofs.v
theories/SpecLibm.v
theories/ActB32.v
theories/SoftmaxB32.v
theories/ActReal.v
theories/RoundNet.v
theories/LibmCase.v
theories/SpecActFloat.v
theories/Prop_ExpB32.v
theories/SpecNames.v
theories/NamesProofs.v
theories/Prop_Names.v
theories/Prop_NpySafe.v
theories/SpecDescent.v
theories/DescentProofs.v
theories/Prop_Descent.v
theories/SpecRace.v
theories/RaceProofs.v
theories/Prop_Race.v
theories/SpecSettings.v
theories/OptInit.v
theories/Prop_OptInit.v
theories/Prop_Logger2.v
theories/CbInit.v
theories/Prop_CbInit.v
theories/NoFuel.v
theories/ExactProofs.v
theories/BlasExact.v
theories/Prop_Exact.v
theories/Prop_Terminate.v
theories/BpExact.v
theories/Prop_GradExact.v
theories/SpecGradRound.v
theories/DotTree.v
theories/DivD.v
theories/SlopeRound.v
theories/LossRound.v
theories/GradRound.v
theories/GradSample.v
theories/Prop_GradRound.v
theories/SpecStepRound.v
theories/SumRound.v
theories/BatchRound.v
theories/StepRound.v
theories/Prop_StepRound.v
theories/SpecAdapt.v
theories/AdaptRound.v
theories/AdaptStep.v
theories/Prop_Adapt.v
theories/SpecEvalRound.v
theories/MetricRound.v
theories/EvalRound.v
theories/Prop_EvalRound.v
theories/SpecAdamPos.v
theories/Prop_AdamPos.v
theories/SpecFrozen.v
theories/Prop_Frozen.v
theories/NpyMore.v
theories/SpecNpyMore.v
theories/Prop_NpyMore.v
theories/SpecAdamStep.v
theories/AdamRound.v
theories/Prop_AdamStep.v
theories/Prop_Undo.v
theories/SpecRelu.v
theories/Prop_Relu.v
theories/CallbackShared.v
theories/Prop_Callbacks2.v
theories/Prop_AdamRun.v
theories/Prop_AdaptRun.v
theories/ReproProofs.v
theories/Prop_Repro.v
theories/Trainer.v
theories/SpecTrainer.v
theories/TrainerProofs.v
theories/Prop_Trainer.v
theories/Prop_Trainer2.v
theories/Prop_Trainer3.v
theories/Idx.v
theories/SpecIdx.v
theories/IdxProofs.v
theories/Prop_Idx.v
theories/Custom.v
theories/CustomProofs.v
theories/Prop_Custom.v
theories/Example01.v
theories/Example01Proofs.v
theories/Prop_Example01.v
theories/Example02.v
theories/Example02Proofs.v
theories/Prop_Example02.v
theories/TestSgd.v
theories/Prop_TestSgd.v
theories/SpecNetFloat.v
theories/Prop_Recreate.v
theories/Prop_NaN.v
theories/Example03.v
theories/Prop_Example03.v
theories/Example02Mem.v
theories/Prop_Example02Mem.v
theories/TestSgdMem.v
theories/Prop_TestSgdMem.v
theories/Example01Mem.v
theories/Prop_Example01Mem.v
