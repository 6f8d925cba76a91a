-Q theories Verif
theories/Prelude.v
theories/RMath.v
theories/Mat.v
theories/Interp.v
theories/SolveSpec.v
theories/InterpFacts.v
theories/InterpExample.v
theories/Prop_Interp.v
theories/SO2.v
theories/SO2Facts.v
theories/Prop_SO2.v
theories/OSplit.v
theories/OSplitFacts.v
theories/O2.v
theories/O2Facts.v
theories/Prop_O2.v
theories/SO3.v
theories/SO3Facts.v
theories/SO3Euler.v
theories/SO3More.v
theories/SO3Tables.v
theories/O3.v
theories/O3Facts.v
theories/Prop_SO3.v
theories/Prop_O3.v
theories/Repulse.v
theories/RepulseFacts.v
theories/S2.v
theories/S2Facts.v
theories/GridTables.v
theories/GridTablesFacts.v
theories/GridCache.v
theories/GridCacheFacts.v
theories/Prop_Grid.v
theories/Tensor.v
theories/TensorFacts.v
theories/SignedPerm.v
theories/Functional.v
theories/FunctionalFacts.v
theories/Prop_Functional.v
theories/Kernel.v
theories/KernelFacts.v
theories/GroupKernelFacts.v
theories/KernelMore.v
theories/WidthFacts.v
theories/MaskFacts.v
theories/Prop_Kernel.v
theories/Prop_Kernel2.v
theories/Conv.v
theories/ConvSpec.v
theories/ConvFacts.v
theories/GConvFacts.v
theories/SepConvFacts.v
theories/SepProduct.v
theories/ConvInit.v
theories/ConvShift.v
theories/ConvReset.v
theories/Prop_Conv.v
theories/Prop_Conv2.v
theories/SepStages.v
theories/Equi.v
theories/EquiLayer.v
theories/EquiSpec.v
theories/EquiSpecFacts.v
theories/EquiKernel.v
theories/EquiGroups.v
theories/Prop_Equi.v
theories/EquiMore.v
theories/Prop_Equi2.v
theories/Layers.v
theories/LayersSpec.v
theories/LayersFacts.v
theories/NormFacts.v
theories/PoolFacts.v
theories/Prop_Layers.v
theories/Public.v
theories/PublicFacts.v
theories/Prop_Public.v
theories/RegridSpec.v
theories/Regrid.v
theories/Prop_Regrid.v
theories/Network.v
theories/NetworkSpec.v
theories/NetworkCond.v
theories/NetFacts.v
theories/NetGroups.v
theories/NetDraws.v
theories/Prop_Network.v
theories/SampleFacts.v
theories/Prop_Sampling.v
theories/Checkpoint.v
theories/CheckpointFacts.v
theories/CheckpointExample.v
theories/Prop_Checkpoint.v
theories/CustomSpec.v
theories/CustomFacts.v
theories/Prop_Custom.v
theories/Tutorial.v
theories/TutorialFacts.v
theories/Prop_Tutorial.v
theories/PoolWindows.v
theories/LinSpec.v
theories/LinFacts.v
theories/Prop_Linear.v
theories/SampleRn.v
theories/Prop_SampleRn.v
theories/WeightSpec.v
theories/WeightFacts.v
theories/Prop_Weights.v
theories/Resample.v
theories/ResampleSpec.v
theories/ResampleFacts.v
theories/Prop_Resample.v
theories/Placement.v
theories/PlacementFacts.v
theories/Prop_Placement.v
theories/BatchShape.v
theories/BatchShapeFacts.v
theories/Prop_BatchShape.v
theories/NoBatchFacts.v
theories/Prop_NoBatch.v
theories/ReflectFacts.v
theories/Prop_Outside.v
theories/CyclicSpec.v
theories/CyclicFacts.v
theories/CyclicNet.v
theories/Prop_Cyclic.v
theories/LocalSpec.v
theories/LocalFacts.v
theories/Prop_Local.v
theories/Repr.v
theories/ReprFacts.v
theories/Prop_Repr.v
theories/NormHistory.v
theories/NormHistSpec.v
theories/NormHistFacts.v
theories/Prop_NormHistory.v
theories/AcceptSpec.v
theories/AcceptFacts.v
theories/Prop_Accept.v
theories/StableSpec.v
theories/GeluFacts.v
theories/StableFacts.v
theories/StableMore.v
theories/Prop_Stable.v
theories/ShapesFacts.v
theories/Prop_Shapes.v
theories/LipFacts.v
theories/LipLayer.v
theories/OctaFacts.v
theories/Prop_Lipschitz.v
theories/LinAlg.v
theories/RbfCert.v
theories/RbfSpec.v
theories/RbfSound.v
theories/RbfGrid.v
theories/RbfHints.v
theories/RbfRun.v
theories/RbfSO2.v
theories/ReadyFacts.v
theories/AnswerSpec.v
theories/AnswerFacts.v
theories/ContractFacts.v
theories/Prop_Answer.v
theories/Prop_Checkpoint2.v
theories/Prop_GridStart.v
theories/Prop_TutorialTotal.v
theories/Float32.v
theories/Float32Facts.v
theories/Prop_Float32.v
theories/Saving.v
theories/SavingSpec.v
theories/SavingFacts.v
theories/SavingMade.v
theories/SavingClaims.v
theories/Prop_Saving.v
theories/Strides.v
theories/StridesSpec.v
theories/StridesFacts.v
theories/StridesLayers.v
theories/Prop_Layout.v
theories/RepulseGrad.v
theories/RepulseGradSpec.v
theories/RepulseGradFacts.v
theories/RepulseGradSO3.v
theories/RepulseGradSO3Facts.v
theories/RepulseGradSO3Step.v
theories/Prop_Descent.v
theories/Prop_DescentSO3.v
theories/TrainSpec.v
theories/Prop_Train.v
theories/RandomSpec.v
theories/RandomFacts.v
theories/RandomMean.v
theories/Prop_Random.v
theories/LiveSpec.v
theories/LiveFacts.v
theories/Prop_Live.v
theories/BarySpec.v
theories/Bary.v
theories/BaryFacts.v
theories/BaryExample.v
theories/Prop_Bary.v
theories/RotOnlySpec.v
theories/RotOnlyFacts.v
theories/RotOnlyLayers.v
theories/Prop_RotOnly.v
theories/SignSpec.v
theories/SignFacts.v
theories/SignLayers.v
theories/Prop_Sign.v
theories/SignAvg.v
theories/Prop_Average.v
theories/Threads.v
theories/ThreadsFacts.v
theories/Prop_Threads.v
theories/AutogradRun.v
theories/AutogradFacts.v
theories/Prop_Autograd.v
theories/Defaults.v
theories/DefaultsFacts.v
theories/Prop_Defaults.v
theories/RandElem.v
theories/RandElemFacts.v
theories/Prop_RandElem.v
theories/Angle32.v
theories/Angle32Facts.v
theories/Prop_Angle32.v
