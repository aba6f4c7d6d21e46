-Q theories Verif
theories/Base.v
theories/Arith.v
theories/Helper.v
theories/Tensor.v
theories/Spec.v
theories/SpecLayer.v
theories/Loops.v
theories/TensorFacts.v
theories/Convolution.v
theories/OpsFacts.v
theories/Layout.v
theories/ProofsTensor.v
theories/FullyConnected.v
theories/Convolutional.v
theories/MaxPool.v
theories/Softmax.v
theories/Network.v
theories/ProofsConv.v
theories/ProofsBackprop.v
theories/Bincode.v
theories/Serial.v
theories/SpecNet.v
theories/SpecSerial.v
theories/SpecTrain.v
theories/SerialFacts.v
theories/Float32.v
theories/Rand.v
theories/SpecOps.v
theories/Float32Facts.v
theories/SpecF32.v
theories/ProofsPool.v
theories/ProofsOutgoing.v
theories/ProofsFloat.v
theories/ProofsConvRelu.v
theories/LayerFacts.v
theories/NetFacts.v
theories/BackFacts.v
theories/NetRun.v
theories/NetBack.v
theories/ProofsNet.v
theories/SerialLayer.v
theories/ProofsSerial.v
theories/ProofsLayer.v
theories/RealArith.v
theories/SpecReal.v
theories/RealSums.v
theories/ProofsReal.v
theories/SpecError.v
theories/FloatError.v
theories/ProofsError.v
theories/ProofsOps.v
theories/ProofsRand.v
theories/RealGrad.v
theories/RealConv.v
theories/ProofsGrad.v
theories/ProofsConvGrad.v
theories/SpecChain.v
theories/ProofsChain.v
theories/SpecBatch.v
theories/ProofsBatch.v
theories/ProofsBuild.v
theories/ProofsJoin.v
theories/ProofsStates.v
theories/ProofsSoft.v
theories/RepoTests.v
theories/Demo.v
theories/DemoNet.v
theories/DemoSerial.v
theories/DemoTrain.v
theories/DemoReal.v
theories/DemoGrad.v
theories/PropertiesTensor.v
theories/PropertiesConv.v
theories/PropertiesPool.v
theories/PropertiesFloat.v
theories/PropertiesNet.v
theories/PropertiesSerial.v
theories/PropertiesLayer.v
theories/PropertiesReal.v
theories/PropertiesError.v
theories/PropertiesGrad.v
theories/ProofsRandValue.v
theories/PropertiesOps.v
theories/PropertiesBuild.v
theories/PropertiesBatch.v
theories/PropertiesStates.v
theories/PropertiesSoft.v
theories/SpecNetError.v
theories/ProofsNetError.v
theories/DemoNetError.v
theories/PropertiesNetError.v
theories/SpecGain.v
theories/ProofsGain.v
theories/DemoGain.v
theories/PropertiesGain.v
theories/SpecModes.v
theories/ProofsModes.v
theories/ProofsNew.v
theories/DemoModes.v
theories/PropertiesModes.v
theories/ProofsDense.v
theories/DemoDense.v
theories/PropertiesDense.v
theories/SpecMono.v
theories/ProofsMono.v
theories/DemoMono.v
theories/PropertiesMono.v
theories/SpecFile.v
theories/ProofsFile.v
theories/PropertiesFile.v
theories/SpecRound.v
theories/ProofsRound.v
theories/DemoRound.v
theories/PropertiesRound.v
theories/ProofsOrder.v
theories/PropertiesOrder.v
theories/SpecField.v
theories/ProofsField.v
theories/DemoField.v
theories/PropertiesField.v
theories/ProofsClass.v
theories/DemoClass.v
theories/PropertiesClass.v
theories/SpecLoad.v
theories/ProofsLoad.v
theories/PropertiesLoad.v
theories/ProofsMargin.v
theories/PropertiesMargin.v
theories/ProofsReluPool.v
theories/ProofsPoolPool.v
theories/PropertiesPoolLaws.v
theories/ProofsResume.v
theories/PropertiesResume.v
theories/SpecGrid.v
theories/ProofsGrid.v
theories/PropertiesGrid.v
theories/SpecUtf8.v
theories/ProofsUtf8.v
theories/PropertiesUtf8.v
theories/SpecEmpty.v
theories/ProofsEmpty.v
theories/PropertiesEmpty.v
theories/ProofsDescent.v
theories/PropertiesDescent.v
theories/SpecSparse.v
theories/ProofsSparse.v
theories/DemoSparse.v
theories/PropertiesSparse.v
theories/Lockstep.v
theories/SpecGridBack.v
theories/ProofsGridBack.v
theories/ProofsGridTrain.v
theories/DemoGridTrain.v
theories/PropertiesGridTrain.v
theories/SpecGradError.v
theories/ProofsAccum.v
theories/ProofsGradError.v
theories/ProofsGradTrain.v
theories/DemoGradError.v
theories/PropertiesGradError.v
theories/SpecJoint.v
theories/ProofsJoint.v
theories/DemoJoint.v
theories/PropertiesJoint.v
theories/ProofsHelper.v
theories/PropertiesHelper.v
theories/SpecLinear.v
theories/ProofsLinear.v
theories/PropertiesLinear.v
theories/ProofsNormal.v
theories/PropertiesNormal.v
theories/SpecDrift.v
theories/ProofsDrift.v
theories/DemoDrift.v
theories/PropertiesDrift.v
theories/ProofsShift.v
theories/PropertiesShift.v
theories/SpecEntries.v
theories/ProofsEntries.v
theories/SpecMemory.v
theories/ProofsMemory.v
theories/PropertiesMemory.v
theories/SpecRewire.v
theories/ProofsRewire.v
theories/PropertiesRewire.v
theories/ProofsPick.v
theories/SpecOpposed.v
theories/ProofsOpposite.v
theories/ProofsOpposed.v
theories/ProofsNegate.v
theories/PropertiesNegate.v
theories/SpecSilent.v
theories/ProofsSilent.v
theories/ProofsSilentNet.v
theories/ProofsSilentTwin.v
theories/PropertiesSilent.v
theories/SpecLocal.v
theories/RealLocal.v
theories/ProofsLocal.v
theories/PropertiesLocal.v
theories/SpecTurn.v
theories/ProofsTurn.v
theories/DemoTurn.v
theories/PropertiesTurn.v
theories/SpecScale.v
theories/FloatScale.v
theories/ProofsScale.v
theories/DemoScale.v
theories/PropertiesScale.v
theories/SpecPlatform.v
theories/ProofsFree.v
theories/ProofsPlatform.v
theories/DemoPlatform.v
theories/PropertiesPlatform.v
theories/SpecLoss.v
theories/ProofsLoss.v
theories/DemoLoss.v
theories/PropertiesLoss.v
theories/ProofsUnequal.v
theories/PropertiesUnequal.v
theories/SpecRelabel.v
theories/ProofsRelabel.v
theories/DemoRelabel.v
theories/PropertiesRelabel.v
theories/SpecPieces.v
theories/ProofsPieces.v
theories/DemoPieces.v
theories/PropertiesPieces.v
theories/SpecTrace.v
theories/ProofsTrace.v
theories/DemoTrace.v
theories/PropertiesTrace.v
theories/SpecLabel.v
theories/ProofsLabel.v
theories/DemoLabel.v
theories/PropertiesLabel.v
theories/SpecNeutral.v
theories/ProofsNeutral.v
theories/DemoNeutral.v
theories/PropertiesNeutral.v
theories/SpecTwins.v
theories/ProofsTwins.v
theories/DemoTwins.v
theories/PropertiesTwins.v
