-Q theories Verif
theories/Num.v
theories/Heap.v
theories/Matrix.v
theories/Activation.v
theories/Misc.v
theories/Accuracy.v
theories/Loss.v
theories/Network.v
theories/Optimizers.v
theories/ModelGo.v
theories/LayerData.v
theories/ModelData.v
theories/Spec.v
theories/PureSpec.v
theories/Repr.v
theories/HeapLemmas.v
theories/LoopLemmas.v
theories/MatrixProofs.v
theories/ActivationProofs.v
theories/LayerProofs.v
theories/MiscProofs.v
theories/NumQ.v
theories/NumR.v
theories/NumB64.v
theories/RSum.v
theories/Ex.v
theories/MatrixFacts.v
theories/MatrixGlue.v
theories/PropMatrix.v
theories/B64Facts.v
theories/MiscFacts.v
theories/ActFacts.v
theories/MiscGlue.v
theories/PropMisc.v
theories/PropActivation.v
theories/LayerFacts.v
theories/LayerReal.v
theories/LayerGlue.v
theories/ErrorValues.v
theories/PropLayers.v
theories/LossProofs.v
theories/LossFacts.v
theories/GradSpec.v
theories/Grad.v
theories/LossReal.v
theories/GradCode.v
theories/LossCode.v
theories/LossRefute.v
theories/LossMore.v
theories/PropGrad.v
theories/LossGlue.v
theories/PropLoss.v
theories/OptSpec.v
theories/OptProofs.v
theories/OptFacts.v
theories/OptFail.v
theories/OptReal.v
theories/OptMore.v
theories/OptGlue.v
theories/PropOpt.v
theories/ModelSpec.v
theories/ModelProofs.v
theories/EvalProofs.v
theories/FitProofs.v
theories/FitLoop.v
theories/ModelFacts.v
theories/ModelEx.v
theories/FitFacts.v
theories/Built.v
theories/EvalFrame.v
theories/ModelRefute.v
theories/ModelGlue.v
theories/PropModel.v
theories/Calls.v
theories/FitRefute.v
theories/FitGlue.v
theories/PropFit.v
theories/NetGradSpec.v
theories/NetGrad.v
theories/NetGradCode.v
theories/PropNetGrad.v
theories/CodecSpec.v
theories/CodecBytes.v
theories/CodecLoad.v
theories/CodecModel.v
theories/CodecSave.v
theories/CodecFacts.v
theories/CodecMore.v
theories/CodecResume.v
theories/CodecEx.v
theories/CodecRefute.v
theories/CodecGlue.v
theories/PropCodec.v
theories/Converge.v
theories/ConvergeFit.v
theories/ConvergeEx.v
theories/RowOrder.v
theories/RowOrderEx.v
theories/PropConverge.v
theories/ZeroGrad.v
theories/ZeroGradEx.v
theories/PropPitfalls.v
theories/LateLayer.v
theories/RowCount.v
theories/WrongShape.v
theories/SgdShape.v
theories/MisuseEx.v
theories/PropMisuse.v
theories/AdamBound.v
theories/PropStep.v
theories/Jobs.v
theories/JobsProofs.v
theories/JobsEx.v
theories/PropJobs.v
theories/Session.v
theories/SessionProofs.v
theories/SessionEx.v
theories/PropSession.v
theories/Twins.v
theories/TwinsProofs.v
theories/TwinsEx.v
theories/PropTwins.v
theories/Dead.v
theories/DeadProofs.v
theories/DeadEx.v
theories/PropDead.v
theories/Binomial.v
theories/BinomialProofs.v
theories/BinomialEx.v
theories/PropBinomial.v
theories/Nan.v
theories/NanProofs.v
theories/NanEx.v
theories/PropNan.v
theories/Unbiased.v
theories/ShuffleUniform.v
theories/UnbiasedEx.v
theories/PropUnbiased.v
theories/Conserve.v
theories/ConserveProofs.v
theories/ConserveEx.v
theories/PropConserve.v
theories/RoundSpec.v
theories/Rounding.v
theories/RoundProofs.v
theories/RoundEx.v
theories/PropRound.v
theories/MiniBatch.v
theories/MiniFit.v
theories/MiniEx.v
theories/PropMini.v
theories/CorruptSpec.v
theories/CorruptProofs.v
theories/CorruptEx.v
theories/PropCorrupt.v
theories/CopiesSpec.v
theories/Copies.v
theories/CopiesEx.v
theories/CopiesAdam.v
theories/PropCopies.v
theories/Tests.v
theories/TestProofs.v
theories/TestModels.v
theories/HandSpec.v
theories/TestLoop.v
theories/TestOpt.v
theories/SoftFloat.v
theories/HandFit.v
theories/TestRuns.v
theories/HandEx.v
theories/PropTests.v
theories/FloatSigns.v
theories/FloatRange.v
theories/FloatGlue.v
theories/FloatEx.v
theories/PropRange.v
theories/UnitSpec.v
theories/UnitOrder.v
theories/UnitEx.v
theories/PropUnits.v
theories/ShareSpec.v
theories/Share.v
theories/PropShare.v
theories/Momentum.v
theories/RateSpec.v
theories/MomentumFit.v
theories/MomentumEx.v
theories/AdamCycle.v
theories/PropRate.v
theories/IntGo.v
theories/IntProofs.v
theories/PropInt.v
theories/RobustSpec.v
theories/Robust.v
theories/RobustEx.v
theories/PropRobust.v
theories/LinearSpec.v
theories/LinearProofs.v
theories/LinearEx.v
theories/PropLinear.v
theories/ExamplesGo.v
theories/ExamplesSpec.v
theories/ExamplesData.v
theories/ExamplesProofs.v
theories/ExamplesSine.v
theories/ExamplesFacts.v
theories/IrisData.v
theories/ExamplesRuns.v
theories/PropExamples.v
theories/TextGo.v
theories/TextSpec.v
theories/TextFacts.v
theories/TextLog.v
theories/PropText.v
theories/Params.v
theories/CapacitySpec.v
theories/Capacity.v
theories/CapacityFit.v
theories/Approx.v
theories/CapacityEx.v
theories/PropCapacity.v
theories/FilesSpec.v
theories/FilesProofs.v
theories/FilesEx.v
theories/PropFiles.v
theories/BalanceSpec.v
theories/BalanceProofs.v
theories/RescaleSpec.v
theories/Rescale.v
theories/BalanceEx.v
theories/PropBalance.v
theories/StillSpec.v
theories/Still.v
theories/StillEx.v
theories/PartsSpec.v
theories/Parts.v
theories/PartsEx.v
theories/PropStill.v
theories/EvalSpec.v
theories/EvalParts.v
theories/EvalEx.v
theories/PropEval.v
theories/LossAccSpec.v
theories/LossAcc.v
theories/LossAccEx.v
theories/PropLossAcc.v
theories/SpanSpec.v
theories/Span.v
theories/SpanEx.v
theories/PropSpan.v
theories/NoiseSpec.v
theories/Noise.v
theories/NoiseEx.v
theories/PropNoise.v
theories/DeepSpec.v
theories/Deep.v
theories/DeepEx.v
theories/PropDeep.v
theories/CalibSpec.v
theories/Calib.v
theories/ModesSpec.v
theories/Modes.v
theories/ModesEx.v
theories/PropCalib.v
theories/PropModes.v
theories/SepSpec.v
theories/Sep.v
theories/SepEx.v
theories/PropSep.v
theories/PiecesSpec.v
theories/Pieces.v
theories/PiecesEx.v
theories/PropPieces.v
theories/Csv.v
theories/StableSpec.v
theories/Stable.v
theories/StableEx.v
theories/PropStable.v
theories/HeavyRec.v
theories/Heavy.v
theories/HeavyEx.v
theories/PropHeavy.v
theories/FmaGo.v
theories/Fma.v
theories/FmaEx.v
theories/PropFma.v
theories/TrackSpec.v
theories/TrackSim.v
theories/TrackNum.v
theories/Track.v
theories/TrackEx.v
theories/PropTrack.v
theories/RotateSpec.v
theories/Rotate.v
theories/RotateEx.v
theories/PropRotate.v
theories/TieSpec.v
theories/Tie.v
theories/TieGrad.v
theories/TieEx.v
theories/PropTie.v
theories/BinAccept.v
theories/BinAcceptEx.v
theories/PropBinAccept.v
theories/SigSpec.v
theories/SigFit.v
theories/SigLoop.v
theories/SigFacts.v
theories/SigEx.v
theories/PropSig.v
theories/SigShape.v
theories/SigShapeFit.v
theories/SigShapeEx.v
theories/PropSigShape.v
theories/Regions.v
theories/RegionsEx.v
theories/PropRegions.v
theories/ShiftSpec.v
theories/Shift.v
theories/ShiftEx.v
theories/PropShift.v
theories/MonoSpec.v
theories/Mono.v
theories/MonoEx.v
theories/PropMono.v
theories/MixSpec.v
theories/Mix.v
theories/MixEx.v
theories/MixAdam.v
theories/PropMix.v
theories/OverSpec.v
theories/Over.v
theories/PropOver.v
theories/FlipSpec.v
theories/FlipNum.v
theories/Flip.v
theories/FlipEx.v
theories/FlipRelu.v
theories/PropFlip.v
theories/MirrorSpec.v
theories/Mirror.v
theories/MirrorEx.v
theories/MirrorScale.v
theories/PropMirror.v
