-Q theories Verif
theories/Num.v
theories/Py.v
theories/XReal.v
theories/Quat.v
theories/DualQuat.v
theories/XFacts.v
theories/Spec.v
theories/Embed.v
theories/QuatFacts.v
theories/QuatTrig.v
theories/QuatRot.v
theories/PropQuat.v
theories/PropQuatMore.v
theories/DualFacts.v
theories/ScrewFacts.v
theories/PropDual.v
theories/HandEye.v
theories/Assumptions1.v
theories/Assumptions2.v
theories/Assumptions3.v
theories/Assumptions4.v
theories/ListFacts.v
theories/HandEyeFacts.v
theories/KernelFacts.v
theories/SvdFacts.v
theories/CalibFacts.v
theories/PropHandEye.v
theories/CalibExample.v
theories/PropCalib.v
theories/PropPrefilter.v
theories/PropEval.v
theories/Ransac.v
theories/RansacFacts.v
theories/PropBaseline.v
theories/PropRansac.v
theories/PropTermination.v
theories/PropSampling.v
theories/PropPerfect.v
theories/TimeAlign.v
theories/TimeSpec.v
theories/TimeFacts.v
theories/ResampleFacts.v
theories/PropTimeOffset.v
theories/PropResample.v
theories/PropAligned.v
theories/PropFilter.v
theories/PropOffsetPath.v
theories/CsvIo.v
theories/CsvText.v
theories/CsvFacts.v
theories/PropCsv.v
theories/PropCsvText.v
theories/Estimator.v
theories/PropEstimator.v
theories/Extrinsic.v
theories/PropExtrinsic.v
theories/Verification.v
theories/PropVerification.v
theories/Experiments.v
theories/PropTables.v
theories/Plots.v
theories/PropPlots.v
theories/PropPlotsReal.v
theories/StabilityFacts.v
theories/PropStability.v
theories/Views.v
theories/PropViews.v
theories/PropOffsetViews.v
theories/PropNoRaise.v
theories/PropOutliers.v
theories/PropReported.v
theories/PropBaselineAny.v
theories/PropAccuracy.v
theories/PropNoisySignal.v
theories/PropInterp.v
theories/PropRecorded.v
theories/PropTwoSensors.v
theories/PropBaselineAccuracy.v
theories/Windows.v
theories/PropWindows.v
theories/PropFrames.v
theories/PropMore.v
theories/PropClock.v
theories/PropEndToEnd.v
theories/Driver.v
theories/PropDriver.v
theories/RunFiles.v
theories/PropRunFiles.v
theories/Circle.v
theories/PropCircle.v
theories/Tools.v
theories/PropExport.v
theories/PropDrops.v
theories/Extraction.v
theories/PropExtraction.v
theories/PropExtractionReal.v
theories/Synthetic.v
theories/PropSynthetic.v
theories/Sweep.v
theories/PropSweep.v
theories/Race.v
theories/PropRace.v
theories/PropComplete.v
theories/Cli.v
theories/PropSingular.v
theories/PropCli.v
theories/PropScript.v
theories/PropEstimatorRun.v
theories/PropShort.v
theories/PropPipeline.v
theories/PropSvd.v
theories/F64.v
theories/F64Facts.v
theories/FloatFacts.v
theories/PropFloat.v
theories/FloatTime.v
theories/FloatGrid.v
theories/PropFloatTime.v
theories/FloatQuat.v
theories/FloatDual.v
theories/PropFloatDual.v
theories/NoiseFacts.v
theories/PropNoise.v
theories/NoiseExample.v
theories/PropNoiseFar.v
theories/RateFacts.v
theories/PropOrientNoise.v
theories/SingularFacts.v
theories/PropSwap.v
theories/PropOffsetSwap.v
theories/PropCsvFiles.v
theories/PropFloatOffset.v
theories/PropFloatPose.v
theories/PropFloatScrew.v
theories/CsvSpecial.v
theories/PropCsvSpecial.v
theories/PropFloatEval.v
theories/PropFloatRms.v
theories/PropFloatInterp.v
theories/PropFloatRate.v
theories/PropFloatSmooth.v
theories/PropUnits.v
theories/PropLength.v
theories/PropRerun.v
theories/NumberText.v
theories/PropNumberText.v
theories/PropEstimatorText.v
theories/PropWhole.v
theories/PropOutcome.v
