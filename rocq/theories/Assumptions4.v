(** Generated by tools/manifest.py: the axioms each property theorem depends on. *)
From Verif Require Import PropQuat PropQuatMore PropDual PropHandEye PropCalib PropPrefilter PropEval PropBaseline PropRansac PropTermination PropSampling PropPerfect PropTimeOffset PropResample PropAligned PropFilter PropOffsetPath PropCsv PropCsvText PropEstimator PropExtrinsic PropVerification PropTables PropPlots PropPlotsReal PropStability PropViews PropOffsetViews PropNoRaise PropOutliers PropReported PropBaselineAny PropAccuracy PropNoisySignal PropInterp PropRecorded PropTwoSensors PropBaselineAccuracy PropWindows PropFrames PropMore PropClock PropEndToEnd PropDriver PropRunFiles PropCircle PropExport PropDrops PropExtraction PropExtractionReal PropSynthetic PropSweep PropRace PropComplete PropSingular PropCli PropScript PropEstimatorRun PropShort PropPipeline PropSvd PropFloat PropFloatTime PropFloatDual PropNoise PropNoiseFar PropOrientNoise PropSwap PropOffsetSwap PropCsvFiles PropFloatOffset PropFloatPose PropFloatScrew PropCsvSpecial PropFloatEval PropFloatRms PropFloatInterp PropFloatRate PropFloatSmooth PropUnits PropLength PropRerun PropNumberText PropEstimatorText PropWhole PropOutcome.
Print Assumptions C01_norm_and_conjugate.
Print Assumptions C02_division.
Print Assumptions C03_composition.
Print Assumptions C05_normalize.
Print Assumptions C06_small_rotations_vanish.
Print Assumptions C07_slerp_norm.
Print Assumptions C08_nlerp.
Print Assumptions C09_symmetric.
Print Assumptions C10_sign_independent.
Print Assumptions C12_inverse.
Print Assumptions C13_dq_roundtrip.
Print Assumptions C15_composition.
Print Assumptions C17_normalize.
Print Assumptions C18_scalar.
Print Assumptions C20_roundtrip.
Print Assumptions C21_reflexive.
Print Assumptions C21_other_type.
Print Assumptions C23_align.
Print Assumptions C24_built.
Print Assumptions C25_never_wrong.
Print Assumptions C27_only_signs.
Print Assumptions C28_accepts_only.
Print Assumptions C29_kept.
Print Assumptions C29_real.
Print Assumptions C30_zero.
Print Assumptions C31_meaning.
Print Assumptions C32_empty.
Print Assumptions C33_selects_first.
Print Assumptions C34_success.
Print Assumptions C34_prerejected.
Print Assumptions C35_exhaustive_visits.
Print Assumptions C35_random_diverges.
Print Assumptions C36_origin.
Print Assumptions C38_stop.
Print Assumptions C38_defaults.
Print Assumptions C39_empty.
Print Assumptions C40_never_interpolates.
Print Assumptions C41_empty.
Print Assumptions C42_grid.
Print Assumptions C43_norms.
Print Assumptions C44_rows.
Print Assumptions C44_zero.
Print Assumptions C45_empty.
Print Assumptions C46_roundtrip.
Print Assumptions C46_reader.
Print Assumptions C47_associative.
Print Assumptions C48_loop.
Print Assumptions C49_count.
Print Assumptions C50_check_length.
Print Assumptions C50_prefiltering_refuted.
Print Assumptions C51_plain_fails.
Print Assumptions C51_count.
Print Assumptions C52_names.
Print Assumptions C53_summary.
Print Assumptions C54_completed.
Print Assumptions C54_killed_early.
Print Assumptions C54_raised.
Print Assumptions C54_second_has_first.
Print Assumptions C55_current.
Print Assumptions C55_same_name.
Print Assumptions C56_raises.
Print Assumptions C57_mismatch.
Print Assumptions C57_slash_collision.
Print Assumptions C57_topics_distinct.
Print Assumptions C58_defaults.
Print Assumptions C58_too_many.
Print Assumptions C59_noise_keeps_angle.
Print Assumptions C59_no_samples.
Print Assumptions C60_bare_name.
Print Assumptions C61_close.
Print Assumptions C61_zero_axis.
Print Assumptions C62_iterations.
Print Assumptions C62_completes.
Print Assumptions C64_count.
Print Assumptions C64_serial.
Print Assumptions C66_failed.
Print Assumptions C66_bad_file.
Print Assumptions C66_readback.
Print Assumptions C67_touched.
Print Assumptions C67_alignment_failed.
Print Assumptions C67_stale_guess_refuted.
Print Assumptions C69_delay_refuted.
Print Assumptions C70_accepted.
Print Assumptions C71_resample.
Print Assumptions C71_aligned.
Print Assumptions C72_offset.
Print Assumptions C73_transform_point.
Print Assumptions C74_exact.
Print Assumptions C74_exact_data_accepted_refuted.
Print Assumptions C75_missing.
Print Assumptions C75_written.
Print Assumptions C75_rescaled.
Print Assumptions C76_bad_number.
Print Assumptions C77_emptied.
Print Assumptions C78_share.
Print Assumptions C80_reported.
Print Assumptions C81_rejects.
Print Assumptions C81_coincide.
Print Assumptions C83_sample.
Print Assumptions C83_too_few.
Print Assumptions C84_search.
Print Assumptions C85_prefilter.
Print Assumptions C86_accuracy.
Print Assumptions C87_exact.
Print Assumptions C88_calibration.
Print Assumptions C89_parallel.
Print Assumptions C90_offset.
Print Assumptions C90_errors.
Print Assumptions C91_prefilter.
Print Assumptions C92_singletons.
Print Assumptions C93_far.
Print Assumptions C95_unflagged.
Print Assumptions C96_offset.
Print Assumptions C97_swap.
Print Assumptions C98_recordings.
Print Assumptions C99_only_numbers.
Print Assumptions C100_same_lag.
Print Assumptions C101_alignment_refuted.
Print Assumptions C102_alignment.
Print Assumptions C103_calibration_again.
Print Assumptions C104_extractor_number.
Print Assumptions C104_tf_python2_error.
Print Assumptions C104_stamps_refuted.
Print Assumptions C104_estimator_tf_python2.
Print Assumptions C105_calibration.
Print Assumptions C106_few.
Print Assumptions C107_offset.
Print Assumptions C107_useless.
Print Assumptions C108_nan_spreads.
Print Assumptions C109_cosine.
Print Assumptions C110_cell.
Print Assumptions C110_roundtrip.
Print Assumptions C111_recorded.
Print Assumptions C112_orientation.
Print Assumptions C113_position.
Print Assumptions C114_velocities.
