(** Generated by tools/manifest.py: the axioms each property theorem depends on. *)
From Verif Require Import PropQuat PropQuatMore PropDual PropHandEye PropCalib PropPrefilter PropEval PropBaseline PropRansac PropTermination PropSampling PropPerfect PropTimeOffset PropResample PropAligned PropFilter PropOffsetPath PropCsv PropCsvText PropEstimator PropExtrinsic PropVerification PropTables PropPlots PropPlotsReal PropStability PropViews PropOffsetViews PropNoRaise PropOutliers PropReported PropBaselineAny PropAccuracy PropNoisySignal PropInterp PropRecorded PropTwoSensors PropBaselineAccuracy PropWindows PropFrames PropMore PropClock PropEndToEnd PropDriver PropRunFiles PropCircle PropExport PropDrops PropExtraction PropExtractionReal PropSynthetic PropSweep PropRace PropComplete PropSingular PropCli PropScript PropEstimatorRun PropShort PropPipeline PropSvd PropFloat PropFloatTime PropFloatDual PropNoise PropNoiseFar PropOrientNoise PropSwap PropOffsetSwap PropCsvFiles PropFloatOffset PropFloatPose PropFloatScrew PropCsvSpecial PropFloatEval PropFloatRms PropFloatInterp PropFloatRate PropFloatSmooth PropUnits PropLength PropRerun PropNumberText PropEstimatorText PropWhole PropOutcome.
Print Assumptions C01_algebra.
Print Assumptions C02_inverse.
Print Assumptions C03_rotation.
Print Assumptions C04_matrix_roundtrip.
Print Assumptions C06_dead_zone.
Print Assumptions C07_slerp_interior.
Print Assumptions C08_lerp.
Print Assumptions C09_angle.
Print Assumptions C10_half_and_reversed.
Print Assumptions C11_unit_closed.
Print Assumptions C13_pose_roundtrip.
Print Assumptions C15_points.
Print Assumptions C17_is_normalized.
Print Assumptions C18_conjugate.
Print Assumptions C19_translation_direction_refuted.
Print Assumptions C21_eq.
Print Assumptions C21_sign.
Print Assumptions C22_bad_base.
Print Assumptions C24_kernel.
Print Assumptions C25_recovery.
Print Assumptions C26_rigid_refuted.
Print Assumptions C27_half_turn_refuted.
Print Assumptions C29_fuel_enough.
Print Assumptions C29_antiparallel.
Print Assumptions C30_sign_scale.
Print Assumptions C31_evaluate.
Print Assumptions C32_zero_error.
Print Assumptions C33_exhaustive_exception.
Print Assumptions C33_effects.
Print Assumptions C34_evaluated.
Print Assumptions C35_exhaustive_terminates.
Print Assumptions C35_random_finished.
Print Assumptions C36_prefilter.
Print Assumptions C37_success_rmse.
Print Assumptions C38_raises.
Print Assumptions C39_clock_shift.
Print Assumptions C40_out_of_range.
Print Assumptions C41_contract.
Print Assumptions C42_mean_step.
Print Assumptions C43_bounded.
Print Assumptions C43_negative_limit.
Print Assumptions C44_normalised.
Print Assumptions C45_roundtrip.
Print Assumptions C46_file.
Print Assumptions C46_mixed_refuted.
Print Assumptions C47_compose.
Print Assumptions C47_empty.
Print Assumptions C49_empty.
Print Assumptions C50_header.
Print Assumptions C50_prefiltering.
Print Assumptions C51_optimized_first.
Print Assumptions C51_values.
Print Assumptions C52_all.
Print Assumptions C52_special.
Print Assumptions C53_edge.
Print Assumptions C54_append_only_sweep.
Print Assumptions C54_no_header_sweep.
Print Assumptions C54_uninterrupted.
Print Assumptions C55_idempotent.
Print Assumptions C55_stuck.
Print Assumptions C56_rows.
Print Assumptions C57_all_bags.
Print Assumptions C57_topic_collision.
Print Assumptions C57_frames_distinct.
Print Assumptions C58_assertion.
Print Assumptions C58_never_raises.
Print Assumptions C59_path.
Print Assumptions C59_not_at_origin.
Print Assumptions C60_create_path.
Print Assumptions C61_large.
Print Assumptions C61_zero_direction.
Print Assumptions C62_failed.
Print Assumptions C62_files.
Print Assumptions C64_exists.
Print Assumptions C64_worst.
Print Assumptions C66_flags.
Print Assumptions C66_missing.
Print Assumptions C66_exact.
Print Assumptions C67_names.
Print Assumptions C67_status.
Print Assumptions C67_stale_refuted.
Print Assumptions C69_same_length.
Print Assumptions C70_read.
Print Assumptions C70_overflow_refuted.
Print Assumptions C71_single_velocity_refuted.
Print Assumptions C72_align.
Print Assumptions C73_compose.
Print Assumptions C74_flag.
Print Assumptions C74_copies.
Print Assumptions C75_blank.
Print Assumptions C75_nine_decimals.
Print Assumptions C75_same_files_refuted.
Print Assumptions C76_flags.
Print Assumptions C77_untouched.
Print Assumptions C78_real.
Print Assumptions C79_no_maps.
Print Assumptions C80_returned.
Print Assumptions C81_calibration.
Print Assumptions C82_overlay.
Print Assumptions C83_result.
Print Assumptions C84_clean_sample.
Print Assumptions C85_baseline.
Print Assumptions C86_true_errors.
Print Assumptions C87_nearly_best.
Print Assumptions C88_offset_error.
Print Assumptions C89_unclipped.
Print Assumptions C89_lost.
Print Assumptions C90_aligned.
Print Assumptions C91_baseline.
Print Assumptions C92_random.
Print Assumptions C93_unix.
Print Assumptions C95_noise.
Print Assumptions C96_rate.
Print Assumptions C97_implementation.
Print Assumptions C98_signals.
Print Assumptions C99_number.
Print Assumptions C100_lag.
Print Assumptions C101_recordings.
Print Assumptions C102_evaluation.
Print Assumptions C103_calibration.
Print Assumptions C104_number.
Print Assumptions C104_tf_python2.
Print Assumptions C104_stamps_merge.
Print Assumptions C104_estimator.
Print Assumptions C105_exists.
Print Assumptions C106_calibrates.
Print Assumptions C106_ends.
Print Assumptions C107_refused.
Print Assumptions C108_flags.
Print Assumptions C109_axis.
Print Assumptions C109_identity_kept_refuted.
Print Assumptions C110_raises.
Print Assumptions C111_flags.
Print Assumptions C112_position.
Print Assumptions C113_slerp.
Print Assumptions C114_velocity.
Print Assumptions C115_offset.
