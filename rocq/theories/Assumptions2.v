(** Generated by tools/manifest.py: the axioms each property theorem depends on. *)
From Verif Require Import PropQuat PropQuatMore PropDual PropHandEye PropCalib PropPrefilter PropEval PropBaseline PropRansac PropTermination PropSampling PropPerfect PropTimeOffset PropResample PropAligned PropFilter PropOffsetPath PropCsv PropCsvText PropEstimator PropExtrinsic PropVerification PropTables PropPlots PropPlotsReal PropStability PropViews PropOffsetViews PropNoRaise PropOutliers PropReported PropBaselineAny PropAccuracy PropNoisySignal PropInterp PropRecorded PropTwoSensors PropBaselineAccuracy PropWindows PropFrames PropMore PropClock PropEndToEnd PropDriver PropRunFiles PropCircle PropExport PropDrops PropExtraction PropExtractionReal PropSynthetic PropSweep PropRace PropComplete PropSingular PropCli PropScript PropEstimatorRun PropShort PropPipeline PropSvd PropFloat PropFloatTime PropFloatDual PropNoise PropNoiseFar PropOrientNoise PropSwap PropOffsetSwap PropCsvFiles PropFloatOffset PropFloatPose PropFloatScrew PropCsvSpecial PropFloatEval PropFloatRms PropFloatInterp PropFloatRate PropFloatSmooth PropUnits PropLength PropRerun PropNumberText PropEstimatorText PropWhole PropOutcome.
Print Assumptions C01_mul_dispatch.
Print Assumptions C01_bilinear.
Print Assumptions C02_inverse_zero.
Print Assumptions C04_quat_roundtrip.
Print Assumptions C06_roundtrip.
Print Assumptions C07_slerp_endpoints.
Print Assumptions C07_slerp_parallel.
Print Assumptions C08_lerp_rejects.
Print Assumptions C09_sign_invariance_refuted.
Print Assumptions C11_algebra.
Print Assumptions C12_division.
Print Assumptions C14_inverse.
Print Assumptions C17_constructor_accepts_all.
Print Assumptions C18_screw_congruence.
Print Assumptions C19_invariant.
Print Assumptions C20_half_turn.
Print Assumptions C21_not_transitive.
Print Assumptions C22_offset_path.
Print Assumptions C23_errors.
Print Assumptions C24_half_turn_refuted.
Print Assumptions C26_wellformed.
Print Assumptions C27_sign_invariance.
Print Assumptions C29_prefilter.
Print Assumptions C29_identity_dropped.
Print Assumptions C30_symmetric.
Print Assumptions C31_flags.
Print Assumptions C32_equal_poses.
Print Assumptions C33_exhaustive_never_returns.
Print Assumptions C33_index_error.
Print Assumptions C34_rejects.
Print Assumptions C35_subsets.
Print Assumptions C35_random_running.
Print Assumptions C36_no_prefilter.
Print Assumptions C37_success.
Print Assumptions C38_bound.
Print Assumptions C39_delayed_copy.
Print Assumptions C40_resample.
Print Assumptions C40_length.
Print Assumptions C41_same_rows.
Print Assumptions C43_filter.
Print Assumptions C43_not_increasing.
Print Assumptions C44_written.
Print Assumptions C45_text.
Print Assumptions C45_vanishes.
Print Assumptions C46_mixed.
Print Assumptions C46_raises.
Print Assumptions C47_closed_circle.
Print Assumptions C48_too_few.
Print Assumptions C49_finite.
Print Assumptions C50_commas.
Print Assumptions C51_optimized_fails.
Print Assumptions C51_lines.
Print Assumptions C51_aborts_refuted.
Print Assumptions C52_settings.
Print Assumptions C53_unknown.
Print Assumptions C54_append_only.
Print Assumptions C54_no_header.
Print Assumptions C54_never_repaired.
Print Assumptions C55_completed.
Print Assumptions C55_never_repaired.
Print Assumptions C55_stem.
Print Assumptions C56_duplicates_refuted.
Print Assumptions C57_bag_collision.
Print Assumptions C57_world_collision.
Print Assumptions C58_remaining.
Print Assumptions C58_fractional_max.
Print Assumptions C58_can_succeed.
Print Assumptions C59_helix.
Print Assumptions C60_run.
Print Assumptions C61_exact.
Print Assumptions C61_tiny_angles.
Print Assumptions C62_angles.
Print Assumptions C62_translations.
Print Assumptions C63_default.
Print Assumptions C64_progress.
Print Assumptions C65_shipped.
Print Assumptions C66_complete.
Print Assumptions C66_poses.
Print Assumptions C66_few.
Print Assumptions C67_overwritten.
Print Assumptions C67_success.
Print Assumptions C69_short.
Print Assumptions C70_normalize.
Print Assumptions C70_interpolate.
Print Assumptions C71_time_offset.
Print Assumptions C72_scalar.
Print Assumptions C73_round_trip.
Print Assumptions C74_reported_baseline.
Print Assumptions C74_small.
Print Assumptions C75_format.
Print Assumptions C75_accepted.
Print Assumptions C75_output_accepted.
Print Assumptions C76_errors.
Print Assumptions C77_no_pose.
Print Assumptions C78_files.
Print Assumptions C79_maps.
Print Assumptions C80_half_turns_refuted.
Print Assumptions C81_view.
Print Assumptions C82_panels.
Print Assumptions C83_exhaustive.
Print Assumptions C83_shipped.
Print Assumptions C84_first_exact_wins.
Print Assumptions C85_outliers.
Print Assumptions C86_baseline.
Print Assumptions C88_aligned.
Print Assumptions C89_noisy.
Print Assumptions C89_slow.
Print Assumptions C90_failure.
Print Assumptions C91_ransac.
Print Assumptions C92_exhaustive.
Print Assumptions C93_positions.
Print Assumptions C94_script.
Print Assumptions C95_continuous_refuted.
Print Assumptions C97_order.
Print Assumptions C97_asymmetric.
Print Assumptions C99_cells.
Print Assumptions C99_raises.
Print Assumptions C101_signals.
Print Assumptions C102_small_unit.
Print Assumptions C103_aligned_again.
Print Assumptions C104_table.
Print Assumptions C104_tf_python3.
Print Assumptions C104_stamp.
Print Assumptions C104_estimator_exact.
Print Assumptions C104_estimator_accepts_python2.
Print Assumptions C106_exact.
Print Assumptions C106_one_way.
Print Assumptions C107_program.
Print Assumptions C108_evaluation_total.
Print Assumptions C108_nan_refuted.
Print Assumptions C109_first_dropped.
Print Assumptions C110_table.
Print Assumptions C111_poses.
Print Assumptions C112_any_order.
Print Assumptions C113_between.
Print Assumptions C113_aligned.
Print Assumptions C115_norms.
