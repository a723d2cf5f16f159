(** Generated by tools/manifest.py: the axioms each property theorem depends on. *)
From Verif Require Import PropQuat PropQuatMore PropDual PropHandEye PropCalib PropPrefilter PropEval PropBaseline PropRansac PropTermination PropSampling PropPerfect PropTimeOffset PropResample PropAligned PropFilter PropOffsetPath PropCsv PropCsvText PropEstimator PropExtrinsic PropVerification PropTables PropPlots PropPlotsReal PropStability PropViews PropOffsetViews PropNoRaise PropOutliers PropReported PropBaselineAny PropAccuracy PropNoisySignal PropInterp PropRecorded PropTwoSensors PropBaselineAccuracy PropWindows PropFrames PropMore PropClock PropEndToEnd PropDriver PropRunFiles PropCircle PropExport PropDrops PropExtraction PropExtractionReal PropSynthetic PropSweep PropRace PropComplete PropSingular PropCli PropScript PropEstimatorRun PropShort PropPipeline PropSvd PropFloat PropFloatTime PropFloatDual PropNoise PropNoiseFar PropOrientNoise PropSwap PropOffsetSwap PropCsvFiles PropFloatOffset PropFloatPose PropFloatScrew PropCsvSpecial PropFloatEval PropFloatRms PropFloatInterp PropFloatRate PropFloatSmooth PropUnits PropLength PropRerun PropNumberText PropEstimatorText PropWhole PropOutcome.
Print Assumptions C01_mul_is_hamilton.
Print Assumptions C01_constructor.
Print Assumptions C02_scalar_division.
Print Assumptions C03_isometry.
Print Assumptions C06_from_angle_axis.
Print Assumptions C06_roundtrip_refuted.
Print Assumptions C07_slerp_rejects.
Print Assumptions C08_nlerp_unit_refuted.
Print Assumptions C09_shortcut.
Print Assumptions C10_dead_zone.
Print Assumptions C12_inverse_guard.
Print Assumptions C14_composition.
Print Assumptions C16_history.
Print Assumptions C17_normalize_refuted.
Print Assumptions C19_screw.
Print Assumptions C20_matrix_roundtrip.
Print Assumptions C21_not_symmetric.
Print Assumptions C21_all_values.
Print Assumptions C23_relative.
Print Assumptions C24_gate.
Print Assumptions C25_total_refuted.
Print Assumptions C27_signs_agree.
Print Assumptions C28_rejects.
Print Assumptions C29_axes.
Print Assumptions C30_pose_error.
Print Assumptions C31_length.
Print Assumptions C31_empty.
Print Assumptions C33_inliers.
Print Assumptions C33_too_few_inliers.
Print Assumptions C34_failure.
Print Assumptions C34_counters.
Print Assumptions C35_fuel_irrelevant.
Print Assumptions C35_diverges_example.
Print Assumptions C37_evaluated.
Print Assumptions C38_raises_run.
Print Assumptions C39_maximal_lag.
Print Assumptions C39_same_path.
Print Assumptions C40_unix_time.
Print Assumptions C41_same_stamps.
Print Assumptions C42_larger_step.
Print Assumptions C43_length.
Print Assumptions C44_poses_unconverted.
Print Assumptions C44_hamilton_output_refuted.
Print Assumptions C45_exact_below_refuted.
Print Assumptions C46_stable.
Print Assumptions C46_missing.
Print Assumptions C47_circle.
Print Assumptions C48_consistent.
Print Assumptions C49_perfect.
Print Assumptions C50_line.
Print Assumptions C50_dataset.
Print Assumptions C51_estimations.
Print Assumptions C51_plain_survives.
Print Assumptions C52_consistent.
Print Assumptions C53_nothing_lost.
Print Assumptions C54_completed_sweep.
Print Assumptions C54_killed_early_sweep.
Print Assumptions C54_killed_between.
Print Assumptions C55_requires_update.
Print Assumptions C55_all_present_refuted.
Print Assumptions C55_different_names.
Print Assumptions C56_distinct.
Print Assumptions C57_names.
Print Assumptions C57_frame_collision.
Print Assumptions C58_result.
Print Assumptions C58_fractional_overall.
Print Assumptions C58_all_points.
Print Assumptions C59_outliers.
Print Assumptions C59_clean.
Print Assumptions C60_dirname.
Print Assumptions C61_spoiled.
Print Assumptions C62_lines.
Print Assumptions C62_outcome.
Print Assumptions C63_streams.
Print Assumptions C64_finished.
Print Assumptions C65_succeeds.
Print Assumptions C66_touched.
Print Assumptions C66_no_offset.
Print Assumptions C66_visualize.
Print Assumptions C67_inputs.
Print Assumptions C67_calibration_failed.
Print Assumptions C68_exact.
Print Assumptions C70_divided.
Print Assumptions C70_fraction.
Print Assumptions C71_grid.
Print Assumptions C71_program.
Print Assumptions C72_far_refuted.
Print Assumptions C74_reported.
Print Assumptions C74_conditioned.
Print Assumptions C75_same_numbers.
Print Assumptions C75_number.
Print Assumptions C75_output.
Print Assumptions C75_script.
Print Assumptions C76_inlier_share_refuted.
Print Assumptions C77_exports_refuted.
Print Assumptions C79_figures.
Print Assumptions C80_determined.
Print Assumptions C81_drawn.
Print Assumptions C82_drawn.
Print Assumptions C83_never_raises.
Print Assumptions C83_too_few_exhaustive.
Print Assumptions C84_exhaustive.
Print Assumptions C85_exceptions.
Print Assumptions C86_ransac.
Print Assumptions C87_tolerates.
Print Assumptions C89_rates.
Print Assumptions C89_one_way.
Print Assumptions C90_windows.
Print Assumptions C91_program.
Print Assumptions C92_more.
Print Assumptions C92_doubles.
Print Assumptions C93_origin_refuted.
Print Assumptions C95_answers.
Print Assumptions C96_tolerates.
Print Assumptions C97_inverse.
Print Assumptions C98_slow.
Print Assumptions C99_table.
Print Assumptions C100_tie_refuted.
Print Assumptions C102_recovery.
Print Assumptions C103_aligned.
Print Assumptions C103_script_again.
Print Assumptions C104_extractor.
Print Assumptions C104_order.
Print Assumptions C104_estimator_number.
Print Assumptions C104_estimator_accepts.
Print Assumptions C105_search.
Print Assumptions C106_slow.
Print Assumptions C107_complete.
Print Assumptions C108_pose_error.
Print Assumptions C108_sample_lost.
Print Assumptions C109_prefilter.
Print Assumptions C110_other.
Print Assumptions C110_finite.
Print Assumptions C112_rms.
Print Assumptions C112_calibration.
Print Assumptions C113_orientation.
Print Assumptions C115_smooth.
