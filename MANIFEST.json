{
 "claims": [
  {
   "property": "C01",
   "status": "proved",
   "theorems": [
    "C01_mul_is_hamilton",
    "C01_mul_dispatch",
    "C01_algebra",
    "C01_norm_and_conjugate",
    "C01_constructor",
    "C01_bilinear"
   ],
   "note": ""
  },
  {
   "property": "C02",
   "status": "proved",
   "theorems": [
    "C02_inverse",
    "C02_division",
    "C02_scalar_division",
    "C02_inverse_zero"
   ],
   "note": "Includes the behaviour at zero: no exception, NaN components."
  },
  {
   "property": "C03",
   "status": "proved",
   "theorems": [
    "C03_rotation",
    "C03_composition",
    "C03_isometry"
   ],
   "note": ""
  },
  {
   "property": "C04",
   "status": "proved",
   "theorems": [
    "C04_quat_roundtrip",
    "C04_matrix_roundtrip"
   ],
   "note": "Half turns yield NaN; stated and proved as part of the property."
  },
  {
   "property": "C05",
   "status": "proved",
   "theorems": [
    "C05_normalize"
   ],
   "note": ""
  },
  {
   "property": "C06",
   "status": "proved",
   "theorems": [
    "C06_from_angle_axis",
    "C06_roundtrip",
    "C06_dead_zone",
    "C06_small_rotations_vanish",
    "C06_roundtrip_refuted"
   ],
   "note": "Includes the dead zone near w = 1 in which the axis is lost (C06_small_rotations_vanish, C06_roundtrip_refuted)."
  },
  {
   "property": "C07",
   "status": "proved",
   "theorems": [
    "C07_slerp_endpoints",
    "C07_slerp_interior",
    "C07_slerp_norm",
    "C07_slerp_rejects",
    "C07_slerp_parallel"
   ],
   "note": ""
  },
  {
   "property": "C08",
   "status": "proved",
   "theorems": [
    "C08_lerp",
    "C08_nlerp",
    "C08_nlerp_unit_refuted",
    "C08_lerp_rejects"
   ],
   "note": ""
  },
  {
   "property": "C09",
   "status": "proved",
   "theorems": [
    "C09_angle",
    "C09_symmetric",
    "C09_shortcut",
    "C09_sign_invariance_refuted"
   ],
   "note": ""
  },
  {
   "property": "C10",
   "status": "proved",
   "theorems": [
    "C10_half_and_reversed",
    "C10_sign_independent",
    "C10_dead_zone"
   ],
   "note": ""
  },
  {
   "property": "C11",
   "status": "proved",
   "theorems": [
    "C11_algebra",
    "C11_unit_closed"
   ],
   "note": ""
  },
  {
   "property": "C12",
   "status": "proved",
   "theorems": [
    "C12_inverse",
    "C12_inverse_guard",
    "C12_division"
   ],
   "note": ""
  },
  {
   "property": "C13",
   "status": "proved",
   "theorems": [
    "C13_pose_roundtrip",
    "C13_dq_roundtrip"
   ],
   "note": ""
  },
  {
   "property": "C14",
   "status": "proved",
   "theorems": [
    "C14_composition",
    "C14_inverse"
   ],
   "note": ""
  },
  {
   "property": "C15",
   "status": "proved",
   "theorems": [
    "C15_points",
    "C15_composition"
   ],
   "note": ""
  },
  {
   "property": "C16",
   "status": "proved",
   "theorems": [
    "C16_history"
   ],
   "note": ""
  },
  {
   "property": "C17",
   "status": "proved",
   "theorems": [
    "C17_constructor_accepts_all",
    "C17_is_normalized",
    "C17_normalize",
    "C17_normalize_refuted"
   ],
   "note": ""
  },
  {
   "property": "C18",
   "status": "proved",
   "theorems": [
    "C18_screw_congruence",
    "C18_conjugate",
    "C18_scalar"
   ],
   "note": ""
  },
  {
   "property": "C19",
   "status": "proved",
   "theorems": [
    "C19_screw",
    "C19_invariant",
    "C19_translation_direction_refuted"
   ],
   "note": "For rot = -1 the axis of a pure translation is reversed (C19_translation_direction_refuted)."
  },
  {
   "property": "C20",
   "status": "proved",
   "theorems": [
    "C20_roundtrip",
    "C20_matrix_roundtrip",
    "C20_half_turn"
   ],
   "note": ""
  },
  {
   "property": "C21",
   "status": "proved",
   "theorems": [
    "C21_eq",
    "C21_reflexive",
    "C21_not_symmetric",
    "C21_not_transitive",
    "C21_sign",
    "C21_other_type",
    "C21_all_values"
   ],
   "note": "__eq__ is reflexive, not symmetric, not transitive, and distinguishes dq from -dq."
  },
  {
   "property": "C22",
   "status": "proved",
   "theorems": [
    "C22_offset_path",
    "C22_bad_base"
   ],
   "note": ""
  },
  {
   "property": "C23",
   "status": "proved",
   "theorems": [
    "C23_align",
    "C23_relative",
    "C23_errors"
   ],
   "note": ""
  },
  {
   "property": "C24",
   "status": "proved",
   "theorems": [
    "C24_kernel",
    "C24_built",
    "C24_gate",
    "C24_half_turn_refuted"
   ],
   "note": ""
  },
  {
   "property": "C25",
   "status": "proved",
   "theorems": [
    "C25_recovery",
    "C25_never_wrong",
    "C25_total_refuted"
   ],
   "note": ""
  },
  {
   "property": "C26",
   "status": "proved",
   "theorems": [
    "C26_wellformed",
    "C26_rigid_refuted"
   ],
   "note": ""
  },
  {
   "property": "C27",
   "status": "proved",
   "theorems": [
    "C27_only_signs",
    "C27_signs_agree",
    "C27_sign_invariance",
    "C27_half_turn_refuted"
   ],
   "note": ""
  },
  {
   "property": "C28",
   "status": "proved",
   "theorems": [
    "C28_accepts_only",
    "C28_rejects"
   ],
   "note": ""
  },
  {
   "property": "C29",
   "status": "proved",
   "theorems": [
    "C29_prefilter",
    "C29_fuel_enough",
    "C29_kept",
    "C29_axes",
    "C29_identity_dropped",
    "C29_antiparallel",
    "C29_real"
   ],
   "note": ""
  },
  {
   "property": "C30",
   "status": "proved",
   "theorems": [
    "C30_pose_error",
    "C30_symmetric",
    "C30_sign_scale",
    "C30_zero"
   ],
   "note": ""
  },
  {
   "property": "C31",
   "status": "proved",
   "theorems": [
    "C31_length",
    "C31_flags",
    "C31_evaluate",
    "C31_meaning",
    "C31_empty"
   ],
   "note": ""
  },
  {
   "property": "C32",
   "status": "proved",
   "theorems": [
    "C32_equal_poses",
    "C32_zero_error",
    "C32_empty"
   ],
   "note": ""
  },
  {
   "property": "C33",
   "status": "proved",
   "theorems": [
    "C33_inliers",
    "C33_exhaustive_never_returns",
    "C33_exhaustive_exception",
    "C33_selects_first",
    "C33_too_few_inliers",
    "C33_index_error",
    "C33_effects"
   ],
   "note": ""
  },
  {
   "property": "C34",
   "status": "proved",
   "theorems": [
    "C34_success",
    "C34_failure",
    "C34_rejects",
    "C34_evaluated",
    "C34_prerejected",
    "C34_counters"
   ],
   "note": ""
  },
  {
   "property": "C35",
   "status": "proved",
   "theorems": [
    "C35_subsets",
    "C35_exhaustive_terminates",
    "C35_exhaustive_visits",
    "C35_fuel_irrelevant",
    "C35_random_running",
    "C35_random_finished",
    "C35_random_diverges",
    "C35_diverges_example"
   ],
   "note": ""
  },
  {
   "property": "C36",
   "status": "proved",
   "theorems": [
    "C36_no_prefilter",
    "C36_prefilter",
    "C36_origin"
   ],
   "note": ""
  },
  {
   "property": "C37",
   "status": "proved",
   "theorems": [
    "C37_evaluated",
    "C37_success",
    "C37_success_rmse"
   ],
   "note": ""
  },
  {
   "property": "C38",
   "status": "proved",
   "theorems": [
    "C38_stop",
    "C38_raises_run",
    "C38_bound",
    "C38_raises",
    "C38_defaults"
   ],
   "note": ""
  },
  {
   "property": "C39",
   "status": "proved",
   "theorems": [
    "C39_maximal_lag",
    "C39_delayed_copy",
    "C39_clock_shift",
    "C39_empty",
    "C39_same_path"
   ],
   "note": ""
  },
  {
   "property": "C40",
   "status": "proved",
   "theorems": [
    "C40_resample",
    "C40_out_of_range",
    "C40_never_interpolates",
    "C40_unix_time",
    "C40_length"
   ],
   "note": ""
  },
  {
   "property": "C41",
   "status": "proved",
   "theorems": [
    "C41_contract",
    "C41_empty",
    "C41_same_stamps",
    "C41_same_rows"
   ],
   "note": ""
  },
  {
   "property": "C42",
   "status": "proved",
   "theorems": [
    "C42_mean_step",
    "C42_grid",
    "C42_larger_step"
   ],
   "note": ""
  },
  {
   "property": "C43",
   "status": "proved",
   "theorems": [
    "C43_filter",
    "C43_bounded",
    "C43_norms",
    "C43_length",
    "C43_not_increasing",
    "C43_negative_limit"
   ],
   "note": ""
  },
  {
   "property": "C44",
   "status": "proved",
   "theorems": [
    "C44_rows",
    "C44_poses_unconverted",
    "C44_written",
    "C44_normalised",
    "C44_zero",
    "C44_hamilton_output_refuted"
   ],
   "note": ""
  },
  {
   "property": "C45",
   "status": "proved",
   "theorems": [
    "C45_text",
    "C45_roundtrip",
    "C45_empty",
    "C45_exact_below_refuted",
    "C45_vanishes"
   ],
   "note": ""
  },
  {
   "property": "C46",
   "status": "proved",
   "theorems": [
    "C46_file",
    "C46_roundtrip",
    "C46_stable",
    "C46_mixed",
    "C46_mixed_refuted",
    "C46_reader",
    "C46_missing",
    "C46_raises"
   ],
   "note": ""
  },
  {
   "property": "C47",
   "status": "proved",
   "theorems": [
    "C47_compose",
    "C47_associative",
    "C47_circle",
    "C47_closed_circle",
    "C47_empty"
   ],
   "note": ""
  },
  {
   "property": "C48",
   "status": "proved",
   "theorems": [
    "C48_loop",
    "C48_consistent",
    "C48_too_few"
   ],
   "note": ""
  },
  {
   "property": "C49",
   "status": "proved",
   "theorems": [
    "C49_empty",
    "C49_count",
    "C49_perfect",
    "C49_finite"
   ],
   "note": ""
  },
  {
   "property": "C50",
   "status": "proved",
   "theorems": [
    "C50_header",
    "C50_check_length",
    "C50_line",
    "C50_commas",
    "C50_prefiltering",
    "C50_prefiltering_refuted",
    "C50_dataset"
   ],
   "note": ""
  },
  {
   "property": "C51",
   "status": "proved",
   "theorems": [
    "C51_optimized_fails",
    "C51_optimized_first",
    "C51_plain_fails",
    "C51_estimations",
    "C51_lines",
    "C51_values",
    "C51_count",
    "C51_plain_survives",
    "C51_aborts_refuted"
   ],
   "note": ""
  },
  {
   "property": "C52",
   "status": "proved",
   "theorems": [
    "C52_all",
    "C52_names",
    "C52_consistent",
    "C52_settings",
    "C52_special"
   ],
   "note": ""
  },
  {
   "property": "C53",
   "status": "proved",
   "theorems": [
    "C53_summary",
    "C53_nothing_lost",
    "C53_unknown",
    "C53_edge"
   ],
   "note": ""
  },
  {
   "property": "C54",
   "status": "proved",
   "theorems": [
    "C54_completed",
    "C54_completed_sweep",
    "C54_append_only",
    "C54_append_only_sweep",
    "C54_killed_early",
    "C54_killed_early_sweep",
    "C54_no_header",
    "C54_no_header_sweep",
    "C54_raised",
    "C54_killed_between",
    "C54_never_repaired",
    "C54_uninterrupted",
    "C54_second_has_first"
   ],
   "note": ""
  },
  {
   "property": "C55",
   "status": "proved",
   "theorems": [
    "C55_requires_update",
    "C55_completed",
    "C55_idempotent",
    "C55_current",
    "C55_all_present_refuted",
    "C55_never_repaired",
    "C55_stuck",
    "C55_same_name",
    "C55_different_names",
    "C55_stem"
   ],
   "note": ""
  },
  {
   "property": "C56",
   "status": "proved",
   "theorems": [
    "C56_rows",
    "C56_raises",
    "C56_distinct",
    "C56_duplicates_refuted"
   ],
   "note": ""
  },
  {
   "property": "C57",
   "status": "proved",
   "theorems": [
    "C57_all_bags",
    "C57_mismatch",
    "C57_names",
    "C57_bag_collision",
    "C57_topic_collision",
    "C57_slash_collision",
    "C57_frame_collision",
    "C57_world_collision",
    "C57_frames_distinct",
    "C57_topics_distinct"
   ],
   "note": ""
  },
  {
   "property": "C58",
   "status": "proved",
   "theorems": [
    "C58_result",
    "C58_remaining",
    "C58_assertion",
    "C58_defaults",
    "C58_fractional_overall",
    "C58_fractional_max",
    "C58_never_raises",
    "C58_too_many",
    "C58_all_points",
    "C58_can_succeed"
   ],
   "note": ""
  },
  {
   "property": "C59",
   "status": "proved",
   "theorems": [
    "C59_path",
    "C59_noise_keeps_angle",
    "C59_outliers",
    "C59_helix",
    "C59_not_at_origin",
    "C59_no_samples",
    "C59_clean"
   ],
   "note": ""
  },
  {
   "property": "C60",
   "status": "proved",
   "theorems": [
    "C60_run",
    "C60_create_path",
    "C60_bare_name",
    "C60_dirname"
   ],
   "note": ""
  },
  {
   "property": "C61",
   "status": "proved",
   "theorems": [
    "C61_exact",
    "C61_large",
    "C61_close",
    "C61_spoiled",
    "C61_tiny_angles",
    "C61_zero_direction",
    "C61_zero_axis"
   ],
   "note": ""
  },
  {
   "property": "C62",
   "status": "proved",
   "theorems": [
    "C62_lines",
    "C62_angles",
    "C62_failed",
    "C62_iterations",
    "C62_outcome",
    "C62_translations",
    "C62_files",
    "C62_completes"
   ],
   "note": ""
  },
  {
   "property": "C63",
   "status": "proved",
   "theorems": [
    "C63_streams",
    "C63_default"
   ],
   "note": ""
  },
  {
   "property": "C64",
   "status": "proved",
   "theorems": [
    "C64_exists",
    "C64_count",
    "C64_finished",
    "C64_progress",
    "C64_worst",
    "C64_serial"
   ],
   "note": ""
  },
  {
   "property": "C65",
   "status": "proved",
   "theorems": [
    "C65_succeeds",
    "C65_shipped"
   ],
   "note": ""
  },
  {
   "property": "C66",
   "status": "proved",
   "theorems": [
    "C66_flags",
    "C66_failed",
    "C66_touched",
    "C66_complete",
    "C66_missing",
    "C66_bad_file",
    "C66_no_offset",
    "C66_poses",
    "C66_exact",
    "C66_readback",
    "C66_visualize",
    "C66_few"
   ],
   "note": ""
  },
  {
   "property": "C67",
   "status": "proved",
   "theorems": [
    "C67_names",
    "C67_touched",
    "C67_inputs",
    "C67_overwritten",
    "C67_status",
    "C67_alignment_failed",
    "C67_calibration_failed",
    "C67_success",
    "C67_stale_refuted",
    "C67_stale_guess_refuted"
   ],
   "note": ""
  },
  {
   "property": "C68",
   "status": "proved",
   "theorems": [
    "C68_exact"
   ],
   "note": ""
  },
  {
   "property": "C69",
   "status": "proved",
   "theorems": [
    "C69_short",
    "C69_same_length",
    "C69_delay_refuted"
   ],
   "note": ""
  },
  {
   "property": "C70",
   "status": "proved",
   "theorems": [
    "C70_divided",
    "C70_normalize",
    "C70_read",
    "C70_accepted",
    "C70_fraction",
    "C70_interpolate",
    "C70_overflow_refuted"
   ],
   "note": ""
  },
  {
   "property": "C71",
   "status": "proved",
   "theorems": [
    "C71_resample",
    "C71_grid",
    "C71_time_offset",
    "C71_single_velocity_refuted",
    "C71_aligned",
    "C71_program"
   ],
   "note": ""
  },
  {
   "property": "C72",
   "status": "proved",
   "theorems": [
    "C72_scalar",
    "C72_align",
    "C72_offset",
    "C72_far_refuted"
   ],
   "note": ""
  },
  {
   "property": "C73",
   "status": "proved",
   "theorems": [
    "C73_round_trip",
    "C73_compose",
    "C73_transform_point"
   ],
   "note": ""
  },
  {
   "property": "C74",
   "status": "proved",
   "theorems": [
    "C74_reported",
    "C74_reported_baseline",
    "C74_flag",
    "C74_exact",
    "C74_conditioned",
    "C74_small",
    "C74_copies",
    "C74_exact_data_accepted_refuted"
   ],
   "note": ""
  },
  {
   "property": "C75",
   "status": "proved",
   "theorems": [
    "C75_same_numbers",
    "C75_format",
    "C75_blank",
    "C75_missing",
    "C75_number",
    "C75_accepted",
    "C75_nine_decimals",
    "C75_written",
    "C75_output",
    "C75_output_accepted",
    "C75_same_files_refuted",
    "C75_rescaled",
    "C75_script"
   ],
   "note": ""
  },
  {
   "property": "C76",
   "status": "proved",
   "theorems": [
    "C76_errors",
    "C76_flags",
    "C76_bad_number",
    "C76_inlier_share_refuted"
   ],
   "note": ""
  },
  {
   "property": "C77",
   "status": "proved",
   "theorems": [
    "C77_no_pose",
    "C77_untouched",
    "C77_emptied",
    "C77_exports_refuted"
   ],
   "note": ""
  },
  {
   "property": "C78",
   "status": "proved",
   "theorems": [
    "C78_files",
    "C78_real",
    "C78_share"
   ],
   "note": ""
  },
  {
   "property": "C79",
   "status": "proved",
   "theorems": [
    "C79_figures",
    "C79_maps",
    "C79_no_maps"
   ],
   "note": ""
  },
  {
   "property": "C80",
   "status": "proved",
   "theorems": [
    "C80_reported",
    "C80_determined",
    "C80_half_turns_refuted",
    "C80_returned"
   ],
   "note": ""
  },
  {
   "property": "C81",
   "status": "proved",
   "theorems": [
    "C81_rejects",
    "C81_drawn",
    "C81_view",
    "C81_calibration",
    "C81_coincide"
   ],
   "note": ""
  },
  {
   "property": "C82",
   "status": "proved",
   "theorems": [
    "C82_drawn",
    "C82_panels",
    "C82_overlay"
   ],
   "note": ""
  },
  {
   "property": "C83",
   "status": "proved",
   "theorems": [
    "C83_sample",
    "C83_never_raises",
    "C83_exhaustive",
    "C83_result",
    "C83_too_few",
    "C83_too_few_exhaustive",
    "C83_shipped"
   ],
   "note": ""
  },
  {
   "property": "C84",
   "status": "proved",
   "theorems": [
    "C84_clean_sample",
    "C84_search",
    "C84_exhaustive",
    "C84_first_exact_wins"
   ],
   "note": ""
  },
  {
   "property": "C85",
   "status": "proved",
   "theorems": [
    "C85_baseline",
    "C85_prefilter",
    "C85_exceptions",
    "C85_outliers"
   ],
   "note": ""
  },
  {
   "property": "C86",
   "status": "proved",
   "theorems": [
    "C86_true_errors",
    "C86_accuracy",
    "C86_ransac",
    "C86_baseline"
   ],
   "note": ""
  },
  {
   "property": "C87",
   "status": "proved",
   "theorems": [
    "C87_nearly_best",
    "C87_exact",
    "C87_tolerates"
   ],
   "note": ""
  },
  {
   "property": "C88",
   "status": "proved",
   "theorems": [
    "C88_aligned",
    "C88_offset_error",
    "C88_calibration"
   ],
   "note": ""
  },
  {
   "property": "C89",
   "status": "proved",
   "theorems": [
    "C89_rates",
    "C89_noisy",
    "C89_unclipped",
    "C89_parallel",
    "C89_one_way",
    "C89_slow",
    "C89_lost"
   ],
   "note": ""
  },
  {
   "property": "C90",
   "status": "proved",
   "theorems": [
    "C90_offset",
    "C90_windows",
    "C90_failure",
    "C90_aligned",
    "C90_errors"
   ],
   "note": ""
  },
  {
   "property": "C91",
   "status": "proved",
   "theorems": [
    "C91_program",
    "C91_ransac",
    "C91_baseline",
    "C91_prefilter"
   ],
   "note": ""
  },
  {
   "property": "C92",
   "status": "proved",
   "theorems": [
    "C92_more",
    "C92_exhaustive",
    "C92_random",
    "C92_singletons",
    "C92_doubles"
   ],
   "note": ""
  },
  {
   "property": "C93",
   "status": "proved",
   "theorems": [
    "C93_positions",
    "C93_unix",
    "C93_far",
    "C93_origin_refuted"
   ],
   "note": ""
  },
  {
   "property": "C94",
   "status": "proved",
   "theorems": [
    "C94_script"
   ],
   "note": ""
  },
  {
   "property": "C95",
   "status": "proved",
   "theorems": [
    "C95_noise",
    "C95_unflagged",
    "C95_answers",
    "C95_continuous_refuted"
   ],
   "note": ""
  },
  {
   "property": "C96",
   "status": "proved",
   "theorems": [
    "C96_rate",
    "C96_offset",
    "C96_tolerates"
   ],
   "note": ""
  },
  {
   "property": "C97",
   "status": "proved",
   "theorems": [
    "C97_order",
    "C97_implementation",
    "C97_swap",
    "C97_inverse",
    "C97_asymmetric"
   ],
   "note": ""
  },
  {
   "property": "C98",
   "status": "proved",
   "theorems": [
    "C98_signals",
    "C98_recordings",
    "C98_slow"
   ],
   "note": ""
  },
  {
   "property": "C99",
   "status": "proved",
   "theorems": [
    "C99_cells",
    "C99_number",
    "C99_only_numbers",
    "C99_table",
    "C99_raises"
   ],
   "note": ""
  },
  {
   "property": "C100",
   "status": "proved",
   "theorems": [
    "C100_lag",
    "C100_same_lag",
    "C100_tie_refuted"
   ],
   "note": ""
  },
  {
   "property": "C101",
   "status": "proved",
   "theorems": [
    "C101_signals",
    "C101_recordings",
    "C101_alignment_refuted"
   ],
   "note": ""
  },
  {
   "property": "C102",
   "status": "proved",
   "theorems": [
    "C102_recovery",
    "C102_small_unit",
    "C102_evaluation",
    "C102_alignment"
   ],
   "note": ""
  },
  {
   "property": "C103",
   "status": "proved",
   "theorems": [
    "C103_aligned",
    "C103_aligned_again",
    "C103_calibration",
    "C103_calibration_again",
    "C103_script_again"
   ],
   "note": ""
  },
  {
   "property": "C104",
   "status": "proved",
   "theorems": [
    "C104_table",
    "C104_number",
    "C104_extractor_number",
    "C104_extractor",
    "C104_tf_python3",
    "C104_tf_python2",
    "C104_tf_python2_error",
    "C104_order",
    "C104_stamp",
    "C104_stamps_merge",
    "C104_stamps_refuted",
    "C104_estimator_number",
    "C104_estimator_exact",
    "C104_estimator",
    "C104_estimator_tf_python2",
    "C104_estimator_accepts",
    "C104_estimator_accepts_python2"
   ],
   "note": ""
  },
  {
   "property": "C105",
   "status": "proved",
   "theorems": [
    "C105_exists",
    "C105_calibration",
    "C105_search"
   ],
   "note": ""
  },
  {
   "property": "C106",
   "status": "proved",
   "theorems": [
    "C106_exact",
    "C106_calibrates",
    "C106_few",
    "C106_slow",
    "C106_one_way",
    "C106_ends"
   ],
   "note": ""
  },
  {
   "property": "C107",
   "status": "proved",
   "theorems": [
    "C107_offset",
    "C107_complete",
    "C107_program",
    "C107_refused",
    "C107_useless"
   ],
   "note": ""
  },
  {
   "property": "C108",
   "status": "proved",
   "theorems": [
    "C108_pose_error",
    "C108_evaluation_total",
    "C108_flags",
    "C108_nan_spreads",
    "C108_sample_lost",
    "C108_nan_refuted"
   ],
   "note": ""
  },
  {
   "property": "C109",
   "status": "proved",
   "theorems": [
    "C109_axis",
    "C109_cosine",
    "C109_prefilter",
    "C109_first_dropped",
    "C109_identity_kept_refuted"
   ],
   "note": ""
  },
  {
   "property": "C110",
   "status": "proved",
   "theorems": [
    "C110_cell",
    "C110_other",
    "C110_table",
    "C110_raises",
    "C110_roundtrip",
    "C110_finite"
   ],
   "note": ""
  },
  {
   "property": "C111",
   "status": "proved",
   "theorems": [
    "C111_poses",
    "C111_flags",
    "C111_recorded"
   ],
   "note": ""
  },
  {
   "property": "C112",
   "status": "proved",
   "theorems": [
    "C112_rms",
    "C112_any_order",
    "C112_position",
    "C112_orientation",
    "C112_calibration"
   ],
   "note": ""
  },
  {
   "property": "C113",
   "status": "proved",
   "theorems": [
    "C113_between",
    "C113_slerp",
    "C113_position",
    "C113_orientation",
    "C113_aligned"
   ],
   "note": ""
  },
  {
   "property": "C114",
   "status": "proved",
   "theorems": [
    "C114_velocity",
    "C114_velocities"
   ],
   "note": ""
  },
  {
   "property": "C115",
   "status": "proved",
   "theorems": [
    "C115_smooth",
    "C115_norms",
    "C115_offset"
   ],
   "note": ""
  }
 ]
}