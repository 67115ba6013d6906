{
 "claims": [
  {
   "property": "C01",
   "status": "proved",
   "theorems": [
    "C01_zone_is_band",
    "C01_zone_upper_clamp",
    "C01_zone_monotone",
    "C01_zone_no_lower_clamp",
    "C01_zone_b64_range",
    "C01_zone_b64_monotone",
    "C01_zone_b64_close",
    "C01_zone_b64_band_refuted"
   ],
   "note": ""
  },
  {
   "property": "C02",
   "status": "proved",
   "theorems": [
    "C02_utm_point",
    "C02_utm_elementwise",
    "C02_utm_length_mismatch",
    "C02_utm_mixed"
   ],
   "note": ""
  },
  {
   "property": "C03",
   "status": "proved",
   "theorems": [
    "C03_utm_inverse_rows",
    "C03_utm_round_trip",
    "C03_utm_round_trip_sequence",
    "C03_utm_default_hemisphere_refuted"
   ],
   "note": ""
  },
  {
   "property": "C04",
   "status": "proved",
   "theorems": [
    "C04_lcs_is_utm_minus_origin",
    "C04_lcs_origin_zero",
    "C04_lcs_displacement_origin_free",
    "C04_lcs_zone_from_origin_refuted"
   ],
   "note": ""
  },
  {
   "property": "C05",
   "status": "proved",
   "theorems": [
    "C05_lcs_round_trip",
    "C05_lcs_explicit_zone_refuted",
    "C05_lcs_array_unsupported"
   ],
   "note": ""
  },
  {
   "property": "C06",
   "status": "proved",
   "theorems": [
    "C06_flat_is_affine",
    "C06_flat_radii",
    "C06_flat_oriented",
    "C06_flat_antimeridian",
    "C06_flat_methods"
   ],
   "note": ""
  },
  {
   "property": "C07",
   "status": "proved",
   "theorems": [
    "C07_polar_of_cartesian",
    "C07_cartesian_of_polar",
    "C07_negative_radius"
   ],
   "note": ""
  },
  {
   "property": "C08",
   "status": "proved",
   "theorems": [
    "C08_rotation_rigid",
    "C08_rotation_group",
    "C08_rotation_adds_angle",
    "C08_rotation_blockwise"
   ],
   "note": ""
  },
  {
   "property": "C09",
   "status": "proved",
   "theorems": [
    "C09_project_signed_length",
    "C09_project_zero_direction",
    "C09_project_direction_only",
    "C09_project_linear",
    "C09_project_pythagoras",
    "C09_project_list",
    "C09_project_keeps_index",
    "C09_unit_vector_length",
    "C09_dot_magnitude"
   ],
   "note": ""
  },
  {
   "property": "C10",
   "status": "proved",
   "theorems": [
    "C10_vectors_from_reference",
    "C10_vectors_reference_free",
    "C10_vectors_short_reference",
    "C10_vectors_frame"
   ],
   "note": ""
  },
  {
   "property": "C11",
   "status": "proved",
   "theorems": [
    "C11_intersection_unique_point",
    "C11_intersection_symmetric",
    "C11_intersection_symmetric_rows",
    "C11_intersection_parallel_not_finite",
    "C11_intersection_single_row",
    "C11_intersection_row_mismatch"
   ],
   "note": ""
  },
  {
   "property": "C12",
   "status": "proved",
   "theorems": [
    "C12_spacetime_pseudometric",
    "C12_spacetime_defined"
   ],
   "note": ""
  },
  {
   "property": "C13",
   "status": "proved",
   "theorems": [
    "C13_speeds_outcome",
    "C13_speeds_entry",
    "C13_spacetime_entry",
    "C13_spacetime_advection",
    "C13_spacetime_shift"
   ],
   "note": ""
  },
  {
   "property": "C14",
   "status": "proved",
   "theorems": [
    "C14_pairs_members",
    "C14_pairs_ordered",
    "C14_pairs_count",
    "C14_cmv_pairs",
    "C14_cmv_pair_count"
   ],
   "note": ""
  },
  {
   "property": "C15",
   "status": "proved",
   "theorems": [
    "C15_options_validated",
    "C15_options_effective",
    "C15_cmv_options",
    "C15_cmv_unknown_method",
    "C15_cmv_case_insensitive",
    "C15_options_any_case"
   ],
   "note": ""
  },
  {
   "property": "C16",
   "status": "proved",
   "theorems": [
    "C16_reuse_same_method",
    "C16_history_preserves_values",
    "C16_jamaly_then_gagne_rejected",
    "C16_gagne_keeps_acceptance",
    "C16_cmv_jamaly_then_gagne"
   ],
   "note": ""
  },
  {
   "property": "C17",
   "status": "proved",
   "theorems": [
    "C17_qc_verdict",
    "C17_qc_good_jamaly",
    "C17_qc_good_iff",
    "C17_cmv_verdict"
   ],
   "note": ""
  },
  {
   "property": "C18",
   "status": "proved",
   "theorems": [
    "C18_cascade_threshold",
    "C18_cmv_gagne_flag"
   ],
   "note": ""
  },
  {
   "property": "C19",
   "status": "proved",
   "theorems": [
    "C19_cmv_failure_exit",
    "C19_cmv_report",
    "C19_cmv_good_only",
    "C19_cmv_good_pairs_only"
   ],
   "note": ""
  },
  {
   "property": "C20",
   "status": "proved",
   "theorems": [
    "C20_normalise_b64",
    "C20_normalise_b64_upper_refuted",
    "C20_normalised_fit",
    "C20_cmv_output_normalised",
    "C20_jamaly_speed_limit"
   ],
   "note": ""
  },
  {
   "property": "C21",
   "status": "proved",
   "theorems": [
    "C21_jamaly_recovers"
   ],
   "note": ""
  },
  {
   "property": "C22",
   "status": "proved",
   "theorems": [
    "C22_gagne_recovers"
   ],
   "note": ""
  },
  {
   "property": "C23",
   "status": "proved",
   "theorems": [
    "C23_subset_success",
    "C23_subset_optimal",
    "C23_subset_global",
    "C23_subset_scale_invariant"
   ],
   "note": ""
  },
  {
   "property": "C24",
   "status": "proved",
   "theorems": [
    "C24_remap_simultaneous",
    "C24_remap_keeps_rows",
    "C24_remap_keyerror"
   ],
   "note": ""
  },
  {
   "property": "C25",
   "status": "proved",
   "theorems": [
    "C25_cascade_composes",
    "C25_cascade_result",
    "C25_cascade_keyerror",
    "C25_cascade_partial_refuted"
   ],
   "note": "Composition proved for remaps on the same closed entity set (the documented use); for partial remaps it is refuted by C25_cascade_partial_refuted."
  },
  {
   "property": "C26",
   "status": "proved",
   "theorems": [
    "C26_cascade_associative",
    "C26_cascade_identity",
    "C26_cascade_inverse"
   ],
   "note": ""
  },
  {
   "property": "C27",
   "status": "proved",
   "theorems": [
    "C27_assign_one_column",
    "C27_assign_plan_gap",
    "C27_assign_optimal",
    "C27_assign_optimal_same_labels",
    "C27_assign_too_few",
    "C27_assign_too_many"
   ],
   "note": "linear_sum_assignment is a Section variable with the documented specification lsa_correct; lsa_brute is a concrete instance."
  },
  {
   "property": "C28",
   "status": "proved",
   "theorems": [
    "C28_assign_nan",
    "C28_extra_columns_refuted"
   ],
   "note": "'Additional columns are ignored' is false of the code: see C28_extra_columns_refuted."
  },
  {
   "property": "C29",
   "status": "proved",
   "theorems": [
    "C29_assign_recovers_permutation",
    "C29_prediction_labels_ignored"
   ],
   "note": ""
  },
  {
   "property": "C30",
   "status": "proved",
   "theorems": [
    "C30_predicted_report",
    "C30_predicted_exact",
    "C30_predicted_self_bias",
    "C30_predicted_zero_error",
    "C30_predicted_nan_cmv",
    "C30_predicted_parallel",
    "C30_predicted_default_cmv",
    "C30_predicted_default_nan"
   ],
   "note": ""
  },
  {
   "property": "C31",
   "status": "proved",
   "theorems": [
    "C31_predicted_selection",
    "C31_predicted_bad_mode",
    "C31_predicted_success"
   ],
   "note": ""
  },
  {
   "property": "C32",
   "status": "proved",
   "theorems": [
    "C32_metric_values",
    "C32_metric_ordering",
    "C32_metric_shapes"
   ],
   "note": ""
  },
  {
   "property": "C33",
   "status": "proved",
   "theorems": [
    "C33_metric_zero",
    "C33_metric_swap",
    "C33_metric_shift",
    "C33_metric_scale",
    "C33_metric_triangle"
   ],
   "note": ""
  },
  {
   "property": "C34",
   "status": "proved",
   "theorems": [
    "C34_series_metrics",
    "C34_series_pairing",
    "C34_series_rows",
    "C34_series_permutation",
    "C34_series_extra_rows",
    "C34_series_as_arrays"
   ],
   "note": ""
  },
  {
   "property": "C35",
   "status": "proved",
   "theorems": [
    "C35_vs_value",
    "C35_vs_distinct",
    "C35_vs_bounds",
    "C35_vs_steady",
    "C35_vs_documented_refuted"
   ],
   "note": ""
  },
  {
   "property": "C36",
   "status": "proved",
   "theorems": [
    "C36_vs_affine",
    "C36_vs_shift_negate",
    "C36_vs_reverse",
    "C36_vs_constant",
    "C36_vs_percent",
    "C36_vs_block_average",
    "C36_vs_blocks"
   ],
   "note": ""
  },
  {
   "property": "C37",
   "status": "proved",
   "theorems": [
    "C37_vi_edge",
    "C37_vi_value",
    "C37_vi_self",
    "C37_vi_constant_sky",
    "C37_vi_monotone",
    "C37_vi_shift",
    "C37_vi_block_average"
   ],
   "note": ""
  },
  {
   "property": "C38",
   "status": "proved",
   "theorems": [
    "C38_darr_value",
    "C38_darr_affine",
    "C38_darr_percent",
    "C38_darr_additive",
    "C38_darr_ends",
    "C38_darr_tau",
    "C38_darr_block_average",
    "C38_darr_blocks"
   ],
   "note": ""
  },
  {
   "property": "C39",
   "status": "proved",
   "theorems": [
    "C39_quantile_value",
    "C39_quantile_total",
    "C39_quantile_levels",
    "C39_quantile_duplicates",
    "C39_quantile_causal"
   ],
   "note": ""
  },
  {
   "property": "C40",
   "status": "proved",
   "theorems": [
    "C40_csi_column",
    "C40_csi_ratio",
    "C40_csi_table",
    "C40_csi_table_bound_refuted"
   ],
   "note": ""
  },
  {
   "property": "C41",
   "status": "proved",
   "theorems": [
    "C41_corr_axis",
    "C41_corr_none",
    "C41_corr_swap"
   ],
   "note": ""
  },
  {
   "property": "C42",
   "status": "proved",
   "theorems": [
    "C42_corr_names",
    "C42_corr_coeff",
    "C42_corr_coeff_bounded",
    "C42_corr_coeff_auto",
    "C42_corr_coeff_affine",
    "C42_corr_coeff_constant",
    "C42_corr_energy",
    "C42_corr_energy_auto"
   ],
   "note": ""
  },
  {
   "property": "C43",
   "status": "proved",
   "theorems": [
    "C43_corr_unbiased",
    "C43_corr_unbiased_grows",
    "C43_corr_unbiased_unequal_refuted"
   ],
   "note": ""
  },
  {
   "property": "C44",
   "status": "proved",
   "theorems": [
    "C44_xcorr_delay_best",
    "C44_xcorr_delay_fails",
    "C44_xcorr_delay_constant",
    "C44_delays_loop",
    "C44_delays_peak_dominates",
    "C44_delays_constant",
    "C44_delays_mean_zero",
    "C44_delays_refused"
   ],
   "note": ""
  },
  {
   "property": "C45",
   "status": "proved",
   "theorems": [
    "C45_shift_peak",
    "C45_shift_xcorr",
    "C45_shift_delays"
   ],
   "note": ""
  },
  {
   "property": "C46",
   "status": "proved",
   "theorems": [
    "C46_delays_fft",
    "C46_delays_fft_zero",
    "C46_delays_fft_constant",
    "C46_delays_fft_ties_refuted",
    "C46_fft_curves",
    "C46_fft_curve_coeff_one",
    "C46_fft_curve_coeff_many",
    "C46_fft_curve_coeff_coincidence",
    "C46_fft_refused"
   ],
   "note": ""
  },
  {
   "property": "C47",
   "status": "proved",
   "theorems": [
    "C47_psd_value",
    "C47_psd_series",
    "C47_psd_series_ratio",
    "C47_psd_series_refuted",
    "C47_psd_errors",
    "C47_psd_other",
    "C47_psd_gap"
   ],
   "note": ""
  },
  {
   "property": "C48",
   "status": "proved",
   "theorems": [
    "C48_tf_value",
    "C48_tf_series",
    "C48_tf_counts",
    "C48_delays_tf_counts",
    "C48_tf_errors",
    "C48_tf_names_refuted"
   ],
   "note": ""
  },
  {
   "property": "C49",
   "status": "proved",
   "theorems": [
    "C49_coherence_range",
    "C49_coherence_single",
    "C49_tf_least_squares",
    "C49_tf_recovers_gain",
    "C49_tf_of_scaled",
    "C49_tf_entry_exists"
   ],
   "note": ""
  },
  {
   "property": "C50",
   "status": "proved",
   "theorems": [
    "C50_interp_node",
    "C50_interp_between",
    "C50_interp_magnitude",
    "C50_interp_range",
    "C50_interp_order",
    "C50_unwrap_laws",
    "C50_interp_list",
    "C50_interp_frame_cols"
   ],
   "note": ""
  },
  {
   "property": "C51",
   "status": "proved",
   "theorems": [
    "C51_solver_exists",
    "C51_multi_value",
    "C51_multi_recovers",
    "C51_multi_gap",
    "C51_nothing_used",
    "C51_fit_value",
    "C51_fit_recovers",
    "C51_diff_value",
    "C51_diff_missing",
    "C51_diff_recovers",
    "C51_tf_delay_errors"
   ],
   "note": ""
  },
  {
   "property": "C52",
   "status": "proved",
   "theorems": [
    "C52_mask_value",
    "C52_delays_tf_multi",
    "C52_delays_tf_fit",
    "C52_delays_tf_collision",
    "C52_delays_tf_refused",
    "C52_mean_coh_value",
    "C52_mean_coh_range",
    "C52_extras_independent"
   ],
   "note": ""
  },
  {
   "property": "C53",
   "status": "proved",
   "theorems": [
    "C53_xcorr_value",
    "C53_xcorr_bounded",
    "C53_xcorr_constant"
   ],
   "note": ""
  },
  {
   "property": "C54",
   "status": "proved",
   "theorems": [
    "C54_apply_delay_magnitude",
    "C54_apply_delay_group",
    "C54_apply_delay_measured"
   ],
   "note": ""
  },
  {
   "property": "C55",
   "status": "proved",
   "theorems": [
    "C55_plant_outcome",
    "C55_square_value",
    "C55_square_sites",
    "C55_square_single",
    "C55_triangle_value",
    "C55_gaussian_value",
    "C55_gaussian_perm",
    "C55_bump_shape",
    "C55_gaussian_missing",
    "C55_gaussian_zero_width",
    "C55_triangle_order_refuted"
   ],
   "note": ""
  },
  {
   "property": "C56",
   "status": "proved",
   "theorems": [
    "C56_cam_degenerate",
    "C56_cam_dc",
    "C56_cam_passive",
    "C56_cam_reverse",
    "C56_cam_scale"
   ],
   "note": ""
  },
  {
   "property": "C57",
   "status": "proved",
   "theorems": [
    "C57_cam_value",
    "C57_cam_symmetric",
    "C57_cam_symmetric_only",
    "C57_plant_grid_symmetric",
    "C57_plant_grid_odd"
   ],
   "note": ""
  },
  {
   "property": "C58",
   "status": "proved",
   "theorems": [
    "C58_apply_value",
    "C58_apply_outcome",
    "C58_apply_flat",
    "C58_apply_shift",
    "C58_apply_linear",
    "C58_apply_energy",
    "C58_apply_mean",
    "C58_apply_tone",
    "C58_apply_one_sided"
   ],
   "note": ""
  },
  {
   "property": "C59",
   "status": "proved",
   "theorems": [
    "C59_marcos_value",
    "C59_marcos_degenerate",
    "C59_marcos_magnitude",
    "C59_marcos_monotone",
    "C59_marcos_default_unusable"
   ],
   "note": ""
  },
  {
   "property": "C60",
   "status": "proved",
   "theorems": [
    "C60_clean_effect",
    "C60_clean_again"
   ],
   "note": ""
  },
  {
   "property": "C61",
   "status": "proved",
   "theorems": [
    "C61_sigmoid_shape",
    "C61_mixture_mean",
    "C61_mixture_proper",
    "C61_default_mixture"
   ],
   "note": ""
  },
  {
   "property": "C62",
   "status": "proved",
   "theorems": [
    "C62_decay_value",
    "C62_decay_bounds",
    "C62_decay_documented_refuted"
   ],
   "note": ""
  },
  {
   "property": "C63",
   "status": "proved",
   "theorems": [
    "C63_gm_value",
    "C63_gm_cdf",
    "C63_gm_edge",
    "C63_solar_gmm_ok"
   ],
   "note": ""
  },
  {
   "property": "C64",
   "status": "proved",
   "theorems": [
    "C64_inverse_linear",
    "C64_inverse_ends",
    "C64_inverse_node",
    "C64_inverse_range",
    "C64_inverse_monotone"
   ],
   "note": ""
  },
  {
   "property": "C65",
   "status": "proved",
   "theorems": [
    "C65_copula_cov",
    "C65_cov_correlation"
   ],
   "note": ""
  },
  {
   "property": "C66",
   "status": "proved",
   "theorems": [
    "C66_downscale_shape",
    "C66_downscale_noneg",
    "C66_downscale_scale",
    "C66_downscale_errors"
   ],
   "note": ""
  },
  {
   "property": "C67",
   "status": "proved",
   "theorems": [
    "C67_downscale_routing",
    "C67_downscale_speeds"
   ],
   "note": ""
  },
  {
   "property": "C68",
   "status": "proved",
   "theorems": [
    "C68_multihour_value",
    "C68_multihour_shape",
    "C68_multihour_repeats",
    "C68_multihour_errors",
    "C68_multihour_speeds_refuted",
    "C68_multihour_speeds_misread"
   ],
   "note": ""
  },
  {
   "property": "C69",
   "status": "proved",
   "theorems": [
    "C69_random_shape",
    "C69_random_value",
    "C69_random_range",
    "C69_random_corners"
   ],
   "note": ""
  },
  {
   "property": "C70",
   "status": "proved",
   "theorems": [
    "C70_vs_weights_value",
    "C70_vs_weights_edges",
    "C70_vs_zero_refuted",
    "C70_wavelet_weights_value",
    "C70_wavelet_weights_nan"
   ],
   "note": ""
  },
  {
   "property": "C71",
   "status": "proved",
   "theorems": [
    "C71_stack_value",
    "C71_stack_range",
    "C71_stack_unequal",
    "C71_stack_normalized",
    "C71_stack_normalized_range"
   ],
   "note": ""
  },
  {
   "property": "C72",
   "status": "proved",
   "theorems": [
    "C72_mask_value",
    "C72_mask_edge",
    "C72_mask_succeeds",
    "C72_mask_selfcheck_refuted"
   ],
   "note": ""
  },
  {
   "property": "C73",
   "status": "proved",
   "theorems": [
    "C73_edges_value",
    "C73_edges_complement",
    "C73_edges_marked",
    "C73_edges_threshold",
    "C73_edges_empty",
    "C73_edges_constant"
   ],
   "note": ""
  },
  {
   "property": "C74",
   "status": "proved",
   "theorems": [
    "C74_lave_value",
    "C74_lave_mean",
    "C74_lave_excess",
    "C74_lave_ranges",
    "C74_lave_all_clear",
    "C74_lave_bad_quantile",
    "C74_lave_over_one_refuted"
   ],
   "note": ""
  },
  {
   "property": "C75",
   "status": "proved",
   "theorems": [
    "C75_basic_value",
    "C75_basic_mean",
    "C75_basic_ranges",
    "C75_basic_all_clear",
    "C75_basic_bad_quantile",
    "C75_basic_over_one_refuted"
   ],
   "note": ""
  },
  {
   "property": "C76",
   "status": "proved",
   "theorems": [
    "C76_ts_value",
    "C76_ts_length",
    "C76_ts_shift",
    "C76_ts_errors",
    "C76_ts_negative"
   ],
   "note": ""
  },
  {
   "property": "C77",
   "status": "proved",
   "theorems": [
    "C77_stats_value",
    "C77_stats_missing",
    "C77_stats_weights"
   ],
   "note": ""
  },
  {
   "property": "C78",
   "status": "proved",
   "theorems": [
    "C78_flag_value",
    "C78_null_value",
    "C78_qc_laws"
   ],
   "note": ""
  },
  {
   "property": "C79",
   "status": "proved",
   "theorems": [
    "C79_gaps_ok",
    "C79_gaps_value",
    "C79_gaps_cases",
    "C79_gaps_short",
    "C79_gaps_leading_loss",
    "C79_gaps_long_loss",
    "C79_gaps_rule_refuted"
   ],
   "note": ""
  },
  {
   "property": "C80",
   "status": "proved",
   "theorems": [
    "C80_files_members",
    "C80_files_one_extension",
    "C80_files_once",
    "C80_files_ascending",
    "C80_files_order_free",
    "C80_files_unsorted"
   ],
   "note": ""
  },
  {
   "property": "C81",
   "status": "proved",
   "theorems": [
    "C81_wget_ok",
    "C81_wget_complete",
    "C81_wget_again",
    "C81_wget_never_overwrites",
    "C81_wget_crash",
    "C81_wget_resume",
    "C81_wget_fails",
    "C81_wget_truncated_refuted"
   ],
   "note": ""
  },
  {
   "property": "C82",
   "status": "proved",
   "theorems": [
    "C82_h5_refuses",
    "C82_h5_builds",
    "C82_h5_fresh",
    "C82_h5_crash",
    "C82_h5_stops"
   ],
   "note": ""
  },
  {
   "property": "C83",
   "status": "proved",
   "theorems": [
    "C83_nrcan_names",
    "C83_nrcan_value",
    "C83_nrcan_repeats",
    "C83_nrcan_errors"
   ],
   "note": ""
  },
  {
   "property": "C84",
   "status": "proved",
   "theorems": [
    "C84_field_clear_part",
    "C84_field_original",
    "C84_field_basic",
    "C84_field_overcast",
    "C84_field_all_clear_refuted",
    "C84_field_errors",
    "C84_field_succeeds"
   ],
   "note": ""
  },
  {
   "property": "C85",
   "status": "proved",
   "theorems": [
    "C85_main_h5",
    "C85_main_h5_inconsistent",
    "C85_main_qc_values",
    "C85_main_qc_interp",
    "C85_main_qc_target",
    "C85_main_qc_crash"
   ],
   "note": ""
  },
  {
   "property": "C86",
   "status": "proved",
   "theorems": [
    "C86_resample_value",
    "C86_resample_regular",
    "C86_resample_lookahead_refuted"
   ],
   "note": ""
  },
  {
   "property": "C87",
   "status": "proved",
   "theorems": [
    "C87_no_step",
    "C87_more_columns",
    "C87_fewer_columns",
    "C87_coeff_columns",
    "C87_coeff_one_out",
    "C87_fewer_rows",
    "C87_more_rows",
    "C87_coeff_one_in"
   ],
   "note": ""
  },
  {
   "property": "C88",
   "status": "proved",
   "theorems": [
    "C88_psd_nonneg",
    "C88_psd_total_power"
   ],
   "note": ""
  },
  {
   "property": "C89",
   "status": "proved",
   "theorems": [
    "C89_jamaly_value",
    "C89_gagne_value"
   ],
   "note": ""
  },
  {
   "property": "C90",
   "status": "proved",
   "theorems": [
    "C90_camfilter_plane",
    "C90_camfilter_geo",
    "C90_camfilter_invariance",
    "C90_camfilter_sites",
    "C90_camfilter_no_direction",
    "C90_camfilter_delay"
   ],
   "note": ""
  },
  {
   "property": "C91",
   "status": "proved",
   "theorems": [
    "C91_field_delays_separate",
    "C91_field_delays_outcome",
    "C91_field_delays_self",
    "C91_field_delays_defined"
   ],
   "note": ""
  },
  {
   "property": "C92",
   "status": "proved",
   "theorems": [
    "C92_ensurepath_creates",
    "C92_ensurepath_blocked",
    "C92_ensurepath_resume",
    "C92_ensurepath_file_refuted"
   ],
   "note": ""
  },
  {
   "property": "C93",
   "status": "proved",
   "theorems": [
    "C93_hist_value",
    "C93_hist_outcome",
    "C93_hist_swap_refuted"
   ],
   "note": ""
  },
  {
   "property": "C94",
   "status": "proved",
   "theorems": [
    "C94_xcorr_backend_tells",
    "C94_backends_answer",
    "C94_xcorr_succeeds",
    "C94_shift_refuted",
    "C94_tf_backend_gaps",
    "C94_xcorr_good",
    "C94_xcorr_reach",
    "C94_pattern_best",
    "C94_pattern_delays",
    "C94_pattern_recovered",
    "C94_pattern_good",
    "C94_tf_backend_tells",
    "C94_tf_good"
   ],
   "note": ""
  },
  {
   "property": "C95",
   "status": "proved",
   "theorems": [
    "C95_cmv_succeeds",
    "C95_cmv_exceptions"
   ],
   "note": ""
  },
  {
   "property": "C96",
   "status": "proved",
   "theorems": [
    "C96_parse_succeeds",
    "C96_parse_reads",
    "C96_parse_fails"
   ],
   "note": ""
  },
  {
   "property": "C97",
   "status": "proved",
   "theorems": [
    "C97_main_unknown",
    "C97_main_runs",
    "C97_main_resume",
    "C97_main_cleans",
    "C97_main_repeat",
    "C97_main_truncated_refuted",
    "C97_names_any_case",
    "C97_file_names"
   ],
   "note": ""
  },
  {
   "property": "C98",
   "status": "proved",
   "theorems": [
    "C98_pulse_tf",
    "C98_pure_delay_found",
    "C98_pulse_delay",
    "C98_pulse_coherence_range",
    "C98_wave_tf",
    "C98_wave_delay",
    "C98_wave_table"
   ],
   "note": ""
  },
  {
   "property": "C99",
   "status": "proved",
   "theorems": [
    "C99_predicted_delays_are",
    "C99_predicted_delays_defined",
    "C99_predicted_delays_separate",
    "C99_predicted_outcome",
    "C99_predicted_self_delay",
    "C99_predicted_own_bias",
    "C99_predicted_own_cmv",
    "C99_predicted_no_cmv"
   ],
   "note": ""
  },
  {
   "property": "C100",
   "status": "proved",
   "theorems": [
    "C100_detrend_linear",
    "C100_detrend_constant",
    "C100_trend_leaves_no_trace",
    "C100_offset_leaves_no_trace",
    "C100_line_has_no_spectrum",
    "C100_slope_survives_constant_refuted"
   ],
   "note": ""
  },
  {
   "property": "C101",
   "status": "proved",
   "theorems": [
    "C101_window_weights",
    "C101_window_facts",
    "C101_psd_always_works",
    "C101_tf_always_works"
   ],
   "note": ""
  },
  {
   "property": "C102",
   "status": "proved",
   "theorems": [
    "C102_sine_reading",
    "C102_sine_density"
   ],
   "note": ""
  },
  {
   "property": "C103",
   "status": "proved",
   "theorems": [
    "C103_rows_value",
    "C103_rows_short",
    "C103_rows_short_accepted",
    "C103_rows_same",
    "C103_extra_rows_dilute",
    "C103_rows_coherence_refuted"
   ],
   "note": ""
  },
  {
   "property": "C104",
   "status": "proved",
   "theorems": [
    "C104_linregress_value",
    "C104_figures_determined",
    "C104_figures_meaning",
    "C104_cmv_regression",
    "C104_cmv_qc_figures",
    "C104_figures_of_constant_motion",
    "C104_perfect_figures_refuted",
    "C104_constant_motion_refuted"
   ],
   "note": ""
  },
  {
   "property": "C105",
   "status": "proved",
   "theorems": [
    "C105_to_dict_keys",
    "C105_to_dict_faithful",
    "C105_cmv_dict_failed",
    "C105_cmv_dict",
    "C105_dict_method",
    "C105_cmv_dict_backend"
   ],
   "note": ""
  },
  {
   "property": "C106",
   "status": "proved",
   "theorems": [
    "C106_lcs_rows",
    "C106_lcs_outcome",
    "C106_lcs_one_origin",
    "C106_lcs_position_refuted"
   ],
   "note": ""
  },
  {
   "property": "C107",
   "status": "proved",
   "theorems": [
    "C107_predicted_mislabelled",
    "C107_predicted_all_permuted"
   ],
   "note": ""
  },
  {
   "property": "C108",
   "status": "proved",
   "theorems": [
    "C108_process_bound",
    "C108_process_history",
    "C108_process_sound",
    "C108_process_recovers",
    "C108_process_exact",
    "C108_process_names_refuted",
    "C108_pairs_averaged",
    "C108_pairs_fail",
    "C108_inverter_read",
    "C108_named_workflow",
    "C108_same_width",
    "C108_named_exact",
    "C108_process_windows"
   ],
   "note": ""
  },
  {
   "property": "C109",
   "status": "proved",
   "theorems": [
    "C109_auto_hours",
    "C109_auto_hour",
    "C109_auto_kept",
    "C109_auto_chosen",
    "C109_auto_fails",
    "C109_auto_success",
    "C109_pairs_crossing",
    "C109_pairs_not_parallel",
    "C109_auto_flag_refuted"
   ],
   "note": ""
  },
  {
   "property": "C110",
   "status": "proved",
   "theorems": [
    "C110_labelled_value",
    "C110_labelled_order",
    "C110_labelled_aligned",
    "C110_labelled_apart"
   ],
   "note": ""
  },
  {
   "property": "C111",
   "status": "proved",
   "theorems": [
    "C111_stamped_ok",
    "C111_stamped_value",
    "C111_stamped_1hz",
    "C111_stamped_short",
    "C111_stamped_jump_refuted",
    "C111_stamped_line_refuted"
   ],
   "note": ""
  },
  {
   "property": "C112",
   "status": "proved",
   "theorems": [
    "C112_width_whole_seconds",
    "C112_width_close",
    "C112_width_exact_refuted"
   ],
   "note": ""
  },
  {
   "property": "C113",
   "status": "proved",
   "theorems": [
    "C113_pool_sequential",
    "C113_pool_bound",
    "C113_pool_finishes",
    "C113_pool_killed",
    "C113_pool_same_as_serial"
   ],
   "note": ""
  },
  {
   "property": "C114",
   "status": "proved",
   "theorems": [
    "C114_demo_reads",
    "C114_demo_fails",
    "C114_demo_delay",
    "C114_demo_moved",
    "C114_demo_refused",
    "C114_demo_generator"
   ],
   "note": ""
  },
  {
   "property": "C115",
   "status": "proved",
   "theorems": [
    "C115_lag_map_value",
    "C115_lag_map_arrivals",
    "C115_lag_map_refused"
   ],
   "note": ""
  },
  {
   "property": "C116",
   "status": "proved",
   "theorems": [
    "C116_one_pair",
    "C116_named_choice",
    "C116_named_one_inverter",
    "C116_refs_chosen",
    "C116_reassign_sound",
    "C116_reassign_converged",
    "C116_reassign_recovers",
    "C116_reassign_exact",
    "C116_reassign_refused",
    "C116_reassign_answer_refuted"
   ],
   "note": ""
  },
  {
   "property": "C117",
   "status": "proved",
   "theorems": [
    "C117_frozen_copy",
    "C117_frozen_delay",
    "C117_correlation_peak",
    "C117_demo_delay",
    "C117_multihour_frozen",
    "C117_downscale_later",
    "C117_multihour_restarts"
   ],
   "note": ""
  },
  {
   "property": "C118",
   "status": "proved",
   "theorems": [
    "C118_cam_average",
    "C118_cam_exact",
    "C118_cam_abreast_refuted",
    "C118_cam_smooths"
   ],
   "note": ""
  },
  {
   "property": "C119",
   "status": "proved",
   "theorems": [
    "C119_whole_tau",
    "C119_fractional_average",
    "C119_fractional_failure",
    "C119_fractional_ramps",
    "C119_fractional_index",
    "C119_period_average",
    "C119_tau_without_effect"
   ],
   "note": ""
  },
  {
   "property": "C120",
   "status": "proved",
   "theorems": [
    "C120_demo_table",
    "C120_demo_fails",
    "C120_demo_finds",
    "C120_demo_right_plan",
    "C120_worked_same",
    "C120_worked_dead_sensor_refuted"
   ],
   "note": ""
  },
  {
   "property": "C121",
   "status": "proved",
   "theorems": [
    "C121_centroid_rows",
    "C121_others_refused",
    "C121_longitude_hidden",
    "C121_centroid_triangles",
    "C121_centroid_pieces",
    "C121_centroid_thin",
    "C121_centroid_affine",
    "C121_centroid_redrawn",
    "C121_centroid_inside",
    "C121_centroid_simple"
   ],
   "note": ""
  },
  {
   "property": "C122",
   "status": "proved",
   "theorems": [
    "C122_overlap_shorter",
    "C122_pixel_rounding",
    "C122_layer_exact",
    "C122_hist_edges_exact",
    "C122_csi_grid_rounding",
    "C122_overlap_decimal_refuted"
   ],
   "note": ""
  },
  {
   "property": "C123",
   "status": "proved",
   "theorems": [
    "C123_filter_plain",
    "C123_nan_rule",
    "C123_outside_domain",
    "C123_tables_refused",
    "C123_plant_numbers"
   ],
   "note": ""
  },
  {
   "property": "C124",
   "status": "proved",
   "theorems": [
    "C124_ensurepath_race",
    "C124_ensurepath_race_blocked",
    "C124_ensurepath_alone",
    "C124_ensurepath_race_refuted"
   ],
   "note": ""
  },
  {
   "property": "C125",
   "status": "proved",
   "theorems": [
    "C125_switching_clock",
    "C125_quantile_tz_agrees",
    "C125_quantile_tz_total",
    "C125_quantile_tz_strict",
    "C125_quantile_tz_change"
   ],
   "note": ""
  },
  {
   "property": "C126",
   "status": "proved",
   "theorems": [
    "C126_plant_exact",
    "C126_axis_count",
    "C126_axis_drift",
    "C126_axis_drift_refuted"
   ],
   "note": ""
  },
  {
   "property": "C127",
   "status": "proved",
   "theorems": [
    "C127_tz_averages",
    "C127_tz_no_midnight",
    "C127_tz_plain",
    "C127_tz_readings",
    "C127_tz_free",
    "C127_tz_grid",
    "C127_tz_free_refuted"
   ],
   "note": ""
  },
  {
   "property": "C128",
   "status": "proved",
   "theorems": [
    "C128_repeated_same_index",
    "C128_repeated_product",
    "C128_repeated_unique",
    "C128_repeated_order_refuted"
   ],
   "note": ""
  },
  {
   "property": "C129",
   "status": "proved",
   "theorems": [
    "C129_error_handling_after",
    "C129_wrapped_calls",
    "C129_protected_calls",
    "C129_weights_events",
    "C129_calm_values",
    "C129_history_refuted"
   ],
   "note": ""
  },
  {
   "property": "C130",
   "status": "proved",
   "theorems": [
    "C130_int_error_entry",
    "C130_int_metrics_exact",
    "C130_int_signed_safe",
    "C130_int_unsigned",
    "C130_int_metrics_refuted"
   ],
   "note": ""
  },
  {
   "property": "C131",
   "status": "proved",
   "theorems": [
    "C131_flag_qc_clean",
    "C131_null_qc_clean",
    "C131_interp_nan_clean",
    "C131_session_clean",
    "C131_remap_positions_clean",
    "C131_assign_out_clean",
    "C131_get_1d_plant_clean",
    "C131_cleanfreq_in_place",
    "C131_arguments_refuted"
   ],
   "note": ""
  },
  {
   "property": "C132",
   "status": "proved",
   "theorems": [
    "C132_ensurepath_any_end",
    "C132_ensurepath_any_made",
    "C132_ensurepath_any_refuted",
    "C132_ensurepath_any_creating"
   ],
   "note": ""
  },
  {
   "property": "C133",
   "status": "proved",
   "theorems": [
    "C133_int_plant_exact",
    "C133_int_plant_default",
    "C133_int_plant_float_reference",
    "C133_int_plant_unsigned",
    "C133_int_plant_refuted"
   ],
   "note": ""
  },
  {
   "property": "C134",
   "status": "proved",
   "theorems": [
    "C134_magnitude_relative",
    "C134_magnitude_zero",
    "C134_magnitude_symmetric",
    "C134_magnitude_absolute",
    "C134_unit_close",
    "C134_spacetime_float_shape",
    "C134_spacetime_float_close",
    "C134_spacetime_float_refuted",
    "C134_magnitude_zero_refuted"
   ],
   "note": ""
  },
  {
   "property": "C135",
   "status": "proved",
   "theorems": [
    "C135_columns_en",
    "C135_columns_more",
    "C135_columns_missing",
    "C135_columns_swapped",
    "C135_column_order_refuted"
   ],
   "note": ""
  },
  {
   "property": "C136",
   "status": "proved",
   "theorems": [
    "C136_iterator_pairs",
    "C136_iterator_sound",
    "C136_iterator_prefix",
    "C136_iterator_motion",
    "C136_iterator_no_first",
    "C136_iterator_refuted"
   ],
   "note": ""
  },
  {
   "property": "C137",
   "status": "proved",
   "theorems": [
    "C137_project_close",
    "C137_project_scale",
    "C137_project_reversed",
    "C137_separation_reversed",
    "C137_vectors_close",
    "C137_pol2rect_close",
    "C137_project_list"
   ],
   "note": ""
  },
  {
   "property": "C138",
   "status": "proved",
   "theorems": [
    "C138_names_pick",
    "C138_names_unknown",
    "C138_names_clash",
    "C138_names_fit",
    "C138_names_multi",
    "C138_names_refuted"
   ],
   "note": ""
  },
  {
   "property": "C139",
   "status": "proved",
   "theorems": [
    "C139_stored_close",
    "C139_stored_single",
    "C139_stored_shape",
    "C139_stored_monotone",
    "C139_stored_degenerate",
    "C139_stored_gain",
    "C139_stored_gain_refuted"
   ],
   "note": ""
  }
 ]
}