{
"functional_extensionality_dep|sig_forall_dec|sig_not_dec": [
"C01_rfft_to_fft_2d",
"C01_rfft_keep",
"C02_rfft_to_fft_3d",
"C04_fourier_shift_integer",
"C05_hellinger_symmetric",
"C05_hellinger_nonneg_zero_iff",
"C05_hellinger_triangle",
"C05_hellinger_triangle_blank_middle",
"C05_hellinger_ignores_blanks",
"C05_hellinger_le_1",
"C06_hellinger_bin_width_partial",
"C06_hellinger_bin_width_refuted",
"C07_center",
"C07_standardize",
"C07_normalize_by_mean",
"C07_normalize",
"C07_unknown_scheme",
"C12_pixel_frequency",
"C12_distance",
"C12_pixel_distance",
"C14_vca_channels",
"C14_vca_sum_of_pspec",
"C15_vcs_no_blanks",
"C15_vcs_blanks_partial",
"C16_surface_bounded",
"C16_zero_lag_one",
"C16_formula",
"C16_boundary_name",
"C17_point_symmetric",
"C18_calibration_invariant",
"C19_cut_refuted",
"C19_cut_partial",
"C19_cut_zero_lag_partial",
"C20_distance_formula",
"C20_distance_symmetric",
"C20_distance_nonneg",
"C20_distance_zero",
"C20_distance_triangle",
"C21_formula",
"C21_rejects",
"C21_symmetric",
"C21_identical",
"C21_row_order",
"C21_translation",
"C23_formula",
"C23_symmetric",
"C23_bounded",
"C23_triangle",
"C23_rescaled",
"C25_refuted",
"C25_negative_partial",
"C25_positive_partial",
"C26_symmetric_peak",
"C26_images",
"C27_input_refuted",
"C27_input_partial",
"C31_lags_partial",
"C31_lags_refuted",
"C31_radius",
"C31_history",
"C36_laws_of_moments_partial",
"C36_pearson_refuted",
"C36_affine",
"C36_are_the_weighted_moments",
"C37_blanks_refuted",
"C37_blanks_partial",
"C37_bias_partial",
"C38_window",
"C38_periodic_window",
"C39_accepted_data",
"C39_accepted_by_default",
"C39_weighted_data",
"C39_pdf_with_automatic_bins",
"C39_pdf_with_given_bins",
"C39_ecdf_partial",
"C39_ecdf_ends_at_1_refuted",
"C40_again_refuted",
"C40_loses_a_bin_partial",
"C40_given_bins_partial",
"C41_moment0_partial",
"C41_moment0_refuted",
"C41_moment1_partial",
"C41_moment2_partial",
"C41_spatial_axis_refuted",
"C41_noise_shape",
"C42_moment0_scales",
"C42_moment1_scales",
"C42_moment2_scales",
"C42_moment0_not_negative",
"C42_moment1_not_negative",
"C42_moment2_not_negative",
"C42_more_channels",
"C42_moment0_value",
"C42_moment1_value",
"C42_moment2_value",
"C43_angle",
"C43_physical",
"C43_roundtrip_angle",
"C43_roundtrip_physical",
"C43_frequency_angle",
"C43_frequency_physical",
"C43_frequency_roundtrip",
"C43_area_angle",
"C43_area_physical",
"C43_incompatible",
"C43_no_distance",
"C43_no_header",
"C47_stops",
"C47_outcome",
"C50_last_refuted",
"C50_errors",
"C51_range",
"C51_radial",
"C51_profile",
"C58_order",
"C66_one_blank_refuted",
"C66_blank_rule_partial",
"C66_common_blanks_partial",
"C71_symmetric",
"C71_value_partial",
"C71_nonnegative_partial",
"C71_refuted",
"C71_broken",
"C71_broken_zero",
"C71_tail",
"C71_tail_value",
"C78_refuted",
"C78_explicit_partial",
"C79_refuted",
"C79_fewer_partial",
"C80_refuted",
"C80_several_partial",
"C83_refuted",
"C83_zero_first_partial",
"C89_ignored_partial",
"C90_scales_partial",
"C90_deltavar_refuted",
"C93_refuted",
"C93_number_partial",
"C93_uncorrelated_partial",
"C95_refuted",
"C96_refuted",
"C96_only_partial",
"C99_analytic_refuted",
"C102_symmetric",
"C102_single_partial",
"C102_refuted",
"C103_common_partial",
"C103_symmetric_refuted",
"C103_area_refuted",
"C104_symmetric",
"C104_value",
"C104_zero",
"C104_shape",
"C110_total",
"C110_names",
"C111_theta",
"C114_edge_refuted",
"C114_edge_partial",
"C115_fft_refuted",
"C115_half_partial",
"C124_circular_share_refuted",
"C124_full_square_partial",
"C125_run_min_frac_refuted",
"C125_run_default_partial",
"C126_rounded_down_refuted",
"C126_rounded_up_partial",
"C127_shifted_maps",
"C132_hellinger_of_pdfs",
"C132_hellinger_scale",
"C139_ray_refuted",
"C142_kernel_positive",
"C142_kernel_sum",
"C142_kernel_symmetric",
"C150_bins",
"C151_cyclic_shift",
"C151_offset",
"C151_scale",
"C152_total_power",
"C157_value_partial",
"C157_metric_partial",
"C157_shapes_partial",
"C159_lags",
"C160_negative",
"C172_break_partial",
"C172_window_refuted",
"C172_even_refuted",
"C172_fit_points",
"C172_fit_possible",
"C173_value_partial",
"C173_documented_refuted",
"C174_intensity_unit_partial",
"C174_velocity_unit_partial",
"C174_velocity_unit_refuted",
"C175_moved",
"C175_symmetric",
"C176_apodized_partial",
"C176_kernel_of_ones_partial",
"C176_apodized_refuted",
"C177_moment0_error_partial",
"C177_constant_errors_refuted",
"C177_zero_error_refuted",
"C178_image",
"C178_cube",
"C178_mvc",
"C178_kernel_position",
"C178_no_beam",
"C179_superposition",
"C183_moved",
"C193_thick_slice",
"C41_linewidth_ray_refuted",
"C103_value_partial",
"C194_values_partial",
"C194_shape_partial",
"C196_positive_partial",
"C203_zero",
"C205_images",
"C205_widths",
"C212_distance_partial",
"C234_kept",
"C241_defined",
"C241_same",
"C241_pixel_order",
"C241_smaller_order_partial",
"C241_brightness_unit",
"C242_brighter_copy_refuted",
"C243_reproducible",
"C246_unknown",
"C248_fewer_refuted",
"C249_documented_partial",
"C263_odd_partial",
"C264_name_partial",
"C274_histograms",
"C274_refused",
"C274_stale_refuted",
"C280_robust_refuted",
"C282_run",
"C282_ecdf_refuted",
"C285_values_refuted",
"C286_minimum_partial",
"C288_ellipse_refuted",
"C294_square_partial",
"C294_oblong_partial",
"C294_spectral_first_refuted",
"C303_vca",
"C304_vcs",
"C306_surface",
"C307_rolled",
"C307_order",
"C311_mask_partial",
"C311_bright_partial",
"C315_blank_refuted",
"C315_surroundings_partial",
"C315_factor_partial",
"C317_default_refuted",
"C317_map_partial",
"C317_values_partial",
"C318_blank_refuted",
"C320_weighted",
"C322_unseen_refuted",
"C322_few_partial",
"C323_iterations",
"C323_range",
"C323_expected",
"C41_auto",
"C50_spread",
"C106_stored_partial",
"C194_refuted",
"C195_refuted",
"C196_refuted",
"C203_between",
"C205_noise",
"C212_refuted",
"C241_symmetric",
"C241_channel_order_partial",
"C241_channel_order_refuted",
"C242_ranges_refuted",
"C243_random_state_refuted",
"C248_same_number_partial",
"C248_more_refuted",
"C249_boundary_refuted",
"C263_size",
"C263_even_refuted",
"C264_whole",
"C272_accepted",
"C274_maps",
"C274_run_partial",
"C274_failed_refuted",
"C282_percentile",
"C282_history",
"C282_refused_refuted",
"C286_no_minimum_refuted",
"C286_odd_refuted",
"C286_fit_level",
"C294_area_partial",
"C294_common_scale_partial",
"C303_scf",
"C307_reversed",
"C308_run",
"C311_masking_refuted",
"C311_signal_partial",
"C314_coefficients_partial",
"C315_pairs_partial",
"C315_not_less_partial",
"C315_zero_lag_partial",
"C317_whole_partial",
"C317_outside_partial",
"C317_histograms_partial",
"C318_factor_partial",
"C320_data",
"C320_history",
"C320_percentile",
"C322_blanks_refuted",
"C322_sparse_partial",
"C323_no_iterations",
"C323_scaled",
"C324_field",
"C324_common",
"C324_multiples",
"C324_cube"
],
"": [
"C02_rfft_other_dims",
"C03_pixel_shift_moves",
"C11_pad_only_padding_partial",
"C11_pad_zero_right_refuted",
"C24_auto_needs_min",
"C34_keeps_the_large_regions",
"C34_never_adds_pixels",
"C34_idempotent",
"C44_header",
"C44_data",
"C45_unchanged",
"C45_name",
"C45_restored_partial",
"C45_load_name_partial",
"C46_kinds",
"C46_returned",
"C46_copy_partial",
"C49_limits_partial",
"C74_cutoff_partial",
"C74_cutoff_refuted",
"C75_deltavar_refuted",
"C75_deltavar_partial",
"C75_no_common_lags_refuted",
"C75_scf_refuted",
"C85_refuted",
"C85_square_partial",
"C98_missing_refuted",
"C100_refuted",
"C120_tables_partial",
"C136_units_false_refuted",
"C136_units_false_state_refuted",
"C137_given_scale_refuted",
"C137_given_scale_ignored",
"C137_own_scale_partial",
"C137_no_scale_partial",
"C137_moments_first_partial",
"C138_header_units_refuted",
"C138_header_units_partial",
"C140_round_trip_partial",
"C140_directory_refuted",
"C140_extension_refuted",
"C140_mask_refuted",
"C141_no_overwrite",
"C141_other_files_kept",
"C141_errors_needed",
"C161_default_bins",
"C166_pruned",
"C166_nonincreasing",
"C167_used_refuted",
"C171_second_refuted",
"C171_shared_partial",
"C222_wrong_type",
"C263_list_refuted",
"C285_fresh",
"C285_errors",
"C285_raised_partial",
"C291_styles_partial",
"C291_symbol_refuted",
"C292_others_partial",
"C292_xunit_refuted",
"C293_marker_refuted",
"C296_own_figure_partial",
"C296_drawn_over_refuted",
"C296_one_axis_refuted",
"C297_own_partial",
"C297_empty_refuted",
"C298_format_partial",
"C298_bare_refuted",
"C300_number_refuted",
"C301_one_lag_refuted",
"C320_orientation",
"C204_refuted",
"C222_beam",
"C246_built_refuted",
"C249_format_refuted",
"C285_maps",
"C285_mask_refuted",
"C285_sky_axis_refuted",
"C291_same_dictionary_refuted",
"C292_complete_partial",
"C292_filled_refuted",
"C293_reuse_partial",
"C293_other_side_refuted",
"C296_saved_partial",
"C296_second_close_refuted",
"C296_shown_refuted",
"C297_both_partial",
"C297_closing_refuted",
"C298_names",
"C298_written_partial",
"C300_bars_partial",
"C320_surroundings",
"C327_surroundings",
"C327_surroundings_weighted",
"C327_orientation",
"C327_orientation_weighted"
],
"functional_extensionality_dep|sig_forall_dec": [
"C03_pixel_shift_permutes",
"C03_pixel_shift_compose",
"C03_pixel_shift_float",
"C10_common_scale_laws",
"C10_common_scale_defined",
"C10_common_scale_value",
"C12_annuli_partition",
"C12_pixels_complete",
"C15_vcs_count_refuted",
"C24_value",
"C24_proportion",
"C24_methods",
"C24_auto",
"C24_count",
"C24_range",
"C29_inputs",
"C31_smoothing",
"C33_genus_odd",
"C33_curve_odd",
"C33_at_or_above_the_maximum",
"C33_at_or_below_the_minimum",
"C39_ecdf_at_the_maximum_partial",
"C43_spectral_roundtrip",
"C46_copy_refuted",
"C47_halvings",
"C48_slopes",
"C48_continuous_partial",
"C48_continuous_refuted",
"C49_clip",
"C62_sum_zero",
"C62_constant",
"C64_points_partial",
"C64_none",
"C65_downsample_partial",
"C67_rows_partial",
"C67_padded_refuted",
"C69_rows_partial",
"C69_dropped_refuted",
"C70_symmetric",
"C70_psd",
"C70_constants",
"C73_axes_refuted",
"C73_square_partial",
"C74_first_partial",
"C74_bins_refuted",
"C75_scf_lags_refuted",
"C75_scf_cubes_partial",
"C75_scf_cube_object_partial",
"C75_scf_objects_partial",
"C76_mask_angle_partial",
"C77_proportion",
"C81_symmetric",
"C81_formula",
"C81_positive",
"C81_scaled",
"C82_refuted",
"C82_earlier_partial",
"C84_rows",
"C84_zero",
"C84_shuffle",
"C88_refuted",
"C88_partial",
"C91_refuted",
"C91_break_partial",
"C92_refuted",
"C92_inside_partial",
"C94_range_partial",
"C94_refuted",
"C97_refuted",
"C113_bootstrap_refuted",
"C116_genus_counts_regions",
"C116_counts_exist",
"C116_curve",
"C117_transpose",
"C117_flip_rows",
"C117_flip_columns",
"C117_blank_border",
"C117_increasing_scale",
"C118_percentile_overrides_refuted",
"C118_thresholds_partial",
"C119_distance_numpts_refuted",
"C119_distance_numpts_partial",
"C121_default_radii_refuted",
"C121_default_radii_partial",
"C121_accepted_radii",
"C122_counted_with_eight_connectivity_refuted",
"C122_same_connectivity_partial",
"C128_common_angular_radius",
"C129_precomputed_refuted",
"C129_precomputed_partial",
"C130_moment_histograms",
"C130_works_with_blanks",
"C131_ks_is_the_supremum",
"C131_ks_range",
"C131_ks_symmetric",
"C131_ks_zero",
"C131_ks_separated",
"C131_ks_triangle",
"C131_ks_increasing_maps",
"C133_percentiles",
"C133_percentiles_out_of_range",
"C135_scale_history",
"C135_scale_rules",
"C135_rejected_keeps",
"C148_off_image_refuted",
"C148_square_partial",
"C158_values",
"C160_interior_partial",
"C160_border_refuted",
"C164_array_partial",
"C164_list_refuted",
"C164_number_refuted",
"C165_auto_partial",
"C165_no_min_value_refuted",
"C166_same_object_refuted",
"C170_data_partial",
"C170_object_refuted",
"C170_length_refuted",
"C186_points_below_partial",
"C186_points_above_refuted",
"C190_downsample_units_refuted",
"C192_flux_partial",
"C192_flux_refuted",
"C202_relation_refuted",
"C202_increasing_partial",
"C214_refuted",
"C214_single_partial",
"C215_zero_mean",
"C216_total",
"C217_pspec_partial",
"C218_blanks",
"C218_mvc_refuted",
"C218_pdf_weighted",
"C219_unweighted",
"C220_accepts",
"C221_refuted",
"C227_rectangle_refuted",
"C236_fit",
"C236_radial",
"C236_accepted",
"C236_unbinned_refuted",
"C236_2D_limits_refuted",
"C237_mvc",
"C237_vca_partial",
"C237_pspec_partial",
"C237_pspec_radial_refuted",
"C238_precomputed",
"C239_run",
"C239_distance",
"C239_misspelt_refuted",
"C240_all_points",
"C240_highest_refuted",
"C259_reach_partial",
"C259_break_partial",
"C259_swallowed_refuted",
"C259_cov_type_refuted",
"C259_delta_quiet_partial",
"C259_threads_refuted",
"C260_delta_accepted_partial",
"C260_mixed_refuted",
"C260_wavelet_partial",
"C260_wavelet_limits_partial",
"C262_delta_default",
"C262_given",
"C262_moments_size_refuted",
"C283_fit",
"C283_both_refuted",
"C283_ecdf_refuted",
"C295_channels_partial",
"C295_one_channel_refuted",
"C301_labels_partial",
"C302_one_bin_refuted",
"C303_pca_partial",
"C306_default",
"C316_differences",
"C319_pairs_partial",
"C319_diluted_partial",
"C320_likelihood",
"C320_at_percentile",
"C321_threshold",
"C202_refuted",
"C202_partial",
"C214_swapped_partial",
"C215_variance",
"C216_reconstruction",
"C217_others_partial",
"C217_refuted",
"C218_mvc_partial",
"C218_pdf",
"C219_weighted",
"C220_header",
"C221_header_partial",
"C227_even_refuted",
"C233_step",
"C236_spectrum",
"C236_2D",
"C236_misspelt",
"C236_mvc_unbinned_refuted",
"C236_threads_refuted",
"C237_mvc_accepts",
"C237_vca_accepts",
"C237_scalar_break_refuted",
"C237_vca_second_refuted",
"C238_width_refuted",
"C239_transform",
"C239_breaks_twice_refuted",
"C240_points",
"C240_start",
"C243_sampling",
"C252_covariance_refuted",
"C259_accepted_partial",
"C259_misspelt_partial",
"C259_fit_option_refuted",
"C259_quiet_refuted",
"C259_convolve_refuted",
"C260_delta_partial",
"C260_second_refuted",
"C260_own_lags_refuted",
"C260_wavelet_accepted_partial",
"C262_moments_default",
"C262_size_partial",
"C283_curve",
"C283_failed_refuted",
"C283_chain_refuted",
"C295_channel_partial",
"C295_velocity_partial",
"C301_genus_partial",
"C302_bars_partial",
"C302_uneven_refuted",
"C303_blanks_refuted",
"C304_pca",
"C309_array",
"C319_negative_refuted",
"C319_own_partial",
"C322_rows_partial",
"C164_default_partial"
],
"Classical_Prop.classic|functional_extensionality_dep|sig_forall_dec|sig_not_dec": [
"C08_kl_nonneg_zero_iff_partial",
"C08_kl_blanks_refuted",
"C08_kl_same_blanks_partial",
"C09_bins_linear",
"C09_bins_log",
"C09_bins_default",
"C09_bins_dims",
"C12_annulus_mean",
"C12_annulus_between",
"C12_edges",
"C13_sector_kept",
"C13_opposite_sector_odd_partial",
"C13_point_symmetric_odd_partial",
"C13_point_symmetric_even_refuted",
"C13_point_symmetric_middle_refuted",
"C22_nonnegative",
"C27_width",
"C28_refuted",
"C28_monotone_partial",
"C28_zero_partial",
"C28_needs_beam_partial",
"C29_stored",
"C29_expression",
"C29_background",
"C29_scaling",
"C30_formula",
"C30_symmetric",
"C30_zero",
"C30_amplitude",
"C30_triangle",
"C30_nonneg",
"C30_ranges",
"C32_unit",
"C32_shape",
"C35_beam_area_refuted",
"C35_beam_area_partial",
"C42_linewidth_scales",
"C42_linewidth_not_negative",
"C52_symmetries",
"C52_isotropic",
"C52_domain",
"C53_inverse",
"C53_increasing",
"C53_stderr",
"C54_same_form",
"C55_hermitian",
"C55_image",
"C56_size_refuted",
"C56_odd_partial",
"C56_even_partial",
"C57_schedule",
"C57_line_of_sight",
"C58_additive",
"C58_homogeneous",
"C58_nonnegative",
"C59_channels_partial",
"C59_default_limits_partial",
"C59_negative_density",
"C59_crossed_limits",
"C59_too_many_channels",
"C59_single_channel_refuted",
"C60_fitting_shapes",
"C61_shapes",
"C61_square_partial",
"C61_rectangle_refuted",
"C62_default_lags",
"C62_default_accepted",
"C63_even_peaked",
"C64_clip_refuted",
"C64_default_refuted",
"C65_regrid",
"C65_bad_calls",
"C65_small_width_refuted",
"C65_function_refuted",
"C67_comparison_refuted",
"C68_wavelet_value",
"C74_comparison_bins",
"C76_mask_angle_refuted",
"C86_refuted",
"C86_partial",
"C87_same_grid_partial",
"C87_refuted",
"C87_blank_refuted",
"C89_refuted",
"C90_constructor_partial",
"C98_slopes_partial",
"C98_stale_refuted",
"C98_pspec_partial",
"C99_slope_refuted",
"C99_break_refuted",
"C101_found_partial",
"C101_refuted",
"C105_likelihood",
"C105_prior",
"C106_errors_refuted",
"C106_errors_partial",
"C106_fixed_partial",
"C107_fixed_refuted",
"C107_index_error_partial",
"C107_bootstrap_partial",
"C108_power",
"C108_model",
"C109_unit_refuted",
"C109_factor_partial",
"C111_ellip",
"C112_lowest",
"C112_refuses",
"C113_nonneg_partial",
"C115_hermitian_partial",
"C123_gaussian_odd",
"C123_gaussian_sign",
"C123_gaussian_peak",
"C142_kernel_peak",
"C143_reversal",
"C144_galilean",
"C145_uniform_refuted",
"C145_cells_partial",
"C146_limit_unit_refuted",
"C146_width_unit_refuted",
"C146_common_unit_partial",
"C147_last_axis_refuted",
"C147_minus1_refuted",
"C147_minus2_refuted",
"C147_noncubic_refuted",
"C147_minus3_partial",
"C149_spectral_axis",
"C153_shift_refuted",
"C153_closed_partial",
"C154_factor",
"C154_offset",
"C155_total_refuted",
"C155_positions_partial",
"C156_azimuthal_refuted",
"C156_azimuthal_means_partial",
"C156_radial_partial",
"C157_mean_subtract_refuted",
"C160_affine",
"C161_standardised",
"C161_histogram",
"C162_identifiable",
"C162_peak_partial",
"C162_amplitude_refuted",
"C163_zero_partial",
"C163_reduced_refuted",
"C167_histograms_partial",
"C168_again_refuted",
"C169_histograms",
"C169_symmetric",
"C169_same",
"C169_scale_offset",
"C179_intensity_unit",
"C180_scale_normalization",
"C181_stddev_partial",
"C181_small_image_refuted",
"C182_transposed",
"C182_mirrored",
"C184_default_scales_partial",
"C184_single_row_refuted",
"C185_fit_limits",
"C187_num_refuted",
"C188_smoothing_width",
"C189_new_axis_partial",
"C189_wide_channels_refuted",
"C190_regrid_units_partial",
"C191_flag_refuted",
"C191_rest_partial",
"C28_contribution_partial",
"C60_bicoherence",
"C162_start",
"C195_partial",
"C197_method",
"C198_partial",
"C199_channels",
"C200_order_refuted",
"C200_partial",
"C201_blind_refuted",
"C201_ordered_partial",
"C206_refuted",
"C208_success",
"C209_order",
"C209_scale",
"C210_sign_partial",
"C211_none",
"C213_raises_partial",
"C223_skewed_refuted",
"C224_run_again_partial",
"C224_theta_none_refuted",
"C225_nothing_left",
"C226_rule_partial",
"C226_run",
"C227_scf_fit_partial",
"C228_unbinned",
"C229_unbinned",
"C230_unbinned",
"C231_background",
"C232_run_again_partial",
"C232_theta_none_refuted",
"C244_defined",
"C244_same",
"C245_common_units",
"C245_standardized_refuted",
"C247_bins_refuted",
"C249_array_refuted",
"C250_common_angles",
"C250_symmetric",
"C250_same_cube",
"C251_reused_partial",
"C251_unrun_refuted",
"C251_other_grid_partial",
"C251_stale_fit_refuted",
"C252_computed",
"C252_proportion_refuted",
"C253_widths",
"C253_stale_refuted",
"C254_unused",
"C255_matching_partial",
"C255_changed_refuted",
"C256_curve_partial",
"C256_number_refuted",
"C256_range_refuted",
"C257_arrays_refuted",
"C258_pixels",
"C258_angles_refuted",
"C258_limits_partial",
"C261_bayes",
"C265_run_again",
"C265_failed_refuted",
"C265_hists_refuted",
"C266_power_law",
"C267_unbinned_partial",
"C267_log_break",
"C268_break_refuted",
"C269_history_partial",
"C270_objects_partial",
"C270_failed_refuted",
"C271_angles_partial",
"C271_refused",
"C271_list_refuted",
"C271_twice_refuted",
"C272_curves_partial",
"C272_images_refuted",
"C272_failed_refuted",
"C272_kept",
"C273_brightness_partial",
"C273_options_partial",
"C273_flat",
"C273_list_refuted",
"C273_value_partial",
"C275_moved",
"C275_self",
"C275_order_refuted",
"C275_objects_partial",
"C276_run",
"C276_scales_refuted",
"C276_range_refuted",
"C277_power_law",
"C277_normalization",
"C277_distance",
"C277_break_refuted",
"C278_history",
"C278_failed_refuted",
"C279_broken_partial",
"C279_plain_partial",
"C281_history",
"C281_tables_partial",
"C281_memory_refuted",
"C281_failed_refuted",
"C284_binned",
"C284_delta_variance",
"C286_walk_down",
"C286_largest_lag_refuted",
"C286_fit_partial",
"C287_gaussian_partial",
"C287_no_covariance",
"C288_small_refuted",
"C288_circular_refuted",
"C289_size_unit",
"C289_error_unit",
"C289_interpolate_refuted",
"C290_same_misfit",
"C290_exact_refuted",
"C299_wavelet_partial",
"C299_delvar_refuted",
"C299_line_refuted",
"C300_relation_partial",
"C305_image",
"C305_mvc",
"C308_distance",
"C309_run",
"C310_sampled",
"C310_distance",
"C312_half_turn_refuted",
"C313_near_refuted",
"C314_near_refuted",
"C314_value_partial",
"C318_shape_partial",
"C101_log_partial",
"C197_fit",
"C198_refuted",
"C199_on_line",
"C199_temperature",
"C200_channels_refuted",
"C201_refuted",
"C201_same_slope_partial",
"C206_recovery_partial",
"C207_least_squares",
"C208_line",
"C209_position",
"C210_refuted",
"C211_gaussian",
"C212_exact_partial",
"C213_refuted",
"C223_uniform_partial",
"C223_one_sided_refuted",
"C224_stale_mask_refuted",
"C225_recovers",
"C225_wrong_type",
"C226_limits_refuted",
"C227_scf_partial",
"C227_pspec_partial",
"C228_fit_2D",
"C229_binned",
"C230_binned",
"C231_displaced",
"C232_stale_mask_refuted",
"C235_power",
"C240_order",
"C241_nonnegative",
"C244_symmetric",
"C244_pixel_order",
"C245_own_units",
"C246_choices",
"C250_defined",
"C250_calibration",
"C250_even_size",
"C251_as_cubes_partial",
"C251_object_first_refuted",
"C251_other_grid_refuted",
"C252_one_decomposition_partial",
"C253_fresh",
"C253_single_refuted",
"C254_refused",
"C254_header",
"C255_mean_sub_refuted",
"C256_run",
"C256_lags_refuted",
"C256_boundary_refuted",
"C256_limits",
"C257_kept_partial",
"C258_default",
"C258_list_refuted",
"C258_limits_refuted",
"C261_odr",
"C261_decreasing_refuted",
"C264_left_refuted",
"C265_counts",
"C265_thresholds_refuted",
"C266_units",
"C267_binned_partial",
"C267_break_refuted",
"C268_slopes_partial",
"C269_surfaces_partial",
"C269_failed_refuted",
"C270_value_partial",
"C271_radii_partial",
"C271_one_width",
"C271_surface",
"C271_first_refuted",
"C271_plain_refuted",
"C272_history_partial",
"C272_radii_refuted",
"C272_thresholds",
"C273_self_partial",
"C273_short_list",
"C273_header_refuted",
"C273_radii_refuted",
"C275_brightness",
"C275_range",
"C275_order_partial",
"C275_zero_refuted",
"C275_options_refuted",
"C276_values_partial",
"C276_number_refuted",
"C276_single_refuted",
"C277_brightness",
"C277_orientation",
"C277_broken_partial",
"C278_fit",
"C278_failed_partial",
"C278_unlogged_refuted",
"C279_break_refuted",
"C279_search_refuted",
"C281_run",
"C281_lags",
"C281_stale_refuted",
"C281_fewer",
"C284_unbinned",
"C284_wavelet",
"C286_agree_partial",
"C286_never_reached",
"C287_constant_refuted",
"C287_brightness",
"C288_ties_refuted",
"C288_same_partial",
"C289_exact_law",
"C289_width_unit",
"C289_exchanged",
"C289_interpolated_sizes_refuted",
"C290_common_error_partial",
"C290_falling_refuted",
"C299_agree_partial",
"C299_delvar_partial",
"C299_pspec_partial",
"C299_break_refuted",
"C305_cube",
"C305_half_turn",
"C306_run",
"C307_history",
"C310_image",
"C310_history",
"C312_about_first",
"C312_half_turn_partial",
"C313_far_partial",
"C314_margin_partial",
"C316_run",
"C321_object",
"C326_sampled_refuted",
"C326_bounds_refuted",
"C326_odr_partial",
"C326_unknown_partial",
"C327_distances",
"C327_zero"
],
"sig_forall_dec": [
"C44_rejected",
"C44_distance",
"C44_history",
"C45_mvc_refuted",
"C49_number_refuted",
"C50_draws_partial",
"C72_beam",
"C72_width",
"C97_about_partial",
"C100_deltavar_partial",
"C113_resample_partial",
"C120_one_table_per_image_refuted",
"C134_fit_refuted",
"C134_fit_partial",
"C134_fit_out_of_support_partial",
"C194_true_partial",
"C301_tsallis_partial",
"C323_draws"
]
}