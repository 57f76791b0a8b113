{
 "claims": [
  {
   "property": "C01",
   "status": "proved",
   "theorems": [
    "C01_rfft_to_fft_2d",
    "C01_rfft_keep"
   ],
   "note": ""
  },
  {
   "property": "C02",
   "status": "proved",
   "theorems": [
    "C02_rfft_to_fft_3d",
    "C02_rfft_other_dims"
   ],
   "note": ""
  },
  {
   "property": "C03",
   "status": "proved",
   "theorems": [
    "C03_pixel_shift_moves",
    "C03_pixel_shift_permutes",
    "C03_pixel_shift_compose",
    "C03_pixel_shift_float"
   ],
   "note": ""
  },
  {
   "property": "C04",
   "status": "proved",
   "theorems": [
    "C04_fourier_shift_integer"
   ],
   "note": "Non-finite input pixels come out as NaN."
  },
  {
   "property": "C05",
   "status": "proved",
   "theorems": [
    "C05_hellinger_symmetric",
    "C05_hellinger_nonneg_zero_iff",
    "C05_hellinger_triangle",
    "C05_hellinger_triangle_blank_middle",
    "C05_hellinger_ignores_blanks",
    "C05_hellinger_le_1"
   ],
   "note": "The triangle inequality needs the middle histogram to be blank only where an outer one is; C05_hellinger_triangle_blank_middle shows why."
  },
  {
   "property": "C06",
   "status": "partial",
   "theorems": [
    "C06_hellinger_bin_width_partial",
    "C06_hellinger_bin_width_refuted"
   ],
   "note": "REFUTED by the code: bin_width multiplies the distance instead of entering under the root, so it scales with sqrt(bin_width) and can exceed 1. The partial theorem gives the exact law."
  },
  {
   "property": "C07",
   "status": "proved",
   "theorems": [
    "C07_center",
    "C07_standardize",
    "C07_normalize_by_mean",
    "C07_normalize",
    "C07_unknown_scheme"
   ],
   "note": ""
  },
  {
   "property": "C08",
   "status": "partial",
   "theorems": [
    "C08_kl_nonneg_zero_iff_partial",
    "C08_kl_blanks_refuted",
    "C08_kl_same_blanks_partial"
   ],
   "note": "Non-negativity and the zero case hold. REFUTED part: blanks are removed from each argument separately, so bins are mispaired unless both are blank in the same bins."
  },
  {
   "property": "C09",
   "status": "proved",
   "theorems": [
    "C09_bins_linear",
    "C09_bins_log",
    "C09_bins_default",
    "C09_bins_dims"
   ],
   "note": ""
  },
  {
   "property": "C10",
   "status": "proved",
   "theorems": [
    "C10_common_scale_laws",
    "C10_common_scale_defined",
    "C10_common_scale_value"
   ],
   "note": ""
  },
  {
   "property": "C11",
   "status": "partial",
   "theorems": [
    "C11_pad_only_padding_partial",
    "C11_pad_zero_right_refuted"
   ],
   "note": "REFUTED by the code for a zero right pad width: vector[-0:] is the whole vector, so everything is overwritten. Holds for pad_width[1] >= 1."
  },
  {
   "property": "C12",
   "status": "proved",
   "theorems": [
    "C12_annulus_mean",
    "C12_annulus_between",
    "C12_annuli_partition",
    "C12_edges",
    "C12_pixel_frequency",
    "C12_pixels_complete",
    "C12_distance",
    "C12_pixel_distance"
   ],
   "note": ""
  },
  {
   "property": "C13",
   "status": "partial",
   "theorems": [
    "C13_sector_kept",
    "C13_opposite_sector_odd_partial",
    "C13_point_symmetric_odd_partial",
    "C13_point_symmetric_even_refuted",
    "C13_point_symmetric_middle_refuted"
   ],
   "note": "Kept within delta/2 of theta_0: all shapes. Opposite sector and point symmetry: odd shapes away from the middle 2x2 block. REFUTED by the code for even shapes (mask[::-1,::-1] reflects about the wrong point) and next to the middle (the block [n-1:n+1] is not centred)."
  },
  {
   "property": "C14",
   "status": "proved",
   "theorems": [
    "C14_vca_channels",
    "C14_vca_sum_of_pspec"
   ],
   "note": ""
  },
  {
   "property": "C15",
   "status": "partial",
   "theorems": [
    "C15_vcs_no_blanks",
    "C15_vcs_blanks_partial",
    "C15_vcs_count_refuted"
   ],
   "note": "Full formula without blanks; with blanks it needs a positive value on every non-blank line. REFUTED otherwise: a line whose only values are negative, next to blanks, is not counted (max of the zero-filled line is 0)."
  },
  {
   "property": "C16",
   "status": "proved",
   "theorems": [
    "C16_surface_bounded",
    "C16_zero_lag_one",
    "C16_formula",
    "C16_boundary_name"
   ],
   "note": "Proved for whole and fractional lags; entries are blank when no pair of spectra has power (all-zero or all-blank cube), zero lag is 1 for any cube with a non-zero value."
  },
  {
   "property": "C17",
   "status": "proved",
   "theorems": [
    "C17_point_symmetric"
   ],
   "note": "Whole-pixel lags, as the property states; at fractional lags the surface is not symmetric in general."
  },
  {
   "property": "C18",
   "status": "proved",
   "theorems": [
    "C18_calibration_invariant"
   ],
   "note": ""
  },
  {
   "property": "C19",
   "status": "partial",
   "theorems": [
    "C19_cut_refuted",
    "C19_cut_partial",
    "C19_cut_zero_lag_partial"
   ],
   "note": "REFUTED by the code: with boundary='cut' the data are shifted by the lag and then sliced by the lag again, so a pixel is compared with its periodic partner at twice the lag. C19_cut_partial gives the exact pairs compared for every whole lag."
  },
  {
   "property": "C20",
   "status": "proved",
   "theorems": [
    "C20_distance_formula",
    "C20_distance_symmetric",
    "C20_distance_nonneg",
    "C20_distance_zero",
    "C20_distance_triangle"
   ],
   "note": ""
  },
  {
   "property": "C21",
   "status": "proved",
   "theorems": [
    "C21_formula",
    "C21_rejects",
    "C21_symmetric",
    "C21_identical",
    "C21_row_order",
    "C21_translation"
   ],
   "note": "cramer_statistic on given data matrices; format_data/_format_data (how the matrices are built from cubes) is modelled separately. Euclidean pairwise distances of scikit-learn taken as exact."
  },
  {
   "property": "C22",
   "status": "proved",
   "theorems": [
    "C22_nonnegative"
   ],
   "note": "Proved for all sizes through the conditional negative definiteness of the root distance (limits of Gram kernels)."
  },
  {
   "property": "C23",
   "status": "proved",
   "theorems": [
    "C23_formula",
    "C23_symmetric",
    "C23_bounded",
    "C23_triangle",
    "C23_rescaled"
   ],
   "note": "Eigenvalues are taken as given (np.linalg.eigh is an oracle)."
  },
  {
   "property": "C24",
   "status": "proved",
   "theorems": [
    "C24_value",
    "C24_proportion",
    "C24_methods",
    "C24_auto",
    "C24_auto_needs_min",
    "C24_count",
    "C24_range"
   ],
   "note": ""
  },
  {
   "property": "C25",
   "status": "partial",
   "theorems": [
    "C25_refuted",
    "C25_negative_partial",
    "C25_positive_partial"
   ],
   "note": "REFUTED by the code: the sum is divided by float(n_eigs), which is negative, so the result is minus the mean. For positive n_eigs it is the mean."
  },
  {
   "property": "C26",
   "status": "proved",
   "theorems": [
    "C26_symmetric_peak",
    "C26_images"
   ],
   "note": ""
  },
  {
   "property": "C27",
   "status": "partial",
   "theorems": [
    "C27_width",
    "C27_input_refuted",
    "C27_input_partial"
   ],
   "note": "Width fully proved. REFUTED part: the caller's vector is normalised in place."
  },
  {
   "property": "C28",
   "status": "partial",
   "theorems": [
    "C28_refuted",
    "C28_monotone_partial",
    "C28_zero_partial",
    "C28_contribution_partial",
    "C28_needs_beam_partial"
   ],
   "note": "REFUTED by the code: sqrt((y-t)^2+(x-t)^2) grows again below the beam contribution t. Monotone at and above t."
  },
  {
   "property": "C29",
   "status": "proved",
   "theorems": [
    "C29_stored",
    "C29_expression",
    "C29_inputs",
    "C29_background",
    "C29_scaling"
   ],
   "note": "The convolution (astropy convolve_fft) is an arbitrary linear operator given by its kernel matrices. Background invariance is for the default weights, see C86."
  },
  {
   "property": "C30",
   "status": "proved",
   "theorems": [
    "C30_formula",
    "C30_symmetric",
    "C30_zero",
    "C30_amplitude",
    "C30_triangle",
    "C30_nonneg",
    "C30_ranges"
   ],
   "note": "Curves at the same lags and fit range; curves holding infinite values are excluded."
  },
  {
   "property": "C31",
   "status": "partial",
   "theorems": [
    "C31_lags_partial",
    "C31_lags_refuted",
    "C31_radius",
    "C31_smoothing",
    "C31_history"
   ],
   "note": "REFUTED by the code for lags and scales: the whole part of the lag is compared with half the side, so 32.9 is accepted for a 64 pixel map. Exact for radii and smoothing radii; rejected assignments keep the old value in all five, for every history."
  },
  {
   "property": "C32",
   "status": "proved",
   "theorems": [
    "C32_unit",
    "C32_shape"
   ],
   "note": "For the continuous kernels, before astropy samples and normalises them on pixels; the plane integral is taken in polar coordinates."
  },
  {
   "property": "C33",
   "status": "proved",
   "theorems": [
    "C33_genus_odd",
    "C33_curve_odd",
    "C33_at_or_above_the_maximum",
    "C33_at_or_below_the_minimum"
   ],
   "note": "With smoothing the theorem assumes that the smoothing commutes with the sign of the image, as any linear convolution does."
  },
  {
   "property": "C34",
   "status": "proved",
   "theorems": [
    "C34_keeps_the_large_regions",
    "C34_never_adds_pixels",
    "C34_idempotent"
   ],
   "note": ""
  },
  {
   "property": "C35",
   "status": "partial",
   "theorems": [
    "C35_beam_area_refuted",
    "C35_beam_area_partial"
   ],
   "note": "REFUTED by the code: the product of the two full widths is divided by sqrt(8 ln 2) instead of 8 ln 2, so the minimum size is 2.35 times the beam area."
  },
  {
   "property": "C36",
   "status": "partial",
   "theorems": [
    "C36_laws_of_moments_partial",
    "C36_pearson_refuted",
    "C36_affine",
    "C36_are_the_weighted_moments"
   ],
   "note": "REFUTED by the code for constant images (skewness 0, kurtosis -3, since 0/0 is ignored by nansum). Everything else is proved."
  },
  {
   "property": "C37",
   "status": "partial",
   "theorems": [
    "C37_blanks_refuted",
    "C37_blanks_partial",
    "C37_bias_partial"
   ],
   "note": "REFUTED by the code: default weights are 1 at blanks, so that the mean is scaled by the valid share. Proved when blanks have blank weights; the bias of the mean is proved exactly."
  },
  {
   "property": "C38",
   "status": "proved",
   "theorems": [
    "C38_window",
    "C38_periodic_window"
   ],
   "note": ""
  },
  {
   "property": "C39",
   "status": "partial",
   "theorems": [
    "C39_accepted_data",
    "C39_accepted_by_default",
    "C39_weighted_data",
    "C39_pdf_with_automatic_bins",
    "C39_pdf_with_given_bins",
    "C39_ecdf_partial",
    "C39_ecdf_ends_at_1_refuted",
    "C39_ecdf_at_the_maximum_partial"
   ],
   "note": "REFUTED by the code for the last clause: the ECDF is evaluated at bin centres. All other clauses are proved."
  },
  {
   "property": "C40",
   "status": "partial",
   "theorems": [
    "C40_again_refuted",
    "C40_loses_a_bin_partial",
    "C40_given_bins_partial"
   ],
   "note": "REFUTED by the code: the bin centres are stored as bins and used as edges next time. Proved for explicit bins."
  },
  {
   "property": "C41",
   "status": "partial",
   "theorems": [
    "C41_moment0_partial",
    "C41_moment0_refuted",
    "C41_moment1_partial",
    "C41_moment2_partial",
    "C41_spatial_axis_refuted",
    "C41_noise_shape",
    "C41_auto",
    "C41_linewidth_ray_refuted"
   ],
   "note": "Zeroth moment: equal wherever a channel is included; first and second along the spectral axis: equal everywhere for a finite noise level or a noise cube. REFUTED by the code at pixels without an included channel (NaN slice-wise, 0 cube-wise), along spatial axes for centroids given in units of the spectral axis (cube-wise raises ValueError; for the centroids of spectral-cube, in angular units, both raise, C285), and for the line width when spectral-cube proposes rays (ValueError)."
  },
  {
   "property": "C42",
   "status": "proved",
   "theorems": [
    "C42_moment0_scales",
    "C42_moment1_scales",
    "C42_moment2_scales",
    "C42_linewidth_scales",
    "C42_moment0_not_negative",
    "C42_moment1_not_negative",
    "C42_moment2_not_negative",
    "C42_linewidth_not_negative",
    "C42_more_channels",
    "C42_moment0_value",
    "C42_moment1_value",
    "C42_moment2_value"
   ],
   "note": "Units are not modelled."
  },
  {
   "property": "C43",
   "status": "proved",
   "theorems": [
    "C43_angle",
    "C43_physical",
    "C43_roundtrip_angle",
    "C43_roundtrip_physical",
    "C43_frequency_angle",
    "C43_frequency_physical",
    "C43_frequency_roundtrip",
    "C43_area_angle",
    "C43_area_physical",
    "C43_incompatible",
    "C43_no_distance",
    "C43_no_header",
    "C43_spectral_roundtrip"
   ],
   "note": ""
  },
  {
   "property": "C44",
   "status": "proved",
   "theorems": [
    "C44_rejected",
    "C44_distance",
    "C44_header",
    "C44_data",
    "C44_history"
   ],
   "note": ""
  },
  {
   "property": "C45",
   "status": "partial",
   "theorems": [
    "C45_unchanged",
    "C45_name",
    "C45_restored_partial",
    "C45_mvc_refuted",
    "C45_load_name_partial"
   ],
   "note": "REFUTED by the code for MVC, whose override keeps _data. Proved for every other statistic (base class). load_results needs the name with .pkl."
  },
  {
   "property": "C46",
   "status": "partial",
   "theorems": [
    "C46_kinds",
    "C46_returned",
    "C46_copy_partial",
    "C46_copy_refuted"
   ],
   "note": "REFUTED by the code for (array, header) pairs, which are returned uncopied with need_copy. Everything else is proved."
  },
  {
   "property": "C47",
   "status": "proved",
   "theorems": [
    "C47_stops",
    "C47_halvings",
    "C47_outcome"
   ],
   "note": "Stopping, halvings and outcome proved for every solver; the classification of the outcome assumes the solver returns as many values as columns."
  },
  {
   "property": "C48",
   "status": "partial",
   "theorems": [
    "C48_slopes",
    "C48_continuous_partial",
    "C48_continuous_refuted"
   ],
   "note": "Slopes proved. Continuity REFUTED by the code: the right line passes through the left one at the nearest given point, not at the break; they meet if the break is one of the points."
  },
  {
   "property": "C49",
   "status": "partial",
   "theorems": [
    "C49_clip",
    "C49_limits_partial",
    "C49_number_refuted"
   ],
   "note": "clip_func proved. REFUTED by the code for a plain number as limit, which raises TypeError."
  },
  {
   "property": "C50",
   "status": "partial",
   "theorems": [
    "C50_draws_partial",
    "C50_last_refuted",
    "C50_errors",
    "C50_spread"
   ],
   "note": "REFUTED by the code: np.random.choice(size - 1) never draws the last residual."
  },
  {
   "property": "C51",
   "status": "proved",
   "theorems": [
    "C51_range",
    "C51_radial",
    "C51_profile"
   ],
   "note": "All windows of the file (any alpha, beta); window_at is the value at one pixel."
  },
  {
   "property": "C52",
   "status": "proved",
   "theorems": [
    "C52_symmetries",
    "C52_isotropic",
    "C52_domain"
   ],
   "note": "Model value as a float; ellipticity 1 is the infinite transformed parameter that fix_ellip_params uses."
  },
  {
   "property": "C53",
   "status": "proved",
   "theorems": [
    "C53_inverse",
    "C53_increasing",
    "C53_stderr"
   ],
   "note": "Full."
  },
  {
   "property": "C54",
   "status": "proved",
   "theorems": [
    "C54_same_form"
   ],
   "note": "Full."
  },
  {
   "property": "C55",
   "status": "proved",
   "theorems": [
    "C55_hermitian",
    "C55_image"
   ],
   "note": "Hermitian for even and odd sizes; the image is the inverse transform for even sizes."
  },
  {
   "property": "C56",
   "status": "partial",
   "theorems": [
    "C56_size_refuted",
    "C56_odd_partial",
    "C56_even_partial"
   ],
   "note": "REFUTED by the code for odd sizes: the last axis has N-1 points. Even sizes and the root mean square (|amp|, amp nonzero, N at least 4) are proved."
  },
  {
   "property": "C57",
   "status": "proved",
   "theorems": [
    "C57_schedule",
    "C57_line_of_sight"
   ],
   "note": ""
  },
  {
   "property": "C58",
   "status": "proved",
   "theorems": [
    "C58_additive",
    "C58_homogeneous",
    "C58_nonnegative",
    "C58_order"
   ],
   "note": ""
  },
  {
   "property": "C59",
   "status": "partial",
   "theorems": [
    "C59_channels_partial",
    "C59_default_limits_partial",
    "C59_negative_density",
    "C59_crossed_limits",
    "C59_too_many_channels",
    "C59_single_channel_refuted"
   ],
   "note": "Proved: equal channels, minimality, ValueError cases. REFUTED by the code for a range of at most one channel with return_hdu=True (IndexError)."
  },
  {
   "property": "C60",
   "status": "proved",
   "theorems": [
    "C60_bicoherence",
    "C60_fitting_shapes"
   ],
   "note": "Proved for every shape and every draw for which a result is returned; C60_fitting_shapes says when it always is, C61 treats the other shapes."
  },
  {
   "property": "C61",
   "status": "partial",
   "theorems": [
    "C61_shapes",
    "C61_square_partial",
    "C61_rectangle_refuted"
   ],
   "note": "Proved for exactly the shapes with ny//2+nx//2 <= min(ny,nx)+1, in particular square images. REFUTED by the code for all other shapes, e.g. 32x64: some draws raise IndexError."
  },
  {
   "property": "C62",
   "status": "proved",
   "theorems": [
    "C62_default_lags",
    "C62_default_accepted",
    "C62_sum_zero",
    "C62_constant"
   ],
   "note": ""
  },
  {
   "property": "C63",
   "status": "proved",
   "theorems": [
    "C63_even_peaked"
   ],
   "note": "For w^2 > 0; strictly decreasing in |x|."
  },
  {
   "property": "C64",
   "status": "partial",
   "theorems": [
    "C64_points_partial",
    "C64_none",
    "C64_clip_refuted",
    "C64_default_refuted"
   ],
   "note": "REFUTED by the code: clip_to_sigma masks on the log-histogram values y, not on x; a point beyond 1 sigma is used with sigma_clip=1, and the default sigma_clip=5 drops nothing for images below 10^5 pixels. Proved: exactly the points with finite |y| < s are used."
  },
  {
   "property": "C65",
   "status": "partial",
   "theorems": [
    "C65_regrid",
    "C65_bad_calls",
    "C65_downsample_partial",
    "C65_small_width_refuted",
    "C65_function_refuted"
   ],
   "note": "REFUTED by the code for downsampling: widths below the channel width return the cube unchanged, downsamp_function is ignored. The rest is proved. UnitsError is counted as UnitConversionError; spectral-cube's smoothing, interpolation and downsampling are external."
  },
  {
   "property": "C66",
   "status": "partial",
   "theorems": [
    "C66_one_blank_refuted",
    "C66_blank_rule_partial",
    "C66_common_blanks_partial"
   ],
   "note": "REFUTED by the code: blanks are replaced only where all three maps are blank; a pixel blank in the centroid or moment 0 map alone blanks the whole spectrum. The exact rule is proved."
  },
  {
   "property": "C67",
   "status": "partial",
   "theorems": [
    "C67_rows_partial",
    "C67_padded_refuted",
    "C67_comparison_refuted"
   ],
   "note": "REFUTED by the code for rows padded with blanks (np.sum instead of np.nansum): the whole row is blank, as in every comparison whose numbers of bins differ."
  },
  {
   "property": "C68",
   "status": "proved",
   "theorems": [
    "C68_wavelet_value"
   ],
   "note": "The kernel half-size chosen by astropy is any function of the scale."
  },
  {
   "property": "C69",
   "status": "partial",
   "theorems": [
    "C69_rows_partial",
    "C69_dropped_refuted"
   ],
   "note": "Rows proved. REFUTED by the code: channels without signal are kept as rows of zeros; only a cube of maximum zero gives no rows."
  },
  {
   "property": "C70",
   "status": "proved",
   "theorems": [
    "C70_symmetric",
    "C70_psd",
    "C70_constants"
   ],
   "note": ""
  },
  {
   "property": "C71",
   "status": "partial",
   "theorems": [
    "C71_symmetric",
    "C71_value_partial",
    "C71_nonnegative_partial",
    "C71_refuted",
    "C71_broken",
    "C71_broken_zero",
    "C71_tail",
    "C71_tail_value"
   ],
   "note": "REFUTED by the code when both errors are zero (distance of a slope from itself is NaN); all other cases proved."
  },
  {
   "property": "C72",
   "status": "proved",
   "theorems": [
    "C72_beam",
    "C72_width"
   ],
   "note": "The branch without radio_beam."
  },
  {
   "property": "C73",
   "status": "partial",
   "theorems": [
    "C73_axes_refuted",
    "C73_square_partial"
   ],
   "note": "REFUTED by the code: CRPIX1 is taken from the first image axis. Holds for square images."
  },
  {
   "property": "C74",
   "status": "partial",
   "theorems": [
    "C74_first_partial",
    "C74_bins_refuted",
    "C74_comparison_bins",
    "C74_cutoff_partial",
    "C74_cutoff_refuted"
   ],
   "note": "REFUTED by the code: make_hists drops the bins keyword after the first histogram, and the comparison fails when only the first min_delta qualifies. The comparison's own histograms do use the requested number of bins."
  },
  {
   "property": "C75",
   "status": "partial",
   "theorems": [
    "C75_deltavar_refuted",
    "C75_deltavar_partial",
    "C75_no_common_lags_refuted",
    "C75_scf_refuted",
    "C75_scf_lags_refuted",
    "C75_scf_cubes_partial",
    "C75_scf_cube_object_partial",
    "C75_scf_objects_partial"
   ],
   "note": "REFUTED by the code for DeltaVariance_Distance (mixed inputs raise; use_common_lags=False always raises UnboundLocalError) and SCF_Distance (object then cube raises AttributeError; cube then object with another number of lags compares different lags). The combinations that work are proved. Other Distance classes are not covered here."
  },
  {
   "property": "C76",
   "status": "partial",
   "theorems": [
    "C76_mask_angle_partial",
    "C76_mask_angle_refuted"
   ],
   "note": "REFUTED by the code: the mask uses unflipped pixel offsets on row-flipped spectra, so the y axis is mirrored. The partial theorem gives the exact relation for odd shapes."
  },
  {
   "property": "C77",
   "status": "proved",
   "theorems": [
    "C77_proportion"
   ],
   "note": ""
  },
  {
   "property": "C78",
   "status": "partial",
   "theorems": [
    "C78_refuted",
    "C78_explicit_partial"
   ],
   "note": "REFUTED by the code: slice(0, -1) drops the last eigenvalue."
  },
  {
   "property": "C79",
   "status": "partial",
   "theorems": [
    "C79_refuted",
    "C79_fewer_partial"
   ],
   "note": "REFUTED by the code at n_eigs = number of channels (ValueError, after n_eigs of the object was overwritten); equal for fewer components."
  },
  {
   "property": "C80",
   "status": "partial",
   "theorems": [
    "C80_refuted",
    "C80_several_partial"
   ],
   "note": "REFUTED by the code: a single eigenimage is two-dimensional and is iterated by rows, so n_eigs=1 always raises IndexError. Holds for two or more."
  },
  {
   "property": "C81",
   "status": "proved",
   "theorems": [
    "C81_symmetric",
    "C81_formula",
    "C81_positive",
    "C81_scaled"
   ],
   "note": ""
  },
  {
   "property": "C82",
   "status": "partial",
   "theorems": [
    "C82_refuted",
    "C82_earlier_partial"
   ],
   "note": "REFUTED by the code: blanks of the later channel are replaced by eps and counted. Holds for a channel without blanks against an earlier one."
  },
  {
   "property": "C83",
   "status": "partial",
   "theorems": [
    "C83_refuted",
    "C83_zero_first_partial"
   ],
   "note": "REFUTED by the code: subtracting the mean of the Fourier transform zeroes the first pixel of the image. Exact formula proved in C26_images."
  },
  {
   "property": "C84",
   "status": "proved",
   "theorems": [
    "C84_rows",
    "C84_zero",
    "C84_shuffle"
   ],
   "note": ""
  },
  {
   "property": "C85",
   "status": "partial",
   "theorems": [
    "C85_refuted",
    "C85_square_partial"
   ],
   "note": "REFUTED by the code: flat indices are divided by the number of rows instead of the row length; right for square maps. np.argpartition's choice is an oracle."
  },
  {
   "property": "C86",
   "status": "partial",
   "theorems": [
    "C86_refuted",
    "C86_partial"
   ],
   "note": "REFUTED by the code: blanks enter the convolution as zeros with full weight. Holds when the weights vanish on the blanks."
  },
  {
   "property": "C87",
   "status": "partial",
   "theorems": [
    "C87_same_grid_partial",
    "C87_refuted",
    "C87_blank_refuted"
   ],
   "note": "REFUTED by the code for different pixel sizes: the lags are scaled up past half the map, and the default fit ranges always differ so the curve distance is NaN. Holds on a common grid."
  },
  {
   "property": "C88",
   "status": "partial",
   "theorems": [
    "C88_refuted",
    "C88_partial"
   ],
   "note": "REFUTED by the code: run() is called without setting the lags, so the object keeps its own."
  },
  {
   "property": "C89",
   "status": "partial",
   "theorems": [
    "C89_refuted",
    "C89_ignored_partial"
   ],
   "note": "REFUTED by the code: x_mean and y_mean are not used."
  },
  {
   "property": "C90",
   "status": "partial",
   "theorems": [
    "C90_scales_partial",
    "C90_constructor_partial",
    "C90_deltavar_refuted"
   ],
   "note": "REFUTED by the code for lags assigned to a DeltaVariance object: compute_deltavar uses lags.value whatever the unit. Holds for its constructor, for Wavelet and for Tsallis."
  },
  {
   "property": "C91",
   "status": "partial",
   "theorems": [
    "C91_refuted",
    "C91_break_partial"
   ],
   "note": "REFUTED by the code: the offset uses the given point nearest to the break."
  },
  {
   "property": "C92",
   "status": "partial",
   "theorems": [
    "C92_refuted",
    "C92_inside_partial"
   ],
   "note": "REFUTED by the code beyond the highest point: the break is used as change of slope."
  },
  {
   "property": "C93",
   "status": "partial",
   "theorems": [
    "C93_refuted",
    "C93_number_partial",
    "C93_uncorrelated_partial"
   ],
   "note": "REFUTED by the code: the division by the slope change is missing, and the covariance has the wrong sign."
  },
  {
   "property": "C94",
   "status": "partial",
   "theorems": [
    "C94_range_partial",
    "C94_refuted"
   ],
   "note": "REFUTED by the code when x has a blank (comparisons with NaN are false)."
  },
  {
   "property": "C95",
   "status": "partial",
   "theorems": [
    "C95_refuted"
   ],
   "note": "REFUTED by the code: the weights keep their length, so the solver raises ValueError."
  },
  {
   "property": "C96",
   "status": "partial",
   "theorems": [
    "C96_refuted",
    "C96_only_partial"
   ],
   "note": "REFUTED by the code for a start (or iterate) at the lowest point: IndexError. No other error occurs."
  },
  {
   "property": "C97",
   "status": "partial",
   "theorems": [
    "C97_refuted",
    "C97_about_partial"
   ],
   "note": "REFUTED by the code: residuals are added to the data."
  },
  {
   "property": "C98",
   "status": "partial",
   "theorems": [
    "C98_slopes_partial",
    "C98_stale_refuted",
    "C98_missing_refuted",
    "C98_pspec_partial"
   ],
   "note": "Slopes and break are consistent after any history. REFUTED by the code for the break error, which is stale or missing when a break was dropped."
  },
  {
   "property": "C99",
   "status": "partial",
   "theorems": [
    "C99_slope_refuted",
    "C99_break_refuted",
    "C99_analytic_refuted"
   ],
   "note": "REFUTED by the code for second slope (bootstrap and analytic) and break (bootstrap)."
  },
  {
   "property": "C100",
   "status": "partial",
   "theorems": [
    "C100_refuted",
    "C100_deltavar_partial"
   ],
   "note": "REFUTED by the code for Wavelet (unit 1/pix). Holds for DeltaVariance."
  },
  {
   "property": "C101",
   "status": "partial",
   "theorems": [
    "C101_found_partial",
    "C101_refuted",
    "C101_log_partial"
   ],
   "note": "REFUTED by the code when two or more starts fail, and with log_break=False."
  },
  {
   "property": "C102",
   "status": "partial",
   "theorems": [
    "C102_symmetric",
    "C102_single_partial",
    "C102_refuted"
   ],
   "note": "Symmetric. REFUTED by the code: nansum drops a NaN distance."
  },
  {
   "property": "C103",
   "status": "partial",
   "theorems": [
    "C103_common_partial",
    "C103_value_partial",
    "C103_symmetric_refuted",
    "C103_area_refuted"
   ],
   "note": "REFUTED by the code for different pixel sizes (a length ratio is used for areas, and on one map only). Holds on a common grid; the spline is an oracle."
  },
  {
   "property": "C104",
   "status": "proved",
   "theorems": [
    "C104_symmetric",
    "C104_value",
    "C104_zero",
    "C104_shape"
   ],
   "note": ""
  },
  {
   "property": "C105",
   "status": "proved",
   "theorems": [
    "C105_likelihood",
    "C105_prior"
   ],
   "note": ""
  },
  {
   "property": "C106",
   "status": "partial",
   "theorems": [
    "C106_errors_refuted",
    "C106_errors_partial",
    "C106_fixed_partial",
    "C106_stored_partial"
   ],
   "note": "REFUTED by the code: both fits use the same fitter, so the errors are those of the second fit, or NaN when the second fit is kept."
  },
  {
   "property": "C107",
   "status": "partial",
   "theorems": [
    "C107_fixed_refuted",
    "C107_index_error_partial",
    "C107_bootstrap_partial"
   ],
   "note": "REFUTED by the code: IndexError without bootstrap, NaN ellipticity error with it."
  },
  {
   "property": "C108",
   "status": "proved",
   "theorems": [
    "C108_power",
    "C108_model"
   ],
   "note": "Whenever the mean square of the phases is not zero (if it is, the image is zero)."
  },
  {
   "property": "C109",
   "status": "partial",
   "theorems": [
    "C109_unit_refuted",
    "C109_factor_partial"
   ],
   "note": "REFUTED by the code: sum(phases**2) is not the sum of squared moduli; all powers are too large by the same factor."
  },
  {
   "property": "C110",
   "status": "proved",
   "theorems": [
    "C110_total",
    "C110_names"
   ],
   "note": "Full."
  },
  {
   "property": "C111",
   "status": "proved",
   "theorems": [
    "C111_theta",
    "C111_ellip"
   ],
   "note": "Full."
  },
  {
   "property": "C112",
   "status": "proved",
   "theorems": [
    "C112_lowest",
    "C112_refuses"
   ],
   "note": "Full; the solver is any function."
  },
  {
   "property": "C113",
   "status": "partial",
   "theorems": [
    "C113_bootstrap_refuted",
    "C113_resample_partial",
    "C113_nonneg_partial"
   ],
   "note": "REFUTED by the code: the residuals are added to the data instead of the model."
  },
  {
   "property": "C114",
   "status": "partial",
   "theorems": [
    "C114_edge_refuted",
    "C114_edge_partial"
   ],
   "note": "REFUTED by the code when the taper is narrower than a pixel; proved otherwise."
  },
  {
   "property": "C115",
   "status": "partial",
   "theorems": [
    "C115_fft_refuted",
    "C115_half_partial",
    "C115_hermitian_partial"
   ],
   "note": "REFUTED by the code: the half map of np.fft.rfftn is returned, unshifted. Hermitian symmetry is proved."
  },
  {
   "property": "C116",
   "status": "proved",
   "theorems": [
    "C116_genus_counts_regions",
    "C116_counts_exist",
    "C116_curve"
   ],
   "note": ""
  },
  {
   "property": "C117",
   "status": "proved",
   "theorems": [
    "C117_transpose",
    "C117_flip_rows",
    "C117_flip_columns",
    "C117_blank_border",
    "C117_increasing_scale"
   ],
   "note": ""
  },
  {
   "property": "C118",
   "status": "partial",
   "theorems": [
    "C118_percentile_overrides_refuted",
    "C118_thresholds_partial"
   ],
   "note": "REFUTED by the code: a percentile is ignored as soon as the matching value is given. The spacing, end points and precedence of explicit thresholds are proved."
  },
  {
   "property": "C119",
   "status": "partial",
   "theorems": [
    "C119_distance_numpts_refuted",
    "C119_distance_numpts_partial"
   ],
   "note": "REFUTED by the code: numpts is accepted but not handed on, 100 thresholds are always used."
  },
  {
   "property": "C120",
   "status": "partial",
   "theorems": [
    "C120_one_table_per_image_refuted",
    "C120_tables_partial"
   ],
   "note": "REFUTED by the code: every table is appended twice."
  },
  {
   "property": "C121",
   "status": "partial",
   "theorems": [
    "C121_default_radii_refuted",
    "C121_default_radii_partial",
    "C121_accepted_radii"
   ],
   "note": "REFUTED part: the default is a single radius of one pixel. The acceptance rule is proved in full."
  },
  {
   "property": "C122",
   "status": "partial",
   "theorems": [
    "C122_counted_with_eight_connectivity_refuted",
    "C122_same_connectivity_partial"
   ],
   "note": "REFUTED by the code: the regions are counted with the connectivity given, so connectivity=1 splits diagonal neighbours."
  },
  {
   "property": "C123",
   "status": "proved",
   "theorems": [
    "C123_gaussian_odd",
    "C123_gaussian_sign",
    "C123_gaussian_peak"
   ],
   "note": ""
  },
  {
   "property": "C124",
   "status": "partial",
   "theorems": [
    "C124_circular_share_refuted",
    "C124_full_square_partial"
   ],
   "note": "REFUTED by the code: the share is taken over the bounding square. Proved for blank-free squares; the exact rule is C38_window."
  },
  {
   "property": "C125",
   "status": "partial",
   "theorems": [
    "C125_run_min_frac_refuted",
    "C125_run_default_partial"
   ],
   "note": "REFUTED by the code: run does not hand on min_frac; 0.8 is always used."
  },
  {
   "property": "C126",
   "status": "partial",
   "theorems": [
    "C126_rounded_down_refuted",
    "C126_rounded_up_partial"
   ],
   "note": "REFUTED by the code: the radius is rounded up (np.ceil). The acceptance rule is proved."
  },
  {
   "property": "C127",
   "status": "proved",
   "theorems": [
    "C127_shifted_maps"
   ],
   "note": ""
  },
  {
   "property": "C128",
   "status": "proved",
   "theorems": [
    "C128_common_angular_radius"
   ],
   "note": ""
  },
  {
   "property": "C129",
   "status": "partial",
   "theorems": [
    "C129_precomputed_refuted",
    "C129_precomputed_partial"
   ],
   "note": "REFUTED by the code for image1 with another radius and nbins=None: nbins becomes None and np.histogram raises. Exact condition proved."
  },
  {
   "property": "C130",
   "status": "proved",
   "theorems": [
    "C130_moment_histograms",
    "C130_works_with_blanks"
   ],
   "note": ""
  },
  {
   "property": "C131",
   "status": "proved",
   "theorems": [
    "C131_ks_is_the_supremum",
    "C131_ks_range",
    "C131_ks_symmetric",
    "C131_ks_zero",
    "C131_ks_separated",
    "C131_ks_triangle",
    "C131_ks_increasing_maps"
   ],
   "note": ""
  },
  {
   "property": "C132",
   "status": "proved",
   "theorems": [
    "C132_hellinger_of_pdfs",
    "C132_hellinger_scale"
   ],
   "note": ""
  },
  {
   "property": "C133",
   "status": "proved",
   "theorems": [
    "C133_percentiles",
    "C133_percentiles_out_of_range"
   ],
   "note": ""
  },
  {
   "property": "C134",
   "status": "partial",
   "theorems": [
    "C134_fit_refuted",
    "C134_fit_partial",
    "C134_fit_out_of_support_partial"
   ],
   "note": "REFUTED by the code when both are fixed: UnboundLocalError. Proved for at most one fixed parameter at the starting point."
  },
  {
   "property": "C135",
   "status": "proved",
   "theorems": [
    "C135_scale_history",
    "C135_scale_rules",
    "C135_rejected_keeps"
   ],
   "note": ""
  },
  {
   "property": "C136",
   "status": "partial",
   "theorems": [
    "C136_units_false_refuted",
    "C136_units_false_state_refuted"
   ],
   "note": "REFUTED by the code: always AttributeError (_moment2); the line width keeps its units."
  },
  {
   "property": "C137",
   "status": "partial",
   "theorems": [
    "C137_given_scale_refuted",
    "C137_given_scale_ignored",
    "C137_own_scale_partial",
    "C137_no_scale_partial",
    "C137_moments_first_partial"
   ],
   "note": "REFUTED by the code: the given noise level is never used; without a level of the object no errors are set. Proved for the level of the object and for none."
  },
  {
   "property": "C138",
   "status": "partial",
   "theorems": [
    "C138_header_units_refuted",
    "C138_header_units_partial"
   ],
   "note": "REFUTED by the code for the zeroth moment (header has the cube unit only)."
  },
  {
   "property": "C139",
   "status": "partial",
   "theorems": [
    "C139_ray_refuted"
   ],
   "note": "REFUTED by the code: 'ray' is accepted, the errors raise ValueError."
  },
  {
   "property": "C140",
   "status": "partial",
   "theorems": [
    "C140_round_trip_partial",
    "C140_slash_partial",
    "C140_directory_refuted",
    "C140_extension_refuted",
    "C140_mask_refuted"
   ],
   "note": "Proved for .fits files, the directory being passed as moments_path. REFUTED by the code for a directory not passed again, for other extensions and for any mask (AttributeError)."
  },
  {
   "property": "C141",
   "status": "proved",
   "theorems": [
    "C141_no_overwrite",
    "C141_other_files_kept",
    "C141_errors_needed"
   ],
   "note": ""
  },
  {
   "property": "C142",
   "status": "proved",
   "theorems": [
    "C142_kernel_positive",
    "C142_kernel_sum",
    "C142_kernel_symmetric",
    "C142_kernel_peak"
   ],
   "note": ""
  },
  {
   "property": "C143",
   "status": "proved",
   "theorems": [
    "C143_reversal"
   ],
   "note": ""
  },
  {
   "property": "C144",
   "status": "proved",
   "theorems": [
    "C144_galilean"
   ],
   "note": ""
  },
  {
   "property": "C145",
   "status": "partial",
   "theorems": [
    "C145_uniform_refuted",
    "C145_cells_partial"
   ],
   "note": "Proved: which cells count and what they add. REFUTED by the code: cells exactly on a channel edge are dropped, so a uniform velocity field with the default channels gives an all-zero cube."
  },
  {
   "property": "C146",
   "status": "partial",
   "theorems": [
    "C146_limit_unit_refuted",
    "C146_width_unit_refuted",
    "C146_common_unit_partial"
   ],
   "note": "Proved for one common unit. REFUTED by the code for mixed units: only .value of the upper limit and of the width is used."
  },
  {
   "property": "C147",
   "status": "partial",
   "theorems": [
    "C147_last_axis_refuted",
    "C147_minus1_refuted",
    "C147_minus2_refuted",
    "C147_noncubic_refuted",
    "C147_minus3_partial"
   ],
   "note": "Proved for -3. REFUTED by the code for -1 and -2, which act as axes 1 and 0 on cubic fields and raise IndexError on others."
  },
  {
   "property": "C148",
   "status": "partial",
   "theorems": [
    "C148_off_image_refuted",
    "C148_square_partial"
   ],
   "note": "Proved for square images. REFUTED by the code: CRPIX1 and CRPIX2 are swapped."
  },
  {
   "property": "C149",
   "status": "proved",
   "theorems": [
    "C149_spectral_axis"
   ],
   "note": ""
  },
  {
   "property": "C150",
   "status": "proved",
   "theorems": [
    "C150_bins"
   ],
   "note": ""
  },
  {
   "property": "C151",
   "status": "proved",
   "theorems": [
    "C151_cyclic_shift",
    "C151_offset",
    "C151_scale"
   ],
   "note": ""
  },
  {
   "property": "C152",
   "status": "proved",
   "theorems": [
    "C152_total_power"
   ],
   "note": ""
  },
  {
   "property": "C153",
   "status": "partial",
   "theorems": [
    "C153_shift_refuted",
    "C153_closed_partial"
   ],
   "note": "Proved for cells whose truncated wave vectors satisfy k3=k1+k2. REFUTED by the code: k3 is truncated after the sum, so the sampled triangles are not closed and the bicoherence of a shifted point source changes."
  },
  {
   "property": "C154",
   "status": "proved",
   "theorems": [
    "C154_factor",
    "C154_offset"
   ],
   "note": ""
  },
  {
   "property": "C155",
   "status": "partial",
   "theorems": [
    "C155_total_refuted",
    "C155_positions_partial"
   ],
   "note": "Proved: per cell and wave vector each position is counted at most once. REFUTED by the code for two or more samples per cell: arr[idx] += 1 ignores repetitions."
  },
  {
   "property": "C156",
   "status": "partial",
   "theorems": [
    "C156_azimuthal_refuted",
    "C156_azimuthal_means_partial",
    "C156_radial_partial"
   ],
   "note": "Proved: averages over the selected pixels for the edges actually used. REFUTED by the code: linspace(0, pi, floor(pi/bin_width)) gives bins wider than bin_width and those beyond 90 degrees are always blank."
  },
  {
   "property": "C157",
   "status": "partial",
   "theorems": [
    "C157_value_partial",
    "C157_metric_partial",
    "C157_mean_subtract_refuted",
    "C157_shapes_partial"
   ],
   "note": "Proved for surfaces without blanks. REFUTED by the code with mean_subtract=True: the cell (0,0) has no power and both distances are NaN (in exact arithmetic; rounding may leave a tiny power there)."
  },
  {
   "property": "C158",
   "status": "proved",
   "theorems": [
    "C158_values"
   ],
   "note": ""
  },
  {
   "property": "C159",
   "status": "proved",
   "theorems": [
    "C159_lags"
   ],
   "note": ""
  },
  {
   "property": "C160",
   "status": "partial",
   "theorems": [
    "C160_affine",
    "C160_negative",
    "C160_interior_partial",
    "C160_border_refuted"
   ],
   "note": "Proved with periodic=True, and away from the border otherwise. REFUTED by the code for periodic=False: the image is padded with zeros, so an offset changes the pixels near the border."
  },
  {
   "property": "C161",
   "status": "proved",
   "theorems": [
    "C161_standardised",
    "C161_histogram",
    "C161_default_bins"
   ],
   "note": ""
  },
  {
   "property": "C162",
   "status": "partial",
   "theorems": [
    "C162_identifiable",
    "C162_peak_partial",
    "C162_amplitude_refuted",
    "C162_start"
   ],
   "note": "Identifiability proved. REFUTED by the code: log10 of the amplitude is -logA/(q-1), not logA."
  },
  {
   "property": "C163",
   "status": "partial",
   "theorems": [
    "C163_zero_partial",
    "C163_reduced_refuted"
   ],
   "note": "Proved: non-negative, and zero exactly when the model meets all used points. REFUTED by the code: exp is applied to log10 values and the sum is not divided by the degrees of freedom."
  },
  {
   "property": "C164",
   "status": "partial",
   "theorems": [
    "C164_array_partial",
    "C164_list_refuted",
    "C164_number_refuted",
    "C164_default_partial"
   ],
   "note": "REFUTED by the code: a list becomes a 1 x n array (one threshold), a single number raises ValueError."
  },
  {
   "property": "C165",
   "status": "partial",
   "theorems": [
    "C165_auto_partial",
    "C165_no_min_value_refuted"
   ],
   "note": "REFUTED by the code when min_value is not given: no thresholds can be made."
  },
  {
   "property": "C166",
   "status": "partial",
   "theorems": [
    "C166_pruned",
    "C166_nonincreasing",
    "C166_same_object_refuted"
   ],
   "note": "REFUTED by the code for a second run on the same object, which run prunes in place."
  },
  {
   "property": "C167",
   "status": "partial",
   "theorems": [
    "C167_used_refuted",
    "C167_histograms_partial"
   ],
   "note": "REFUTED by the code: the last qualifying threshold is left out; those used do qualify."
  },
  {
   "property": "C168",
   "status": "partial",
   "theorems": [
    "C168_again_refuted"
   ],
   "note": "REFUTED by the code: nbins was overwritten by an array, the second call raises."
  },
  {
   "property": "C169",
   "status": "proved",
   "theorems": [
    "C169_histograms",
    "C169_symmetric",
    "C169_same",
    "C169_scale_offset"
   ],
   "note": ""
  },
  {
   "property": "C170",
   "status": "partial",
   "theorems": [
    "C170_data_partial",
    "C170_object_refuted",
    "C170_length_refuted"
   ],
   "note": "REFUTED by the code: a precomputed object is run again with its own thresholds; different lengths raise AttributeError."
  },
  {
   "property": "C171",
   "status": "partial",
   "theorems": [
    "C171_second_refuted",
    "C171_shared_partial"
   ],
   "note": "REFUTED by the code: dendro2_kwargs with make_hists or verbose raises TypeError, and the entries are removed from the caller's dictionary."
  },
  {
   "property": "C172",
   "status": "partial",
   "theorems": [
    "C172_break_partial",
    "C172_window_refuted",
    "C172_even_refuted",
    "C172_fit_points",
    "C172_fit_possible"
   ],
   "note": "REFUTED by the code: windows have size-1 values and even sizes raise IndexError. The break, number and kind of the fitted points hold for the windows used."
  },
  {
   "property": "C173",
   "status": "partial",
   "theorems": [
    "C173_value_partial",
    "C173_documented_refuted"
   ],
   "note": "REFUTED by the code: moduli are subtracted before squaring, and the mean includes the squared centroid. The computed value is proved."
  },
  {
   "property": "C174",
   "status": "partial",
   "theorems": [
    "C174_intensity_unit_partial",
    "C174_velocity_unit_partial",
    "C174_velocity_unit_refuted"
   ],
   "note": "REFUTED by the code for velocities: one term scales with v, the other with v^2. Proved for intensities."
  },
  {
   "property": "C175",
   "status": "proved",
   "theorems": [
    "C175_moved",
    "C175_symmetric"
   ],
   "note": ""
  },
  {
   "property": "C176",
   "status": "partial",
   "theorems": [
    "C176_apodized_partial",
    "C176_kernel_of_ones_partial",
    "C176_apodized_refuted"
   ],
   "note": "REFUTED by the code (operator precedence): the squared centroid in the mean dispersion is tapered, the squared linewidth is not."
  },
  {
   "property": "C177",
   "status": "partial",
   "theorems": [
    "C177_moment0_error_partial",
    "C177_constant_errors_refuted",
    "C177_zero_error_refuted"
   ],
   "note": "REFUTED by the code for velocity errors and zero errors; proved for constant moment 0 errors."
  },
  {
   "property": "C178",
   "status": "proved",
   "theorems": [
    "C178_image",
    "C178_cube",
    "C178_mvc",
    "C178_kernel_position",
    "C178_no_beam"
   ],
   "note": "The beam kernel (radio_beam) is any array of the shape of the image; convolution is cyclic."
  },
  {
   "property": "C179",
   "status": "proved",
   "theorems": [
    "C179_intensity_unit",
    "C179_superposition"
   ],
   "note": ""
  },
  {
   "property": "C180",
   "status": "proved",
   "theorems": [
    "C180_scale_normalization"
   ],
   "note": ""
  },
  {
   "property": "C181",
   "status": "partial",
   "theorems": [
    "C181_stddev_partial",
    "C181_small_image_refuted"
   ],
   "note": "REFUTED by the code for 2 x 2 pixel images; proved for sides of at least 3 pixels."
  },
  {
   "property": "C182",
   "status": "proved",
   "theorems": [
    "C182_transposed",
    "C182_mirrored"
   ],
   "note": ""
  },
  {
   "property": "C183",
   "status": "proved",
   "theorems": [
    "C183_moved"
   ],
   "note": ""
  },
  {
   "property": "C184",
   "status": "partial",
   "theorems": [
    "C184_default_scales_partial",
    "C184_single_row_refuted"
   ],
   "note": "REFUTED by the code for a single row or column; below 4 pixels the scales decrease."
  },
  {
   "property": "C185",
   "status": "proved",
   "theorems": [
    "C185_fit_limits"
   ],
   "note": ""
  },
  {
   "property": "C186",
   "status": "partial",
   "theorems": [
    "C186_points_below_partial",
    "C186_points_above_refuted"
   ],
   "note": "REFUTED by the code: only the points below the break are counted (the docstring promises both)."
  },
  {
   "property": "C187",
   "status": "partial",
   "theorems": [
    "C187_num_refuted"
   ],
   "note": "REFUTED by the code: num is never passed on."
  },
  {
   "property": "C188",
   "status": "proved",
   "theorems": [
    "C188_smoothing_width"
   ],
   "note": ""
  },
  {
   "property": "C189",
   "status": "partial",
   "theorems": [
    "C189_new_axis_partial",
    "C189_wide_channels_refuted"
   ],
   "note": "REFUTED by the code above half of the spectral range: one channel at the low end, or none. Proved otherwise."
  },
  {
   "property": "C190",
   "status": "partial",
   "theorems": [
    "C190_regrid_units_partial",
    "C190_downsample_units_refuted"
   ],
   "note": "REFUTED by the code for downsampling: the quotient of units is dropped. Proved for regridding."
  },
  {
   "property": "C191",
   "status": "partial",
   "theorems": [
    "C191_flag_refuted",
    "C191_rest_partial"
   ],
   "note": "REFUTED by the code: allow_huge_operations of the caller's cube is overwritten."
  },
  {
   "property": "C192",
   "status": "partial",
   "theorems": [
    "C192_flux_partial",
    "C192_flux_refuted"
   ],
   "note": "REFUTED when the factor does not divide the number of channels (the last block is averaged over fewer channels). downsample_axis of spectral-cube is modelled from its documentation."
  },
  {
   "property": "C193",
   "status": "proved",
   "theorems": [
    "C193_thick_slice"
   ],
   "note": ""
  },
  {
   "property": "C194",
   "status": "partial",
   "theorems": [
    "C194_refuted",
    "C194_values_partial",
    "C194_true_partial",
    "C194_shape_partial"
   ],
   "note": "REFUTED by the code: subtracting the mean of the transform removes the first channel of the eigenvector. Proved for the vector without its first channel."
  },
  {
   "property": "C195",
   "status": "partial",
   "theorems": [
    "C195_refuted",
    "C195_partial"
   ],
   "note": "REFUTED by the code for one component, which always raises ValueError. Proved from two components on (with the first channel dropped)."
  },
  {
   "property": "C196",
   "status": "partial",
   "theorems": [
    "C196_refuted",
    "C196_positive_partial"
   ],
   "note": "REFUTED by the code: UnboundLocalError for every negative number. Proved: positive numbers give the leading spectra."
  },
  {
   "property": "C197",
   "status": "proved",
   "theorems": [
    "C197_fit",
    "C197_method"
   ],
   "note": ""
  },
  {
   "property": "C198",
   "status": "partial",
   "theorems": [
    "C198_refuted",
    "C198_partial"
   ],
   "note": "REFUTED by the code: a refused call still changes the fit method and limits, so sonic_length raises AttributeError or mixes methods. Index, intercept and samples are proved to be those of the last successful call in every history."
  },
  {
   "property": "C199",
   "status": "proved",
   "theorems": [
    "C199_on_line",
    "C199_channels",
    "C199_temperature"
   ],
   "note": ""
  },
  {
   "property": "C200",
   "status": "partial",
   "theorems": [
    "C200_order_refuted",
    "C200_channels_refuted",
    "C200_partial"
   ],
   "note": "REFUTED by the code: bounds are swapped for a negative index, and the intercept error is divided by the intercept twice, which brings in the channel width. Proved: the range contains the value for a positive index."
  },
  {
   "property": "C201",
   "status": "partial",
   "theorems": [
    "C201_refuted",
    "C201_blind_refuted",
    "C201_same_slope_partial",
    "C201_ordered_partial"
   ],
   "note": "REFUTED by the code: the slopes of the samples are never used. Proved: right when all samples share the fitted slope; bounds in order."
  },
  {
   "property": "C202",
   "status": "partial",
   "theorems": [
    "C202_refuted",
    "C202_relation_refuted",
    "C202_partial",
    "C202_increasing_partial"
   ],
   "note": "REFUTED by the code for indices below -10/9, and the conversion is off by about 0.24 from the relations quoted. Proved: contained above -10/9."
  },
  {
   "property": "C203",
   "status": "proved",
   "theorems": [
    "C203_between",
    "C203_zero"
   ],
   "note": ""
  },
  {
   "property": "C204",
   "status": "partial",
   "theorems": [
    "C204_refuted"
   ],
   "note": "REFUTED by the code: the logarithm of a bound method is taken, TypeError for every x."
  },
  {
   "property": "C205",
   "status": "proved",
   "theorems": [
    "C205_images",
    "C205_noise",
    "C205_widths"
   ],
   "note": ""
  },
  {
   "property": "C206",
   "status": "partial",
   "theorems": [
    "C206_recovery_partial",
    "C206_refuted"
   ],
   "note": "REFUTED by the code: an ellipse with axes along the diagonals (equal coefficients of x^2 and y^2, non-zero xy) is returned with the wrong angle, because of the sign of the infinity in arctan(2b/(a-c)). Proved for all others, for points that determine the ellipse and an eigenvalue solver that returns a basis of eigenvectors."
  },
  {
   "property": "C207",
   "status": "proved",
   "theorems": [
    "C207_least_squares"
   ],
   "note": "np.linalg.eig is an oracle whose columns are eigenvectors."
  },
  {
   "property": "C208",
   "status": "proved",
   "theorems": [
    "C208_success",
    "C208_line"
   ],
   "note": "np.linalg.eig is an oracle that returns a basis of real eigenvectors."
  },
  {
   "property": "C209",
   "status": "proved",
   "theorems": [
    "C209_order",
    "C209_position",
    "C209_scale"
   ],
   "note": "Scaling: for a solver whose eigenvectors do not change when the matrix is multiplied by a positive number."
  },
  {
   "property": "C210",
   "status": "partial",
   "theorems": [
    "C210_refuted",
    "C210_sign_partial"
   ],
   "note": "REFUTED by the code: the order of the axes depends on the sign of the eigenvector, which no solver guarantees. Proved: rescaling the eigenvectors at most swaps the axes, so the combined width is unaffected."
  },
  {
   "property": "C211",
   "status": "proved",
   "theorems": [
    "C211_gaussian",
    "C211_none"
   ],
   "note": "Without beam correction. Contour finding and scipy's leastsq are oracles: the contour points lie on the contour and determine it; leastsq finds points that are on the ellipse."
  },
  {
   "property": "C212",
   "status": "partial",
   "theorems": [
    "C212_exact_partial",
    "C212_distance_partial",
    "C212_refuted"
   ],
   "note": "REFUTED by the code: the Dirichlet weights add up to 1, not their squares, so each displacement is shorter than the residual (by up to a factor 1/sqrt 2) unless a weight is 0. Proved: the bounds, and zero errors for points on an ellipse."
  },
  {
   "property": "C213",
   "status": "partial",
   "theorems": [
    "C213_raises_partial",
    "C213_refuted"
   ],
   "note": "REFUTED by the code: fit_2D_ellipse catches the ValueError and all widths become NaN. Proved: estimate_stderrs raises."
  },
  {
   "property": "C214",
   "status": "partial",
   "theorems": [
    "C214_refuted",
    "C214_swapped_partial",
    "C214_single_partial"
   ],
   "note": "REFUTED by the code: two or more eigenimages are stacked along the last axis and the first and last axes are swapped, so each image is transposed (a single image is not). Holds up to that swap."
  },
  {
   "property": "C215",
   "status": "proved",
   "theorems": [
    "C215_variance",
    "C215_zero_mean"
   ],
   "note": ""
  },
  {
   "property": "C216",
   "status": "proved",
   "theorems": [
    "C216_reconstruction",
    "C216_total"
   ],
   "note": ""
  },
  {
   "property": "C217",
   "status": "partial",
   "theorems": [
    "C217_others_partial",
    "C217_pspec_partial",
    "C217_refuted"
   ],
   "note": "REFUTED by the code: PowerSpectrum sets the blank pixels of the caller's weights array to zero in place (pspec.py:56), also when it then raises IndexError because the weights have another shape. Proved: no other array is written by PowerSpectrum, the weights are unchanged if they have no blanks, and the other thirteen statistics change nothing."
  },
  {
   "property": "C218",
   "status": "partial",
   "theorems": [
    "C218_blanks",
    "C218_mvc_partial",
    "C218_mvc_refuted",
    "C218_pdf",
    "C218_pdf_weighted"
   ],
   "note": "REFUTED by the code for MVC: only pixels blank in all three maps are zeroed, so a pixel blank in the centroid alone stays NaN and the whole spectrum becomes NaN (mvc.py:83-94). Proved for all other statistics, and the exact rule of MVC."
  },
  {
   "property": "C219",
   "status": "proved",
   "theorems": [
    "C219_weighted",
    "C219_unweighted"
   ],
   "note": ""
  },
  {
   "property": "C220",
   "status": "proved",
   "theorems": [
    "C220_header",
    "C220_accepts"
   ],
   "note": ""
  },
  {
   "property": "C221",
   "status": "partial",
   "theorems": [
    "C221_header_partial",
    "C221_refuted"
   ],
   "note": "REFUTED by the code: a Projection or Slice is an ndarray, so Genus takes it without its header (genus.py:80-83); smoothing radii in angular units are then refused. Holds for HDUs, cubes and (data, header) pairs."
  },
  {
   "property": "C222",
   "status": "proved",
   "theorems": [
    "C222_beam",
    "C222_wrong_type"
   ],
   "note": ""
  },
  {
   "property": "C223",
   "status": "partial",
   "theorems": [
    "C223_uniform_partial",
    "C223_skewed_refuted",
    "C223_one_sided_refuted"
   ],
   "note": "REFUTED by the code: the lag axis is the pixel distance in the surface times the spacing of the first two lags. For lags -4, -1, 0, 1, 4 the four points at lag 1 are reported at a lag above 2 (skewed_refuted), and for lags 0, 1, 2 the zero lag is averaged in at a lag above 1 (one_sided_refuted). Proved for lags in equal steps around zero, any step, number of lags, number of bins and azimuthal limits (uniform_partial). Missing: min_bin and max_bin given."
  },
  {
   "property": "C224",
   "status": "partial",
   "theorems": [
    "C224_run_again_partial",
    "C224_stale_mask_refuted",
    "C224_theta_none_refuted"
   ],
   "note": "REFUTED by the code: the azimuthal mask of an earlier spectrum stays and is used by the 2D fit when use_azimmask is set and no theta_0 is given (stale_mask_refuted); theta_0=None written out raises ValueError, as compute_spectrum unpacks four values of three (theta_none_refuted). Proved: in all other cases the surface, spectrum, fit, 2D fit and exception are the same whatever the object held (run_again_partial)."
  },
  {
   "property": "C225",
   "status": "proved",
   "theorems": [
    "C225_recovers",
    "C225_nothing_left",
    "C225_wrong_type"
   ],
   "note": "The weighted least-squares solver is universally quantified over those that return a best line for positive weights; solver_exists shows one."
  },
  {
   "property": "C226",
   "status": "partial",
   "theorems": [
    "C226_rule_partial",
    "C226_limits_refuted",
    "C226_run"
   ],
   "note": "REFUTED by the code: the distances are multiplied by the spacing of the lags of the 1D spectrum, i.e. the bin width, instead of the spacing of the lags. With five lags and limits 0.9 to 2 the lag 1 is left out and the lag sqrt 8 used (limits_refuted). Proved: the exact rule for an odd number of evenly spaced lags and default bins; the factor lies strictly between 0 and 1 (rule_partial). Missing: an even number of lags."
  },
  {
   "property": "C227",
   "status": "partial",
   "theorems": [
    "C227_scf_partial",
    "C227_scf_fit_partial",
    "C227_pspec_partial",
    "C227_rectangle_refuted",
    "C227_even_refuted"
   ],
   "note": "REFUTED by the code for maps that are not square (the mask uses pixels, the fit frequencies) and for even sizes (one row apart). Proved for odd square maps, for the power spectra and the SCF."
  },
  {
   "property": "C228",
   "status": "proved",
   "theorems": [
    "C228_unbinned",
    "C228_fit_2D"
   ],
   "note": "image without beam correction or apodization (the arrays of the beam division are C58's); NaN in the image are zeros by C218"
  },
  {
   "property": "C229",
   "status": "proved",
   "theorems": [
    "C229_unbinned",
    "C229_binned"
   ],
   "note": "fits without a break; a fit with a break is C47-C50, C91-C97"
  },
  {
   "property": "C230",
   "status": "proved",
   "theorems": [
    "C230_unbinned",
    "C230_binned"
   ],
   "note": "fits without a break; the 2D fit of the scaled image depends on the solver and is not covered"
  },
  {
   "property": "C231",
   "status": "proved",
   "theorems": [
    "C231_background",
    "C231_displaced"
   ],
   "note": ""
  },
  {
   "property": "C232",
   "status": "partial",
   "theorems": [
    "C232_run_again_partial",
    "C232_stale_mask_refuted",
    "C232_theta_none_refuted"
   ],
   "note": "REFUTED by the code: compute_radial_pspec keeps the azimuthal mask of an earlier call, which fit_2Dpspec with use_azimmask=True then applies to a spectrum without azimuthal limits; theta_0=None written out raises ValueError because three values are unpacked into four. What holds: all other results of a run are independent of the history of the object (the error of the break after a rejected break is C98)."
  },
  {
   "property": "C233",
   "status": "proved",
   "theorems": [
    "C233_step"
   ],
   "note": ""
  },
  {
   "property": "C234",
   "status": "proved",
   "theorems": [
    "C234_kept"
   ],
   "note": ""
  },
  {
   "property": "C235",
   "status": "proved",
   "theorems": [
    "C235_power"
   ],
   "note": ""
  },
  {
   "property": "C236",
   "status": "partial",
   "theorems": [
    "C236_fit",
    "C236_spectrum",
    "C236_radial",
    "C236_2D",
    "C236_accepted",
    "C236_misspelt",
    "C236_unbinned_refuted",
    "C236_mvc_unbinned_refuted",
    "C236_2D_limits_refuted",
    "C236_threads_refuted"
   ],
   "note": "REFUTED by the code for three options: fit_unbinned inside fit_kwargs is deleted from the caller's dictionary and ignored (PowerSpectrum, VCA) or raises TypeError (MVC); limits inside fit_2D_kwargs raise TypeError; threads never reaches pyfftw. All other options reach their step."
  },
  {
   "property": "C237",
   "status": "partial",
   "theorems": [
    "C237_mvc",
    "C237_mvc_accepts",
    "C237_vca_partial",
    "C237_vca_accepts",
    "C237_pspec_partial",
    "C237_scalar_break_refuted",
    "C237_pspec_radial_refuted",
    "C237_vca_second_refuted"
   ],
   "note": "REFUTED by the code: a break given as one Quantity raises TypeError in all constructors; PSpec_Distance passes pspec_kwargs to run itself, so radial options in it raise TypeError; VCA_Distance uses the first dictionary for both cubes. Proved otherwise."
  },
  {
   "property": "C238",
   "status": "partial",
   "theorems": [
    "C238_precomputed",
    "C238_width_refuted"
   ],
   "note": "REFUTED by the code for the channel width, which is not compared."
  },
  {
   "property": "C239",
   "status": "partial",
   "theorems": [
    "C239_run",
    "C239_transform",
    "C239_distance",
    "C239_breaks_twice_refuted",
    "C239_misspelt_refuted"
   ],
   "note": "REFUTED by the code: breaks inside fit_kwargs of VCS_Distance raises TypeError, since breaks is always given too; misspelt options are accepted and ignored. All fit options reach the fit."
  },
  {
   "property": "C240",
   "status": "partial",
   "theorems": [
    "C240_points",
    "C240_all_points",
    "C240_order",
    "C240_highest_refuted",
    "C240_start"
   ],
   "note": "REFUTED by the code for the highest frequency, index n // 2, which is never fitted. All others within the limits are, and no more. The spline itself is not modelled."
  },
  {
   "property": "C241",
   "status": "partial",
   "theorems": [
    "C241_defined",
    "C241_symmetric",
    "C241_same",
    "C241_nonnegative",
    "C241_pixel_order",
    "C241_channel_order_partial",
    "C241_smaller_order_partial",
    "C241_channel_order_refuted",
    "C241_brightness_unit"
   ],
   "note": "REFUTED by the code: with different numbers of pixels the rows of the larger cube are drawn one after the other by one stream of random numbers, so the order of its channels changes the distance (C241_channel_order_refuted). Proved: channel order for equal numbers of pixels and for the cube with fewer pixels, and all the rest of the claim. The norm and the draws are abstract."
  },
  {
   "property": "C242",
   "status": "partial",
   "theorems": [
    "C242_ranges_refuted",
    "C242_brighter_copy_refuted"
   ],
   "note": "REFUTED by the code: _format_data never passes normalize to intensity_data, which always divides by the maximum of the cube, so a cube and a brighter copy are at distance 0 (C242_brighter_copy_refuted)."
  },
  {
   "property": "C243",
   "status": "partial",
   "theorems": [
    "C243_sampling",
    "C243_reproducible",
    "C243_random_state_refuted"
   ],
   "note": "REFUTED by the code for the random state: np.random.seed(13024) replaces the global random state of the caller whenever the sizes differ (C243_random_state_refuted). Sampling and reproducibility are proved."
  },
  {
   "property": "C244",
   "status": "proved",
   "theorems": [
    "C244_defined",
    "C244_symmetric",
    "C244_same",
    "C244_pixel_order"
   ],
   "note": "Definedness is stated without normalisation, weights and fit; the other laws for all options. The lognormal fit is an abstract function of the data."
  },
  {
   "property": "C245",
   "status": "partial",
   "theorems": [
    "C245_common_units",
    "C245_own_units",
    "C245_standardized_refuted"
   ],
   "note": "REFUTED by the code for the standardisation announced in distance_metric: with the default normalization_type=None nothing is standardised and a much brighter copy of an image is at KS distance 1 (C245_standardized_refuted). Independence of units is proved."
  },
  {
   "property": "C246",
   "status": "partial",
   "theorems": [
    "C246_choices",
    "C246_unknown",
    "C246_built_refuted"
   ],
   "note": "REFUTED by the code for strings built at run time: the names are compared with 'is', so an equal string that is another object raises TypeError (C246_built_refuted). Proved for the interned literals."
  },
  {
   "property": "C247",
   "status": "partial",
   "theorems": [
    "C247_bins_refuted"
   ],
   "note": "REFUTED by the code: nbins is the number of edges, so the PDFs have k - 1 bins (C247_bins_refuted)."
  },
  {
   "property": "C248",
   "status": "partial",
   "theorems": [
    "C248_same_number_partial",
    "C248_fewer_refuted",
    "C248_more_refuted"
   ],
   "note": "REFUTED by the code: the size of the surface is fixed when the object is made. With fewer lags the new surface keeps the old size and is zero where there is no lag; with more lags compute_surface raises IndexError. Proved for as many lags as before."
  },
  {
   "property": "C249",
   "status": "partial",
   "theorems": [
    "C249_documented_partial",
    "C249_boundary_refuted",
    "C249_array_refuted",
    "C249_format_refuted"
   ],
   "note": "REFUTED by the code: the names are compared with 'is'. A run-time string equal to 'cut' or 'continuous' passes the first test and then raises UnboundLocalError, so does an element of an array given to SCF_Distance; a run-time data_format raises NameError. Proved for literals and for unknown names."
  },
  {
   "property": "C250",
   "status": "proved",
   "theorems": [
    "C250_common_angles",
    "C250_defined",
    "C250_symmetric",
    "C250_calibration",
    "C250_same_cube",
    "C250_even_size"
   ],
   "note": ""
  },
  {
   "property": "C251",
   "status": "partial",
   "theorems": [
    "C251_reused_partial",
    "C251_as_cubes_partial",
    "C251_unrun_refuted",
    "C251_object_first_refuted",
    "C251_other_grid_partial",
    "C251_other_grid_refuted",
    "C251_stale_fit_refuted"
   ],
   "note": "REFUTED by the code: objects on one grid that have not been run fail with ValueError unless they have as many lags as the size argument; an object first and a cube second on one grid raises AttributeError; objects on different grids with another number of lags than the size argument are compared at different angles; a recomputed object keeps its old fits. Proved: objects that have been run on one grid give the distance of their cubes; with the asked number of lags different grids end with common angles. The same object given twice is not modelled."
  },
  {
   "property": "C252",
   "status": "partial",
   "theorems": [
    "C252_one_decomposition_partial",
    "C252_computed",
    "C252_covariance_refuted",
    "C252_proportion_refuted"
   ],
   "note": "REFUTED by the code: compute_pca stores cov_matrix before it checks n_eigs, so a refused call (e.g. n_eigs=0) leaves the covariance matrix of the refused call beside the eigenvalues of the old one (C252_covariance_refuted); the setter of n_eigs, which PCA_Distance uses, leaves var_proportion at the old number of components (C252_proportion_refuted). Proved for every history: eigenvalues, eigenvectors, mean subtraction and total variance are of one decomposition, n_eigs >= 1 and the proportion is that of some number of components up to the number of channels (C252_one_decomposition_partial); every successful compute_pca leaves a consistent set and every refused one keeps it (C252_computed)."
  },
  {
   "property": "C253",
   "status": "partial",
   "theorems": [
    "C253_fresh",
    "C253_widths",
    "C253_single_refuted",
    "C253_stale_refuted"
   ],
   "note": "REFUTED by the code: a full run with one component always raises (eigimages returns a 2D array then), after the decomposition and with the widths and fit of an earlier run left (C253_single_refuted); run(decomp_only=True) replaces the decomposition and leaves the widths and the index of the earlier one (C253_stale_refuted). Proved: run's outcome and results do not depend on the history (C253_fresh); a successful full run has at least two components, as many widths as components, and the fit of exactly these widths (C253_widths)."
  },
  {
   "property": "C254",
   "status": "proved",
   "theorems": [
    "C254_refused",
    "C254_unused",
    "C254_header"
   ],
   "note": "The width estimates that use the beam are oracles here; C21-C28 and C203 are about them."
  },
  {
   "property": "C255",
   "status": "partial",
   "theorems": [
    "C255_matching_partial",
    "C255_mean_sub_refuted",
    "C255_changed_refuted"
   ],
   "note": "REFUTED by the code: for objects whose eigenvalues were computed with another mean subtraction, mean_sub only chooses which eigenvalues are compared, so two cubes at distance sqrt(1/2) have objects at distance 0 (C255_mean_sub_refuted); n_eigs of the object is set before the check and stays when the call is refused, after which its widths cannot be found (C255_changed_refuted). Proved for objects decomposed with the same mean subtraction and fewer components than channels (C255_matching_partial)."
  },
  {
   "property": "C256",
   "status": "partial",
   "theorems": [
    "C256_run",
    "C256_curve_partial",
    "C256_lags_refuted",
    "C256_number_refuted",
    "C256_boundary_refuted",
    "C256_range_refuted",
    "C256_limits"
   ],
   "note": "REFUTED by the code: setting lags keeps the curve of the old lags, and a fit pairs it with the new ones (C256_lags_refuted) or, for another number of lags, is refused after its range was recorded (C256_number_refuted); an unknown boundary is refused after the curve was replaced by uninitialised memory (C256_boundary_refuted); a break outside the limits is refused after the new fit_range was recorded beside the old slope (C256_range_refuted). Proved: a run does not depend on the history (C256_run); as long as lags are not set again and boundaries are known, the curve is that of the lags (C256_curve_partial). brk_err is the exception in C256_run when there is no break (C98)."
  },
  {
   "property": "C257",
   "status": "partial",
   "theorems": [
    "C257_arrays_refuted",
    "C257_kept_partial"
   ],
   "note": "REFUTED by the code: both properties read an attribute that no method sets, so they raise AttributeError after every history (C257_arrays_refuted). The private list has one array per lag after one call, but a second call appends to it (C257_kept_partial)."
  },
  {
   "property": "C258",
   "status": "partial",
   "theorems": [
    "C258_pixels",
    "C258_default",
    "C258_angles_refuted",
    "C258_list_refuted",
    "C258_limits_partial",
    "C258_limits_refuted"
   ],
   "note": "REFUTED by the code: lags given as angles are multiplied by the ratio of the pixel sizes too, so the map with the smaller pixels is used at larger angles (C258_angles_refuted); a list of lags raises TypeError if the second map has the smaller pixels and is accepted if the first has (C258_list_refuted); limits in pixels select different angles of the two maps, so two maps with the same curve have a positive distance or ValueError (C258_limits_refuted). Proved for lags in pixels and the default lags (C258_pixels, C258_default); which values are compared, for positive curves (C258_limits_partial). With default limits on different grids the curve distance is blank (C87)."
  },
  {
   "property": "C259",
   "status": "partial",
   "theorems": [
    "C259_reach_partial",
    "C259_accepted_partial",
    "C259_break_partial",
    "C259_misspelt_partial",
    "C259_swallowed_refuted",
    "C259_fit_option_refuted",
    "C259_cov_type_refuted",
    "C259_quiet_refuted",
    "C259_delta_quiet_partial",
    "C259_convolve_refuted",
    "C259_threads_refuted"
   ],
   "note": "REFUTED by the code: Wavelet.run takes any name and does nothing with it (C259_swallowed_refuted); fit_kwargs of both takes any name, and no fit uses it when there is no break (C259_fit_option_refuted); with a break the covariance type is HC3 whatever fit_kwargs says (C259_cov_type_refuted); the segmented fit of Wavelet is verbose although verbose=False (C259_quiet_refuted); options of convolve_fft that Wavelet sets itself raise TypeError in convolve_kwargs (C259_convolve_refuted); threads and pyfftw_kwargs change nothing in the convolutions (C259_threads_refuted). Proved: all other options reach transform and fit (C259_reach_partial), documented calls are accepted and change no dictionary (C259_accepted_partial), the segmented fit is made exactly when a break is given, with its options (C259_break_partial), DeltaVariance.run refuses unknown names (C259_misspelt_partial). Errors that depend on the data are in C256-C258."
  },
  {
   "property": "C260",
   "status": "partial",
   "theorems": [
    "C260_delta_partial",
    "C260_delta_accepted_partial",
    "C260_second_refuted",
    "C260_mixed_refuted",
    "C260_own_lags_refuted",
    "C260_wavelet_partial",
    "C260_wavelet_accepted_partial",
    "C260_wavelet_limits_partial"
   ],
   "note": "REFUTED by the code: a second object that has the common lags but no fit is run with delvar_kwargs instead of delvar2_kwargs (C260_second_refuted); an object and data cannot be mixed (C260_mixed_refuted); use_common_lags=False always raises UnboundLocalError (C260_own_lags_refuted). Proved otherwise, for both distances (C260_delta_partial, C260_wavelet_partial), with documented options accepted; limits given twice raise TypeError (C260_wavelet_limits_partial)."
  },
  {
   "property": "C261",
   "status": "partial",
   "theorems": [
    "C261_odr",
    "C261_bayes",
    "C261_decreasing_refuted"
   ],
   "note": "REFUTED by the code: the sampler of bayes_linear has no probability outside angles of 0 to 90 degrees, so index and its range are never negative (C261_decreasing_refuted). The ranges themselves are proved (C261_odr, C261_bayes); what scipy.odr and emcee find is not modelled."
  },
  {
   "property": "C262",
   "status": "partial",
   "theorems": [
    "C262_delta_default",
    "C262_moments_default",
    "C262_given",
    "C262_size_partial",
    "C262_moments_size_refuted"
   ],
   "note": "REFUTED by the code: StatMoments takes weights of another size (C262_moments_size_refuted), which fail only when moments are computed. Proved otherwise. The size of an array stands for its shape."
  },
  {
   "property": "C263",
   "status": "partial",
   "theorems": [
    "C263_size",
    "C263_odd_partial",
    "C263_even_refuted",
    "C263_list_refuted"
   ],
   "note": "REFUTED by the code: of an even number of lags the last one is dropped, and the Warning is only constructed, never issued (scf.py:73-76; the same for an even size, as documented), so lags symmetric about zero become asymmetric; a list of lags raises AttributeError (roll_lags.size) before the TypeError meant for it is reached. Proved: the lags by size, and odd numbers of lags as arrays, Quantities and angles."
  },
  {
   "property": "C264",
   "status": "partial",
   "theorems": [
    "C264_whole",
    "C264_name_partial",
    "C264_left_refuted"
   ],
   "note": "REFUTED by the code: compute_surface assigns an array of zeros to the object before the loop (scf.py:168); when the loop raises (lags beyond the image with boundary='cut', or more lags than size) the surface stays behind and compute_spectrum takes it for computed. Proved: the loop as a whole equals the surface at all lags, it raises exactly when that is not defined, and a wrong boundary name leaves the object alone."
  },
  {
   "property": "C265",
   "status": "partial",
   "theorems": [
    "C265_run_again",
    "C265_counts",
    "C265_failed_refuted",
    "C265_thresholds_refuted",
    "C265_hists_refuted"
   ],
   "note": "REFUTED by the code: a run that raises in fit_numfeat (too few points) leaves the tail slope and fitted points of the run before beside its own numbers of features, and the distance goes on using them; thresholds set after compute_dendro are paired with the old numbers if there are as many (IndexError else); make_hists=False keeps old histograms. Proved: runs that raise nothing are independent of the history."
  },
  {
   "property": "C266",
   "status": "proved",
   "theorems": [
    "C266_units",
    "C266_power_law"
   ],
   "note": "Proved for positive, distinct thresholds and any least-squares solver (no overdetermination assumed beyond the two points the code asks for); the error of the slope is not constrained."
  },
  {
   "property": "C267",
   "status": "partial",
   "theorems": [
    "C267_binned_partial",
    "C267_unbinned_partial",
    "C267_break_refuted",
    "C267_log_break"
   ],
   "note": "REFUTED by the code: Lm_Seg moves the break by twice the step (h_step is 2), which on an exact broken line mirrors it at the true break at every turn, so the fit returns the start or its mirror image B*B/B0 and never B itself (C267_break_refuted). Proved: the two slopes and the amplitude are right for binned (weighted or not) and unbinned fits when start and mirror image lie in the gap of the break, with statsmodels as any least squares solver (one is built and proved), and breaks given as log10 mean the same. Missing: starts in another gap."
  },
  {
   "property": "C268",
   "status": "partial",
   "theorems": [
    "C268_slopes_partial",
    "C268_break_refuted"
   ],
   "note": "REFUTED by the code: as C267, the break returned is the start or its mirror image (C268_break_refuted). Proved: the slopes of a run without limits when the start and its mirror image lie in the gap of the break and three lags lie below. Missing: xlow and xhigh, starts in another gap."
  },
  {
   "property": "C269",
   "status": "partial",
   "theorems": [
    "C269_surfaces_partial",
    "C269_history_partial",
    "C269_failed_refuted"
   ],
   "note": "REFUTED by the code: the bicoherence is set to zeros before the sampling loop, so a run that raises IndexError (rectangular images, C61) leaves a bicoherence of zeros beside the log amplitudes of the run before (C269_failed_refuted). Proved: a run that succeeds gives the sums over its own draws and forgets every earlier run. numpy's generator is an arbitrary function of seed, nsamples and the number of the cell."
  },
  {
   "property": "C270",
   "status": "partial",
   "theorems": [
    "C270_objects_partial",
    "C270_value_partial",
    "C270_failed_refuted"
   ],
   "note": "REFUTED by the code: an object whose run raised has a _bicoherence of zeros and is used without a word (C270_failed_refuted). Proved: the distances are the norm and the difference of means for finite surfaces, data and objects run with the same options give the same."
  },
  {
   "property": "C271",
   "status": "partial",
   "theorems": [
    "C271_radii_partial",
    "C271_angles_partial",
    "C271_one_width",
    "C271_refused",
    "C271_surface",
    "C271_list_refuted",
    "C271_first_refuted",
    "C271_twice_refuted",
    "C271_plain_refuted"
   ],
   "note": "REFUTED by the code: a list with one width for each radius is turned into a 2D array and refused (or taken as one width per column); the widths of a single radius are dropped after the first; a radius asked for twice keeps the later slice only; angles without a unit raise AttributeError instead of TypeError. Proved: slices of several radii or angles are those of each alone, in any angular unit, and wrong lengths and units are refused. Missing: slices of the complex bispectrum, return_masks."
  },
  {
   "property": "C272",
   "status": "partial",
   "theorems": [
    "C272_curves_partial",
    "C272_history_partial",
    "C272_images_refuted",
    "C272_radii_refuted",
    "C272_failed_refuted",
    "C272_accepted",
    "C272_kept",
    "C272_thresholds"
   ],
   "note": "REFUTED by the code: smoothed_images of an earlier run stay when a later run keeps none, the curves stay when new radii are set (C272_images_refuted, C272_radii_refuted), and a run that raises leaves uninitialised memory as genus_stats and means (C272_failed_refuted). Proved: results after every run that returns (C272_curves_partial) and independence of the history (C272_history_partial)."
  },
  {
   "property": "C273",
   "status": "partial",
   "theorems": [
    "C273_brightness_partial",
    "C273_self_partial",
    "C273_options_partial",
    "C273_short_list",
    "C273_flat",
    "C273_header_refuted",
    "C273_list_refuted",
    "C273_radii_refuted",
    "C273_value_partial"
   ],
   "note": "REFUTED by the code: the two Genus objects get no header, so angular radii, beams and areas always raise (C273_header_refuted); a list of radii, the documented type, is refused (C273_list_refuted); only the first radius counts (C273_radii_refuted). numpts is C119. Proved: the other sentences. Images without units; the spline and the convolution are arguments."
  },
  {
   "property": "C274",
   "status": "partial",
   "theorems": [
    "C274_maps",
    "C274_histograms",
    "C274_run_partial",
    "C274_refused",
    "C274_failed_refuted",
    "C274_stale_refuted"
   ],
   "note": "REFUTED by the code: compute_spatial_distrib allocates the maps with np.empty before it looks at the radius, so a refused radius leaves arbitrary memory as maps (C274_failed_refuted); new maps leave the histograms of the old ones in place (C274_stale_refuted); run does not hand its min_frac on (C274_run_partial, see C125). What holds is proved for all histories."
  },
  {
   "property": "C275",
   "status": "partial",
   "theorems": [
    "C275_brightness",
    "C275_moved",
    "C275_range",
    "C275_self",
    "C275_order_partial",
    "C275_order_refuted",
    "C275_zero_refuted",
    "C275_objects_partial",
    "C275_options_refuted"
   ],
   "note": "REFUTED by the code: an image without a valid region is at distance 0 from any image, and NaN in the other order (C275_order_refuted, C275_zero_refuted); an object whose maps were made with other boundaries, another share or a radius less than a pixel off is used as it is (C275_options_refuted). The bound of the Hellinger distance is the square root of the bin width, not one, because its bin width factor stands outside the root. Infinite moments do not occur: the hypotheses ask for pixels that are numbers or blank and for positive weights."
  },
  {
   "property": "C276",
   "status": "partial",
   "theorems": [
    "C276_run",
    "C276_values_partial",
    "C276_scales_refuted",
    "C276_number_refuted",
    "C276_range_refuted",
    "C276_single_refuted"
   ],
   "note": "REFUTED by the code: new scales leave the values of the old ones, and a fit then gives a slope of neither (C276_scales_refuted) or raises IndexError (C276_number_refuted); a refused break leaves the new range beside the old fit (C276_range_refuted); limits that leave a single scale raise after the break was set to None, beside the old slopes (C276_single_refuted). What a run gives is proved for all histories."
  },
  {
   "property": "C277",
   "status": "partial",
   "theorems": [
    "C277_power_law",
    "C277_brightness",
    "C277_normalization",
    "C277_orientation",
    "C277_distance",
    "C277_broken_partial",
    "C277_break_refuted"
   ],
   "note": "REFUTED by the code: the break of an exact broken power law is not found, a fit started beside it returns the start or its mirror image (C277_break_refuted, as in C267 and C268); its two slopes are found (C277_broken_partial, whose case is an object with given values). Everything else is proved for fits without a break. A distance of an image to itself is 0/0 = NaN when the errors of both slopes are zero."
  },
  {
   "property": "C278",
   "status": "partial",
   "theorems": [
    "C278_fit",
    "C278_history",
    "C278_failed_partial",
    "C278_failed_refuted",
    "C278_unlogged_refuted"
   ],
   "note": "REFUTED by the code: a fit that raises after the search over the breaks of the spline (none of two or more breaks good) has already replaced the fit and the limits, so brk, low_cut and high_cut are of another fit than slope (C278_failed_refuted; slopes and spectrum are kept: C278_failed_partial); with log_break=False and no breaks the breaks of the spline, which are logarithms already and negative, are logged once more, so every fit raises (C278_unlogged_refuted). Proved in full: what a fit that returns shows, after any history (C278_fit), and that a run forgets the history (C278_history). The spline (its knots), statsmodels and the bootstrap are arbitrary functions."
  },
  {
   "property": "C279",
   "status": "partial",
   "theorems": [
    "C279_broken_partial",
    "C279_break_refuted",
    "C279_plain_partial",
    "C279_search_refuted"
   ],
   "note": "REFUTED by the code: the break of an exact broken power law is not found, the search ends at the start or at its mirror image (C279_break_refuted), and a plain power law is refused with ValueError when the spline has two breaks or more, although the code says it continues without a break (C279_search_refuted). Proved: the slopes of the broken law, and the slope of the plain one with a given break (in exact arithmetic, where the step of the break is 0/0 and the break is dropped)."
  },
  {
   "property": "C280",
   "status": "partial",
   "theorems": [
    "C280_robust_refuted"
   ],
   "note": "REFUTED by the code: fit_kwargs reach only the first straight fit of Lm_Seg.fit_model, of which only the residuals are used; the fits that give the errors are made by fit(), so the errors are the nonrobust ones whatever is asked."
  },
  {
   "property": "C281",
   "status": "partial",
   "theorems": [
    "C281_run",
    "C281_history",
    "C281_lags",
    "C281_tables_partial",
    "C281_stale_refuted",
    "C281_memory_refuted",
    "C281_fewer",
    "C281_failed_refuted"
   ],
   "note": "REFUTED by the code: new lags do not clear the parameters, so the table shows the old fits beside the new lags (C281_stale_refuted); fit_tsallis after more lags were assigned returns with rows of uninitialised memory (C281_memory_refuted); a fit that raises at the first lag leaves a table of uninitialised memory in place of the earlier one (C281_failed_refuted). Proved: what a run leaves after any history (C281_run, C281_history, C281_lags, C281_fewer), and that without new lags and without exceptions every table belongs to the lags (C281_tables_partial)."
  },
  {
   "property": "C282",
   "status": "partial",
   "theorems": [
    "C282_percentile",
    "C282_run",
    "C282_history",
    "C282_ecdf_refuted",
    "C282_refused_refuted"
   ],
   "note": "REFUTED by the code: make_pdf with new bins leaves the ECDF at the old bins (C282_ecdf_refuted), and refused bins are stored all the same, so that the bins no longer belong to the PDF and later calls without bins raise (C282_refused_refuted). Proved: percentiles after any history (C282_percentile), runs leave PDF, bins and ECDF that belong together (C282_run), and with given bins the past does not matter (C282_history)."
  },
  {
   "property": "C283",
   "status": "partial",
   "theorems": [
    "C283_fit",
    "C283_curve",
    "C283_both_refuted",
    "C283_failed_refuted",
    "C283_ecdf_refuted",
    "C283_chain_refuted"
   ],
   "note": "REFUTED by the code: with loc and scale both fixed the fit raises UnboundLocalError (C283_both_refuted); a fit that raises has already replaced what is fixed, so the curve of the earlier fit is drawn with a shape as its location (C283_failed_refuted); over the ECDF of data that were not normalised the curve is drawn with loc=0 whatever was fitted (C283_ecdf_refuted); a chain stays after a later maximum likelihood fit and is what corner and trace plots show (C283_chain_refuted). Proved: what a fit that returns leaves (C283_fit) and that the curve over the PDF is the fitted model (C283_curve)."
  },
  {
   "property": "C284",
   "status": "proved",
   "theorems": [
    "C284_binned",
    "C284_unbinned",
    "C284_delta_variance",
    "C284_wavelet"
   ],
   "note": ""
  },
  {
   "property": "C285",
   "status": "partial",
   "theorems": [
    "C285_fresh",
    "C285_maps",
    "C285_errors",
    "C285_mask_refuted",
    "C285_values_refuted",
    "C285_sky_axis_refuted",
    "C285_raised_partial"
   ],
   "note": "Proved: history independence, and which cube, level, axis and maps each shown value comes from. REFUTED by the code: a mask applied between make_moments and make_moment_errors leaves unmasked maps beside masked errors and the masked cube; along a spatial axis make_moment_errors always raises UnitConversionError and leaves a new zeroth moment error beside old others; the line width is always that of the spectral axis. moment_masking (which reads an undefined name) is not modelled."
  },
  {
   "property": "C286",
   "status": "partial",
   "theorems": [
    "C286_agree_partial",
    "C286_minimum_partial",
    "C286_no_minimum_refuted",
    "C286_walk_down",
    "C286_never_reached",
    "C286_largest_lag_refuted",
    "C286_odd_refuted",
    "C286_fit_partial",
    "C286_fit_level"
   ],
   "note": "Proved for walk-down (all), for interpolate when the curve passes 1/e before the largest lag of an even number of channels, and for the fit of a sampled Gaussian with an even number of channels. REFUTED by the code: with an odd number of channels interpolate and fit raise IndexError (no strict minimum); in the step to the largest lag interpolate takes that lag as negative and returns a width that is too small or negative. The fitter is any that returns best fits."
  },
  {
   "property": "C287",
   "status": "partial",
   "theorems": [
    "C287_gaussian_partial",
    "C287_constant_refuted",
    "C287_no_covariance",
    "C287_brightness"
   ],
   "note": "REFUTED by the code: fit_2D_gaussian holds the amplitude at the maximum of the image, so for a Gaussian on a positive constant no parameters reproduce the image. Proved: without a constant a best fit has the right width, for any angle; a fit without covariance matrix keeps its width and loses its error; brightness does not matter for interpolate and contour."
  },
  {
   "property": "C288",
   "status": "partial",
   "theorems": [
    "C288_small_refuted",
    "C288_ties_refuted",
    "C288_circular_refuted",
    "C288_same_partial",
    "C288_ellipse_refuted"
   ],
   "note": "REFUTED by the code: the knots are every dz-th of the sorted values with dz = number of pixels // 100, so images of less than 200 pixels are refused, and so are images with enough equal values, among them every circular Gaussian in a square of less than 30 pixels; the elliptical radius multiplies by the aspect ratio where it should divide. Rests on FITPACK's conditions on knots (at most as many coefficients as points, increasing interior knots), stated in Spec/WidthImages.v. Proved: for circular Gaussians both methods agree."
  },
  {
   "property": "C289",
   "status": "partial",
   "theorems": [
    "C289_exact_law",
    "C289_size_unit",
    "C289_width_unit",
    "C289_error_unit",
    "C289_exchanged",
    "C289_interpolate_refuted",
    "C289_interpolated_sizes_refuted"
   ],
   "note": "REFUTED by the code: spectral widths measured with method='interpolate' and sizes measured with 'interpolate' or 'xinterpolate' have errors 0, so all weights of that axis are infinite (or blank) and no line has a finite misfit (C289_interpolate_refuted, C289_interpolated_sizes_refuted). Proved for positive errors: the exact law, units, a common factor of the errors, exchanged axes. scipy's regression is abstract: it finds a best line when some line passes through all points (finds_exact, with a witness); best lines are the minima of the weighted sum of squares over lines and displacements."
  },
  {
   "property": "C290",
   "status": "partial",
   "theorems": [
    "C290_same_misfit",
    "C290_common_error_partial",
    "C290_exact_refuted",
    "C290_falling_refuted"
   ],
   "note": "REFUTED by the code: the probability has a further term for the errors across the line, so with unequal errors a line that misses all points can be more probable than the one through them (C290_exact_refuted), and the prior leaves out all falling lines (C290_falling_refuted). Proved: the common misfit term, and the same order of lines when all errors are equal."
  },
  {
   "property": "C291",
   "status": "partial",
   "theorems": [
    "C291_styles_partial",
    "C291_same_dictionary_refuted",
    "C291_symbol_refuted"
   ],
   "note": "REFUTED by the code: with the same dictionary for both keywords (even an empty one) both data sets are drawn blue with the label '1', because the defaults of the first are written into the dictionary before those of the second; and 'symbol' is not used by SCF_Distance and PDF_Distance, which look for 'marker'. Proved for every statistic and after every program of comparisons when the dictionaries differ (C291_styles_partial)."
  },
  {
   "property": "C292",
   "status": "partial",
   "theorems": [
    "C292_complete_partial",
    "C292_others_partial",
    "C292_filled_refuted",
    "C292_xunit_refuted"
   ],
   "note": "REFUTED by the code: the defaults are written into the caller's dictionary, and all plots but those of SCF, moments and PDFs delete its 'xunit'. Proved unchanged: dictionaries that set everything the plot uses and no xunit, any dictionary when verbose is not set, and dictionaries that are not given to a plot, through any program."
  },
  {
   "property": "C293",
   "status": "partial",
   "theorems": [
    "C293_reuse_partial",
    "C293_marker_refuted",
    "C293_other_side_refuted"
   ],
   "note": "REFUTED by the code: SCF_Distance and PDF_Distance write 'marker' into the dictionary, after which plot_fit of the power spectra, VCS, delta variance and wavelets raises TypeError; a dictionary first used for data set 1 keeps its colour and label when used for data set 2. Proved for every other sequence of comparisons that uses the dictionary for the same data set."
  },
  {
   "property": "C294",
   "status": "partial",
   "theorems": [
    "C294_square_partial",
    "C294_area_partial",
    "C294_oblong_partial",
    "C294_common_scale_partial",
    "C294_spectral_first_refuted"
   ],
   "note": "REFUTED by the code: the size is taken from the first column of the whole header, so for a cube whose header has the spectral axis first it is the width of a channel (the test of square pixels looks at the celestial axes and accepts). Proved with the celestial axes first: square pixels at any angle give their side, every accepted header gives the area of the pixel to three parts in 100000, oblong pixels are refused, and common_scale is the ratio of the sides."
  },
  {
   "property": "C295",
   "status": "partial",
   "theorems": [
    "C295_channel_partial",
    "C295_channels_partial",
    "C295_velocity_partial",
    "C295_one_channel_refuted"
   ],
   "note": "REFUTED by the code: the data are squeezed before their first axis is counted, so for a cube of one channel the number of channels is its number of rows. Proved: the spectral size at every position and direction of the axis, the number of channels of all other cubes, and that PCA is never built without a velocity axis or from a refused header."
  },
  {
   "property": "C296",
   "status": "partial",
   "theorems": [
    "C296_saved_partial",
    "C296_own_figure_partial",
    "C296_second_close_refuted",
    "C296_drawn_over_refuted",
    "C296_shown_refuted",
    "C296_one_axis_refuted"
   ],
   "note": "REFUTED by the code: PowerSpectrum.run, VCA.run and MVC.run close a second figure after saving, which is one of the caller's (C296_second_close_refuted). plot_fit draws into the current figure, so a figure the caller has open is drawn over, appears in the file and is closed (C296_drawn_over_refuted); a plot that was shown appears in the next file where show() keeps figures (C296_shown_refuted); and if the open figure has one axes only the call raises UnboundLocalError (C296_one_axis_refuted). Proved: without open figures the file shows the plot and nothing else, and plots that make their own figure leave the others as they were."
  },
  {
   "property": "C297",
   "status": "partial",
   "theorems": [
    "C297_both_partial",
    "C297_own_partial",
    "C297_closing_refuted",
    "C297_empty_refuted"
   ],
   "note": "REFUTED by the code: the comparisons of power spectra, VCA, MVC, wavelets and the delta-variance pick up the figure of the first plot after plt.show(); where show() leaves no figure open (windows that block, notebooks) they raise IndexError and save nothing (C297_closing_refuted), and VCS_Distance saves an empty figure (C297_empty_refuted). Proved: where figures stay, both data sets are in the file."
  },
  {
   "property": "C298",
   "status": "partial",
   "theorems": [
    "C298_names",
    "C298_format_partial",
    "C298_written_partial",
    "C298_bare_refuted"
   ],
   "note": "REFUTED by the code: a save_name without an extension, which every other plot accepts, raises ValueError from matplotlib because the empty extension is replaced (C298_bare_refuted). Proved: for all names with an extension matplotlib knows the two files are different, next to each other and in that format, and different names give different files."
  },
  {
   "property": "C299",
   "status": "partial",
   "theorems": [
    "C299_agree_partial",
    "C299_wavelet_partial",
    "C299_delvar_partial",
    "C299_delvar_refuted",
    "C299_pspec_partial",
    "C299_line_refuted",
    "C299_break_refuted"
   ],
   "note": "REFUTED by the code: the power-spectrum plot evaluates the fit, made with frequencies per pixel, at frequencies in the unit of the axis, so that the line lies beside the data by slope times log10 of the factor (C299_line_refuted); the plot of a fit with a break raises ValueError since the two-column matrix does not fit its four parameters (C299_break_refuted); the residuals of the delta-variance are wrong in every unit but pixels (C299_delvar_refuted). Proved: the wavelet, SCF and VCS plots agree with the law in every unit, the delta-variance line and the power-spectrum residuals are right in every unit. Error bars and limits of axes are not modelled; straight laws, except for the wavelet transform."
  },
  {
   "property": "C300",
   "status": "partial",
   "theorems": [
    "C300_relation_partial",
    "C300_bars_partial",
    "C300_number_refuted"
   ],
   "note": "REFUTED by the code: the bars are placed at 1..PCA.n_eigs but the heights are the first n_eigs of the argument, so any number other than the one in use raises ValueError, and n_eigs=1 repeats the first eigenvalue (C300_number_refuted). Proved: the widths, the line and the residuals in all units, and the bars without the argument. Widths that are blank are left out."
  },
  {
   "property": "C301",
   "status": "partial",
   "theorems": [
    "C301_genus_partial",
    "C301_labels_partial",
    "C301_tsallis_partial",
    "C301_one_lag_refuted"
   ],
   "note": "REFUTED by the code: for a single lag plt.subplots gives no array and Tsallis.plot_fit raises TypeError (C301_one_lag_refuted). Proved: all of Genus, and Tsallis for two or more lags."
  },
  {
   "property": "C302",
   "status": "partial",
   "theorems": [
    "C302_bars_partial",
    "C302_one_bin_refuted",
    "C302_uneven_refuted"
   ],
   "note": "REFUTED by the code: a histogram with one bin, which one to three structures give, raises IndexError (C302_one_bin_refuted), and bins of different widths are drawn with the width of the first (C302_uneven_refuted). Proved: the default bins with at least four structures."
  },
  {
   "property": "C303",
   "status": "partial",
   "theorems": [
    "C303_vca",
    "C303_scf",
    "C303_pca_partial",
    "C303_blanks_refuted"
   ],
   "note": "REFUTED by the code: with blanks, PCA depends on the order, since var_cov_cube replaces blanks by finfo.eps in the first of two channels only, so the covariance of two channels depends on which comes first (C303_blanks_refuted). VCA and SCF are proved for every cube, PCA without blanks."
  },
  {
   "property": "C304",
   "status": "proved",
   "theorems": [
    "C304_vcs",
    "C304_pca"
   ],
   "note": "VCS over its whole 1D power spectrum, including the count of good spectra; PCA over the covariance matrix that is decomposed."
  },
  {
   "property": "C305",
   "status": "proved",
   "theorems": [
    "C305_image",
    "C305_cube",
    "C305_mvc",
    "C305_half_turn"
   ],
   "note": "Binned spectra without azimuthal limits; the unbinned and two-dimensional fits see the points in another order or direction and are not part of the claim."
  },
  {
   "property": "C306",
   "status": "proved",
   "theorems": [
    "C306_surface",
    "C306_run",
    "C306_default"
   ],
   "note": ""
  },
  {
   "property": "C307",
   "status": "proved",
   "theorems": [
    "C307_reversed",
    "C307_rolled",
    "C307_history",
    "C307_order"
   ],
   "note": ""
  },
  {
   "property": "C308",
   "status": "proved",
   "theorems": [
    "C308_run",
    "C308_distance"
   ],
   "note": ""
  },
  {
   "property": "C309",
   "status": "proved",
   "theorems": [
    "C309_array",
    "C309_run"
   ],
   "note": ""
  },
  {
   "property": "C310",
   "status": "proved",
   "theorems": [
    "C310_image",
    "C310_sampled",
    "C310_history",
    "C310_distance"
   ],
   "note": ""
  },
  {
   "property": "C311",
   "status": "partial",
   "theorems": [
    "C311_masking_refuted",
    "C311_mask_partial",
    "C311_signal_partial",
    "C311_bright_partial"
   ],
   "note": "REFUTED by the code: the lines that define signal_id_flag are comments, so every call raises NameError (C311_masking_refuted). Proved for the body of the function with the name defined."
  },
  {
   "property": "C312",
   "status": "partial",
   "theorems": [
    "C312_about_first",
    "C312_half_turn_refuted",
    "C312_half_turn_partial"
   ],
   "note": "REFUTED by the code: the third wave vector is truncated on its own and need not be the sum of the other two, so the position of the centre of the turn leaves a phase and the bicoherence of a turned point source drops below 1 (C312_half_turn_refuted). Proved for turns about the first pixel with joined edges (C312_about_first, all cells) and for cells of closed triangles."
  },
  {
   "property": "C313",
   "status": "partial",
   "theorems": [
    "C313_near_refuted",
    "C313_far_partial"
   ],
   "note": "REFUTED by the code: pixels outside the image at which both kernels still collect more weight than the cutoff receive a convolved value and count in the variance, so one pixel without weight next to the image changes the result (C313_near_refuted, kernels of three neighbouring pixels). Proved (C313_far_partial): where outside the image one of the two kernels collects no more than the cutoff, the surroundings have no effect whatever their values and size."
  },
  {
   "property": "C314",
   "status": "partial",
   "theorems": [
    "C314_near_refuted",
    "C314_coefficients_partial",
    "C314_value_partial",
    "C314_margin_partial"
   ],
   "note": "REFUTED by the code: the value is the mean over all positive coefficients, those at the blank pixels around the image included, so a column of blank pixels beside a bright pixel changes it (C314_near_refuted). Proved: the coefficients at the pixels of the image are the same in every frame (C314_coefficients_partial), and so are the values if no pixel around has a positive coefficient (C314_value_partial), as for images without negative pixels whose positive ones are sqrt(2) scales away from the surroundings (C314_margin_partial)."
  },
  {
   "property": "C315",
   "status": "partial",
   "theorems": [
    "C315_blank_refuted",
    "C315_pairs_partial",
    "C315_surroundings_partial",
    "C315_not_less_partial",
    "C315_factor_partial",
    "C315_zero_lag_partial"
   ],
   "note": "REFUTED by the code: a pair of a spectrum and a blank one has the difference 0 and the power of the one, so it counts as a pair of equal spectra and raises the correlation (C315_blank_refuted). Proved: the value is that of the cube's own pairs together with the pairs of each spectrum near the edge and a blank one (C315_pairs_partial), so the surface is the same in all surroundings with room for the lags (C315_surroundings_partial), never less than the value of the own pairs (C315_not_less_partial), for cubes without blanks by exactly the factor sqrt(m/(2N-m)) in the difference from 1, with m of N pixels having a partner (C315_factor_partial), and unchanged at lag zero (C315_zero_lag_partial)."
  },
  {
   "property": "C316",
   "status": "proved",
   "theorems": [
    "C316_differences",
    "C316_run"
   ],
   "note": ""
  },
  {
   "property": "C317",
   "status": "partial",
   "theorems": [
    "C317_default_refuted",
    "C317_whole_partial",
    "C317_map_partial",
    "C317_outside_partial",
    "C317_values_partial",
    "C317_histograms_partial"
   ],
   "note": "REFUTED by the code: without weights blank pixels are given weight one, so the sums are divided by the number of all pixels and the moments shrink with the surroundings; with weights that are blank there as well, the moments of the whole, the maps and their histograms are those of the image alone (proved)."
  },
  {
   "property": "C318",
   "status": "partial",
   "theorems": [
    "C318_blank_refuted",
    "C318_factor_partial",
    "C318_shape_partial"
   ],
   "note": "REFUTED by the code: the transform also runs over the sky, whose sum of powers has one factor for every pixel of the field, but only the pixels with emission are divided out; the spectrum grows by the ratio of the areas at every frequency (exact law proved), so its shape is that of the cube alone (proved)."
  },
  {
   "property": "C319",
   "status": "partial",
   "theorems": [
    "C319_negative_refuted",
    "C319_pairs_partial",
    "C319_own_partial",
    "C319_diluted_partial"
   ],
   "note": "REFUTED by the code: on the diagonal a blank pixel is one of the value eps and is counted, off the diagonal it is left out, so the variances are diluted against the covariances and the matrix can have a negative eigenvalue; covariances of different channels are those of the cube, and the dilution is given exactly (proved)."
  },
  {
   "property": "C320",
   "status": "proved",
   "theorems": [
    "C320_data",
    "C320_weighted",
    "C320_history",
    "C320_likelihood",
    "C320_percentile",
    "C320_at_percentile",
    "C320_surroundings",
    "C320_orientation"
   ],
   "note": ""
  },
  {
   "property": "C321",
   "status": "proved",
   "theorems": [
    "C321_object",
    "C321_threshold"
   ],
   "note": ""
  },
  {
   "property": "C322",
   "status": "partial",
   "theorems": [
    "C322_blanks_refuted",
    "C322_unseen_refuted",
    "C322_rows_partial",
    "C322_few_partial",
    "C322_sparse_partial"
   ],
   "note": "REFUTED by the code: a fifth of all pixels of a channel is kept, and blank pixels count among all, so cubes with the same brightest fifth differ once both are placed in a larger blank field; the longer rows start with the shorter ones, and the distance stays where the number kept does not change or where all pixels above the noise are kept (proved)."
  },
  {
   "property": "C323",
   "status": "proved",
   "theorems": [
    "C323_iterations",
    "C323_no_iterations",
    "C323_range",
    "C323_scaled",
    "C323_expected",
    "C323_draws"
   ],
   "note": ""
  },
  {
   "property": "C324",
   "status": "proved",
   "theorems": [
    "C324_field",
    "C324_common",
    "C324_multiples",
    "C324_cube"
   ],
   "note": ""
  },
  {
   "property": "C325",
   "status": "partial",
   "theorems": [
    "C325_refuted",
    "C325_field_partial",
    "C325_pixel_partial"
   ],
   "note": "REFUTED by the code: blank pixels of the maps are set to zero before the mean of the squared velocities is taken over all pixels, so this mean, and with it the spectrum, falls with the number of blank pixels around the emission. Proved: the transforms are those of the maps alone and the field enters only as the number of pixels of that mean."
  },
  {
   "property": "C326",
   "status": "partial",
   "theorems": [
    "C326_sampled_refuted",
    "C326_bounds_refuted",
    "C326_odr_partial",
    "C326_unknown_partial"
   ],
   "note": "REFUTED by the code: after a fit with the sampler the bounds are computed from the sound speed with its unit, so their unit is a power of the pixel that depends on the exponent: in pixels they carry that unit, and in any angular or physical unit sonic_length raises UnitConversionError. Proved: after the fit by orthogonal distances the length and bounds are converted, and unknown units are refused."
  },
  {
   "property": "C327",
   "status": "proved",
   "theorems": [
    "C327_distances",
    "C327_zero",
    "C327_surroundings",
    "C327_surroundings_weighted",
    "C327_orientation",
    "C327_orientation_weighted"
   ],
   "note": ""
  }
 ]
}