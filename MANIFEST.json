{
 "claims": [
  {
   "property": "C01",
   "status": "proved",
   "theorems": [
    "rebin_conserves_counts",
    "rebin_total_is_counts_in_range",
    "matrix_rebin_conserves_counts"
   ],
   "note": "exact arithmetic; matrix version without std"
  },
  {
   "property": "C02",
   "status": "proved",
   "theorems": [
    "rebin_is_full_overlap_sum"
   ],
   "note": "exact arithmetic"
  },
  {
   "property": "C03",
   "status": "proved",
   "theorems": [
    "rebin_never_creates_counts"
   ],
   "note": "exact arithmetic"
  },
  {
   "property": "C04",
   "status": "proved",
   "theorems": [
    "rebin_same_binning_is_identity",
    "rebin_is_linear"
   ],
   "note": "exact arithmetic"
  },
  {
   "property": "C05",
   "status": "partial",
   "theorems": [
    "rebin_factor_conserves_partial",
    "rebin_factor_ge_1_never_adds_bins",
    "rebin_factor_growing_bins_loses_counts",
    "rebin_factor_conserves_refuted"
   ],
   "note": "refuted for factors below one that increase the number of bins: the end bins shrink but keep their centres, so counts are lost; proved for all other factors that leave at least two bins"
  },
  {
   "property": "C06",
   "status": "proved",
   "theorems": [
    "rebin_Eg_rowwise",
    "rebin_Ex_columnwise",
    "rebin_axis_order_irrelevant",
    "rebin_needs_exactly_one_of_mids_factor",
    "rebin_rejects_bad_axis",
    "rebin_rejects_nonpositive_factor",
    "rebin_with_std_not_atomic",
    "rebin_few_bins_refused",
    "rebin_vector_few_bins_refused"
   ],
   "note": "for matrices without std; with a std the in-place call raises after having changed the matrix (rebin_with_std_not_atomic)"
  },
  {
   "property": "C07",
   "status": "proved",
   "theorems": [
    "index_is_nearest",
    "nearest_is_unique",
    "index_unsorted_refuted"
   ],
   "note": "needs a sorted axis, shown necessary"
  },
  {
   "property": "C08",
   "status": "proved",
   "theorems": [
    "cut_like_window",
    "cut_like_copy_window",
    "cut_Eg_inclusive",
    "cut_Ex_inclusive",
    "cut_copy_same_data",
    "cut_rejects_bad_axis"
   ],
   "note": ""
  },
  {
   "property": "C09",
   "status": "partial",
   "theorems": [
    "cut_Eg_exclusive_partial",
    "cut_Ex_exclusive_partial",
    "cut_exclusive_refuted",
    "cut_exclusive_lower_refuted"
   ],
   "note": "refuted for exclusive limits that are not bin centres; proved when they are"
  },
  {
   "property": "C10",
   "status": "partial",
   "theorems": [
    "matrix_histories_consistent_partial",
    "matrix_failed_op_consistent",
    "matrix_cut_std_refuted",
    "matrix_load_not_atomic_refuted",
    "run_stops"
   ],
   "note": "cut, cut_like and trapezoid in place leave std at its old shape, and a failing load leaves the new arrays behind (both refuted); everything else proved for any history."
  },
  {
   "property": "C11",
   "status": "partial",
   "theorems": [
    "vector_cut_range",
    "vector_cut_copy_same",
    "vector_cut_half_bin_partial",
    "vector_cut_outside_refuted"
   ],
   "note": "Contiguous range between the nearest bins, all arrays together: proved for all limits. The half-bin bound is proved for limits inside the axis and refuted for limits outside (nearest end bin is kept)."
  },
  {
   "property": "C12",
   "status": "partial",
   "theorems": [
    "vector_op_consistent",
    "vector_failed_op_unchanged_partial",
    "vector_histories_consistent_partial",
    "vector_rebin_std_refuted",
    "cut_nan_removes_nan",
    "cut_nan_idempotent",
    "vector_without_values",
    "vector_lengths"
   ],
   "note": "Refuted for rebin of a vector with std: it raises after overwriting values and E. Proved for every other operation and for vectors without std."
  },
  {
   "property": "C13",
   "status": "proved",
   "theorems": [
    "vector_units_lossless",
    "vector_units_unknown_raise",
    "lower_mid_bin_inverse",
    "lower_mid_bin_needs_two_bins"
   ],
   "note": ""
  },
  {
   "property": "C14",
   "status": "proved",
   "theorems": [
    "matrix_arith_elementwise",
    "matrix_arith_scalar",
    "vector_arith_elementwise",
    "vector_arith_scalar",
    "vector_arithmetic_is_pure",
    "matrix_arithmetic_is_pure",
    "matrix_product_is_pure",
    "matmul_is_matrix_product",
    "arith_binning_check_symmetric_refuted",
    "matmul_refuses"
   ],
   "note": "Element-wise result, axes and the binning check are proved; purity in the model with memory cells, where the copy is changed in place: all old variables show the same and the result shares no array with them. Axes differ if they differ by more than the tolerance of numpy, which is not symmetric (last theorem)."
  },
  {
   "property": "C15",
   "status": "partial",
   "theorems": [
    "vector_eq_decides_closeness_partial",
    "vector_eq_reflexive_partial",
    "matrix_eq_decides_closeness_partial",
    "matrix_eq_reflexive",
    "eq_symmetric_refuted",
    "eq_nan_not_reflexive_refuted",
    "eq_never_raises_refuted",
    "eq_std_raises_refuted",
    "eq_broadcast_refuted",
    "axes_allclose",
    "matrix_eq_missing_std",
    "allclose_shapes"
   ],
   "note": "Refuted in general: asymmetric tolerance, nan, different lengths and std/no std raise. For arrays of equal form without nan == decides closeness and is reflexive."
  },
  {
   "property": "C16",
   "status": "proved",
   "theorems": [
    "axis_name_denotes",
    "axis_number_denotes",
    "axis_name_unique"
   ],
   "note": ""
  },
  {
   "property": "C17",
   "status": "partial",
   "theorems": [
    "state_assignment_denotes",
    "state_argument_unique",
    "state_is_last_valid_assignment",
    "state_ne_negates_eq_partial",
    "state_ne_refuted",
    "state_eq_ne",
    "state_ne_others"
   ],
   "note": "All proved for states; != against a plain int is not the negation of ==."
  },
  {
   "property": "C18",
   "status": "proved",
   "theorems": [
    "fill_negative_max_correct",
    "fill_negative_max_rejects"
   ],
   "note": ""
  },
  {
   "property": "C19",
   "status": "partial",
   "theorems": [
    "fill_negative_gauss_rows_partial",
    "fill_negative_gauss_does_nothing",
    "fill_negative_gauss_refuted",
    "some_argsort_sorts"
   ],
   "note": "Row sums and signs proved; that surplus is taken from the bins with the largest weight is refuted."
  },
  {
   "property": "C20",
   "status": "proved",
   "theorems": [
    "remove_negative_clips",
    "fill_and_remove_negative_nonneg"
   ],
   "note": ""
  },
  {
   "property": "C21",
   "status": "partial",
   "theorems": [
    "div0_arrays_partial",
    "div0_numbers_partial",
    "div0_scalar_nonfinite_refuted"
   ],
   "note": "Proved for arrays and finite numbers; refuted for two scalars of which one is infinite."
  },
  {
   "property": "C22",
   "status": "proved",
   "theorems": [
    "projection_on_Eg",
    "projection_on_Ex",
    "projection_sums_to_total",
    "projection_normalized",
    "projection_rejects_both"
   ],
   "note": ""
  },
  {
   "property": "C23",
   "status": "proved",
   "theorems": [
    "fill_adds_to_nearest_bin",
    "fill_adds_to_total",
    "fill_order_irrelevant"
   ],
   "note": ""
  },
  {
   "property": "C24",
   "status": "proved",
   "theorems": [
    "cut_diagonal_clears_below_line",
    "cut_diagonal_rejects"
   ],
   "note": ""
  },
  {
   "property": "C25",
   "status": "partial",
   "theorems": [
    "trapezoid_contents_partial",
    "trapezoid_auto_limit",
    "trapezoid_above_refuted",
    "trapezoid_zero_row_refuted"
   ],
   "note": "Proved for Eg_max <= Ex_max; refuted for Eg_max > Ex_max (nothing is masked) and for the ValueError (a TypeError surfaces)."
  },
  {
   "property": "C26",
   "status": "partial",
   "theorems": [
    "diagonal_elements_partial",
    "diagonal_elements_refuted"
   ],
   "note": "The pairs are (row, one past the last non-zero column); the column itself may be out of range."
  },
  {
   "property": "C27",
   "status": "proved",
   "theorems": [
    "cumulative_prefix_sums",
    "cumulative_std",
    "cumulative_factor",
    "cumulative_last_is_total",
    "cumulative_monotone"
   ],
   "note": ""
  },
  {
   "property": "C28",
   "status": "proved",
   "theorems": [
    "closest_assigns_containing_bin",
    "closest_unsorted_raises"
   ],
   "note": "For array-valued E_new; a scalar E_new raises TypeError in the code (not modelled)."
  },
  {
   "property": "C29",
   "status": "partial",
   "theorems": [
    "transform_bins",
    "transform_identity",
    "transform_compose",
    "transform_compose_partial",
    "transform_relative_uncertainty",
    "transform_compose_refuted",
    "transform_identity_zero_refuted",
    "vector_transform_entries"
   ],
   "note": "The composition law is proved for a non-zero first constant, also with empty bins; with the constant 0 the composition law fails for the uncertainty (refuted). A bin with value 0 loses its uncertainty."
  },
  {
   "property": "C30",
   "status": "partial",
   "theorems": [
    "error_nonneg_and_zero_iff_agree",
    "error_std_decreases_partial",
    "error_std_increases_refuted"
   ],
   "note": "Non-negativity and zero iff agreement proved; monotonicity in std proved when the own std has no zeros, refuted otherwise."
  },
  {
   "property": "C31",
   "status": "partial",
   "theorems": [
    "vector_round_trip",
    "vector_saves",
    "matrix_round_trip",
    "vector_tar_std_refuted",
    "matrix_std_refuted",
    "vector_units_refuted",
    "vector_txt_single_refuted",
    "numpy_suffix_refuted",
    "tar_names_distinct"
   ],
   "note": "Values, axes and (vectors) std come back for all file types with the stated conditions. std of a loading matrix, std after a two-column tar, units, one-bin text files and numpy files with another suffix do not (refuted)."
  },
  {
   "property": "C32",
   "status": "partial",
   "theorems": [
    "mama_matrix_round_trip",
    "mama_vector_round_trip_partial",
    "mama_units_refuted",
    "mama_std_refuted"
   ],
   "note": "Error bounds for the printed precision; axes not interchanged. Vectors in MeV are written unconverted (refuted)."
  },
  {
   "property": "C33",
   "status": "partial",
   "theorems": [
    "save_touches_own_file_vector",
    "save_touches_own_file_matrix",
    "save_tar_touches_partial",
    "save_as_tar",
    "load_changes_nothing_partial",
    "save_tar_deletes_refuted",
    "save_tar_no_suffix_refuted",
    "save_tar_crash_refuted",
    "load_tar_deletes_refuted"
   ],
   "note": "Proved at every crash point for all formats but tar. tar overwrites and deletes other files (refuted)."
  },
  {
   "property": "C34",
   "status": "proved",
   "theorems": [
    "firstgen_result",
    "firstgen_rejects",
    "firstgen_accepts",
    "firstgen_formula"
   ],
   "note": "The input matrix is an input value of the model; that the code works on a copy is read off the source (line 86)."
  },
  {
   "property": "C35",
   "status": "proved",
   "theorems": [
    "firstgen_weights",
    "firstgen_weights_follow_spectrum",
    "firstgen_start",
    "firstgen_action_raises"
   ],
   "note": ""
  },
  {
   "property": "C36",
   "status": "proved",
   "theorems": [
    "firstgen_noninterference",
    "firstgen_lowest_row"
   ],
   "note": ""
  },
  {
   "property": "C37",
   "status": "proved",
   "theorems": [
    "multiplicities_nonnegative",
    "firstgen_accepts"
   ],
   "note": ""
  },
  {
   "property": "C38",
   "status": "partial",
   "theorems": [
    "firstgen_history_partial",
    "firstgen_history_same_axis_partial",
    "firstgen_history_refuted"
   ],
   "note": "Proved without a valley correction, and with one if all matrices have the same Ex axis; refuted otherwise."
  },
  {
   "property": "C39",
   "status": "partial",
   "theorems": [
    "allgen_exact",
    "allgen_formula_partial",
    "allgen_formula_refuted",
    "allgen_more_rows_refuted"
   ],
   "note": "The exact result is proved; it differs from the documented formula by the j == i term (refuted) and raises when there are more Ex than Eg bins."
  },
  {
   "property": "C40",
   "status": "proved",
   "theorems": [
    "unfold_residual",
    "unfold_closed_form",
    "unfold_fixed_point",
    "unfold_identity_response",
    "unfold_rows_independent",
    "unfold_apply_rows",
    "no_iterations_refused"
   ],
   "note": ""
  },
  {
   "property": "C41",
   "status": "proved",
   "theorems": [
    "unfold_iterates_keep_counts",
    "fold_is_product",
    "fold_refused"
   ],
   "note": ""
  },
  {
   "property": "C42",
   "status": "partial",
   "theorems": [
    "unfold_selection_partial",
    "unfold_succeeds",
    "unfold_score_meaning",
    "unfold_few_iterations_refuted",
    "fluctuations_meaning"
   ],
   "note": "Proved for minimum_iterations < num_iter; for num_iter <= minimum_iterations every valid call raises IndexError (refuted)."
  },
  {
   "property": "C43",
   "status": "proved",
   "theorems": [
    "unfold_result_nonnegative",
    "unfold_rejects",
    "compton_row_lost"
   ],
   "note": "The raw matrix is an input value of the model; that the code does not write to it is read off the source, not proved."
  },
  {
   "property": "C44",
   "status": "proved",
   "theorems": [
    "smoothing_spreads_counts",
    "smoothing_preserves_counts",
    "smoothing_drops_negative_counts",
    "smoothing_rejects_lengths",
    "smoothing_matrix_rows",
    "smoothing_matrix_cols",
    "smoothing_refused"
   ],
   "note": "For any function in place of the Gaussian that is non-negative and positive at its centre. Negative counts are dropped."
  },
  {
   "property": "C45",
   "status": "proved",
   "theorems": [
    "shift_whole_bins",
    "shift_never_gains",
    "shift_matrix_whole_bins"
   ],
   "note": ""
  },
  {
   "property": "C46",
   "status": "proved",
   "theorems": [
    "product_is_probability",
    "product_rows_sum_to_one",
    "product_defined"
   ],
   "note": "The diagonal is Ex + resolution + half a bin, as the code comments document."
  },
  {
   "property": "C47",
   "status": "proved",
   "theorems": [
    "product_schedule_independent",
    "product_schedule_terminates",
    "product_row_final"
   ],
   "note": "Tasks are rows, steps are source lines; arbitrary interleavings."
  },
  {
   "property": "C48",
   "status": "proved",
   "theorems": [
    "oslo_degeneracy"
   ],
   "note": "Real-valued densities and transmissions, rational energies."
  },
  {
   "property": "C49",
   "status": "partial",
   "theorems": [
    "chisquare_value",
    "chisquare_measure",
    "chisquare_diagonal_measure",
    "chisquare_compares_product_partial",
    "chisquare_compares_product_refuted",
    "errfun_nan",
    "resolution_grows"
   ],
   "note": "Non-negativity and the zero criterion are proved. The bins compared are not those the product fills: the limits differ by half a bin (refuted)."
  },
  {
   "property": "C50",
   "status": "proved",
   "theorems": [
    "generate_schedule_independent",
    "generate_completes"
   ],
   "note": "Tasks are interleaved file operation by file operation; the random generators are a function of seed and step."
  },
  {
   "property": "C51",
   "status": "partial",
   "theorems": [
    "resumed_is_requested_partial",
    "interrupted_run_resumes_partial",
    "resume_truncated_refuted",
    "resume_background_refuted"
   ],
   "note": "Proved for any number of interruptions when no truncated file is left and, with a background, prompt+bg and bg are both stored or both missing. Both conditions are needed (refuted without them). The user functions must not look at state and std."
  },
  {
   "property": "C52",
   "status": "partial",
   "theorems": [
    "generated_std_is_spread",
    "regenerated_is_requested",
    "generated_in_empty_is_requested",
    "cached_parameters_refuted",
    "unknown_method_refused",
    "unknown_method_cached"
   ],
   "note": "regenerate=True always gives the requested ensemble; without it files of another method or seed are used (refuted)."
  },
  {
   "property": "C53",
   "status": "partial",
   "theorems": [
    "load_reads_listed_files",
    "loaded_members_correspond_partial",
    "load_pairing_refuted",
    "load_leftovers_refuted"
   ],
   "note": "Holds when the three listings have the same order and there are no left-over members; refuted otherwise."
  },
  {
   "property": "C54",
   "status": "proved",
   "theorems": [
    "members_nonnegative",
    "member_files_nonnegative",
    "returned_raws_nonnegative"
   ],
   "note": "For the stored members after any operation; the axes need actions that keep axes, the returned arrays actions that keep non-negativity."
  },
  {
   "property": "C55",
   "status": "partial",
   "theorems": [
    "extraction_from_scratch",
    "finished_extraction_reloads",
    "extraction_resumes_partial",
    "resume_random_refuted",
    "resume_cut_refuted",
    "resume_torn_refuted"
   ],
   "note": "Proved for fixed initial values, a cut that does not depend on a curried Eg_max and no truncated file, for any number of interruptions. Each condition is needed (refuted without it)."
  },
  {
   "property": "C56",
   "status": "partial",
   "theorems": [
    "grid_one_bin_per_diagonal",
    "unconstrained_bins",
    "decompose_succeeds",
    "grid_mismatch_refuted",
    "constrained_not_compared_refuted",
    "resolution_value",
    "resolution_off",
    "parabola_positive"
   ],
   "note": "Proved for exactly equal widths. Widths that only pass np.isclose give one grid point too many and an IndexError (refuted); bins may be reported although chi square compares nothing on them (refuted)."
  },
  {
   "property": "C57",
   "status": "proved",
   "theorems": [
    "act_on_is_direct",
    "action_history",
    "action_reusable",
    "curry_overrides",
    "act_map_members",
    "act_map_raises"
   ],
   "note": ""
  },
  {
   "property": "C58",
   "status": "proved",
   "theorems": [
    "const_temperature_derivative",
    "const_temperature_shift",
    "nldSn_defining",
    "D0_round_trip",
    "nldSn_round_trip",
    "nldSn_decreasing",
    "nldSn_inverse",
    "spin_dist_cumulative",
    "spin_dist_mode"
   ],
   "note": "Over the reals, for every spin-cut value, target spin and D0, given as a number or with an uncertainty. Exact arithmetic instead of float64."
  },
  {
   "property": "C59",
   "status": "proved",
   "theorems": [
    "Gg_value",
    "Gg_proportional",
    "gsf_normalize_Gg",
    "gsf_normalize_defined",
    "Gg_positive",
    "Gg_needs_nld_at_zero",
    "E_grid_Emax_refuted"
   ],
   "note": "For every fit result, grid, level density and spin sum. The fit (scipy curve_fit) is an arbitrary function. E_grid_Emax_refuted: the parameter Emax has no effect on the integration grid."
  },
  {
   "property": "C60",
   "status": "partial",
   "theorems": [
    "spin_sum_selection",
    "spin_sum_array",
    "spin_sum_swave",
    "spin_sum_cached_partial",
    "spin_sum_dictionary_refuted",
    "spin_sum_array_mutation_refuted",
    "spin_sum_shape_refuted",
    "in_place_changes_one",
    "energies_compared",
    "negative_spin_refused"
   ],
   "note": "The selection of spins is proved in full. The saved result equals the direct one for all histories without in-place changes of the dictionary or energy array and with arrays of one shape; the refutations show that these conditions are needed."
  },
  {
   "property": "C61",
   "status": "partial",
   "theorems": [
    "extrapolation_transform",
    "composite_transform",
    "norm_to_shift_scaled",
    "norm_to_shift_repeat",
    "extrapolate_unscaled",
    "low_extrapolation_exact",
    "fit_transform",
    "simultan_fitted",
    "simultan_fixed_refuted",
    "high_method_refuted",
    "high_method_fit_refuted"
   ],
   "note": "Proved for transformed data and parameters, for the scaling by norm_to_shift_after and for fitted models. Refuted for fixed models in the simultaneous normalisation, where the extrapolations are not transformed with the data."
  },
  {
   "property": "C62",
   "status": "partial",
   "theorems": [
    "spin_two_point",
    "spin_two_point_shape",
    "spin_two_point_order_refuted",
    "spin_disc_eb05",
    "spin_elementwise",
    "spin_const_partial",
    "spin_const_type_refuted",
    "spin_shape_refuted",
    "EB05_shift",
    "spin_pairs_needed"
   ],
   "note": "Interpolation between the two points, constant outside. Refuted: reversed points, an integer energy array truncates the constant model, and one model returns a scalar for an array."
  },
  {
   "property": "C63",
   "status": "partial",
   "theorems": [
    "step_allowed",
    "allowed_zero",
    "iterate_allowed",
    "iterate_bounded",
    "iterate_safe",
    "exact_solution_kept",
    "normalize_row_sum",
    "normalize_row_nonneg",
    "above_diagonal_refuted",
    "normalize_zero_refuted",
    "normalize_array_zero_refuted",
    "negative_counts_refuted",
    "normalize_std_refuted",
    "chisquare_refuted",
    "degrees_count",
    "iterate_python_sizes",
    "chisquare_formula",
    "set_index",
    "gsf_start_meaning",
    "iterate_only_index_errors"
   ],
   "note": "Positivity, bounded steps and stability of zeros are proved for every iteration, and freedom from errors under the stated sizes. Refuted around it: counts far above the diagonal read outside the array, rows with zero sum are divided by zero, negative counts give negative coefficients, the uncertainties are not normalised and chi square is divided repeatedly."
  },
  {
   "property": "C64",
   "status": "partial",
   "theorems": [
    "response_refuses",
    "response_probabilities",
    "response_probabilities_outside_refuted",
    "response_peak_split",
    "response_peaks",
    "response_rows_partial",
    "response_defined_refuted",
    "response_fan_reproduces_table",
    "response_defined",
    "response_defined_range_refuted"
   ],
   "note": "Probabilities sum to one inside the table (refuted outside it), peaks keep area and centroid, rows are non-negative and normalised whenever the interpolation returns, the fan method reproduces the tabulated spectrum. Refuted: the interpolation is not defined on every axis (coarse channels). Proved: it is defined on every equidistant axis with channels of at most 438 keV that ends below the last energy of the tabulated Compton spectra, if the checks pass; refuted without the latter."
  },
  {
   "property": "C65",
   "status": "proved",
   "theorems": [
    "compton_range",
    "compton_increasing",
    "compton_increasing_energy",
    "compton_threshold_refuted",
    "compton_derivative",
    "compton_edge",
    "compton_inverse",
    "compton_angle_unique",
    "compton_cosine_form",
    "fan_sine_cancels"
   ],
   "note": "Over the reals. The special value returned for photon energies up to 0.1 keV breaks monotony in the energy (recorded as refuted)."
  },
  {
   "property": "C66",
   "status": "partial",
   "theorems": [
    "nld_result_saved",
    "nld_loads_stored",
    "nld_save_load",
    "gsf_save_load",
    "nld_torn_file",
    "nld_torn_file_repaired",
    "nld_arguments_partial",
    "nld_repeat",
    "gsf_arguments_partial",
    "path_none_raises",
    "discrete_argument_refuted",
    "fake_std_sticky_refuted",
    "load_sets_regenerate_refuted",
    "shared_file_refuted",
    "clear_discrete_refuted",
    "gsf_constructor_nld_refuted",
    "gsf_argument_mutated_refuted",
    "gsf_new_saves",
    "results_kept_without_path",
    "fake_std_relative",
    "set_discrete_cases",
    "gsf_normalize_refuses",
    "nld_missing_input",
    "nld_discrete_argument",
    "normalised_in_MeV"
   ],
   "note": "Saving, loading, torn files and repeated normalisation are proved. The arguments override the attributes except where refuted: the discrete levels passed to normalize are ignored, the faked uncertainty stays, loading overwrites the regenerate flag, objects of one class share one file, and the gsf argument is changed."
  },
  {
   "property": "C67",
   "status": "partial",
   "theorems": [
    "unknown_attribute_raises",
    "field_assignment",
    "is_changed_iff",
    "is_changed_include",
    "is_changed_none",
    "save_load_restores",
    "save_load_NP",
    "load_missing",
    "extrapolation_unknown_refuted",
    "extrapolation_save_load_refuted",
    "set_Emax_refuted",
    "exclude_A_refuted",
    "default_not_reported_refuted",
    "default_list_refuted",
    "normalization_defaults",
    "extrapolation_defaults",
    "spinMass_read_only",
    "construct_keywords",
    "Emax_default",
    "extrapolation_method_refused"
   ],
   "note": "Proved for NormalizationParameters and the frozen classes. Refuted: the extrapolation models are not frozen and cannot be saved, Emax cannot be set before Sn, excluding A has no effect, a changed default is not reported."
  },
  {
   "property": "C68",
   "status": "partial",
   "theorems": [
    "ensemble_pool",
    "ensemble_pool_simultan",
    "ensemble_member_raises",
    "ensemble_sequential_partial",
    "ensemble_sequential_alike_partial",
    "sample_values",
    "samples_depend_on_processes_refuted",
    "samples_shared_refuted",
    "sequential_carry_over_refuted",
    "sequential_changes_extractor_refuted",
    "ensemble_first_raises",
    "stagewise_empty_gsf"
   ],
   "note": "With worker processes every member gets the result of normalising it alone, for every schedule. The sequential fallback does so only under stated conditions; the random samples of B are neither seeded nor independent."
  },
  {
   "property": "C69",
   "status": "partial",
   "theorems": [
    "truncnorm_quantile_partial",
    "normal_quantile_partial",
    "truncnorm_ends_partial",
    "truncnorm_increasing_partial",
    "normal_total",
    "normal_is_truncnorm",
    "truncnorm_error",
    "erfinv_range",
    "erfinv_odd",
    "erfinv_no_overshoot",
    "newton_fixpoint",
    "truncnorm_inside",
    "prior_shift_range",
    "prior_scale_nonneg",
    "prior_log_range",
    "erfinv_accurate",
    "truncnorm_accurate",
    "normal_accurate",
    "normal_order",
    "prior_shift_accurate",
    "truncnorm_inside_refuted"
   ],
   "note": "The code inverts the error function approximately: its quantiles are within 2.2e-7 of the exact ones, for all bounds and every p whose argument is not next to 1 (truncnorm_accurate, normal_accurate), and quantiles further apart than 4.4e-7 are in order. Refuted as an exact statement: there is a bound below which the result for p = 0 lies (truncnorm_inside_refuted). With an exact inverse error function the quantile is exact and increasing. If the bounds enclose 0, quantiles and priors stay inside their limits."
  },
  {
   "property": "C70",
   "status": "proved",
   "theorems": [
    "calibration_by_number",
    "calibration_by_energy",
    "calibration_rejects",
    "calibration_values"
   ],
   "note": "E_max must not lie more than half a bin below a0; the other cases are in calibration_rejects and an Example (empty array)."
  },
  {
   "property": "C71",
   "status": "proved",
   "theorems": [
    "matrix_constructor_result",
    "matrix_constructor_rejects",
    "matrix_constructor_accepts"
   ],
   "note": ""
  },
  {
   "property": "C72",
   "status": "partial",
   "theorems": [
    "verify_integrity_iff",
    "equidistant_axis_passes",
    "equidistant_check_iff",
    "equidistant_check_deviation",
    "equidistant_check_absolute_refuted",
    "verify_integrity_refusal"
   ],
   "note": "The tolerance is absolute, so axes with bins of the order of 1e-6 pass whatever their form (refuted)."
  },
  {
   "property": "C73",
   "status": "proved",
   "theorems": [
    "firstgen_subtracted_counts",
    "total_multiplicity_energy"
   ],
   "note": ""
  },
  {
   "property": "C74",
   "status": "partial",
   "theorems": [
    "untouched_objects_keep_arrays_partial",
    "programs_keep_objects_apart_partial",
    "statement_changes_target_only",
    "creating_statement_changes_nothing",
    "reachable_valid",
    "created_objects_are_independent",
    "vector_method_in_place",
    "matrix_method_in_place",
    "vector_method_copy",
    "matrix_method_copy",
    "copy_shows_the_same",
    "rebin_in_place_shares_refuted",
    "closest_in_place_shares_refuted",
    "matrix_rebin_in_place_shares_refuted",
    "matrix_std_shares_refuted",
    "projection_axis_shares_refuted",
    "both_axes_share_refuted",
    "both_axes_copy_shares_refuted",
    "row_shares_refuted",
    "vector_constructor_shows",
    "matrix_constructor_shows",
    "vector_item_assignment",
    "matrix_item_assignment"
   ],
   "note": "Holds for all programs without the statements that store or return an existing array (rebin and closest in place with an array of a variable, rebin of both axes with given mids, Matrix(std=...), projection energies, rows of a matrix); each of those has a counterexample."
  },
  {
   "property": "C75",
   "status": "partial",
   "theorems": [
    "loaded_is_generated_partial",
    "load_misses_actions_refuted"
   ],
   "note": "Holds when the actions do nothing and the listing is in numerical order; otherwise refuted."
  },
  {
   "property": "C76",
   "status": "partial",
   "theorems": [
    "rows_become_probabilities",
    "propagated_error",
    "normalisation_scale_free",
    "normalisation_fails_iff",
    "empty_row_refuted"
   ],
   "note": "A row without counts but with a non-zero error raises ZeroDivisionError (refuted)."
  },
  {
   "property": "C77",
   "status": "partial",
   "theorems": [
    "decompose_argument_partial",
    "decompose_argument_refuted",
    "decompose_without_std_refuted"
   ],
   "note": "Axes, std and state stay; the values are overwritten by the normalised ones, and std=None always raises (refuted)."
  },
  {
   "property": "C78",
   "status": "proved",
   "theorems": [
    "transform_compose",
    "cut_transform_commute",
    "objective_gauge",
    "best_fit_gauge",
    "simultaneous_gauge",
    "simultaneous_ignores_D0",
    "simultaneous_value",
    "gsf_lnlike_normal"
   ],
   "note": "About the likelihoods and their maxima; the fixed parameter bounds and the priors of the two optimisers are not invariant and not part of the statement."
  },
  {
   "property": "C79",
   "status": "partial",
   "theorems": [
    "lnlike_value_partial",
    "lnlike_order_refuted",
    "zero_bin_no_likelihood",
    "error_needs_same_binning",
    "error_value",
    "sn_point_uncertainty",
    "objective_local",
    "objective_value_partial",
    "objective_needs_same_binning"
   ],
   "note": "Exact value proved; the logarithms of the transformed std enter with half their weight, so the less likely of two parameter sets can be preferred (refuted); with an empty bin within the limits there is no likelihood at all."
  },
  {
   "property": "C80",
   "status": "partial",
   "theorems": [
    "levels_per_bin",
    "levels_total",
    "smoothing_keeps_total",
    "smoothing_stays_between",
    "levels_load_iff",
    "single_level_refuted",
    "levels_units",
    "radius_nearest",
    "weights_gaussian"
   ],
   "note": "All proved for accepted files; a file with exactly one level raises TypeError (refuted)."
  },
  {
   "property": "C81",
   "status": "partial",
   "theorems": [
    "ensemble_rebin_memberwise",
    "rebinned_member_counts",
    "ensemble_rebin_nothing",
    "rebin_then_load_refuted",
    "ensemble_rebin_shapes",
    "rebin_shape_refused"
   ],
   "note": "All proved but the last sentence: only firstgen_std.npy is rewritten, so a later load mixes old members with the new standard deviation (refuted)."
  },
  {
   "property": "C82",
   "status": "partial",
   "theorems": [
    "members_by_index_partial",
    "members_state_refuted"
   ],
   "note": "Exact characterisation proved; members asked for by a list have no state (refuted)."
  },
  {
   "property": "C83",
   "status": "proved",
   "theorems": [
    "quantile_counts",
    "quantile_missing",
    "quantile_monotone",
    "median_is_half",
    "quantile_order_free",
    "quantile_skips_missing",
    "quantile_affine",
    "quantile_mirror",
    "stats_ordered",
    "stats_percentiles_are_fractions",
    "vector_stats_meaning",
    "stats_need_all_values",
    "extend_values_refused",
    "put_row_refused"
   ],
   "note": "pandas quantile (linear interpolation, NaN skipped) and median are modelled from their documentation."
  },
  {
   "property": "C84",
   "status": "partial",
   "theorems": [
    "unify_succeeds",
    "unify_keeps_values",
    "unify_same_ends",
    "unify_lossless",
    "unify_std_kept",
    "unify_loses_refuted",
    "unify_same_ends_refuted",
    "empty_sample_refused"
   ],
   "note": "Proved: values at energies of the new grid are kept, others become NaN, and nothing is lost when the vectors are stretches of one grid with a common energy. Refuted in general: the grid is the union of two of the vectors, so values at other energies are dropped; vectors with equal end points but different energies are not unified."
  },
  {
   "property": "C85",
   "status": "partial",
   "theorems": [
    "rows_one_sample",
    "vectors_succeed",
    "all_samples_used",
    "samples_of_members",
    "list_not_limited",
    "list_too_long",
    "left_out_refuted",
    "samples_missing"
   ],
   "note": "All but the optional arguments is proved. Refuted: leaving out nld or gsf always raises ValueError (the bare except hides the failure, the empty list cannot become a column), leaving out both NameError."
  },
  {
   "property": "C86",
   "status": "proved",
   "theorems": [
    "negative_costs_1e20",
    "extracted_nonneg"
   ],
   "note": "scipy.optimize.minimize is an arbitrary function that does not increase the cost."
  },
  {
   "property": "C87",
   "status": "partial",
   "theorems": [
    "Finv_terminates",
    "Finv_quantile",
    "Finv_symmetric",
    "Finv_flat",
    "Finv_strict_refuted",
    "Finv_increasing_partial"
   ],
   "note": "Termination, the quantile within 1e-3 and symmetry are proved for all y0. Strict monotonicity fails: every number within 1e-3 of 1/2 gives exactly 0; proved instead for numbers more than 2e-3 apart."
  },
  {
   "property": "C88",
   "status": "partial",
   "theorems": [
    "extension_keeps_counts",
    "limits_contain_energies",
    "pyrhosigchi_runs",
    "gsf_energies_exact",
    "nld_energies_partial",
    "nld_energies_exact_refuted"
   ],
   "note": "Counts, totals, limits and the energies of the strength function are proved, and that nothing fails if no count lies more than the extension minus one bin above the diagonal. The energies of the level density are right up to one constant of at most half a bin (extension of at least half a bin); that it can be half a bin is proved too."
  },
  {
   "property": "C89",
   "status": "partial",
   "theorems": [
    "second_member_refused",
    "saved_members"
   ],
   "note": "Refuted: pyrhosigchi rebins the shared matrix of uncertainties in place, so every run that ends normally has computed at most one member (for every ensemble whose axis is extended, which is always the case with the default of 800 keV and bins below 1600 keV). Members with saved results are returned unchanged."
  },
  {
   "property": "C90",
   "status": "partial",
   "theorems": [
    "find_limits_select",
    "find_limits_beyond",
    "find_limits_wraps_refuted",
    "pad_matrix_keeps_counts",
    "pad_matrix_axes",
    "extract_stops"
   ],
   "note": "Proved for limits on the axis. An Ex_max beyond it raises IndexError; an Ex_min below it selects rows from the top end by negative indices (refuted)."
  },
  {
   "property": "C91",
   "status": "partial",
   "theorems": [
    "errors_are_rms",
    "errors_order",
    "errors_nonneg",
    "errors_zero",
    "errors_nan_refuted",
    "perturbed_counts"
   ],
   "note": "Proved whenever the analysis gives numbers. It does not always: one draw that empties a row of a good matrix makes all errors nan (refuted for totality)."
  },
  {
   "property": "C92",
   "status": "partial",
   "theorems": [
    "dir_spectra",
    "dir_refuses",
    "zip_spectra_partial",
    "zip_spectra_in_order_of_energy",
    "zip_energies",
    "zip_energies_partial",
    "zip_loads_iff",
    "zip_dir_agree",
    "zip_spectra_refuted",
    "zip_energies_refuted",
    "zip_calibration_refuted",
    "zip_dir_names_refuted",
    "dir_table",
    "zip_without_rows",
    "zip_single_number_refused",
    "vector_tar_refused",
    "table_refused",
    "row_refused"
   ],
   "note": "Proved in full for a directory. For an archive the pairing holds only if the table is sorted, the energies only without a constant term, and spectra of other calibrations are accepted; each is refuted by an example."
  },
  {
   "property": "C93",
   "status": "partial",
   "theorems": [
    "standard_arguments",
    "rhosigchi_arguments",
    "unknown_algorithm",
    "algorithms_same_arguments_refuted",
    "limits_of_last_trapezoid",
    "limits_missing",
    "rsc_uncertainty_refuted",
    "rsc_nan",
    "rsc_units",
    "algorithms_same_units_refuted",
    "rsc_strength_sign",
    "rsc_unconstrained",
    "rsc_uncertainty_is_mean",
    "rsc_relative_std",
    "entry_errors"
   ],
   "note": "Proved: which arguments each algorithm runs with, the limits, nan and sign of the results. Refuted: a stored ensemble does not serve rhosigchi (AttributeError), the uncertainties are the mean of the members, the strength functions differ by 10^9."
  },
  {
   "property": "C94",
   "status": "partial",
   "theorems": [
    "guess_shape",
    "guess_units",
    "guess_methods",
    "randomised_start_positive",
    "guess_bounded_refuted",
    "guess_single_refuted",
    "guess_units_refuted",
    "guess_is_transformed_fermi_gas",
    "guess_values",
    "guess_shape_refused"
   ],
   "note": "Proved over the reals for every increasing axis with two energies or more. Refuted: the default guess is unbounded when an energy lies just above -0.2 MeV, a single energy gives nan (the assertion on finiteness tests a method object and never fails), and an axis in keV that ends at or below 100 keV is taken to be in MeV."
  },
  {
   "property": "C95",
   "status": "partial",
   "theorems": [
    "digits_suffice",
    "txt_exact",
    "mama_number_error",
    "mama_stable",
    "mama_counts_error",
    "mama_counts_stable",
    "mama_axis_error",
    "mama_binning_kept",
    "mama_exact_refuted",
    "mama_binning_refuted",
    "close_same"
   ],
   "note": "Decimal printing and reading with the correct rounding (Flocq), doubles without overflow. That a mama file keeps the doubles, or the binning of an axis that starts below zero, is refuted."
  },
  {
   "property": "C96",
   "status": "partial",
   "theorems": [
    "interp1_own_axis",
    "interp1_commute",
    "interp2_value",
    "interp2_own_axes_partial",
    "interp2_own_axes_refuted",
    "interp_errors"
   ],
   "note": "The product spline of degree one is linear interpolation in each variable (scipy semantics). The identity on its own axes is refuted for the two-dimensional function: the comparison with the bounds is <= and >=, so the border is lost."
  },
  {
   "property": "C97",
   "status": "partial",
   "theorems": [
    "search_is_last_call",
    "search_fails_iff",
    "call_line_name",
    "call_sites_ok",
    "self_if_none_effect",
    "call_line_refuted",
    "split_call_raises",
    "word_characters"
   ],
   "note": "The regular expression is matched with its greedy semantics, ASCII only. That the name is right whatever stands on the line is refuted."
  },
  {
   "property": "C98",
   "status": "proved",
   "theorems": [
    "float_rebin_error",
    "float_rebin_no_int_overflow",
    "float_rebin_nonneg",
    "float_rebin_total",
    "float_rebin_vs_exact"
   ],
   "note": "Rounding is Flocq's round-to-nearest-even in the binary64 format without overflow; no fused multiply-add (rebin.pyx is compiled without -ffast-math)."
  },
  {
   "property": "C99",
   "status": "partial",
   "theorems": [
    "float_sum_error",
    "float_sum_orders",
    "float_sum_above",
    "float_index_closest",
    "float_index_exact",
    "float_row_exact",
    "float_product_accurate",
    "float_product_sum",
    "float_product_vs_exact",
    "float_chi_accurate",
    "chi_guard_refuted"
   ],
   "note": "Refuted part: the guard std == 0 does not protect the division by std**2 (2^-540 squares to zero). Everything else proved under range conditions that exclude overflow and underflow. Not covered: a multiply-add fused into the running sum, flush-to-zero mode."
  },
  {
   "property": "C100",
   "status": "partial",
   "theorems": [
    "parse_render",
    "mama_matrix_text",
    "mama_spectrum_text",
    "shows_unique",
    "shows_some",
    "mama_matrix_doubles",
    "mama_spectrum_doubles",
    "mama_comment_refuted",
    "read_response_raises",
    "mama_matrix_header",
    "mama_spectrum_header",
    "is_space_codes",
    "mama_columns",
    "floats_result",
    "mama_read_refuses"
   ],
   "note": "The full statement for every comment is refuted by mama_comment_refuted: a comment with a line break moves the calibration line.  nan, inf, the sign of zero and characters outside latin-1 are not modelled."
  },
  {
   "property": "C101",
   "status": "partial",
   "theorems": [
    "savetxt_loadtxt",
    "txt_vector_bits",
    "txt_matrix_bits",
    "shown_exists",
    "txt_header_false_refuted",
    "txt_header_return_refuted",
    "txt_no_rows_refused",
    "txt_no_columns_refused",
    "txt_one_bin_refused",
    "loadtxt_ragged_refused"
   ],
   "note": "The full statement for every header argument is refuted: header=False raises (txt_header_false_refuted), a carriage return in the header adds a bin (txt_header_return_refuted).  nan, inf and the sign of zero are not modelled."
  },
  {
   "property": "C102",
   "status": "partial",
   "theorems": [
    "results_three_names",
    "results_suffix_injective",
    "results_suffix_refuted",
    "results_saved",
    "ensemble_results_saved",
    "ensemble_results_stale",
    "results_torn_refuted",
    "results_broadcast_refuted"
   ],
   "note": "Refuted for suffixes with a point, for a directory in which more members were saved before, for samples of different lengths (the other two files are already replaced) and for a parameter with a single sample (repeated silently)."
  },
  {
   "property": "C103",
   "status": "proved",
   "theorems": [
    "oslo_unique",
    "oslo_solutions",
    "oslo_one_row_refuted"
   ],
   "note": "Converse of C48. The hypothesis staircase describes which bins are filled (two or more in every row but the first, the last row reaches furthest and at most one bin further than the row before); oslo_one_row_refuted shows that two rows are needed."
  },
  {
   "property": "C104",
   "status": "partial",
   "theorems": [
    "poisson_member_mean",
    "gaussian_member_mean",
    "background_member_mean_partial",
    "background_member_mean_refuted"
   ],
   "note": "The full statement (averages equal to the counts, also with a background) is refuted: the cut at zero biases gaussian and background-subtracted members upwards (background_member_mean_refuted). Averages are proved exactly for Poisson members, and as lower bounds with the exact condition for equality otherwise. Actions are taken as empty."
  },
  {
   "property": "C105",
   "status": "partial",
   "theorems": [
    "i_from_E_nearest",
    "lib_cut_keeps_above",
    "lib_cut_vertical",
    "lib_cut_rejects"
   ],
   "note": "The kept region is the set on or above the line in bin coordinates, for all matrices and all pairs of points in different Eg bins; a vertical line clears the whole matrix (lib_cut_vertical, the code only emits a numpy warning), so the last part of the claim fails. Empty axes or a matrix of another shape raise ValueError."
  },
  {
   "property": "C106",
   "status": "proved",
   "theorems": [
    "simultan_result_is_likelihood",
    "simultan_result_default_ranges",
    "simultan_result_empty"
   ],
   "note": "Curves over the reals; the fit of the extrapolation models is an arbitrary function."
  },
  {
   "property": "C107",
   "status": "proved",
   "theorems": [
    "mama_matrix_too_large",
    "mama_vector_too_large",
    "refused_save_writes_nothing",
    "save_matrix_refusals",
    "cut_empty_axis",
    "state_names",
    "load_matrix_refused",
    "load_vector_refused",
    "load_wrong_format",
    "fluctuations_defined",
    "firstgen_empty",
    "load_csv_refused",
    "save_vector_units",
    "load_numpy_refused",
    "load_text_refused",
    "tweaks_complete",
    "limits_need_two_bins",
    "samples_empty",
    "eval_missing",
    "mama_short_vector",
    "load_tar_refused",
    "loadtxt_flat",
    "flat_text_refused",
    "unknown_units_refused"
   ],
   "note": "On the file system model of FileModel.v; the interruption of a write is C33/C92."
  },
  {
   "property": "C108",
   "status": "partial",
   "theorems": [
    "step_formula",
    "rhosigchi_descends_partial",
    "exact_solution_lost_refuted",
    "no_uncertainty_lost_refuted"
   ],
   "note": "step_formula: closed form of one step for all inputs that fit the limits. rhosigchi_descends_partial: with chi square over the real numbers (Coquelicot), for a region without bins above the diagonal (iu0 = 0) and with positive uncertainties. With bins above the diagonal, or bins without uncertainty, the update leaves out terms and exact solutions are lost (the two refuted theorems)."
  },
  {
   "property": "C109",
   "status": "partial",
   "theorems": [
    "multiplicity_of_cascades",
    "firstgen_keeps_primary",
    "firstgen_error",
    "firstgen_stays_exact",
    "allgen_is_cascade_matrix",
    "firstgen_allgen_round_trip",
    "firstgen_converged_counts",
    "primary_unique_refuted",
    "firstgen_statistical_refuted",
    "firstgen_offset_refuted"
   ],
   "note": "Proved for axes that start at 0 and the total multiplicity (or the statistical one with nothing left out). Refuted by example: the default statistical multiplicity, axes that start one bin above 0, and uniqueness of the primary spectra. Convergence from the data to the true spectra is not claimed: it is false where two sets of primary spectra give the same matrix."
  },
  {
   "property": "C110",
   "status": "partial",
   "theorems": [
    "oslo_gauge",
    "gsf_normalize_gauge",
    "gsf_normalize_gauge_least_squares",
    "least_squares_follows",
    "gsf_normalize_gauge_fixed_refuted"
   ],
   "note": "Proved for extrapolations fitted by least squares (unique best parameters); refuted for extrapolations with fixed parameters, whose shift refers to the arbitrary scale of the input."
  },
  {
   "property": "C111",
   "status": "partial",
   "theorems": [
    "truth_best_refuted",
    "truth_best_gauge_refuted",
    "likelihood_scale_biased",
    "best_scale_relative",
    "truth_deviates_least",
    "lnlike_terms"
   ],
   "note": "Refuted for every data set: the logarithm of the transformed uncertainties in lnlike favours small scales. Proved: the deviations alone are least (zero) at the truth, and the exact biased scale along the scale parameter."
  },
  {
   "property": "C112",
   "status": "partial",
   "theorems": [
    "unfold_converges_refuted",
    "unfold_error",
    "unfold_error_bound",
    "spread_meaning",
    "unfold_converges",
    "unfold_noise_bound",
    "unfold_apply_truth"
   ],
   "note": "Refuted for a stochastic, invertible response (most counts in the neighbouring bin): the distance to the truth grows by 6/5 in each iteration. Proved: the exact error t(I-R)^(k+1); geometric convergence if every response function has spread at most q<1 (for distributions: more than half of the counts in the full-energy bin); convergence in every bin for responses that never put counts above the true energy; noise is amplified by at most 1/(1-q); what apply returns is within q^(min_iter+1) of the truth."
  },
  {
   "property": "C113",
   "status": "proved",
   "theorems": [
    "oslo_method_truth",
    "oslo_method_width"
   ],
   "note": "Chains C103, C110 and the change of units. Bins the matrix does not depend on are excluded by hypothesis; that the level-density normaliser itself does not hit the truth exactly is C111."
  },
  {
   "property": "C114",
   "status": "partial",
   "theorems": [
    "bounds_named",
    "bounds_order_refuted",
    "guess_moved_bounds",
    "guess_same_bounds_partial",
    "guess_same_bounds_refuted",
    "prior_raises",
    "prior_scale_gauge",
    "prior_log_uniform",
    "prior_slope_refuted",
    "scale_between",
    "no_warning_best_scale",
    "prior_of_guess"
   ],
   "note": "Refuted for a dict of bounds in another order, for scales or slopes beyond the quotient of the bounds and for the prior of the slope. Proved: bounds by name in the default order, equal results where the best fit is within the bounds or the bounds move along, the prior of the scale follows the guess, the likelihood has one maximum along the scale, so no warning means the best scale. The optimisers themselves are an idealisation: the largest likelihood within the bounds."
  },
  {
   "property": "C115",
   "status": "partial",
   "theorems": [
    "zeros_matrix_made_partial",
    "zeros_matrix_refuses",
    "zeros_matrix_std_refuted",
    "matrix_of_shape",
    "matrix_of_axes",
    "matrix_without_values_refuted",
    "vector_of_float_energies",
    "vector_of_integer_energies_partial",
    "vector_of_integer_energies_refuted"
   ],
   "note": "Refuted: ZerosMatrix(std=True) always raises AttributeError; a Matrix without values and without one axis is accepted unchecked; Vector(E=integers) holds integers. Proved: everything else, as an equivalence for ZerosMatrix without std."
  },
  {
   "property": "C116",
   "status": "partial",
   "theorems": [
    "nld_bands",
    "gsf_bands_fitted",
    "gsf_bands_scale",
    "sample_curve_is_reported",
    "gsf_bands_fixed",
    "gsf_bands_fixed_refuted",
    "ext_stats_refuse"
   ],
   "note": "Proved for the level density and for fitted extrapolations of the strength function. Refuted for extrapolations with given parameters (method \"fix\"): the unscaled curve is drawn for every sample, a band of width zero that does not follow the normalisation."
  },
  {
   "property": "C117",
   "status": "partial",
   "theorems": [
    "default_window",
    "default_windows_apart",
    "given_window",
    "window_kept_partial",
    "own_window_refuted",
    "fit_keV_refuted",
    "fit_refuses"
   ],
   "note": "Proved for axes in MeV with at least 8 bins and for every given range. Refuted: the default range of the first strength function is kept for every later one (own_window_refuted); for an axis in keV the range in MeV is looked up as if in keV, so that the fit raises TypeError (fit_keV_refuted)."
  },
  {
   "property": "C118",
   "status": "partial",
   "theorems": [
    "sampler_report",
    "optimize_report",
    "shown_uncertainty",
    "member_files_distinct",
    "smaller_numbers_run_partial",
    "optimize_refuses",
    "zero_width_refuted",
    "member_number_refuted"
   ],
   "note": "Refuted: a parameter whose 1 sigma interval has no width makes the formatting raise OverflowError after the run (zero_width_refuted); an ensemble can work up to member 9 and fail at member 10 because the path becomes too long (member_number_refuted). Proved: the rest, and that a number that is too long stays too long for larger numbers."
  },
  {
   "property": "C119",
   "status": "partial",
   "theorems": [
    "sim_no_memory",
    "sim_order_free",
    "sim_stateless",
    "sim_repeat",
    "sim_inputs_kept",
    "sim_refuses",
    "sim_interrupted_refuted",
    "sim_interrupted_D0_refuted"
   ],
   "note": "Refuted after a call that fails or is interrupted during or after the sampling: the flags that replace standard deviations by 30 % stay set and D0 of the held normaliser stays at the last point of the sampler, with uncertainty nan. Proved: everything else, also that flags left set do no harm to vectors without standard deviation when a normaliser is given anew (flags_fit in sim_stateless). The numerical parts (guess, likelihood of the level density, Gg, curve_fit) are arbitrary functions; Vector.transform is assumed to keep energies and unit."
  },
  {
   "property": "C120",
   "status": "partial",
   "theorems": [
    "rhosigchi_schedule",
    "rhosigchi_reach",
    "rhosigchi_span",
    "rhosigchi_double_ratio",
    "rhosigchi_reach_refuted"
   ],
   "note": "Proved: the limits on the changes, for every iteration and over the whole default run (every entry ends at zero or within a factor 11.5 of its start; two entries of the level density differ by less than a factor 133). Refuted: reproduction of every exact product, since the double ratios that the matrix determines (the exponential and the factor left free cancel) are below 17491 in any result."
  },
  {
   "property": "C121",
   "status": "partial",
   "theorems": [
    "plot_keeps_matrix",
    "plot_shows_bins",
    "plot_scale",
    "plot_unequal_refuted",
    "ascii_shades",
    "ascii_monotone",
    "ascii_refuses",
    "ascii_shape_refuted",
    "ticks_near",
    "ticks_are_bins",
    "ticks_mev_refuted",
    "ticks_overflow_refuted",
    "ticks_halves_even"
   ],
   "note": "Proved for axes of equal bins: cells, pointer, scale, refusals, shades; ticks at centres of bins up to 21 bins or when at most 80 percent of the data are in view, and within 50 of a centre always. Refuted: axes of unequal bins (an entry is drawn away from its energy), the shape of the ascii picture (the argument is ignored), ticks of an axis in MeV (rounded to multiples of 10) and of an axis ending at 0 (OverflowError)."
  },
  {
   "property": "C122",
   "status": "partial",
   "theorems": [
    "plot_exact_dyadic",
    "plot_drift_bound",
    "plots_drift_bound",
    "plot_drift_refuted"
   ],
   "note": "Proved: nothing moves if all energies are multiples of a power of two (whole numbers of keV); otherwise one plot moves no energy by more than 24 rounding errors of the largest, and n plots by at most n times 64. Refuted: bins at 0.1 and 0.3 (MeV, say) lie at 0.10000000000000002 and 0.30000000000000004 afterwards. Overflow is not modelled."
  },
  {
   "property": "C123",
   "status": "partial",
   "theorems": [
    "selection_draws",
    "selection_too_many",
    "drawn_extrapolations",
    "fixed_model_not_drawn",
    "plot_legend",
    "plot_legend_refuted",
    "plot_no_samples",
    "plot_no_samples_refuted",
    "plot_negative",
    "plot_figure",
    "plot_figure_refuted",
    "plot_positions_fixed",
    "stats_fits",
    "missing_value_refused",
    "stats_fit_drawn",
    "stats_fit_refuted",
    "stats_fit_fails_refuted",
    "stats_energies",
    "stats_energies_backwards",
    "nld_panel_curve",
    "nld_panel_refuses",
    "gsf_panel_curves",
    "gsf_panel_refuses",
    "fit_accepts",
    "fit_sigma_refused"
   ],
   "note": "Proved: the selection, the fits drawn, the energies; legend and n_plot=0 if error bars have caps; the figure unless return_stats is used alone; the fits behind the bands if all samples start and end at the same energies. Refuted: legend and n_plot=0 with matplotlib's default error bars, the figure with return_stats alone, the fits behind the bands for samples of different ranges."
  },
  {
   "property": "C124",
   "status": "partial",
   "theorems": [
    "import_in_clone",
    "import_installed",
    "import_git_fails",
    "import_before_build",
    "import_version_partial",
    "import_directory",
    "import_version_refuted",
    "build_in_clone",
    "build_without_git_refuted",
    "build_without_git_first",
    "build_without_git_again",
    "build_warning_refuted",
    "openmp_choice",
    "openmp_arguments",
    "example_raw_path",
    "listed_examples_load",
    "example_response_refuted",
    "disjoint_rows_shape",
    "disjoint_rows_documented_refuted",
    "lower_alphabet"
   ],
   "note": "Proved: import in a clone and installed, build in a clone and agreement of the versions, OpenMP, paths of the raw examples, shape of disjoint_rows. Refuted: builds without .git, with warnings of git, the working directory after a failed import, example_response, the documented picture of disjoint_rows."
  },
  {
   "property": "C125",
   "status": "partial",
   "theorems": [
    "new_action_made",
    "new_action_refuses",
    "recorded_names",
    "own_methods_kept",
    "inherited_refuted",
    "chain_records",
    "chain_stops",
    "derived_refuted",
    "copy_refuted",
    "inherited_names_refuted"
   ],
   "note": "Proved: construction, the names recorded, the order and place of chains, refusals. Refuted: inherited methods (copy, verify_equdistant, arithmetic) are not recorded; derived Actions are the same object; calls on a deep copy go to the original."
  },
  {
   "property": "C126",
   "status": "partial",
   "theorems": [
    "std_plot_axes_refuted",
    "std_plot_limits",
    "std_plot_given",
    "std_plot_order",
    "std_plot_scale_partial",
    "std_plot_scale_refuted",
    "std_plot_limits_refuted",
    "std_plot_refuses",
    "std_plot_made",
    "vector_plot_partial",
    "vector_bar_refuted",
    "vector_kind_refuted",
    "plot_projection_shows",
    "plot_projection_refuses"
   ],
   "note": "Proved: the limits, arrows and when the pictures are made; one scale for all if it is given; the kinds line, plot and step without uncertainties; projections. Refuted: any given ax, one colour bar for automatic scales, the order and reach of automatic limits, kind 'bar', kinds with uncertainties."
  }
 ]
}
