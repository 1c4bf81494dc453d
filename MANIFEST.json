{
 "claims": [
  {
   "property": "C01",
   "status": "proved",
   "theorems": [
    "c01_no_code",
    "c01_few_hashes",
    "c01_round_trip",
    "c01_reader_round_trip",
    "c01_reserved_string_refuted",
    "c01_unknown_dtype_refuted"
   ],
   "note": "Round trip for every history; the two side conditions (reserved string start, dtype name known to numpy) are shown necessary by the refuted theorems. Texts that look like arrays are never evaluated with other characters than those of shapes."
  },
  {
   "property": "C02",
   "status": "proved",
   "theorems": [
    "c02_archive_names_distinct",
    "c02_one_entry_per_array"
   ],
   "note": "Names distinct after every history; one entry per stored array."
  },
  {
   "property": "C03",
   "status": "proved",
   "theorems": [
    "c03_write_context"
   ],
   "note": ""
  },
  {
   "property": "C04",
   "status": "proved",
   "theorems": [
    "c04_time_index",
    "c04_field_index",
    "c04_unknown_time",
    "c04_unknown_field",
    "c04_time_field_agree",
    "c04_iteration",
    "c04_duplicate_times_refuted"
   ],
   "note": "Time index is the first record, field index the last one; agreement for distinct times; disagreement witness for repeated times."
  },
  {
   "property": "C05",
   "status": "proved",
   "theorems": [
    "c05_interval_every_n",
    "c05_interval_any_value"
   ],
   "note": "For any integer or real interval and every interleaving of new_step and is_active."
  },
  {
   "property": "C06",
   "status": "proved",
   "theorems": [
    "c06_time_interval_counter",
    "c06_never_early",
    "c06_exact_count",
    "c06_documented_schedule_refuted"
   ],
   "note": "Counter semantics, never early, exact count under a spacing condition; the documented schedule is refuted when calls are sparser."
  },
  {
   "property": "C07",
   "status": "proved",
   "theorems": [
    "c07_n_outputs_queue",
    "c07_linspace_evenly_spaced",
    "c07_step_times_queue",
    "c07_never_early",
    "c07_at_most_the_targets",
    "c07_served_by_first_call"
   ],
   "note": ""
  },
  {
   "property": "C08",
   "status": "proved",
   "theorems": [
    "c08_global_leaky_queue",
    "c08_empty_rejected",
    "c08_in_order_never_early",
    "c08_first_time_ignored",
    "c08_single_time_never_fires_refuted"
   ],
   "note": "The first global time is dropped at the first call, so a single time never fires (refuted theorem); the exact answers are characterised."
  },
  {
   "property": "C09",
   "status": "proved",
   "theorems": [
    "c09_one_record",
    "c09_nothing_without_requests"
   ],
   "note": "For every request list, state, set order and exec behaviour."
  },
  {
   "property": "C10",
   "status": "proved",
   "theorems": [
    "c10_missing_field_value",
    "c10_missing_not_written_refuted"
   ],
   "note": "The intended property is refuted for every missing name not starting with surface; the exact value is characterised."
  },
  {
   "property": "C11",
   "status": "proved",
   "theorems": [
    "c11_insertion_order",
    "c11_first_step_kept",
    "c11_solved_in_order"
   ],
   "note": "Order over every history on any number of models; step.solve is an arbitrary function."
  },
  {
   "property": "C12",
   "status": "proved",
   "theorems": [
    "c12_second_add_raises",
    "c12_at_most_one_model",
    "c12_unknown_position",
    "c12_name_reused"
   ],
   "note": "Also: a call with an unknown position name raises but uses up the step; reusing a name with an index may drop the new step."
  },
  {
   "property": "C13",
   "status": "proved",
   "theorems": [
    "c13_listed_steps",
    "c13_unknown_name",
    "c13_all_steps"
   ],
   "note": ""
  },
  {
   "property": "C14",
   "status": "proved",
   "theorems": [
    "c14_course",
    "c14_time_is_sum",
    "c14_files_closed"
   ],
   "note": "For any steps that advance the time by their duration (proved for the static and quasi static steps under C46 and C47)."
  },
  {
   "property": "C15",
   "status": "proved",
   "theorems": [
    "c15_pair_recovers_material",
    "c15_lam_v_refuted",
    "c15_E_M_auxetic_refuted"
   ],
   "note": "All pairs in both orders except Lam/v (always TypeError) and E/M with negative v (another material), both given as refuted theorems for all values."
  },
  {
   "property": "C16",
   "status": "proved",
   "theorems": [
    "c16_wrong_number",
    "c16_unknown_name",
    "c16_accepts",
    "c16_missing_value"
   ],
   "note": ""
  },
  {
   "property": "C17",
   "status": "proved",
   "theorems": [
    "c17_own_values",
    "c17_own_material",
    "c17_construct_refuted",
    "c17_construct_lam_refuted",
    "c17_assign_refuted",
    "c17_delete_drops_all",
    "c17_delete_refuted"
   ],
   "note": "For every history over one pair of properties; the unconditional claim is refuted by four theorems."
  },
  {
   "property": "C18",
   "status": "proved",
   "theorems": [
    "c18_memo_transparent",
    "c18_method_variant_refuted"
   ],
   "note": "Arguments are compared by an equivalence that the wrapped function respects; the method variant is refuted."
  },
  {
   "property": "C19",
   "status": "proved",
   "theorems": [
    "c19_cache_sorted",
    "c19_evaluation_adds",
    "c19_clear",
    "c19_clear_twice_refuted",
    "c19_cache_transparent",
    "c19_transparent_with_nodes_refuted"
   ],
   "note": "For every history and every solver; cache_max is False as in the constructor."
  },
  {
   "property": "C20",
   "status": "proved",
   "theorems": [
    "c20_bracket",
    "c20_above",
    "c20_empty_cache",
    "c20_within_interval_refuted",
    "c20_no_load_refuted"
   ],
   "note": ""
  },
  {
   "property": "C21",
   "status": "proved",
   "theorems": [
    "c21_results_after_new_height",
    "c21_read_again",
    "c21_cached_height_refuted",
    "c21_no_contact_refuted",
    "c21_then_no_contact_refuted",
    "c21_other_materials_refuted"
   ],
   "note": "Positive part and four refuted parts for all histories."
  },
  {
   "property": "C22",
   "status": "proved",
   "theorems": [
    "c22_wear_is_conserved",
    "c22_untouched_points",
    "c22_other_grid_points"
   ],
   "note": "For every history of wear calls and profile assignments, including failing calls."
  },
  {
   "property": "C23",
   "status": "proved",
   "theorems": [
    "c23_wear_location",
    "c23_large_spacing_refuted",
    "c23_wrap_around_refuted"
   ],
   "note": "Location exact for spacings below 2 and indices below 2^16; both conditions shown necessary."
  },
  {
   "property": "C24",
   "status": "proved",
   "theorems": [
    "c24_removed_volume",
    "c24_removed_volume_any",
    "c24_last_depth_counts",
    "c24_coinciding_refuted"
   ],
   "note": ""
  },
  {
   "property": "C25",
   "status": "proved",
   "theorems": [
    "c25_consistent",
    "c25_exact_without_profile",
    "c25_after_division_by_zero_refuted",
    "c25_spacing_kept_refuted"
   ],
   "note": "Invariant over all eight setters and deleters; two refuted theorems show the limits."
  },
  {
   "property": "C26",
   "status": "proved",
   "theorems": [
    "c26_single_value",
    "c26_list_marks_nothing",
    "c26_list_refuted"
   ],
   "note": "Single values exact; lists refuted for every profile and list."
  },
  {
   "property": "C27",
   "status": "proved",
   "theorems": [
    "c27_add_number",
    "c27_add_sub_surfaces",
    "c27_resampled",
    "c27_sub_number_refuted"
   ],
   "note": "Subtraction of a number refuted for every number but zero; resampling is an arbitrary function."
  },
  {
   "property": "C28",
   "status": "proved",
   "theorems": [
    "c28_rotations_and_shifts",
    "c28_centred",
    "c28_combination",
    "c28_discretise"
   ],
   "note": ""
  },
  {
   "property": "C29",
   "status": "proved",
   "theorems": [
    "c29_point_below",
    "c29_nearest_refuted"
   ],
   "note": "Refuted for every position in the upper half of a cell; the truncating behaviour is characterised."
  },
  {
   "property": "C30",
   "status": "proved",
   "theorems": [
    "c30_smallest_gap",
    "c30_interference_shifts"
   ],
   "note": "For all surfaces, off sets, interpolation functions and modes."
  },
  {
   "property": "C31",
   "status": "proved",
   "theorems": [
    "c31_plain",
    "c31_periodic",
    "c31_analytic",
    "c31_whole_extents",
    "c31_same_sign_refuted"
   ],
   "note": "The three conventions are characterised exactly for off sets of whole grid points (analytical: all off sets); agreement refuted."
  },
  {
   "property": "C32",
   "status": "proved",
   "theorems": [
    "c32_past",
    "c32_part_ignored_refuted",
    "c32_whole_points",
    "c32_fractional_refuted",
    "c32_silent_refuted",
    "c32_within"
   ],
   "note": "Whole grid points and every off set that keeps the first surface inside fit; surfaces past each other are refused. Every fractional off set between zero and one spacing fails for equal shapes of 3 or more rows, is silently wrong for 2 rows, and in the negative direction is ignored."
  },
  {
   "property": "C33",
   "status": "proved",
   "theorems": [
    "c33_round_trip",
    "c33_monotone",
    "c33_scale"
   ],
   "note": ""
  },
  {
   "property": "C34",
   "status": "proved",
   "theorems": [
    "c34_planned",
    "c34_non_periodic",
    "c34_point_load",
    "c34_domain",
    "c34_several_directions",
    "c34_missing_load",
    "c34_cuda_sizes"
   ],
   "note": "The transforms are modelled as discrete Fourier transforms (FFTW: half spectrum), and the convolution theorem, padding, roll and crop are proved for every grid and span."
  },
  {
   "property": "C35",
   "status": "proved",
   "theorems": [
    "c35_periodic",
    "c35_wrap",
    "c35_shift",
    "c35_checks"
   ],
   "note": "Also for one periodic axis (c34_planned covers all four combinations)."
  },
  {
   "property": "C36",
   "status": "proved",
   "theorems": [
    "c36_centre",
    "c36_any_span",
    "c36_symmetric",
    "c36_positive",
    "c36_additive",
    "c36_additive_tangential",
    "c36_additive_refuted",
    "c36_check_refuted"
   ],
   "note": "Symmetry, centre, positivity, additivity; the refuted part is that xx and yy add up only for equal Poisson ratios, and that giving one of two parameters is not rejected."
  },
  {
   "property": "C37",
   "status": "proved",
   "theorems": [
    "c37_residual",
    "c37_wrong_convergence_refuted",
    "c37_stops",
    "c37_bounds",
    "c37_converged",
    "c37_exact_start_refuted",
    "c37_inner_refuted",
    "c37_unprojected_refuted",
    "c37_single_node_refuted"
   ],
   "note": "Operators are arbitrary functions on vectors of floats with infinities and nan (real arithmetic otherwise). The unconditional claim that a solution is found is refuted for exact starts, single nodes and inner iterations. c37_residual: the error of a converged result when the last passes changed no bound; c37_wrong_convergence_refuted: without this a converged result can be far from the solution."
  },
  {
   "property": "C38",
   "status": "proved",
   "theorems": [
    "c38_rigid",
    "c38_rigid_general",
    "c38_rigid_refuted",
    "c38_stops",
    "c38_free_points",
    "c38_solved",
    "c38_finite_termination"
   ],
   "note": "c38_finite_termination is the full finite termination theorem of conjugate gradients in real arithmetic."
  },
  {
   "property": "C39",
   "status": "proved",
   "theorems": [
    "c39_tdma",
    "c39_cyclic",
    "c39_dominant",
    "c39_singular_refuted",
    "c39_integer_refuted"
   ],
   "note": "LAPACK dgtsv is modelled as its elimination with row interchanges in real arithmetic, and proved correct."
  },
  {
   "property": "C40",
   "status": "proved",
   "theorems": [
    "c40_guess_refuted",
    "c40_mutation_refuted",
    "c40_twice_refuted"
   ],
   "note": "Refuted for every input: c40_mutation_refuted, c40_twice_refuted, c40_guess_refuted."
  },
  {
   "property": "C41",
   "status": "proved",
   "theorems": [
    "c41_current"
   ],
   "note": "For every history, including failed sweeps; also the errors for missing parameters and zero divisors."
  },
  {
   "property": "C42",
   "status": "proved",
   "theorems": [
    "c42_round_trip",
    "c42_scales"
   ],
   "note": ""
  },
  {
   "property": "C43",
   "status": "proved",
   "theorems": [
    "c43_bounds",
    "c43_runs"
   ],
   "note": "Bounds, frame and success; for histories on one grid length, see C81 for the others."
  },
  {
   "property": "C44",
   "status": "proved",
   "theorems": [
    "c44_names",
    "c44_missing",
    "c44_models",
    "c44_constructor",
    "c44_constants",
    "c44_solve",
    "c44_error",
    "c44_check",
    "c44_refused",
    "c44_check_refuted",
    "c44_default_refuted"
   ],
   "note": "Order, replacement, fold and frame for every history; accepted names and missing arguments characterised; data check sound for functions it can judge, refuted for keyword only and positional only arguments."
  },
  {
   "property": "C45",
   "status": "proved",
   "theorems": [
    "c45_reference",
    "c45_increasing",
    "c45_density_bounds",
    "c45_scaled",
    "c45_small_viscosity_refuted"
   ],
   "note": "Roelands increases only for reference viscosities above exp(-9.67), refuted below."
  },
  {
   "property": "C46",
   "status": "proved",
   "theorems": [
    "c46_construct",
    "c46_time",
    "c46_consistent",
    "c46_interference",
    "c46_loads_lost_refuted",
    "c46_no_contact_refuted",
    "c46_load",
    "c46_relative_converged_refuted",
    "c46_relative_first_refuted",
    "c46_unloading_refuted"
   ],
   "note": "Constructor, time, interference control and consistency for all worlds and previous states; the solver and root finder are arbitrary. Refuted parts: no contact, relative load convergence, unloading."
  },
  {
   "property": "C47",
   "status": "proved",
   "theorems": [
    "c47_times",
    "c47_interference",
    "c47_load",
    "c47_off_set",
    "c47_consistent",
    "c47_solved",
    "c47_interference_refuted"
   ],
   "note": "Times, offsets, interference and loads of every sub step, consistency, and solvability under contact; the root finder is arbitrary. Sub models are assumed not to overwrite the entry in question. Refuted: with a prescribed load the interference and gap of a converged sub step belong to its loads."
  },
  {
   "property": "C48",
   "status": "proved",
   "theorems": [
    "c48_relative",
    "c48_relative_load",
    "c48_constant_refuted",
    "c48_nothing_refuted"
   ],
   "note": "Positive for two values; refuted for constants and for nothing set."
  },
  {
   "property": "C49",
   "status": "proved",
   "theorems": [
    "c49_accepts",
    "c49_errors",
    "c49_fast_refuted"
   ],
   "note": "Exact acceptance condition and errors; the fast option is accepted but never solved."
  },
  {
   "property": "C50",
   "status": "proved",
   "theorems": [
    "c50_film",
    "c50_converged",
    "c50_iterations",
    "c50_fuel",
    "c50_limit_refuted"
   ],
   "note": "Holds for every solver; the iteration bound is max_it + 2."
  },
  {
   "property": "C51",
   "status": "proved",
   "theorems": [
    "c51_ignored_refuted",
    "c51_previous"
   ],
   "note": "Refuted for every pair of guesses; what is used instead is stated."
  },
  {
   "property": "C52",
   "status": "proved",
   "theorems": [
    "c52_constructor",
    "c52_default_refuted",
    "c52_deformation",
    "c52_volume",
    "c52_cells",
    "c52_unconverged",
    "c52_shared_cell_refuted",
    "c52_spacing_refuted",
    "c52_history"
   ],
   "note": "Worn points, depths, reported deformation and removed volume for every state; history without time. Refuted parts: leaving out the second proportion raises, two nodes over one cell, two grid spacings."
  },
  {
   "property": "C53",
   "status": "proved",
   "theorems": [
    "c53_stiffness",
    "c53_stiffness_names",
    "c53_friction",
    "c53_sliding",
    "c53_wear",
    "c53_unconverged_refuted",
    "c53_partial_slip_refuted"
   ],
   "note": "Contact stiffness, friction and sliding for every option. Also wear; refuted for wear of a state that did not converge and for partial slip (both return entries which are not announced)."
  },
  {
   "property": "C54",
   "status": "proved",
   "theorems": [
    "c54_limit",
    "c54_directions",
    "c54_sliding",
    "c54_zero_direction_refuted",
    "c54_negative_refuted"
   ],
   "note": "Exact magnitude and direction for every non zero direction. Refuted: zero direction accepted with all loads lost, negative coefficient accepted."
  },
  {
   "property": "C55",
   "status": "proved",
   "theorems": [
    "c55_partition",
    "c55_bounds",
    "c55_state",
    "c55_stops",
    "c55_load_refuted",
    "c55_backwards_refuted",
    "c55_extrapolation_refuted",
    "c55_arguments",
    "c55_displacement",
    "c55_components"
   ],
   "note": "Partition, bounds and kept entries for every operator. The bounds of the solver allow not a number. Refuted: load control is never solved, non positive displacement loses all loads, tables are continued with the last slope instead of the last value."
  },
  {
   "property": "C56",
   "status": "proved",
   "theorems": [
    "c56_mask_refused",
    "c56_whole_mask_refuted",
    "c56_values",
    "c56_case",
    "c56_sa_sq",
    "c56_sku",
    "c56_sku_ssk",
    "c56_no_flattening_refuted",
    "c56_scale",
    "c56_tilt",
    "c56_value_mask_refuted"
   ],
   "note": "Exact values for any good least squares routine (one is constructed); inequalities for every input; Sku >= Ssk^2+1 refuted without flattening; masks by value refuted."
  },
  {
   "property": "C57",
   "status": "proved",
   "theorems": [
    "c57_filtered_density",
    "c57_filtered",
    "c57_filter_spacing",
    "c57_filtered_peak_refuted",
    "c57_filtered_mask_refuted",
    "c57_summits",
    "c57_numbers",
    "c57_apart",
    "c57_shape_refuted",
    "c57_mask",
    "c57_nan_mask_refuted",
    "c57_density",
    "c57_curvature",
    "c57_curvature_refuted"
   ],
   "note": "Equivalence with strict interior maxima, of the filtered heights with a filter; density and curvature; masks characterised, the mask of not a number refuted for every profile; that a filter keeps a lone peak a summit is refuted."
  },
  {
   "property": "C58",
   "status": "proved",
   "theorems": [
    "c58_values",
    "c58_below",
    "c58_ratio_refuted",
    "c58_negative_refuted",
    "c58_nan_mask_refuted",
    "c58_surface_refuted"
   ],
   "note": "Exact values; the intended ratio is refuted for every profile and every height between the lowest and the highest."
  },
  {
   "property": "C59",
   "status": "proved",
   "theorems": [
    "c59_polynomial",
    "c59_least_squares",
    "c59_flat",
    "c59_mean_zero",
    "c59_tilt",
    "c59_idempotent",
    "c59_integers_refuted"
   ],
   "note": "For every least squares routine or every good one; integer profiles refuted."
  },
  {
   "property": "C60",
   "status": "proved",
   "theorems": [
    "c60_forward",
    "c60_round_trip",
    "c60_requested",
    "c60_modulus_refuted",
    "c60_ratios_refuted",
    "c60_overdetermined_refuted",
    "c60_first_refuted",
    "c60_errors"
   ],
   "note": "The forward and inverse solutions are proved for every physical system and every choice of missing parameter and request that determines it, for every exact equation solver (an oracle for sympy solve over the reals). Refuted: one missing modulus can come out negative; missing ratios are not a number in the usual units; over-determined input is not refused; a missing parameter with nothing requested is a TypeError."
  },
  {
   "property": "C61",
   "status": "proved",
   "theorems": [
    "c61_forward",
    "c61_round_trip",
    "c61_requested",
    "c61_ratios_refuted",
    "c61_tensile",
    "c61_tensile_moduli_refuted",
    "c61_tensile_material",
    "c61_overdetermined_refuted",
    "c61_errors",
    "c61_tensile_sign_refuted"
   ],
   "note": "As C60 for points. Tensile stress requests are proved for a missing load or radius, and for one missing material parameter with every sound root finder if the found value is not negative; refuted: both moduli missing is a KeyError, and the sign of a found root is not dropped in the result."
  },
  {
   "property": "C62",
   "status": "proved",
   "theorems": [
    "c62_sphere",
    "c62_line",
    "c62_line_mean_refuted",
    "c62_line_mises_refuted",
    "c62_ellipse",
    "c62_refused"
   ],
   "note": "Spheres and lines agree with the simple solutions in radius, pressure, deflection and modulus; load balance of the three kinds of contact. Refuted for all physical systems: the mean pressure of lines exceeds the maximum pressure, the von Mises stress of lines is multiplied instead of divided by its constant, the mean pressure of ellipses is the maximum pressure over the area."
  },
  {
   "property": "C63",
   "status": "proved",
   "theorems": [
    "c63_estimates",
    "c63_zero_lag",
    "c63_mirror",
    "c63_result_shape",
    "c63_target",
    "c63_target_array_refuted",
    "c63_start",
    "c63_start_fit",
    "c63_exponential",
    "c63_perfect_fit",
    "c63_fir_refuted"
   ],
   "note": "Model FilterModel.v. Estimates, zero lag bound, mirroring, result shape, start and perfect fit are proved for every filter, function and minimiser; c63_target_array_refuted and c63_fir_refuted show where targets given as arrays and the FIR method go wrong."
  },
  {
   "property": "C64",
   "status": "proved",
   "theorems": [
    "c64_gradient",
    "c64_gradient_symmetric",
    "c64_objective"
   ],
   "note": "Partial derivatives of the plain and of the symmetric objective, for every filter and target of the same shape; the objectives are the squared distance of the autocorrelations."
  },
  {
   "property": "C65",
   "status": "proved",
   "theorems": [
    "c65_shape",
    "c65_window",
    "c65_periodic",
    "c65_no_seam",
    "c65_autocorrelation",
    "c65_target_reached",
    "c65_perez_heights",
    "c65_perez_spectrum",
    "c65_perez_even",
    "c65_perez_uneven_refuted",
    "c65_perez_passes",
    "c65_perez_converged",
    "c65_perez_best_refuted",
    "c65_perez_succeeds",
    "c65_perez_refused",
    "c65_perez_caller_refuted",
    "c65_perez_given"
   ],
   "note": "FilterTheorems.v for the filter method and PerezTheorems.v for the Perez method, for every sorting function and every error measure. Refuted parts: the spectrum of a target which is not even is not reached, the caller's spectrum is changed, 'best' returns the surface that was not tested."
  },
  {
   "property": "C66",
   "status": "proved",
   "theorems": [
    "c66_symmetric",
    "c66_real"
   ],
   "note": "Both the symmetrised arrays and the reality of the inverse transform, for every even size (size 2 included), also what is kept and what is set to zero."
  },
  {
   "property": "C67",
   "status": "proved",
   "theorems": [
    "c67_unbounded",
    "c67_bounded",
    "c67_lognormal",
    "c67_lognormal_refuted",
    "c67_normal_refuted"
   ],
   "note": "Unbounded and bounded fits reproduce all four quantiles (c67_unbounded, c67_bounded); log normal fit reproduces them where the random variable is defined (c67_lognormal); refuted for the normal branch and for the log normal branch with negative scale or unit shape."
  },
  {
   "property": "C68",
   "status": "proved",
   "theorems": [
    "c68_depth_columns",
    "c68_depth_columns_refuted",
    "c68_lower",
    "c68_line",
    "c68_refused",
    "c68_hash_lost",
    "c68_value"
   ],
   "note": "Lines of test files are parsed back (c68_line), malformed ones refused (c68_refused), a # in a name is lost (c68_hash_lost). Alicona depth columns are right without a texture (c68_depth_columns) and always too many with one (c68_depth_columns_refuted)."
  },
  {
   "property": "C69",
   "status": "proved",
   "theorems": [
    "c69_restores",
    "c69_off",
    "c69_nested",
    "c69_stored",
    "c69_stored_refuted",
    "c69_inside_refuted",
    "c69_threads_nested",
    "c69_threads_off",
    "c69_threads_refuted",
    "c69_unset"
   ],
   "note": "Programs of one thread with assignments, exceptions, blocks of any nesting and objects made beforehand; the full claim of restoring is refuted for objects made before a change of the flag and for several threads."
  },
  {
   "property": "C70",
   "status": "proved",
   "theorems": [
    "c70_larger",
    "c70_smallest",
    "c70_fresh",
    "c70_order",
    "c70_history",
    "c70_directory_refuted",
    "c70_two_suffixes_refuted",
    "c70_reserved_refuted",
    "c70_numbers"
   ],
   "note": "Numbers are larger than all used ones, the name is fresh, no number is given twice in any history without deletions. Refuted for directories of that name, for two suffixes and for two programs at a time."
  },
  {
   "property": "C71",
   "status": "proved",
   "theorems": [
    "c71_two_values",
    "c71_constant",
    "c71_table",
    "c71_shapes"
   ],
   "note": "Linear interpolation; tables need different times."
  },
  {
   "property": "C72",
   "status": "proved",
   "theorems": [
    "c72_total_is_sum",
    "c72_exchange",
    "c72_reverse_missing_refuted"
   ],
   "note": "For arbitrary materials; components without loads cannot be reversed."
  },
  {
   "property": "C73",
   "status": "proved",
   "theorems": [
    "c73_transposed",
    "c73_modes_agree_refuted",
    "c73_fresh_after_wear",
    "c73_remake",
    "c73_stale_after_assignment_refuted"
   ],
   "note": "For any spline through the grid points."
  },
  {
   "property": "C74",
   "status": "proved",
   "theorems": [
    "c74_reciprocal"
   ],
   "note": "For every pair of points of a grid covered by the span."
  },
  {
   "property": "C75",
   "status": "proved",
   "theorems": [
    "c75_coupling_odd",
    "c75_reciprocal_refuted"
   ],
   "note": "The unconditional claim is false: c75_reciprocal_refuted for every material with v other than 1/2; c75_coupling_odd shows why."
  },
  {
   "property": "C76",
   "status": "proved",
   "theorems": [
    "c76_cell_integral",
    "c76_rectangular_refuted"
   ],
   "note": "Square cells: as iterated integrals (Coquelicot RInt), the loaded cell as a limit; rectangular cells refuted."
  },
  {
   "property": "C77",
   "status": "proved",
   "theorems": [
    "c77_speeds",
    "c77_density"
   ],
   "note": "speeds in terms of the material read back after any history."
  },
  {
   "property": "C78",
   "status": "proved",
   "theorems": [
    "c78_tension_refuted"
   ],
   "note": "Refuted: c78_tension_refuted for every operator."
  },
  {
   "property": "C79",
   "status": "proved",
   "theorems": [
    "c79_displacements",
    "c79_errors",
    "c79_dict_refuted",
    "c79_short_refuted"
   ],
   "note": "Dicts refuted (c79_dict_refuted), short sequences are accepted although documented as an error."
  },
  {
   "property": "C80",
   "status": "proved",
   "theorems": [
    "c80_problem",
    "c80_sequence",
    "c80_sequence_refuted",
    "c80_full_refuted",
    "c80_full_error",
    "c80_split"
   ],
   "note": "Sequences characterised exactly in c80_sequence; refuted for (None, None, z) and for several directions without simple."
  },
  {
   "property": "C81",
   "status": "proved",
   "theorems": [
    "c81_longer_refuted",
    "c81_shorter_refuted",
    "c81_periodic_refuted",
    "c81_same_length"
   ],
   "note": "Positive for one length (c81_same_length), refuted for all states otherwise."
  },
  {
   "property": "C82",
   "status": "proved",
   "theorems": [
    "c82_stencil",
    "c82_fixed_point",
    "c82_solution_kept",
    "c82_mass_refuted"
   ],
   "note": "Fixed points and solutions correspond for regular line systems and zero border pressure; mass conservation refuted with the exact defect."
  },
  {
   "property": "C83",
   "status": "proved",
   "theorems": [
    "c83_different",
    "c83_constant_refuted",
    "c83_again_refuted"
   ],
   "note": "Refuted for all worlds with a converging solver; solved interferences differ."
  },
  {
   "property": "C84",
   "status": "proved",
   "theorems": [
    "c84_kept_refuted",
    "c84_time_fresh"
   ],
   "note": "Holds with time dependence; refuted without."
  },
  {
   "property": "C85",
   "status": "proved",
   "theorems": [
    "c85_static",
    "c85_quasi",
    "c85_default_refuted",
    "c85_strict",
    "c85_data_check_refuted"
   ],
   "note": "Exact entries; flags found inverted."
  },
  {
   "property": "C86",
   "status": "proved",
   "theorems": [
    "c86_ignored_refuted"
   ],
   "note": "Refuted for every world whose solver leaves the interference alone."
  },
  {
   "property": "C87",
   "status": "proved",
   "theorems": [
    "c87_times",
    "c87_movements",
    "c87_relative_speed_refuted",
    "c87_relative_load_refuted"
   ],
   "note": "Times and movements hold; two refutations."
  },
  {
   "property": "C88",
   "status": "proved",
   "theorems": [
    "c88_previous_film",
    "c88_still",
    "c88_moving_refuted"
   ],
   "note": "Formula, positive case without movement, refutation with movement."
  },
  {
   "property": "C89",
   "status": "proved",
   "theorems": [
    "c89_maximum",
    "c89_non_negative"
   ],
   "note": "Bounds for every solver."
  },
  {
   "property": "C90",
   "status": "proved",
   "theorems": [
    "c90_announced"
   ],
   "note": "Both inclusions."
  },
  {
   "property": "C91",
   "status": "proved",
   "theorems": [
    "c91_friction",
    "c91_stiffness",
    "c91_partial_slip",
    "c91_wear_partial",
    "c91_wear_refuted",
    "c91_sliding_refuted"
   ],
   "note": "Sufficient for friction, stiffness and partial slip; refuted for wear and sliding (c91_wear_partial: sufficient with the three further entries)."
  },
  {
   "property": "C92",
   "status": "proved",
   "theorems": [
    "c92_values",
    "c92_points"
   ],
   "note": "Values for every solver result. Loads and displacements are real numbers here."
  },
  {
   "property": "C93",
   "status": "proved",
   "theorems": [
    "c93_sequence",
    "c93_unchanged",
    "c93_mask_refuted"
   ],
   "note": "Refuted with a mask and without flattening, for every profile and mask."
  },
  {
   "property": "C94",
   "status": "proved",
   "theorems": [
    "c94_value",
    "c94_flat_refuted",
    "c94_line"
   ],
   "note": "Exact value and bounds; zero for flat surfaces is refuted for every shape."
  },
  {
   "property": "C95",
   "status": "proved",
   "theorems": [
    "c95_not_square_refuted",
    "c95_small_refuted",
    "c95_correlation"
   ],
   "note": "Zero lag and Cauchy Schwarz bound for every profile; unit dependence refuted for every even square profile with a small mean square."
  },
  {
   "property": "C96",
   "status": "proved",
   "theorems": [
    "c96_bearing_refuted",
    "c96_index_refuted",
    "c96_ten_point_refuted",
    "c96_curve",
    "c96_index_low",
    "c96_valley_outside",
    "c96_index_row_refuted",
    "c96_core_refuted",
    "c96_ten_values_refuted"
   ],
   "note": "Refuted for every profile without a mask; with a mask the values that are found are given exactly."
  },
  {
   "property": "C97",
   "status": "proved",
   "theorems": [
    "c97_radii",
    "c97_period",
    "c97_sphere_refuted",
    "c97_axes_refuted",
    "c97_accepted",
    "c97_auxiliary_refuted"
   ],
   "note": "Proved for every pair of bodies that is accepted; acceptance is proved for axes less than 45 degrees apart. The refuted parts are proved for all such bodies. The root finder and integrals are arguments."
  },
  {
   "property": "C98",
   "status": "proved",
   "theorems": [
    "c98_sphere",
    "c98_ellipse",
    "c98_ratio",
    "c98_deflection",
    "c98_line"
   ],
   "note": "Double integrals over all rectangles containing the contact, with Coquelicot. The ratio of the axes for every exact root of the equation in the code."
  },
  {
   "property": "C99",
   "status": "proved",
   "theorems": [
    "c99_displacement"
   ],
   "note": "Inside equality, outside strict inequality, for all points of the surface."
  },
  {
   "property": "C100",
   "status": "proved",
   "theorems": [
    "c100_normal",
    "c100_tensile",
    "c100_hoop_refuted",
    "c100_centre_refuted",
    "c100_line_refuted"
   ],
   "note": "Spheres on the surface and the axis. The refuted parts hold for all physical systems; elliptical stresses and displacements are not modelled (they rest on elliptic integrals)."
  },
  {
   "property": "C101",
   "status": "proved",
   "theorems": [
    "c101_skew",
    "c101_kurtosis",
    "c101_kurtosis_refuted"
   ],
   "note": "c101_skew for every filter; the kurtosis part of the statement is false and c101_kurtosis gives the value the surface gets, c101_kurtosis_refuted the exact condition under which it is the one asked for. The formulas for weighted sums of independent numbers are those cited in the docstring (FilterSpec.v)."
  },
  {
   "property": "C102",
   "status": "proved",
   "theorems": [
    "c102_shape_refuted",
    "c102_refused",
    "c102_mean",
    "c102_spectrum",
    "c102_rms",
    "c102_rms_refuted"
   ],
   "note": "The shape and root mean square claims are refuted for every surface with more than two points a side; the exact loss is stated."
  },
  {
   "property": "C103",
   "status": "proved",
   "theorems": [
    "c103_refused",
    "c103_two_values",
    "c103_normal",
    "c103_lognormal",
    "c103_lognormal_refuted",
    "c103_unbounded",
    "c103_skew_side",
    "c103_last_pass",
    "c103_symmetric"
   ],
   "note": "Proved for the normal, log normal and unbounded branches as stated; the iterative fit of the bounded family (sb_fit, get_moments) is a function argument and nothing is claimed of it; skew of an unbounded fit is claimed only without skew."
  },
  {
   "property": "C104",
   "status": "proved",
   "theorems": [
    "c104_ends",
    "c104_read_back",
    "c104_beginning",
    "c104_cut",
    "c104_counts"
   ],
   "note": "Reading ends on every file, written files are read back whatever follows, cut files raise or are complete. float(), int(float) and struct.unpack are arbitrary functions; non ASCII text is outside the model (a ValueError)."
  },
  {
   "property": "C105",
   "status": "proved",
   "theorems": [
    "c105_type",
    "c105_depth",
    "c105_text_refuted",
    "c105_values",
    "c105_icon_refuted",
    "c105_texture_refuted",
    "c105_offset",
    "c105_name",
    "c105_images"
   ],
   "note": "Depth files are read right (c105_depth); refuted for text tags with carriage returns, icons and textures inside the file. Offsets that are floating point numbers, negative row counts and files shorter than their depth offset are outside the model."
  },
  {
   "property": "C106",
   "status": "proved",
   "theorems": [
    "c106_flat",
    "c106_slopes",
    "c106_round",
    "c106_radii",
    "c106_round_outside_refuted",
    "c106_pyramid",
    "c106_lengths",
    "c106_pyramid_sides_refuted",
    "c106_list_refuted"
   ],
   "note": "Heights over the reals, with NaN and infinite radii handled; shifts and rotations of flat surfaces through the analytical surface model."
  },
  {
   "property": "C107",
   "status": "proved",
   "theorems": [
    "c107_number",
    "c107_surfaces",
    "c107_extents",
    "c107_extent",
    "c107_move",
    "c107_stuck_refuted",
    "c107_shared_refuted",
    "c107_divide_refuted"
   ],
   "note": "A store of surfaces that refer to each other, and every history of operations on it."
  },
  {
   "property": "C108",
   "status": "proved",
   "theorems": [
    "c108_border",
    "c108_regrown",
    "c108_values",
    "c108_ends",
    "c108_all_holes",
    "c108_in_place",
    "c108_copy_refuted",
    "c108_threshold_refuted"
   ],
   "note": "The inpainting algorithm is any function that keeps the shape and everything but the holes. Masks, pattern of holes and threshold arbitrary."
  },
  {
   "property": "C109",
   "status": "proved",
   "theorems": [
    "c109_acf",
    "c109_inverted",
    "c109_origin",
    "c109_origin_refuted",
    "c109_fresh",
    "c109_kept",
    "c109_stale_refuted",
    "c109_psd_total_refuted",
    "c109_psd_negative_refuted",
    "c109_small_refuted"
   ],
   "note": "Floats are real numbers; profiles with two dimensions. The spline is any function through the values."
  },
  {
   "property": "C110",
   "status": "proved",
   "theorems": [
    "c110_waves",
    "c110_complex",
    "c110_periodic",
    "c110_refused",
    "c110_phases_refuted",
    "c110_number_refuted",
    "c110_random_refuted",
    "c110_square_refuted",
    "c110_even"
   ],
   "note": "Floats are real numbers; the test for equal spacing is any function."
  },
  {
   "property": "C111",
   "status": "proved",
   "theorems": [
    "c111_stops",
    "c111_no_contact",
    "c111_converged",
    "c111_closed",
    "c111_failed",
    "c111_limit",
    "c111_limit_refuted",
    "c111_restart_refuted",
    "c111_nodes_changed",
    "c111_confined_refuted",
    "c111_im",
    "c111_guess_array_refuted",
    "c111_function_refuted",
    "c111_guess",
    "c111_guess_refuted",
    "c111_guess_loads"
   ],
   "note": "The answers of materials without influence matrices are an arbitrary function of the call; argpartition is any function with numpy's guarantee. c111_limit and c111_limit_refuted together decide when the share of removed nodes is kept. Convolutions are arguments; the bound constrained solver is the modelled one."
  },
  {
   "property": "C112",
   "status": "proved",
   "theorems": [
    "c112_profile",
    "c112_holes_refuted",
    "c112_symmetric",
    "c112_symmetric_refuted",
    "c112_empty_refuted",
    "c112_perez_refuted",
    "c112_heights",
    "c112_history_refuted",
    "c112_sequence_refuted",
    "c112_array_refuted",
    "c112_sums_refuted",
    "c112_plus_number",
    "c112_repr",
    "c112_repr_grid",
    "c112_recentred_refuted",
    "c112_radii",
    "c112_infinite_refuted",
    "c112_combination_text_refuted",
    "c112_filter_text",
    "c112_filter_text_refuted",
    "c112_fractal_text_refuted",
    "c112_mixed",
    "c112_itself",
    "c112_centred",
    "c112_surface_text",
    "c112_attributes"
   ],
   "note": "c112_profile, c112_symmetric, c112_heights and c112_repr are the parts that hold; what fails is in the theorems ending in _refuted, for all surfaces of the kinds named in them"
  },
  {
   "property": "C113",
   "status": "proved",
   "theorems": [
    "c113_rows",
    "c113_read_back",
    "c113_white_space",
    "c113_header",
    "c113_bad_value_refuted",
    "c113_missing_refuted",
    "c113_blank_refuted",
    "c113_no_numbers_refuted",
    "c113_array",
    "c113_extent",
    "c113_refused",
    "c113_extension",
    "c113_text",
    "c113_al3d",
    "c113_mat",
    "c113_mat_missing",
    "c113_mat_refuted",
    "c113_discrete_refuted",
    "c113_three",
    "c113_al3d_missing"
   ],
   "note": "float() of text, the csv reader, its sniffer and the readers of .mat and .al3d files are arguments, for every behaviour they can have (the .al3d reader is C105). What fails is in the theorems ending in _refuted."
  },
  {
   "property": "C114",
   "status": "proved",
   "theorems": [
    "c114_saved",
    "c114_bodies",
    "c114_others",
    "c114_killed_refuted",
    "c114_text_time_refuted",
    "c114_missing_refuted",
    "c114_names",
    "c114_extension_refuted",
    "c114_cached",
    "c114_moved_refuted",
    "c114_old_fields",
    "c114_stale_refuted",
    "c114_output_dir_refuted",
    "c114_default_dir_refuted",
    "c114_paths"
   ],
   "note": "tinydb and zipfile are modelled by what they leave on disk: the database after every insert, the zip table only when closed. float(), what json accepts, and how numbers compare are arguments. The with statement, the records and their codes are those of the model of C01 to C04."
  },
  {
   "property": "C115",
   "status": "proved",
   "theorems": [
    "c115_profile",
    "c115_acf",
    "c115_acf_refuted",
    "c115_spectrum",
    "c115_spectrum_surface_refuted",
    "c115_image_refuted",
    "c115_stale_refuted",
    "c115_fft1d_refuted",
    "c115_scatter",
    "c115_scatter_refuted",
    "c115_apsd_refuted",
    "c115_type_refuted",
    "c115_names",
    "c115_heights",
    "c115_list",
    "c115_list_refuted",
    "c115_restored",
    "c115_analytic",
    "c115_analytic_refuted",
    "c115_unworn_refuted",
    "c115_magnitude",
    "c115_layout",
    "c115_shape"
   ],
   "note": "Modelled up to the calls of matplotlib and scipy; which arguments matplotlib refuses (missing or complex arrays, shapes that differ, numbers of places) and where it puts the pixels of an image are part of the model. Two dimensions only; titles and warnings left out."
  },
  {
   "property": "C116",
   "status": "proved",
   "theorems": [
    "c116_check",
    "c116_flag",
    "c116_outputs",
    "c116_saved",
    "c116_runs",
    "c116_again",
    "c116_twice_refuted",
    "c116_off_refuted",
    "c116_order_refuted",
    "c116_attribute_refuted",
    "c116_sub_models",
    "c116_shared_refuted",
    "c116_warnings"
   ],
   "note": "Print statements are left out; the check of an output that is an attribute of a surface only warns and is not counted as a report."
  },
  {
   "property": "C117",
   "status": "proved",
   "theorems": [
    "c117_new",
    "c117_refused",
    "c117_fir_refused",
    "c117_failed",
    "c117_failed_moments_refuted",
    "c117_last_fit",
    "c117_fitted_spacing",
    "c117_realisation",
    "c117_fir_realisation",
    "c117_create_new",
    "c117_last_profile",
    "c117_respaced_refuted",
    "c117_skew",
    "c117_refit_refuted",
    "c117_quantiles_refuted",
    "c117_fir_target"
   ],
   "note": "the refuted parts are the theorems with that suffix; draws, minimiser and fits are arbitrary functions"
  },
  {
   "property": "C118",
   "status": "proved",
   "theorems": [
    "c118_records",
    "c118_by_time",
    "c118_interval",
    "c118_nothing"
   ],
   "note": "Composition of the models of solve, requests, saved records and result files; what a step computes is any function of the state before it."
  },
  {
   "property": "C119",
   "status": "proved",
   "theorems": [
    "c119_evaluation",
    "c119_static",
    "c119_quasi",
    "c119_no_penetration",
    "c119_limit",
    "c119_wrong_convergence_refuted"
   ],
   "note": "c119_evaluation: one evaluation of the height function after any history without prescribed nodes; c119_static and c119_quasi: converged states. The pressures are always admissible, and solve the contact problem up to an error proportional to the tolerance if the solver had settled; c119_wrong_convergence_refuted shows that this condition is needed. In load control the just touching gap must reach zero and the root finder stays above zero (otherwise C21/C46 refuted cases). A load controlled quasi static step reports the root of the root finder, its loads belong to the interference evaluated last; c119_quasi keeps both apart. c119_limit: the entry for the maximum pressure."
  },
  {
   "property": "C120",
   "status": "proved",
   "theorems": [
    "c120_contact",
    "c120_displacement",
    "c120_axes",
    "c120_axes_refuted",
    "c120_round_refuted",
    "c120_centre_refuted",
    "c120_edge_refuted"
   ],
   "note": "c120_contact is the positive part, with Johnson's closed form of the displacements as the specification and the root finder taken to be exact. The reported displacements are refuted by c120_centre_refuted, c120_edge_refuted and c120_round_refuted."
  },
  {
   "property": "C121",
   "status": "proved",
   "theorems": [
    "c121_plain",
    "c121_sign_refuted",
    "c121_even_span_refuted",
    "c121_periodic_refused",
    "c121_periodic",
    "c121_periodic_refuted"
   ],
   "note": "Claims about the function behind the decorator, from the influence matrix on; superposed is what planned convolutions give (C34). The refuted cases are c121_sign_refuted, c121_even_span_refuted and c121_periodic_refuted."
  },
  {
   "property": "C122",
   "status": "proved",
   "theorems": [
    "c122_rounding",
    "c122_few_digits",
    "c122_shifted",
    "c122_rolled",
    "c122_off_by_one",
    "c122_found",
    "c122_near",
    "c122_interpolator",
    "c122_gap_refuted",
    "c122_heights_refuted",
    "c122_periodic_refuted",
    "c122_spacing_refuted",
    "c122_extent_refuted",
    "c122_interpolator_refuted"
   ],
   "note": "Exponents are unbounded, indices are not wrapped to 32 bits. Proved for spacings with few digits (off sets by whole numbers of spacings) and, up to one point and without off set, for all; equality for all spacings is refuted."
  },
  {
   "property": "C123",
   "status": "proved",
   "theorems": [
    "c123_inside",
    "c123_quantiles",
    "c123_upper_refuted",
    "c123_density_refuted",
    "c123_several_refuted",
    "c123_shape_refuted",
    "c123_other_refuted",
    "c123_other_density_refuted",
    "c123_one_inside",
    "c123_location"
   ],
   "note": "scipy's normal distribution function is any function whose derivative is the bell curve, its quantiles any inverse; rv_continuous' masks are written out."
  },
  {
   "property": "C124",
   "status": "proved",
   "theorems": [
    "c124_interval",
    "c124_every_sub_step",
    "c124_static",
    "c124_drift",
    "c124_sub_steps",
    "c124_all_but_last",
    "c124_few_digits",
    "c124_exact_count",
    "c124_last_refuted",
    "c124_lubrication_refuted",
    "c124_time_interval_refuted",
    "c124_lookup_refuted",
    "c124_relative"
   ],
   "note": "double precision model of sub step times and output requests; what fails is proved as refuted"
  },
  {
   "property": "C125",
   "status": "proved",
   "theorems": [
    "c125_cells",
    "c125_rectangular",
    "c125_opposite",
    "c125_sign_refuted",
    "c125_rectangular_refuted"
   ],
   "note": "c125_cells and c125_rectangular are the positive part; c125_opposite gives zx and yz exactly (the integral with the wrong sign), c125_sign_refuted and c125_rectangular_refuted refute the full claim."
  },
  {
   "property": "C126",
   "status": "proved",
   "theorems": [
    "c126_decay",
    "c126_point_load",
    "c126_centre",
    "c126_single_load",
    "c126_more_load"
   ],
   "note": "For square cells; c126_more_load holds for rectangular cells too. The values far away are bounded by those of point loads at the corners of the cell (c126_point_load)."
  },
  {
   "property": "C127",
   "status": "proved",
   "theorems": [
    "c127_one",
    "c127_load",
    "c127_near",
    "c127_static",
    "c127_same_points_refuted"
   ],
   "note": "Existence and uniqueness of the exact contact for positive definite and bounded influence matrices (a hypothesis; that the elastic matrices of all grids are positive definite is not proved), growth of the load with the interference, and the distance of converged loads from the exact ones."
  },
  {
   "property": "C128",
   "status": "proved",
   "theorems": [
    "c128_range",
    "c128_strongest",
    "c128_wave",
    "c128_mirror_refuted",
    "c128_flat"
   ],
   "note": "Waves without flattening; the range of the angle for every call; the claim on mirror images is refuted."
  },
  {
   "property": "C129",
   "status": "proved",
   "theorems": [
    "c129_flat_refuted",
    "c129_nan",
    "c129_sum",
    "c129_linear",
    "c129_spacing",
    "c129_peak_refuted"
   ],
   "note": "Any routine for the Bessel function; the claims that the filter is centred and that it keeps a flat profile flat are refuted."
  }
 ]
}