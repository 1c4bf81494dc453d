# Formal model of SlipPY in Rocq (Coq 8.16.1)

The subject is the Python package in `/repo/slippy` (read as text, never run).
Properties are listed in `properties.jsonl`; `MANIFEST.json` maps each one to
the theorems that settle it.

## Layout

Everything is under `rocq/theories`. Each subsystem `X` has up to four files:

* `XModel.v`: the model only. Shallow Gallina functions that follow the Python
  function branch by branch. Every definition has a comment with file and lines.
  Exceptions are values of a small error type.
* `XSpec.v`: the independent specification vocabulary (written from the English
  property, not from the code).
* `XProofs.v`: lemmas.
* `XTheorems.v`: the property theorems with `Print Assumptions`, and `Example`s
  showing that non trivial cases meet their hypotheses.

Names: `cNN_...`. A suffix `_partial` marks a theorem that proves only a part,
`_refuted` a theorem that proves the negation of an intended claim with a
witness (a finding about the code).

## Modelling conventions

* Python floats and numpy floats are modelled as mathematical real numbers
  (Coq's `R`). Except in RoundModel.v and ClockModel.v (C122, C124), rounding, overflow and, unless said otherwise, NaN are not
  modelled. Where the code tests for NaN the model has an explicit option.
* Python ints are `Z` or `nat`; fixed width wrap around is written explicitly
  where the code casts (`uint16` in `wear`).
* Arrays are functions of indices together with a shape, or lists, as fits.
  Dictionaries are association lists with Python's ordering rules.
* Objects become records; methods become functions returning the new record.
* External code (FFT, sparse solvers, root finders, `lstsq`, contact solvers,
  random number generators, zip and JSON storage) is a function argument or
  `Section` variable that is universally quantified in the theorem, with any
  assumed behaviour written as an explicit hypothesis of the theorem.

## Plan per property
* `Flt.v` has floats with the special values: finite reals, both infinities and
  not a number, with the IEEE rules for them (real arithmetic otherwise). The
  solvers, the roughness parameters and the sub models use it, because there NaN
  decides what happens. Everything else uses `R`.

## Plan per property

| id | what is modelled | how it is proved |
|---|---|---|
| C01-C03 | `OutputSaver` as a state machine (context flag, archive, database, counter); the code string is built and parsed character by character | digits round trip by strong induction, hash positions by list lemmas, then induction over the list of writes |
| C04 | `OutputReader` over an arbitrary record list | list induction; refutation by a two record witness |
| C05-C08 | `OutputRequest` state machine with `new_step` and `is_active` | refinement to a counter (interval) and a queue (other modes), induction over the call list |
| C09-C10 | `save_outputs` with its dictionary expansion and missing field branch | case analysis, induction on request list |
| C11-C14 | `ContactModel` step dictionary, `add_step`, `add_output`, `solve` | ordered dictionary lemmas, induction over calls |
| C15-C16 | `_get_properties` over the reals | field and sqrt reasoning per pair |
| C17 | class level store of `Elastic` | state machine over a heap of materials |
| C18 | `memoize_components` cache | invariant over call list |
| C19-C21, C72 | `HeightOptimisationFunction` | invariant over evaluation list, solver as oracle |
| C22-C29 | `_Surface` profile, wear, geometry setters, mask, arithmetic, analytic height, interpolation | invariants over operation lists |
| C30-C33 | `get_gap_from_model`, `non_dimentional_height` | min over lists, integer part lemmas |
| C34-C36 | influence matrix index arithmetic and convolution plan, with DFT product modelled as cyclic convolution | finite sums and modular index lemmas |
| C37-C38 | solver loops | fuel free iteration lemma over an arbitrary operator |
| C39-C40 | `cyclic_tdma` | Sherman Morrison algebra on finite sums |
| C41-C43 | `UnifiedReynoldsSolver` properties and sweep clipping | invariant over operation list |
| C44-C45 | `Lubricant`, `lubricant_models` | fold lemmas; real analysis |
| C46-C49 | `StaticStep`, `QuasiStaticStep` | induction over sub steps, oracle solver |
| C50-C51 | `IterSemiSystem` | loop invariant, oracle solver |
| C52-C55 | sub models | finite sums, case analysis |
| C56-C59 | roughness functions | Cauchy Schwarz and Jensen on lists, index lemmas |
| C69 | `OverRideCuda` | nesting induction |
| C60-C62 | `hertz.py`: the symbolic solutions of line and point contacts with any missing parameter, the solver as an oracle that returns exact solutions; the full solution | powers and roots over the reals, uniqueness of solutions |
| C63-C65, C101 | `RandomFilterSurface` and `RandomPerezSurface`: filter estimates, objectives and gradients, set moments, generation, spectrum and height matching | finite double sums, Cauchy Schwarz, derivatives, permutations of sorted heights, discrete Fourier transforms |
| C66, C102 | `HurstFractalSurface` and its symmetrised arrays | index negation, Hermitian transforms are real, Parseval |
| C67, C103 | Johnson fits by quantiles and moments | hyperbolic identities, moments of the families as formulas |
| C68, C104 | the test file reader as a parser over bytes with counts, fuel shown sufficient | round trip of a written file, prefix lemmas for every cut |
| C70-C71 | file numbers, interpolation | list maximum; linear interpolation algebra |
| C73 | spline interpolation of surfaces | memoised interpolator as state |
| C74-C77 | influence coefficients | Coquelicot integrals of the Green functions, parity, wave speeds |
| C78, C38 | bounded and plain conjugate gradients over vectors with NaN | projection invariants, finite termination by orthogonality |
| C79-C80 | materials: displacements from loads and back | index algebra on the planned convolution, case analysis of arguments |
| C81-C82 | Reynolds solver: row order over grids of different lengths, fixed points of the sweep | state machine; the linear system of each row |
| C83-C85 | repeated steps, time dependence, error flags of the quasi static step | induction over sub steps |
| C86-C90 | lubrication steps: requested interference, rolling speeds, squeeze term, number of solver calls, entries | loop invariants |
| C91-C92 | declared requirements and results of sub models | frame lemmas |
| C93-C96 | roughness parameters with masks, areas, correlations, bearing curves | lists of floats with NaN |
| C97-C100 | full Hertz solution: relative radii, pressures, displacements and stresses | trigonometry, double integrals over rectangles (Coquelicot), sign analysis |
| C105 | Alicona reader | chunks of bytes, character classes |
| C106-C107 | geometric surfaces and a store of surfaces that refer to each other | ellipsoid algebra; acyclicity invariant over every history |
| C108 | `fill_holes` with its two loops | exact state after each pass; a measure for termination; an invariant for surfaces of holes only |
| C109 | autocorrelation and density, the attributes as state | sums over pairs, |xy| <= (x^2+y^2)/2, inverse transform |
| C110 | surfaces made of waves | trigonometry, induction over the lists |
| C111 | `solve_normal_interference` as a loop with fuel, `guess_loads` | invariants of the loop, counting of nodes, properties of a partition |
| C112 | surfaces as dicts of attributes, their `==` and `repr` | case analysis; induction over the dict; strings |
| C113 | constructors and file readers of `Surface` | relations between text and numbers, induction over rows |
| C114 | files on disk, sessions that end or are killed, readers opened later | induction over the records of a session; round trip of codes |
| C115 | `show` up to the calls of matplotlib | drawings as data; index arithmetic of shifts; restoring of state |
| C116 | the data check of a model, ownership of sub models | exact set of names after each sub model; induction over histories |
| C117 | the filter surface as an object with all its calls | invariant (spacing set once fitted), induction over histories; moments by C101 |
| C118 | solve, requests, saving, files and reader put together | induction over steps and time points; composition of C05, C09, C01 |
| C119 | both influence matrices, planned convolutions, bound constrained solver, height function and steps put together | composition of C34, C37 (with the error bound of BoundTheorems.v), C21, C46, C47; invariant of the height function; a false convergence computed with exact fractions |
| C120 | the integrals of elliptical contacts, the equation for the ratio of the axes, the closure for the displacements, on top of the full Hertz solution (C97, C98) | complete elliptic integrals as Riemann integrals; identities between them by derivatives; the ratio equation is shown to be the condition of contact; bounds of the integrals for the refuted values |
| C121 | slicing, padding, rolling and flattening of the influence matrix | index arithmetic; entries compared with the superposition of C34 for all shapes |
| C122 | sizes, extents, indices and gaps of grids with every operation rounded to 53 binary digits (Flocq) | relative errors, exact multiples, scaling by powers of two; values by integer arithmetic |
| C123 | both Johnson SL distributions with the calling methods of scipy | derivative of the distribution function (Coquelicot); normal distribution function as any antiderivative of the bell curve |
| C124 | the times of sub steps and output requests with every operation rounded to 53 binary digits (Flocq) | relative errors added up over the sub steps; queues of targets with an increasing sub step for each; whole numbers rounded by integer arithmetic |
| C125 | the influence coefficients of all tangential and coupling components (InfluenceModel) | an antiderivative in each variable gives the integral as a sum over the corners of the cell; the strip around the load vanishes in the limit; the coupling of long cells is bounded |
| C126 | the normal influence coefficients (InfluenceModel) and the convolution (ConvModel) | mean values of the antiderivatives of C76, which are concave away from the axis; the cell across the axis by a limit; superposition of positive coefficients |
| C127 | the exact contact problem (UniqueSpec) for the model of TouchModel | monotonicity of the influence: the difference of two solutions has no energy; existence as limit of projected steps, a contraction; the error of C119 against the same energy |
| C128 | the Fourier coefficients of the heights, the first of the largest and its angle (RoughModel) | orthogonality of cosines by roots of unity; the first largest entry of a list |
| C129 | the low pass filter (RoughModel) as scipy convolves, the Bessel function an argument | the sum over the kernel turned into a sum over the heights |

No property of the list is outside of what can be expressed in the model. Where
the intended statement is false of the code, the statement in `properties.jsonl`
says which part is refuted, the `_refuted` theorems prove the negation (for all
values where possible, not for one witness), and the remaining part is proved.

## Trusted base

* Coq's kernel (8.16.1) and its standard library; Coquelicot (integrals,
  derivatives) is used in the Influence and Hertz files, Flocq (rounding) in the
  Round files; both are built on the standard library's reals and add no axiom. No axiom, parameter or admitted proof is added, no
  kernel check is switched off, and there are no functors or module types.
* The reading of the Python text: there is no mechanical link between `/repo` and
  the model. Every definition cites the lines it follows.
* The behaviour of numpy, scipy, sympy, tinydb, zipfile, csv, skimage and cupy as
  written in the comments, or as a universally quantified function with hypotheses
  in the theorem.
* `Print Assumptions` is run under every theorem. The results fall into these
  groups (short names: `sig_forall_dec`, `sig_not_dec` of
  `Coq.Reals.ClassicalDedekindReals`, `functional_extensionality_dep` of
  `Coq.Logic.FunctionalExtensionality`, `classic` of `Coq.Logic.Classical_Prop`,
  `constructive_indefinite_description` of `Coq.Logic.ClassicalEpsilon`):

  * closed under the global context (no axioms) (147 theorems): c01_few_hashes, c01_no_code, c01_reader_round_trip, c01_reserved_string_refuted, c01_round_trip, c01_unknown_dtype_refuted, c02_archive_names_distinct, c02_one_entry_per_array, c03_write_context, c04_duplicate_times_refuted, c04_field_index, c04_iteration, c04_time_field_agree, c04_time_index, c04_unknown_field, c04_unknown_time, c09_nothing_without_requests, c10_missing_field_value, c10_missing_not_written_refuted, c11_first_step_kept, c11_insertion_order, c11_solved_in_order, c12_at_most_one_model, c12_name_reused, c12_second_add_raises, c12_unknown_position, c13_all_steps, c13_listed_steps, c13_unknown_name, c17_construct_lam_refuted, c17_construct_refuted, c18_memo_transparent, c18_method_variant_refuted, c34_cuda_sizes, c35_wrap, c36_centre, c38_rigid, c44_check, c44_check_refuted, c44_default_refuted, c44_error, c44_missing, c44_models, c44_names, c44_refused, c53_stiffness_names, c55_arguments, c58_surface_refuted, c61_tensile_moduli_refuted, c63_mirror, c65_perez_given, c68_depth_columns, c68_depth_columns_refuted, c68_hash_lost, c68_line, c68_lower, c68_refused, c68_value, c69_inside_refuted, c69_nested, c69_off, c69_restores, c69_stored, c69_stored_refuted, c69_threads_nested, c69_threads_off, c69_threads_refuted, c69_unset, c70_directory_refuted, c70_fresh, c70_history, c70_larger, c70_numbers, c70_order, c70_reserved_refuted, c70_smallest, c70_two_suffixes_refuted, c73_fresh_after_wear, c73_remake, c73_stale_after_assignment_refuted, c80_full_error, c80_full_refuted, c80_problem, c80_sequence, c80_sequence_refuted, c85_default_refuted, c85_strict, c92_points, c104_beginning, c104_counts, c104_cut, c104_ends, c104_read_back, c105_depth, c105_icon_refuted, c105_images, c105_name, c105_offset, c105_text_refuted, c105_texture_refuted, c105_type, c105_values, c106_lengths, c106_radii, c110_number_refuted, c112_combination_text_refuted, c112_filter_text, c112_filter_text_refuted, c112_fractal_text_refuted, c112_infinite_refuted, c112_radii, c112_surface_text, c113_bad_value_refuted, c113_blank_refuted, c113_header, c113_missing_refuted, c113_read_back, c113_rows, c113_white_space, c114_bodies, c114_cached, c114_default_dir_refuted, c114_extension_refuted, c114_killed_refuted, c114_missing_refuted, c114_moved_refuted, c114_names, c114_old_fields, c114_others, c114_output_dir_refuted, c114_paths, c114_saved, c114_stale_refuted, c114_text_time_refuted, c115_layout, c116_again, c116_check, c116_flag, c116_off_refuted, c116_order_refuted, c116_outputs, c116_runs, c116_saved, c116_shared_refuted, c116_sub_models, c116_twice_refuted, c116_warnings.
  * sig_forall_dec (18 theorems): c08_empty_rejected, c14_course, c14_files_closed, c27_add_number, c34_missing_load, c44_constants, c44_constructor, c46_construct, c63_target, c63_target_array_refuted, c65_shape, c72_reverse_missing_refuted, c73_transposed, c79_dict_refuted, c79_errors, c79_short_refuted, c106_slopes, c121_periodic_refused.
  * classic (1 theorems): c116_attribute_refuted.
  * functional_extensionality_dep (1 theorems): c44_solve.
  * sig_forall_dec, functional_extensionality_dep (245 theorems): c05_interval_any_value, c05_interval_every_n, c06_documented_schedule_refuted, c06_exact_count, c06_never_early, c06_time_interval_counter, c07_at_most_the_targets, c07_linspace_evenly_spaced, c07_n_outputs_queue, c07_never_early, c07_served_by_first_call, c07_step_times_queue, c08_first_time_ignored, c08_global_leaky_queue, c08_in_order_never_early, c08_single_time_never_fires_refuted, c09_one_record, c14_time_is_sum, c19_cache_sorted, c19_cache_transparent, c19_clear, c19_clear_twice_refuted, c19_evaluation_adds, c19_transparent_with_nodes_refuted, c20_above, c20_bracket, c20_empty_cache, c20_no_load_refuted, c20_within_interval_refuted, c21_cached_height_refuted, c21_no_contact_refuted, c21_other_materials_refuted, c21_read_again, c21_results_after_new_height, c21_then_no_contact_refuted, c22_other_grid_points, c22_untouched_points, c22_wear_is_conserved, c23_large_spacing_refuted, c23_wear_location, c23_wrap_around_refuted, c24_coinciding_refuted, c24_last_depth_counts, c24_removed_volume, c24_removed_volume_any, c25_after_division_by_zero_refuted, c25_consistent, c25_exact_without_profile, c25_spacing_kept_refuted, c26_list_marks_nothing, c26_list_refuted, c26_single_value, c27_add_sub_surfaces, c27_resampled, c27_sub_number_refuted, c29_nearest_refuted, c29_point_below, c30_interference_shifts, c30_smallest_gap, c31_analytic, c31_periodic, c31_plain, c31_same_sign_refuted, c31_whole_extents, c32_fractional_refuted, c32_part_ignored_refuted, c32_past, c32_silent_refuted, c32_whole_points, c32_within, c34_several_directions, c38_rigid_general, c39_cyclic, c39_dominant, c39_integer_refuted, c39_singular_refuted, c39_tdma, c40_mutation_refuted, c40_twice_refuted, c42_round_trip, c42_scales, c45_density_bounds, c46_consistent, c46_interference, c46_load, c46_loads_lost_refuted, c46_no_contact_refuted, c46_relative_converged_refuted, c46_relative_first_refuted, c46_time, c46_unloading_refuted, c47_consistent, c47_interference, c47_interference_refuted, c47_load, c47_off_set, c47_solved, c47_times, c48_constant_refuted, c48_nothing_refuted, c48_relative, c48_relative_load, c49_accepts, c49_errors, c49_fast_refuted, c50_converged, c50_film, c50_fuel, c50_iterations, c50_limit_refuted, c51_ignored_refuted, c51_previous, c52_cells, c52_constructor, c52_default_refuted, c52_deformation, c52_shared_cell_refuted, c52_spacing_refuted, c52_unconverged, c52_volume, c53_friction, c53_stiffness, c53_unconverged_refuted, c53_wear, c54_limit, c54_negative_refuted, c55_displacement, c55_extrapolation_refuted, c58_below, c58_nan_mask_refuted, c58_negative_refuted, c58_ratio_refuted, c58_values, c59_flat, c59_idempotent, c59_integers_refuted, c59_least_squares, c59_mean_zero, c59_polynomial, c59_tilt, c63_estimates, c63_zero_lag, c64_gradient, c64_gradient_symmetric, c64_objective, c65_autocorrelation, c65_no_seam, c65_periodic, c65_window, c66_symmetric, c71_constant, c71_shapes, c71_table, c71_two_values, c72_exchange, c72_total_is_sum, c73_modes_agree_refuted, c79_displacements, c80_split, c82_mass_refuted, c83_again_refuted, c83_constant_refuted, c83_different, c84_kept_refuted, c84_time_fresh, c85_data_check_refuted, c85_quasi, c85_static, c86_ignored_refuted, c87_movements, c87_relative_load_refuted, c87_relative_speed_refuted, c87_times, c88_moving_refuted, c88_previous_film, c88_still, c89_maximum, c89_non_negative, c90_announced, c91_friction, c91_stiffness, c91_wear_partial, c91_wear_refuted, c92_values, c95_correlation, c101_kurtosis, c101_kurtosis_refuted, c106_list_refuted, c106_pyramid, c107_divide_refuted, c107_extent, c107_extents, c108_all_holes, c108_border, c108_copy_refuted, c108_ends, c108_in_place, c108_regrown, c108_threshold_refuted, c108_values, c109_inverted, c110_even, c110_random_refuted, c110_square_refuted, c111_guess, c111_guess_loads, c111_guess_refuted, c111_limit, c111_limit_refuted, c111_restart_refuted, c112_array_refuted, c112_empty_refuted, c112_holes_refuted, c112_itself, c112_mixed, c112_perez_refuted, c112_plus_number, c112_profile, c112_repr_grid, c112_sequence_refuted, c112_symmetric, c112_symmetric_refuted, c113_al3d, c113_al3d_missing, c113_array, c113_discrete_refuted, c113_extension, c113_extent, c113_mat, c113_mat_missing, c113_mat_refuted, c113_no_numbers_refuted, c113_refused, c113_text, c113_three, c117_new, c118_nothing, c119_no_penetration, c121_even_span_refuted, c121_periodic, c121_periodic_refuted, c121_plain, c121_sign_refuted, c124_exact_count, c127_same_points_refuted.
  * sig_forall_dec, sig_not_dec, functional_extensionality_dep (142 theorems): c15_E_M_auxetic_refuted, c15_lam_v_refuted, c15_pair_recovers_material, c16_accepts, c16_missing_value, c16_unknown_name, c16_wrong_number, c17_assign_refuted, c17_delete_drops_all, c17_delete_refuted, c17_own_material, c17_own_values, c28_centred, c28_combination, c28_discretise, c28_rotations_and_shifts, c34_domain, c34_non_periodic, c34_planned, c34_point_load, c35_checks, c35_periodic, c35_shift, c37_bounds, c37_converged, c37_exact_start_refuted, c37_inner_refuted, c37_residual, c37_single_node_refuted, c37_stops, c37_unprojected_refuted, c37_wrong_convergence_refuted, c38_finite_termination, c38_free_points, c38_rigid_refuted, c38_solved, c38_stops, c40_guess_refuted, c53_partial_slip_refuted, c53_sliding, c54_directions, c54_sliding, c54_zero_direction_refuted, c55_backwards_refuted, c55_bounds, c55_components, c55_load_refuted, c55_partition, c55_state, c55_stops, c57_apart, c57_curvature, c57_filtered, c57_filtered_mask_refuted, c57_filtered_peak_refuted, c57_mask, c57_nan_mask_refuted, c57_numbers, c57_shape_refuted, c57_summits, c60_errors, c60_first_refuted, c60_forward, c60_modulus_refuted, c60_overdetermined_refuted, c60_ratios_refuted, c60_requested, c60_round_trip, c63_fir_refuted, c65_perez_best_refuted, c65_perez_caller_refuted, c65_perez_converged, c65_perez_even, c65_perez_heights, c65_perez_passes, c65_perez_refused, c65_perez_spectrum, c65_perez_succeeds, c65_perez_uneven_refuted, c77_density, c77_speeds, c78_tension_refuted, c91_partial_slip, c91_sliding_refuted, c106_flat, c106_pyramid_sides_refuted, c106_round, c106_round_outside_refuted, c107_move, c107_number, c107_shared_refuted, c107_stuck_refuted, c107_surfaces, c109_acf, c109_fresh, c109_kept, c109_origin, c109_origin_refuted, c109_psd_negative_refuted, c109_psd_total_refuted, c109_small_refuted, c109_stale_refuted, c110_complex, c110_periodic, c110_phases_refuted, c110_refused, c110_waves, c111_closed, c111_confined_refuted, c111_converged, c111_failed, c111_function_refuted, c111_guess_array_refuted, c111_im, c111_no_contact, c111_nodes_changed, c111_stops, c112_attributes, c112_centred, c112_heights, c112_history_refuted, c112_recentred_refuted, c112_repr, c112_sums_refuted, c115_magnitude, c119_evaluation, c119_limit, c119_quasi, c119_static, c119_wrong_convergence_refuted, c120_axes, c120_displacement, c127_load, c127_near, c127_one, c127_static, c129_flat_refuted, c129_linear, c129_nan, c129_peak_refuted, c129_spacing, c129_sum.
  * sig_forall_dec, classic, functional_extensionality_dep (4 theorems): c52_history, c118_by_time, c118_interval, c118_records.
  * sig_forall_dec, sig_not_dec, classic, functional_extensionality_dep (213 theorems): c33_monotone, c33_round_trip, c33_scale, c36_additive, c36_additive_refuted, c36_additive_tangential, c36_any_span, c36_check_refuted, c36_positive, c36_symmetric, c41_current, c43_bounds, c43_runs, c45_increasing, c45_reference, c45_scaled, c45_small_viscosity_refuted, c56_case, c56_mask_refused, c56_no_flattening_refuted, c56_sa_sq, c56_scale, c56_sku, c56_sku_ssk, c56_tilt, c56_value_mask_refuted, c56_values, c56_whole_mask_refuted, c57_curvature_refuted, c57_density, c57_filter_spacing, c57_filtered_density, c61_errors, c61_forward, c61_overdetermined_refuted, c61_ratios_refuted, c61_requested, c61_round_trip, c61_tensile, c61_tensile_material, c61_tensile_sign_refuted, c62_ellipse, c62_line, c62_line_mean_refuted, c62_line_mises_refuted, c62_refused, c62_sphere, c63_exponential, c63_perfect_fit, c63_result_shape, c63_start, c63_start_fit, c65_target_reached, c66_real, c67_bounded, c67_lognormal, c67_lognormal_refuted, c67_normal_refuted, c67_unbounded, c74_reciprocal, c75_coupling_odd, c75_reciprocal_refuted, c76_cell_integral, c76_rectangular_refuted, c81_longer_refuted, c81_periodic_refuted, c81_same_length, c81_shorter_refuted, c82_fixed_point, c82_solution_kept, c82_stencil, c93_mask_refuted, c93_sequence, c93_unchanged, c94_flat_refuted, c94_line, c94_value, c95_not_square_refuted, c95_small_refuted, c96_bearing_refuted, c96_core_refuted, c96_curve, c96_index_low, c96_index_refuted, c96_index_row_refuted, c96_ten_point_refuted, c96_ten_values_refuted, c96_valley_outside, c97_accepted, c97_auxiliary_refuted, c97_axes_refuted, c97_period, c97_radii, c97_sphere_refuted, c98_deflection, c98_ellipse, c98_line, c98_ratio, c98_sphere, c99_displacement, c100_centre_refuted, c100_hoop_refuted, c100_line_refuted, c100_normal, c100_tensile, c101_skew, c102_mean, c102_refused, c102_rms, c102_rms_refuted, c102_shape_refuted, c102_spectrum, c103_last_pass, c103_lognormal, c103_lognormal_refuted, c103_normal, c103_refused, c103_skew_side, c103_symmetric, c103_two_values, c103_unbounded, c115_acf, c115_acf_refuted, c115_analytic, c115_analytic_refuted, c115_apsd_refuted, c115_fft1d_refuted, c115_heights, c115_image_refuted, c115_list, c115_list_refuted, c115_names, c115_profile, c115_restored, c115_scatter, c115_scatter_refuted, c115_shape, c115_spectrum, c115_spectrum_surface_refuted, c115_stale_refuted, c115_type_refuted, c115_unworn_refuted, c117_create_new, c117_failed, c117_failed_moments_refuted, c117_fir_realisation, c117_fir_refused, c117_fir_target, c117_fitted_spacing, c117_last_fit, c117_last_profile, c117_quantiles_refuted, c117_realisation, c117_refit_refuted, c117_refused, c117_respaced_refuted, c117_skew, c120_axes_refuted, c120_centre_refuted, c120_contact, c120_edge_refuted, c120_round_refuted, c122_extent_refuted, c122_few_digits, c122_found, c122_gap_refuted, c122_heights_refuted, c122_interpolator, c122_interpolator_refuted, c122_near, c122_off_by_one, c122_periodic_refuted, c122_rolled, c122_rounding, c122_shifted, c122_spacing_refuted, c123_density_refuted, c123_inside, c123_location, c123_one_inside, c123_other_density_refuted, c123_other_refuted, c123_quantiles, c123_several_refuted, c123_shape_refuted, c123_upper_refuted, c124_all_but_last, c124_drift, c124_every_sub_step, c124_few_digits, c124_interval, c124_last_refuted, c124_lookup_refuted, c124_lubrication_refuted, c124_relative, c124_static, c124_sub_steps, c124_time_interval_refuted, c125_cells, c125_opposite, c125_rectangular, c125_rectangular_refuted, c125_sign_refuted, c126_centre, c126_decay, c126_more_load, c126_point_load, c126_single_load, c128_flat, c128_mirror_refuted, c128_range, c128_strongest, c128_wave.
  * `constructive_indefinite_description` is also used in some of the examples that
    show the hypotheses can be met (an exact equation solver, a perfect minimiser),
    where a function has to be made out of an existence proof.

## What is modelled and what is not

Not modelled anywhere: overflow and, except for grid sizes, grid indices, times and output requests
(C122, C124), rounding of floating point numbers (see above), GPU code paths (`slippy.CUDA` is False in the model, except for the flag
itself in OverrideModel.v and the planning of convolutions for cupy in
ConvModel.v), plotting, printing and warnings (other than whether one is given
where a property says so), threads other than in C69 and C70, and performance.

### Functions that are modelled, by file

* `slippy/__init__.py`: OverRideCuda.__init__, OverRideCuda.__enter__, OverRideCuda.__exit__ in `OverrideModel.v`.
* `slippy/contact/_lubrication_utils.py`: tdma, cyclic_tdma in `TdmaModel.v`.
* `slippy/contact/_material_utils.py`: memoize_components, _get_properties in `MaterialModel.v`.
* `slippy/contact/_model_utils.py`: non_dimentional_height in `GapModel.v`; get_gap_from_model in `GapModel.v`, `RoundModel.v`.
* `slippy/contact/_step_utils.py`: make_interpolation_func in `StepModel.v`; HeightOptimisationFunction.__init__ in `HeightModel.v`, `StepModel.v`, `TouchModel.v`; HeightOptimisationFunction.contact_nodes, HeightOptimisationFunction.clear_cache, HeightOptimisationFunction.change_load, HeightOptimisationFunction.get_bounds_from_cache, HeightOptimisationFunction.add_to_cache, solve_normal_loading in `HeightModel.v`; HeightOptimisationFunction.results, HeightOptimisationFunction.__call__ in `HeightModel.v`, `TouchModel.v`; solve_normal_interference in `InterferenceModel.v`; get_next_file_num in `FileNumModel.v`.
* `slippy/contact/hertz.py`: solve_hertz_line, _fill_hertz_solution_line, solve_hertz_point, _root_tensile, _fill_hertz_solution_point in `HertzModel.v`; hertz_full, _k_root, _h in `EllipseModel.v`, `HertzFullModel.v`; _pressure_elliptical_contact, _transform_axes, _stress_line_contact, _pressure_line_contact, _stress_z_axis_spherical, _stress_surface_spherical, _pressure_spherical_contact, _displacement_spherical_contact, _sanitise_radii, _sanitise_material in `HertzFullModel.v`; _displacement_elliptical, _i, _j in `EllipseModel.v`.
* `slippy/contact/influence_matrix_utils.py`: guess_loads_from_displacement in `InterferenceModel.v`; _solve_im_loading, n_pow_2, _plan_fftw_convolve, plan_convolve in `ConvModel.v`; _solve_im_displacement in `HeightModel.v`, `SolverModel.v`; elastic_influence_matrix in `HeightModel.v`, `InfluenceModel.v`; _plan_cuda_convolve in `ConvModel.v`, `HeightModel.v`; _cuda_bccg in `InterferenceModel.v`, `SolverModel.v`; _fftw_bccg, bccg in `SolverModel.v`.
* `slippy/contact/lubricant.py`: Lubricant.__init__, Lubricant.add_sub_model, Lubricant.data_check, Lubricant.solve_sub_models in `LubricantModel.v`.
* `slippy/contact/lubricant_models.py`: constant_array_property, roelands, nd_roelands, barus, nd_barus, dowson_higginson, nd_dowson_higginson in `LubricantModel.v`.
* `slippy/contact/lubrication_steps.py`: IterSemiSystem.__init__, IterSemiSystem.provides, IterSemiSystem.reynolds, IterSemiSystem.update_movement, IterSemiSystem.solve, IterSemiSystem.__repr__, IterSemiSystem.update_interference in `SemiModel.v`; IterSemiSystem.provides, IterSemiSystem.data_check in `CheckModel.v`, `SemiModel.v`; _data_check_error_or_warn in `CheckModel.v`.
* `slippy/contact/materials.py`: _IMMaterial.__init__, _IMMaterial.loads_from_surface_displacement, Rigid.influence_matrix, Rigid.displacement_from_surface_loads in `DisplaceModel.v`; _IMMaterial.influence_matrix, Elastic.__init__, Elastic._del_props, Elastic._set_props, Elastic.E, Elastic.v, Elastic.G, Elastic.K, Elastic.Lam, Elastic.M, Elastic.speed_of_sound in `MaterialModel.v`; _IMMaterial.displacement_from_surface_loads in `DisplaceModel.v`, `MaterialModel.v`; _IMMaterial._jac_im_getter in `JacobModel.v`; Elastic.influence_matrix in `InfluenceModel.v`.
* `slippy/contact/models.py`: ContactModel.__init__, ContactModel.log_file_name in `ContactModel.v`, `ResultsModel.v`; ContactModel.add_step, ContactModel.add_output, ContactModel.data_check, ContactModel._model_check in `CheckModel.v`, `ContactModel.v`; ContactModel.solve in `ContactModel.v`, `RunModel.v`; ContactModel.__repr__, ContactModel.__str__ in `ContactModel.v`.
* `slippy/contact/outputs.py`: OutputSaver.__init__ in `OutputsModel.v`, `RunModel.v`; OutputSaver.write, OutputSaver.__enter__, OutputSaver.__exit__ in `OutputsModel.v`, `ResultsModel.v`, `RunModel.v`; OutputRequest.__init__ in `RequestModel.v`; OutputRequest.new_step, OutputRequest.is_active in `ClockModel.v`, `RequestModel.v`; OutputReader.__init__, OutputReader.__getitem__, OutputReader.__iter__, _array_gen, _ArrayReader.__init__, _ArrayReader.array, _ArrayReader._fill_array, _ArrayReader.__array__, _ArrayReader.__getitem__ in `OutputsModel.v`, `ResultsModel.v`; OutputReader.search, _ArrayReader.__repr__, read_output in `ResultsModel.v`.
* `slippy/contact/quasi_static_step.py`: QuasiStaticStep.__init__, QuasiStaticStep.upper, QuasiStaticStep.update_movement, QuasiStaticStep._solve_load_controlled, QuasiStaticStep._solve_displacement_controlled in `StepModel.v`; QuasiStaticStep.solve in `ClockModel.v`, `StepModel.v`.
* `slippy/contact/static_step.py`: StaticStep.__init__, StaticStep.solve in `StepModel.v`.
* `slippy/contact/steps.py`: _data_check_error_or_warn, _ModelStep._data_check, _ModelStep.data_check, _ModelStep.add_sub_model in `CheckModel.v`; _ModelStep.__init__, InitialStep.__init__, InitialStep.__repr__ in `ContactModel.v`; _ModelStep.__init_subclass__, _ModelStep.model, _ModelStep.solve_sub_models in `StepModel.v`; _ModelStep.model, InitialStep._data_check, InitialStep.solve in `CheckModel.v`, `ContactModel.v`, `StepModel.v`; _ModelStep.check_outputs in `CheckModel.v`, `SaveModel.v`; _ModelStep.check_sub_models in `CheckModel.v`, `StepModel.v`; _ModelStep.save_outputs in `RunModel.v`, `SaveModel.v`; _ModelStep.add_output in `SaveModel.v`.
* `slippy/contact/sub_models/contact_stiffness.py`: ResultContactStiffness.__init__, ResultContactStiffness._solve, ResultContactStiffness.solve in `SubsModel.v`.
* `slippy/contact/sub_models/epp_wear.py`: WearElasticPerfectlyPlastic.__init__, WearElasticPerfectlyPlastic.solve in `SubsModel.v`.
* `slippy/contact/sub_models/friction_coulomb_model.py`: FrictionCoulombSimple.__init__, FrictionCoulombSimple.solve in `SubsModel.v`.
* `slippy/contact/sub_models/tangential_partial_slip.py`: TangentialPartialSlip.__init__, TangentialPartialSlip._check, TangentialPartialSlip.solve in `SubsModel.v`.
* `slippy/contact/sub_models/tangential_pure_sliding.py`: TangentialPureSliding.__init__, TangentialPureSliding.solve in `SubsModel.v`.
* `slippy/contact/unified_reynolds_solver.py`: UnifiedReynoldsSolver.__init__, UnifiedReynoldsSolver.nd_grid_spacing, UnifiedReynoldsSolver.nd_time_step, UnifiedReynoldsSolver.lambda_bar, UnifiedReynoldsSolver.hertzian_pressure, UnifiedReynoldsSolver.hertzian_half_width, UnifiedReynoldsSolver.dimentional_viscosity, UnifiedReynoldsSolver.rolling_speed, UnifiedReynoldsSolver.radius, UnifiedReynoldsSolver.data_check, UnifiedReynoldsSolver._get_epsilon, UnifiedReynoldsSolver.dimensionalise_viscosity, UnifiedReynoldsSolver.dimensionalise_density, UnifiedReynoldsSolver.dimensionalise_gap, UnifiedReynoldsSolver.dimensionalise_length in `ReynoldsModel.v`; UnifiedReynoldsSolver.rolling_speed, UnifiedReynoldsSolver.solve, UnifiedReynoldsSolver.dimensionalise_pressure, _solve_row in `ReynoldsModel.v`, `SemiModel.v`; _solve_row_cyclic in `SemiModel.v`.
* `slippy/surface/ACF_class.py`: ACF.__init__, ACF.__array__ in `SpectraModel.v`; ACF._input_check_string in `RoughModel.v`; ACF._input_check_array in `FilterModel.v`, `RoughModel.v`, `SpectraModel.v`; ACF._input_check_method in `FilterModel.v`, `SpectraModel.v`; ACF.__call__, _exp_acf in `FilterModel.v`.
* `slippy/surface/FFTBased.py`: DiscFreqSurface.__init__, DiscFreqSurface.__repr__, ProbFreqSurface.rotate, ProbFreqSurface.shift, ProbFreqSurface._height, ProbFreqSurface.__repr__, check_coords_are_simple in `FreqModel.v`; DiscFreqSurface._height, ProbFreqSurface.__init__ in `EqualModel.v`, `FreqModel.v`; HurstFractalSurface.__init__ in `EqualModel.v`, `FractalModel.v`; HurstFractalSurface.discretise, _conj_sym, _pol2cart in `FractalModel.v`; HurstFractalSurface.__repr__ in `EqualModel.v`.
* `slippy/surface/Geometric.py`: FlatSurface.__init__, FlatSurface._height, RoundSurface.__init__, RoundSurface._height, PyramidSurface.__init__, PyramidSurface._height in `GeometricModel.v`; FlatSurface.__repr__, RoundSurface.__repr__, PyramidSurface.__repr__ in `EqualModel.v`.
* `slippy/surface/Random.py`: RandomPerezSurface.__init__, RandomPerezSurface.discretise in `EqualModel.v`, `PerezModel.v`; RandomPerezSurface.__repr__, RandomFilterSurface.__repr__ in `EqualModel.v`; RandomFilterSurface.__init__, RandomFilterSurface.set_quantiles in `RealiseModel.v`; RandomFilterSurface.linear_transform, RandomFilterSurface.set_moments, RandomFilterSurface.fir_filter, RandomFilterSurface.discretise in `FilterModel.v`, `RealiseModel.v`; _initial_guess in `EqualModel.v`, `FilterModel.v`; _root_func, _min_fun, _min_fun_symmetric, _get_acf_estimate, _get_acf_estimate_fft, _get_grad_min_fun, _get_grad_min_fun_symmetric, _grad_min_fun in `FilterModel.v`.
* `slippy/surface/Surface_class.py`: assurface in `GapModel.v`; read_surface in `GapModel.v`, `RoundModel.v`; _Surface.__init__ in `LoadModel.v`, `RealiseModel.v`, `SurfaceModel.v`; _Surface.mask, _Surface.wear, _Surface.__add__, _Surface.__mul__, _Surface.__div__, _Surface.__sub__, _AnalyticalSurface.__init__, _AnalyticalSurface.discretise, _AnalyticalSurface._height, _AnalyticalSurface.height, _AnalyticalSurface.rotate, _AnalyticalSurface.shift in `SurfaceModel.v`; _Surface.extent, _Surface.shape, _Surface.grid_spacing in `RealiseModel.v`, `SurfaceModel.v`; _Surface.extent in `LoadModel.v`, `RealiseModel.v`, `RoundModel.v`, `ShowModel.v`, `SurfaceModel.v`; _Surface.shape, _Surface.grid_spacing in `RealiseModel.v`, `RoundModel.v`, `SurfaceModel.v`; _Surface.profile in `RealiseModel.v`, `SpectraModel.v`; _Surface.profile in `RealiseModel.v`, `RoundModel.v`, `ShowModel.v`, `SpectraModel.v`; _Surface.profile in `RealiseModel.v`, `SpectraModel.v`, `SurfaceModel.v`; _Surface.get_fft, _Surface.get_acf, _Surface.get_psd in `ShowModel.v`, `SpectraModel.v`; _Surface.subtract_polynomial, _Surface.roughness, _Surface.get_mat_vr, _Surface.get_height_of_mat_vr, _Surface.get_summit_curvature, _Surface.find_summits, _Surface.low_pass_filter in `RoughModel.v`; _Surface.resample in `RoundModel.v`, `SurfaceModel.v`; _Surface.__eq__, Surface.__repr__, _AnalyticalSurface._repr_helper in `EqualModel.v`; _Surface.show, _AnalyticalSurface.show in `ShowModel.v`; _Surface.get_points_from_extent in `GapModel.v`, `RoundModel.v`, `ShowModel.v`; _Surface.interpolate in `GapModel.v`, `RoundModel.v`, `SurfaceModel.v`; Surface.__init__, Surface.read_al3d, Surface.read_csv, Surface.read_mat in `LoadModel.v`; Surface.fill_holes in `HolesModel.v`; _AnalyticalSurface.__add__, _AnalyticalSurface.__sub__, _AnalyticalSurface.__mul__, _AnalyticalSurface.__div__, SurfaceCombination.__init__, SurfaceCombination.__repr__ in `GeometricModel.v`; _AnalyticalSurface.__eq__, SurfaceCombination._height in `EqualModel.v`, `GeometricModel.v`.
* `slippy/surface/_johnson_utils.py`: sl_distribution_fit, _johnsonsl, _fit_johnson_by_moments, _fit_johnson_by_quantiles in `JohnsonModel.v`.
* `slippy/surface/_johnsonsl.py`: johnsonsl_gen._argcheck, johnsonsl_gen._pdf, johnsonsl_gen._cdf, johnsonsl_gen._ppf in `SlModel.v`.
* `slippy/surface/alicona.py`: alicona_read in `AliconaModel.v`.
* `slippy/surface/johnsondists.py`: _norm_pdf, JohnsonSLGen._argcheck, JohnsonSLGen._pdf, JohnsonSLGen._cdf, JohnsonSLGen._ppf in `SlModel.v`.
* `slippy/surface/read_tst_file.py`: read_tst_file, read_run, read_step, read_data, read_channel, split_line in `TstModel.v`.
* `slippy/surface/roughness_funcs.py`: _check_surface, roughness, get_height_of_mat_vr, get_mat_vr, get_summit_curvatures, find_summits, low_pass_filter, subtract_polynomial in `RoughModel.v`.

### Functions that are not modelled

* `slippy/abcs/abcs.py`: _MaterialABC.loads_from_surface_displacement, _MaterialABC.displacement_from_surface_loads, _SurfaceABC.wear, _AdhesionModelABC.__call__, _AdhesionModelABC.__bool__, _ContactModelABC.lubricant_model, _ReynoldsSolverABC.solve, _ReynoldsSolverABC.data_check, _NonDimensionalReynoldSolverABC.dimensionalise_pressure, _NonDimensionalReynoldSolverABC.dimensionalise_viscosity, _NonDimensionalReynoldSolverABC.dimensionalise_density, _NonDimensionalReynoldSolverABC.dimensionalise_gap, _NonDimensionalReynoldSolverABC.dimensionalise_length, _SubModelABC.__init__, _SubModelABC.solve (abstract methods).
* `slippy/contact/_material_utils.py`: convert_dict, convert_array (thin wrappers of a constructor).
* `slippy/contact/adhesion_models.py`: _AdhesionModel.__init__ (empty or abstract in the source).
* `slippy/contact/materials.py`: _IMMaterial.__init_subclass__ (registry of classes); _IMMaterial._solve_general_displacement (empty or abstract in the source); Rigid.__init__ (stores its arguments); Rigid.__repr__, Elastic.__repr__ (text for display).
* `slippy/contact/outputs.py`: OutputReader.__repr__ (text for display).
* `slippy/contact/quasi_static_step.py`: QuasiStaticStep.__repr__ (text for display).
* `slippy/contact/static_step.py`: StaticStep.__repr__ (text for display).
* `slippy/contact/steps.py`: _ModelStep.solve (empty or abstract in the source); _ModelStep.__repr__ (text for display).
* `slippy/surface/FFTBased.py`: HurstFractalSurface.rotate, HurstFractalSurface.shift (raises NotImplementedError always).
* `slippy/surface/Surface_class.py`: _Surface.__init_subclass__, _AnalyticalSurface.__init_subclass__ (registry of classes); _Surface.size, _Surface.material, _Surface.__array__ (plain attribute access); _Surface.__repr__, _AnalyticalSurface.__repr__ (text for display); _Surface.mesh (empty or abstract in the source); Surface.rotate (raises NotImplementedError always).
* `slippy/surface/johnsondists.py`: _norm_cdf, _norm_ppf (not used by any property).

## Findings about the code

Each is proved in a `_refuted` theorem or stated exactly in a theorem of the
property named. They are the places where what a user would expect is false.

* Outputs (C01-C10): strings with the reserved start of array codes can't be read
  back; a single output time never fires; a requested field that doesn't exist is
  recorded with the string "surface_2_points" as its value.
* Model and steps (C11-C14): an unknown position name uses up the step; reusing a
  step name with an index may drop the new step.
* Elastic properties (C15, C17): the pair Lam/v always raises; E/M with a negative
  Poisson ratio returns another material; the last set properties are kept by
  the class, so that making or changing one material decides what another one
  accepts or holds constant.
* Memoised components (C18): the method variant ignores which object it is called
  on.
* Wear (C23): indices are cast to 16 bits, and spacings of 2 or more lose points.
* Surface masks and arithmetic (C26, C27): masks by a list of values never work;
  subtracting a number adds it.
* Interpolation and gaps (C29, C31, C32): nearest interpolation rounds down; the
  three conventions for off sets do not agree; fractional off sets fail for equal
  shapes.
* Solvers (C37, C38, C78): an exact start ends with NaN and failure; a single
  contact node is not solved; inner iterations with a held node give NaN; the plain
  solver changes the caller's guess; rigid materials give infinite loads without a
  warning; a minimum pressure below zero is ignored.
* Materials (C79, C80): loads given as a dictionary always raise; sequences with
  None are shifted to the wrong axes; several directions without `simple` always
  raise.
* Cyclic systems (C39, C40): the main diagonal of the caller is changed.
* Reynolds solver and lubrication (C51, C81, C82, C86-C89): the row order of another
  grid is reused; the wedge term does not conserve mass; the requested interference
  and initial guesses are ignored; relative loading with rolling speeds raises.
* Lubricants (C44, C45): keyword only arguments are overlooked; Roelands viscosity
  decreases with pressure for thin reference viscosities.
* Height optimisation (C19-C21): a height without contact remakes the convolution for
  no nodes, so the results found before it cannot be read, or lose their displacement.
* Static and quasi static steps (C46-C49, C83-C85): unloading after contact and no
  contact at all raise; relative load convergence uses the wrong load; constants
  are not relative; `fast_ld` is accepted and never solved; error flags are
  inverted.
* Sub models (C52-C55, C91): default second wear proportion raises; shared cells lose
  volume; a zero sliding direction loses all loads; load controlled partial slip
  is never solved.
* Roughness (C56-C59, C93-C96): masks mean opposite things in two places; NaN masks erase
  the profile; Sdr of a flat surface is negative; svi, stp, sci always fail.
* Hertz (C60-C62, C97-C100): two bodies both more curved along their second axes are
  refused; the hoop stress on the surface has a sign error; line stresses lack
  square roots; the mean pressure of lines exceeds the maximum.
* Random and fractal surfaces (C63-C66, C101, C102): the kurtosis asked for is not
  reached; targets given as arrays are transposed; the caller's spectrum is
  changed; the shape of a fractal surface is swapped and its rms is too small.
* Johnson fits (C67, C103): the normal branch has the wrong scale and location; log normal
  fits with negative skew are NaN.
* File readers (C68, C104, C105): a # in a name is lost; Alicona files with an
  icon or texture can't be read.
* Geometric surfaces (C106, C107): a ball is surrounded by a plane at the height of
  its top; a surface plus a number can't be moved; division is Python 2 only.
* Holes (C108): the threshold is applied to holes, not to real values; a copy
  changes the original; a surface of holes only raises an IndexError.
* Spectra (C109): the density is not found again after a change, doesn't add up to
  the mean square and has negative parts; the origin of the autocorrelation is half a
  spacing off for even sizes.
* Waves (C110): the documented example is refused; `ProbFreqSurface` can never be made.
* Interference (C111): callable adhesion is refused with two masks and by influence
  matrices; initial guesses as arrays raise; too small a limit removes every node.
* Comparison (C112): surfaces with holes differ from themselves; equality isn't
  symmetric; Perez surfaces can't be compared; several texts can't be evaluated.
* Loading (C113): a bad value removes its row; an empty column its column; .mat files
  can't be read as documented.
* Result files (C114): a killed process leaves files whose arrays can't be read; the
  output directory is shared by all models.
* Plots (C115): surface plots of spectra have their values at the wrong frequencies;
  images have their axes exchanged; spectra shown may be old; ten plots can't be shown.
* Data check (C116): displacements of surfaces are never checked; with warnings only
  the check changes what steps announce, so that it finds less the second time.
* Filter surface object (C117): moments that could not be set are kept and shown; a new
  grid spacing or fit keeps old coefficients or noise; quantiles are set with the excess
  kurtosis as kurtosis; an argument of the FIR method that is no ACF is ignored.
* Whole analysis (C118): a request added to the first step ends the analysis with TypeError
  before anything is computed.
* False convergence (C37, C119): the solver keeps its conjugate direction after loads were set to a bound. With three points, the default
  tolerance 1e-4 and no iteration limit it reports convergence with loads 23.3, 0, 32.9 where the solution is 18, 0, 23, and a static
  step reports the same as converged with gaps of 5 and 10 under pressure.
* Converged contact (C119): a load controlled quasi static step reports the root of the root
  finder with loads and displacements of the interference evaluated last. The gap is that of the root, so a point
  under pressure may have any gap in a converged state (c47_interference_refuted).
* Displacements of elliptical contacts (C120): `_displacement_elliptical` gives the eccentricity to `special.ellipk` and `special.ellipe`,
  which take its square. At the centre the displacement is more than the deflection reported with it; near the ends of the long axis of
  nearly round contacts it has the wrong sign; where the axes are equal it is not a number.
* Axes of elliptical contacts (C120): the results of elliptical contacts turn points on the axes of either body in the same direction,
  although the bodies' axes are on opposite sides of those of the contact. The same point has two pressures.
* Jacobians (C121): rows and columns are exchanged, so components with opposite signs on both sides have the wrong sign; even
  spans are one point off; on periodic surfaces rows of the flattened matrix run into each other.
* Grids in double precision (C122): points are counted by truncating a quotient. For 29 rows a hundredth apart it is just below 29:
  the gap of two equal surfaces raises an error; setting the spacing to its own value loses a row. For 7 rows the second surface is
  asked for an eighth row and interpolators cannot be made. With 30 rows the last row of the second surface is taken from the row before.
  An extent of 0.3 with a spacing of 0.1 becomes two points 0.15 apart. The small shift of periodic surfaces is not always enough
  (116 rows 0.29 apart: row 113 for row 114).
* Johnson SL distributions (C123): the density is not the derivative of the distribution function; the support ends at one although the
  numbers do not; arrays with two points inside raise; the version in johnsondists.py raises on every call. Neither is imported.
* The clock in double precision (C124): ten sub steps of a tenth end at 0.9999999999999999, so that the last of the evenly spaced outputs, or an output
  asked for at the end of the step, is never written. Lubricated steps multiply instead of adding and fail for 49 sub steps. An output every 0.2
  is written at 0.7 and 0.9 instead of 0.6, 0.8 and 1.
* Signs of coupling (C125): the zx and yz influence coefficients are the integrals of the theory with the opposite sign. On rectangular cells the
  coupling coefficients grow with the length of the cells although the displacements do not, as the spacings are missing inside of the logarithms.
