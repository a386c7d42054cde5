{
 "claims": [
  {
   "property": "C01",
   "status": "proved",
   "theorems": [
    "C01_vectorize_column_major",
    "C01_unvectorize_vectorize",
    "C01_vectorize_unvectorize_and_error",
    "C01_gpu_agrees"
   ],
   "note": "All shapes, including empty ones; CPU and GPU."
  },
  {
   "property": "C02",
   "status": "partial",
   "theorems": [
    "C02_complex_of_real",
    "C02_real_of_complex",
    "C02_odd_refused_partial",
    "C02_odd_refused_refuted"
   ],
   "note": "Round trips proved. 'Odd lengths are refused' is refuted for lengths 1 and 3 (numpy broadcasting) and proved for every other odd length."
  },
  {
   "property": "C03",
   "status": "proved",
   "theorems": [
    "C03_product",
    "C03_sum",
    "C03_identity",
    "C03_conjugate_transpose",
    "C03_action"
   ],
   "note": "Homomorphism laws over any field."
  },
  {
   "property": "C04",
   "status": "partial",
   "theorems": [
    "C04_complex_matrix_fails",
    "C04_round_trip_refuted"
   ],
   "note": "The property does not hold as stated. Refuted: slicing with a float bound raises TypeError for every input."
  },
  {
   "property": "C05",
   "status": "proved",
   "theorems": [
    "C05_duplication"
   ],
   "note": ""
  },
  {
   "property": "C06",
   "status": "proved",
   "theorems": [
    "C06_transformation"
   ],
   "note": ""
  },
  {
   "property": "C07",
   "status": "proved",
   "theorems": [
    "C07_elimination_sym"
   ],
   "note": ""
  },
  {
   "property": "C08",
   "status": "proved",
   "theorems": [
    "C08_elimination_lap"
   ],
   "note": ""
  },
  {
   "property": "C09",
   "status": "partial",
   "theorems": [
    "C09_undelete_delete_rows",
    "C09_undelete_delete_columns",
    "C09_delete_undelete_rows",
    "C09_delete_undelete_columns",
    "C09_repeated_index_refuted",
    "C09_negative_index_refuted"
   ],
   "note": "Both axes, both directions, any order of distinct non-negative indices; refuted for repeated and for negative indices, which numpy.delete accepts."
  },
  {
   "property": "C10",
   "status": "proved",
   "theorems": [
    "C10_fro_error_is_root_of_squares",
    "C10_max_error_is_largest_modulus",
    "C10_fro_error_zero_iff_equal",
    "C10_fro_error_triangle",
    "C10_max_error_zero_iff_equal",
    "C10_max_error_triangle",
    "C10_max_le_fro_le_sqrt_size_max",
    "C10_shape_mismatch_and_empty_are_rejected"
   ],
   "note": "Over the real numbers; the moduli and square roots are exact."
  },
  {
   "property": "C11",
   "status": "proved",
   "theorems": [
    "C11_rrms_is_percentage_of_norm",
    "C11_rrms_scale_free",
    "C11_rrms_zero_iff_perfect",
    "C11_zero_estimate_gives_100",
    "C11_zero_truth_has_no_finite_error",
    "C11_map_below_rrms"
   ],
   "note": "Percentages proved for every non-zero truth; a zero truth gives no finite error. The repository's own tests expect 1 instead of 100 for a zero estimate."
  },
  {
   "property": "C12",
   "status": "proved",
   "theorems": [
    "C12_ols_exact_on_noise_free_data",
    "C12_pseudo_inverse_exists"
   ],
   "note": "Closed over any field with conjugation; the pseudo-inverse is any matrix meeting the Penrose conditions, which is shown to exist."
  },
  {
   "property": "C13",
   "status": "proved",
   "theorems": [
    "C13_ols_residual_orthogonal",
    "C13_ols_optimal",
    "C13_ols_minimiser_unique"
   ],
   "note": ""
  },
  {
   "property": "C14",
   "status": "proved",
   "theorems": [
    "C14_tls_exact_on_noise_free_data",
    "C14_tls_exact_single_output"
   ],
   "note": "For every matrix pair meeting the singular value decomposition specification."
  },
  {
   "property": "C15",
   "status": "proved",
   "theorems": [
    "C15_prior_stays_well_formed",
    "C15_earlier_rows_unchanged",
    "C15_valid_additions_succeed",
    "C15_too_many_weights_refuted"
   ],
   "note": "Proved for every history of additions with as many values, weights and orders as indices. With more weights than values the shape breaks silently (refuted variant)."
  },
  {
   "property": "C16",
   "status": "proved",
   "theorems": [
    "C16_rows_have_documented_residual"
   ],
   "note": "All kinds except the adaptive exact prior, which is C17. Includes that valid additions never raise."
  },
  {
   "property": "C17",
   "status": "partial",
   "theorems": [
    "C17_base_class_adaptive_rows_are_relative",
    "C17_smooth_adaptive_rows_are_absolute",
    "C17_smooth_adaptive_refuted"
   ],
   "note": "The property does not hold as stated. Refuted for SmoothPrior, whose adaptive method calls the plain one, so rows are scaled by the value; proved for the base class BayesianPrior."
  },
  {
   "property": "C18",
   "status": "partial",
   "theorems": [
    "C18_continuing_with_the_same_size",
    "C18_default_size_rejects_every_addition",
    "C18_default_size_refuted"
   ],
   "note": "Proved when the size is passed again. Refuted with the default size: every later addition raises."
  },
  {
   "property": "C19",
   "status": "proved",
   "theorems": [
    "C19_quadratic_form",
    "C19_quadratic_form_entries"
   ],
   "note": "Exact arithmetic; orders 0, 1, 2."
  },
  {
   "property": "C20",
   "status": "partial",
   "theorems": [
    "C20_sparse_and_dense_histories_agree",
    "C20_sparse_and_dense_evaluations_agree",
    "C20_single_row_fails",
    "C20_sparse_and_dense_refuted"
   ],
   "note": "Proved for every history and every number of rows except one; refuted for exactly one row, where the sparse evaluation always raises."
  },
  {
   "property": "C21",
   "status": "proved",
   "theorems": [
    "C21_regression_symmetric",
    "C21_regression_laplacian",
    "C21_eiv_symmetric",
    "C21_eiv_laplacian"
   ],
   "note": "For any solver function (also one that returns wrong vectors or raises) and any prior, weights and data: records and final matrix are symmetric / Laplacian, for both estimators. Hypothesis: the builder given is the duplication matrix, resp. duplication @ transformation, as in identification/run.py."
  },
  {
   "property": "C22",
   "status": "proved",
   "theorems": [
    "C22_regression_update_optimal",
    "C22_eiv_weighted_update_optimal",
    "C22_eiv_unweighted_update_optimal"
   ],
   "note": "For both estimators: every record's matrix is represented by parameters that minimise the (weighted) squared misfit plus lambda times the prior's quadratic penalty frozen at the previous parameters, against all parameter vectors; the recorded target is computed from the same parameters. Solver soundness is a hypothesis (met by the exact solver ksolve)."
  },
  {
   "property": "C23",
   "status": "proved",
   "theorems": [
    "C23_regression_records",
    "C23_eiv_records"
   ],
   "note": "Both estimators, fresh (no records), any step results including exceptions."
  },
  {
   "property": "C24",
   "status": "partial",
   "theorems": [
    "C24_regression_refit_refuted",
    "C24_eiv_refit_refuted",
    "C24_regression_refit_partial",
    "C24_eiv_refit_partial",
    "C24_regression_same_data",
    "C24_eiv_same_data",
    "C24_regression_same_steps",
    "C24_eiv_same_steps"
   ],
   "note": "The property does not hold as stated. Refuted: records are never reset, and the stopping test of the second fit reads the first fit's targets, so a second fit can stop early with a different matrix (witnesses for both estimators with ordinary tolerances). What holds: refitting the same data any number of times gives the same matrix and repeats the records (C24_regression_same_data, C24_eiv_same_data); after other data the steps are those of a fresh estimator, only their number can differ (C24_regression_same_steps, C24_eiv_same_steps); with at most one iteration, or with tolerances that never stop early, only the records accumulate (the theorems named _partial)."
  },
  {
   "property": "C25",
   "status": "partial",
   "theorems": [
    "C25_output_weights_ignored",
    "C25_output_weights_used_refuted",
    "C25_equal_weights_partial"
   ],
   "note": "The property does not hold as stated. Refuted: error_in_variable.py:210 builds the output weight from x_weight, so the result never depends on z_weight's value; witness where the documented estimator depends on it and the fit differs from it. C25_equal_weights_partial: the fit is the documented one run with z_weight := x_weight."
  },
  {
   "property": "C26",
   "status": "partial",
   "theorems": [
    "C26_input_error_optimal",
    "C26_input_error_transposed",
    "C26_nonsymmetric_estimate_refuted"
   ],
   "note": "Proved for symmetric estimates (the parametrisations of the package) against all competitor errors; in general the misfit of the transposed estimate is minimised, and C26_nonsymmetric_estimate_refuted gives a non-symmetric estimate (possible with the default builders or as y_init) where the computed error is not optimal."
  },
  {
   "property": "C27",
   "status": "proved",
   "theorems": [
    "C27_regression_fixed_point",
    "C27_regression_fixed_point_runs",
    "C27_eiv_weighted_fixed_point",
    "C27_eiv_unweighted_fixed_point",
    "C27_identifiable_symmetric",
    "C27_identifiable_laplacian"
   ],
   "note": "Plain regression, weighted and unweighted EIV; for plain regression also termination without exception when the solver solves regular systems. Independent inputs suffice for identifiability with both parametrisations (C27_identifiable_*)."
  },
  {
   "property": "C28",
   "status": "partial",
   "theorems": [
    "C28_regression_descent",
    "C28_eiv_descent",
    "C28_eiv_descent_symmetric",
    "C28_recorded_targets_decrease_refuted"
   ],
   "note": "First half proved over R for orders l2, l1 and l0 (smoothed penalties), plain regression from the initial guess on, weighted EIV from the first iteration on. Second half refuted: witness with three recorded targets strictly growing."
  },
  {
   "property": "C29",
   "status": "proved",
   "theorems": [
    "C29_projection",
    "C29_nearest"
   ],
   "note": "The projection never raises for well-shaped data; exactness, idempotence on exact data, Pythagoras identity and nearest-point property."
  },
  {
   "property": "C30",
   "status": "partial",
   "theorems": [
    "C30_information_refuted",
    "C30_computed_form",
    "C30_positive_semidefinite",
    "C30_real_measurements_fail",
    "C30_real_measurements_refuted",
    "C30_unrelated_sample_noise_refuted",
    "C30_missing_covariance"
   ],
   "note": "The property does not hold as stated. Refuted: the returned matrix is not A^T Sigma^-1 A, already for one node, one sample, exact voltages and unit variances. The theorems say what is returned instead: B^T W B with a regressor B lacking the cross terms between real and imaginary parts, W the inverse of a covariance with real and imaginary parts exchanged and input noise of samples mixed; it is symmetric, positive semidefinite for valid covariances, and its inverse is the second result. Data without imaginary parts always raise LinAlgError although their information is regular."
  },
  {
   "property": "C31",
   "status": "proved",
   "theorems": [
    "C31_inverted_is_inverse",
    "C31_finite_only_if_invertible",
    "C31_invertible_for_nonzero_noise"
   ],
   "note": "All three variants, every array of phasors, float/scalar/vector standard deviations. The inverted result is finite exactly when the covariance is invertible, and then it is the inverse."
  },
  {
   "property": "C32",
   "status": "proved",
   "theorems": [
    "C32_symmetric_positive",
    "C32_turns_with_the_phasor"
   ],
   "note": "All three variants. Turning the phasors requires non-zero phasors (np.angle of 0 is 0, so a zero phasor does not turn)."
  },
  {
   "property": "C33",
   "status": "proved",
   "theorems": [
    "C33_exact_is_covariance_of_polar_noise",
    "C33_polar_coordinates_exist"
   ],
   "note": "For every expectation functional and every noise with the moments of Gaussian phase noise, whole matrix including zero covariances between independent phasors. A finite distribution with these moments is exhibited for all variances; that Gaussian noise has these moments is the textbook characteristic function and is not proved."
  },
  {
   "property": "C34",
   "status": "proved",
   "theorems": [
    "C34_average_is_expected_covariance",
    "C34_average_is_expectation_of_exact"
   ],
   "note": "As expectation of the covariance at the noise-free phasor, and as expectation of exact_noise_covariance entry by entry."
  },
  {
   "property": "C35",
   "status": "proved",
   "theorems": [
    "C35_naive_is_linearised"
   ],
   "note": "The Jacobian is defined by derivatives (derivable_pt_lim)."
  },
  {
   "property": "C36",
   "status": "partial",
   "theorems": [
    "C36_uniform_vector_is_float",
    "C36_numpy_scalar_is_float",
    "C36_wrong_length_truncated",
    "C36_wrong_length_rejected_refuted",
    "C36_scalar_for_one_node_fails",
    "C36_int_refused"
   ],
   "note": "First half proved for all variants, values and sizes. Second half refuted: a vector of another length is silently replaced by its first entry (C36_wrong_length_rejected_refuted); a numpy scalar fails for one node and an int always."
  },
  {
   "property": "C37",
   "status": "proved",
   "theorems": [
    "C37_zero_polar_noise",
    "C37_zero_polar_noise_on_both",
    "C37_zero_cartesian_noise",
    "C37_zero_cartesian_noise_on_both",
    "C37_zero_noise_while_resampling",
    "C37_integer_deviation_is_refused",
    "C37_cartesian_noise_form",
    "C37_cartesian_noise_form_on_both"
   ],
   "note": "Proved for every generator (state and next-value function are parameters), every phasor array and every way of asking for zero noise (float, numpy scalar, arrays of length 1 or n), for the two wrappers and inside the resampler. A Python int is refused with AttributeError (C37_integer_deviation_is_refused)."
  },
  {
   "property": "C38",
   "status": "partial",
   "theorems": [
    "C38_effective_noise",
    "C38_effective_noise_on_both",
    "C38_positive_reals_keep_their_phase",
    "C38_requested_phase_noise_refuted",
    "C38_requested_magnitude_noise_refuted",
    "C38_covariance_formulas_disagree"
   ],
   "note": "The property does not hold as stated. Refuted: lines 105-106 multiply the drawn noise by magnitude and phase, so the applied deviations are sd*|z| and sd*angle. C38_effective_noise characterises what is applied; C38_requested_phase_noise_refuted and C38_requested_magnitude_noise_refuted are witnesses; C38_covariance_formulas_disagree shows for all positive real phasors that the covariances of noise_transformation.py promise a positive imaginary variance while the simulated imaginary part never moves."
  },
  {
   "property": "C39",
   "status": "proved",
   "theorems": [
    "C39_means_of_interpolated_samples",
    "C39_determined",
    "C39_constants_preserved",
    "C39_stays_within_bounds",
    "C39_linear",
    "C39_columns_independent",
    "C39_same_times_no_averaging",
    "C39_noise_before_averaging",
    "C39_outside_refused",
    "C39_length_mismatch_refused"
   ],
   "note": "Proved over every ordered field for all strictly increasing time grids with at least two points. interp1d is modelled by its linear branch; equal times (nan in scipy) are excluded."
  },
  {
   "property": "C40",
   "status": "partial",
   "theorems": [
    "C40_default_times_refuted",
    "C40_default_old_times_refuted",
    "C40_default_new_times_never_work",
    "C40_default_old_times_need_one_row_per_average"
   ],
   "note": "The property does not hold as stated. Refuted: without newtimes the call fails for every input (len(None)); without oldtimes it fails unless the signal has exactly floor(len(newtimes)/fparam) rows, and witnesses are given for both."
  },
  {
   "property": "C41",
   "status": "proved",
   "theorems": [
    "C41_admittances_round_trip",
    "C41_measurements_round_trip",
    "C41_other_sizes_rejected",
    "C41_rectangular_admittances_rejected"
   ],
   "note": "Proved for any number of nodes; sizes that are not multiples of three and rectangular admittances are rejected."
  },
  {
   "property": "C42",
   "status": "partial",
   "theorems": [
    "C42_relation_preserved_iff_symmetric_phases",
    "C42_networks_with_equal_sequences",
    "C42_relation_refuted"
   ],
   "note": "The property does not hold as stated. Refuted in general (C42_relation_refuted: a single line on phase b). C42_relation_preserved_iff_symmetric_phases gives the exact condition: exchanging phases b and c at all nodes leaves the admittance unchanged; for networks put together from sequence matrices this means equal positive and negative sequence matrices."
  },
  {
   "property": "C43",
   "status": "proved",
   "theorems": [
    "C43_external_behaviour",
    "C43_description_unique",
    "C43_listing_order_irrelevant",
    "C43_unknown_node_rejected",
    "C43_repeated_nodes"
   ],
   "note": "Proved for every size and node set with invertible eliminated block; np.linalg.pinv enters through the Penrose equations. The order of rows is a permutation of the kept nodes; see C45 for which. C43_repeated_nodes: a node may be listed several times (the eliminated block is then singular)."
  },
  {
   "property": "C44",
   "status": "proved",
   "theorems": [
    "C44_symmetry_kept",
    "C44_zero_sums_kept"
   ],
   "note": "Proved for rows and for columns, for every invertible eliminated block."
  },
  {
   "property": "C45",
   "status": "partial",
   "theorems": [
    "C45_ascending_order",
    "C45_ascending_order_refuted"
   ],
   "note": "The property does not hold as stated. Refuted: a 33-node feeder with every fourth node kept gets its rows in the order 0, 32, 4, 8, ... (iteration order of a CPython set). C45_ascending_order proves the order whenever the hash table of the kept set has a slot for every node, in particular for up to 8 nodes or when at least three nodes in five are kept."
  },
  {
   "property": "C46",
   "status": "partial",
   "theorems": [
    "C46_with_substations",
    "C46_without_substations",
    "C46_script_hides_substations",
    "C46_own_measurements_refuted",
    "C46_row_per_column_refuted",
    "C46_several_substations_refuted"
   ],
   "note": "Mixed. Proved: with the substations kept, for all networks; with the substations removed, when hidden nodes come before every substation and passive nodes keep their place after the shift (all before the substations, or substations listed from last to first and the shifted number not that of a substation). Then row k belongs to the k-th remaining measurement column up to the order of C45, and every hidden node has the shunt of its own measurements. Refuted otherwise: a substation before a hidden node makes the shunt use the measurements of another node; a passive node right after the substation stays in the matrix but not in the measurements; two substations listed in ascending order give IndexError. numpy.linalg.pinv is assumed to satisfy the Penrose conditions on the eliminated block, which is assumed invertible; a mean voltage of zero is excluded."
  },
  {
   "property": "C47",
   "status": "partial",
   "theorems": [
    "C47_lines_add_their_laplacian",
    "C47_matrix_recovered",
    "C47_matrix_recovered_one_voltage",
    "C47_missing_number_fails",
    "C47_different_voltages_refuted",
    "C47_any_numbering_refuted",
    "C47_constant_impedance_refuted"
   ],
   "note": "Mixed. Proved for every consistent network with a substation, no lines and no constant-impedance loads whose row numbers are bus numbers of the same base voltage (in particular buses numbered from 0 or from 1 with one voltage); also the exact matrix for any starting network. Refuted in general: the voltage is looked up by row number as if it were a bus number, so other numberings fail with KeyError and different voltages give a wrong matrix; constant-impedance loads are added to the matrix. runpp's matrix is modelled from pandapower's documentation; buses no external grid supplies are not modelled."
  },
  {
   "property": "C48",
   "status": "partial",
   "theorems": [
    "C48_construction",
    "C48_nothing_else_accepted",
    "C48_records_turned",
    "C48_always_consistent",
    "C48_remove_line",
    "C48_remove_buses",
    "C48_single_line_always_fails",
    "C48_without_lines_always_fails",
    "C48_construction_three_phases",
    "C48_without_lines_three_phases",
    "C48_single_line_refuted",
    "C48_without_lines_refuted",
    "C48_remove_lines_refuted",
    "C48_remove_one_line_refuted"
   ],
   "note": "Mixed. Construction, acceptance, consistency under every sequence of operations, removing a list of lines and removing buses are proved, for one and for three phases. Refuted: adding a single line always fails, a one-phase network cannot be created without line records, remove_lines removes buses, remove_line with one number fails. Lines run from the smaller to the larger bus number and the caller's records are turned in place."
  },
  {
   "property": "C49",
   "status": "partial",
   "theorems": [
    "C49_passive_nodes",
    "C49_foreign_network_refuted"
   ],
   "note": "Proved for every network reached by any sequence of the package's operations from an empty network. Refuted for a network taken over from elsewhere, where load labels differ from bus numbers."
  },
  {
   "property": "C50",
   "status": "proved",
   "theorems": [
    "C50_one_phase",
    "C50_three_phases"
   ],
   "note": "Proved for one phase (profiles and normally distributed loads) and for three phases (profiles; the normally distributed branch cannot run, see C52)."
  },
  {
   "property": "C51",
   "status": "partial",
   "theorems": [
    "C51_profiles",
    "C51_successive_draws",
    "C51_rows_bound",
    "C51_profiles_succeed",
    "C51_negative_loads_fail",
    "C51_gaussian",
    "C51_one_row_per_time_refuted",
    "C51_short_file_refuted"
   ],
   "note": "Mixed. Proved when the number of weeks divides the days: one row per minute, one column per load, each a sum of household columns (as many as the nominal load divided by the mean 90th percentile, rounded) mixed with the constant share; for any number of weeks at most one row per week is missing; normally distributed loads; success for loads that are not negative; ValueError for clearly negative ones. Refuted: 5 weeks in 23 days lose 5 rows because of the truncated floating point quotient; a file shorter than the weeks is read without error and gives fewer rows than times. Profile files are arrays, 1 to 2^50 minutes; the line count is computed in IEEE double precision (Flocq), everything else exactly."
  },
  {
   "property": "C52",
   "status": "partial",
   "theorems": [
    "C52_profiles_order",
    "C52_successive_draws",
    "C52_gaussian_order",
    "C52_gaussian_order_refuted",
    "C52_gaussian_branch_refuted"
   ],
   "note": "Mixed. Proved for profiles (p_a, p_b, p_c, q_a, q_b, q_c as used by the caller). Refuted for normally distributed loads: the generator returns p_a, q_a, p_b, q_b, p_c, q_c, and the caller does not import it, so that this branch raises NameError."
  },
  {
   "property": "C53",
   "status": "partial",
   "theorems": [
    "C53_ratings",
    "C53_one_substation",
    "C53_apparent_power_iff",
    "C53_apparent_power_refuted",
    "C53_two_substations_refuted",
    "C53_loaded_substation_refuted"
   ],
   "note": "Mixed. The ratings are determined exactly: factor times the squared apparent power (refuted as apparent power; they agree only for 0 and 1 MVA). A single substation without load of its own gets the sum of the others (proved); refuted for several substations and for a substation with a load."
  },
  {
   "property": "C54",
   "status": "partial",
   "theorems": [
    "C54_ratings",
    "C54_counted_unique",
    "C54_orders_agree_iff",
    "C54_own_phase_refuted",
    "C54_substation_entry_refuted",
    "C54_two_loads_refuted"
   ],
   "note": "The property does not hold as stated. Refuted: ratings are ordered by phase, then bus, measurements by bus, then phase; the orders agree for one bus only. The substation's entries are chosen by the number of its load instead of its bus, and of several loads of a bus only the last one counts. The ratings computed are determined exactly."
  },
  {
   "property": "C55",
   "status": "partial",
   "theorems": [
    "C55_one_phase",
    "C55_three_phases",
    "C55_reload_one_phase",
    "C55_reload_three_phases",
    "C55_three_phases_refuted",
    "C55_changed_steps_refuted",
    "C55_reloaded_ratings_refuted"
   ],
   "note": "Mixed. Proved for one phase: the returned factor is the one by which the noise variance is divided, in both modes, and reloading with the same settings returns it (with ratings scaled by 4 / factor). Refuted for three phases with equivalent noise, where 1 is returned (and reloading returns the factor), after a change of the number of steps, and for reloaded ratings."
  },
  {
   "property": "C56",
   "status": "partial",
   "theorems": [
    "C56_lasso_penalty",
    "C56_inverse_weights_iff",
    "C56_inverse_weights_refuted"
   ],
   "note": "The property does not hold as stated. Refuted: build_lasso_prior passes 1/|y| to a function that divides by it, so the weight is |y|. The penalty is determined exactly for every parameter vector; it is the documented one exactly when every parameter of the estimate is 1 or -1. Requires all parameters different from zero (otherwise Python divides by zero)."
  },
  {
   "property": "C57",
   "status": "partial",
   "theorems": [
    "C57_penalty",
    "C57_at_estimate",
    "C57_at_estimate_sums",
    "C57_nodes_least",
    "C57_diagonal",
    "C57_laplacian_diagonal_unusable",
    "C57_laplacian_diagonal_refuted",
    "C57_single_contrast",
    "C57_single_contrast_at_estimate",
    "C57_single_contrast_refuted"
   ],
   "note": "Mixed. Proved for one contrast per node: the penalty is determined for every admissible matrix, both parametrisations and both kinds of reference; node terms vanish (up to the smoothness constant) exactly where the lines at each node add up to its reference, in particular at the estimate. Proved with the diagonal regularised for symmetric matrices. Refuted: for a Laplacian with regularised diagonal the prior can never be evaluated; the single contrast has residual 3/2 at the estimate. Lines of the estimate and references must not be zero (Python would divide by zero); decimals are exact."
  },
  {
   "property": "C58",
   "status": "partial",
   "theorems": [
    "C58_known_lines",
    "C58_other_type",
    "C58_small_network",
    "C58_suboptimal_is_optimal",
    "C58_suboptimal_refuted"
   ],
   "note": "The property does not hold as stated. Refuted: every string that contains suboptimal contains optimal, so the optimal lines are added (proved for all strings; witness for the penalty). Also proved: the penalty added by the optimal lines for both parametrisations and all n >= 29, with and without wrong; nothing is added for other strings; IndexError below 29 nodes."
  },
  {
   "property": "C59",
   "status": "partial",
   "theorems": [
    "C59_centring_keeps_the_admittance",
    "C59_laplacian_centring_keeps_the_admittance",
    "C59_noise_free_runs",
    "C59_noise_free_runs_lasso",
    "C59_unsynchronized_refuted"
   ],
   "note": "Mixed. Proved over every ordered field: centring keeps the relation, and the standard methods (least squares, total least squares with sound pinv and svd, Lasso with zero weight) return Y exactly when the centred voltages determine it. Refuted for unsynchronised samples: taking moduli of the currents breaks the relation."
  },
  {
   "property": "C60",
   "status": "proved",
   "theorems": [
    "C60_assembled_standard",
    "C60_assembled_bayesian",
    "C60_noise_free_sequences"
   ],
   "note": "For the standard methods and the Bayesian method including every recorded iteration, all label patterns and any per-phase results; and noise-free data of the three sequences give the exact matrix."
  },
  {
   "property": "C61",
   "status": "partial",
   "theorems": [
    "C61_unsupported_phases_refused",
    "C61_supported_phases_accepted",
    "C61_no_flag_means_all",
    "C61_missing_phase_refused",
    "C61_single_label_ignores_the_phase",
    "C61_missing_phase_refuted"
   ],
   "note": "Mixed. Supported strings are exactly those accepted, no flag means all stages, and a missing phase is refused when some label differs from 1. Refuted: when all labels are 1 the chosen phase is ignored and a phase without data is identified."
  },
  {
   "property": "C62",
   "status": "partial",
   "theorems": [
    "C62_uninterrupted",
    "C62_interrupted",
    "C62_run_again",
    "C62_interrupted_refuted",
    "C62_run_again_refuted"
   ],
   "note": "Mixed. Proved for every uninterrupted batch and every clean pair of configuration texts; an interrupted one changes only the three numbers, to values of the batch; run again, the repository's script restores the texts exactly when the seed left is not 111 and the days left are not 10, 15, 21, 30. Refuted: an interrupted batch leaves other numbers, and run again it may end with seed 1311 or 70 days (witnesses with the repository's files)."
  },
  {
   "property": "C63",
   "status": "partial",
   "theorems": [
    "C63_rejected_addition_breaks_the_prior",
    "C63_rejected_addition_refuted"
   ],
   "note": "The property does not hold as stated. Refuted: after a rejected addition every evaluation raises."
  },
  {
   "property": "C64",
   "status": "partial",
   "theorems": [
    "C64_default_regression_fails",
    "C64_default_regression_refuted",
    "C64_default_eiv_partial"
   ],
   "note": "The property does not hold as stated. Refuted: scipy's sparse identity cannot be converted by numpy.array(.., dtype=float32), so every fit raises TypeError before the first iteration. The EIV estimator's defaults are dense and represent every matrix (C64_default_eiv_partial)."
  },
  {
   "property": "C65",
   "status": "partial",
   "theorems": [
    "C65_drawn_currents",
    "C65_drawn_currents_without_substations",
    "C65_simulated_currents_refuted"
   ],
   "note": "The property does not hold as stated. Refuted: get_current_and_voltage returns injected currents, for which the shunt of a constant impedance is -I/V; reduce_network adds +I/V. Proved for currents given as drawn currents (in particular when hidden nodes carry no current), with the substations kept or removed (data zero at the substations, e.g. deviations from the mean)."
  },
  {
   "property": "C66",
   "status": "partial",
   "theorems": [
    "C66_small_loads_vanish",
    "C66_large_loads_draw",
    "C66_every_load_draws_refuted"
   ],
   "note": "Mixed. Refuted: a load of at most half the mean 90th percentile is rounded to no household at all and vanishes (unless its node is one of the constant nodes). Proved: a larger load at positive profile values is positive at every instant."
  },
  {
   "property": "C67",
   "status": "partial",
   "theorems": [
    "C67_rows",
    "C67_rows_three_phases",
    "C67_succeeds",
    "C67_requested_steps_refuted"
   ],
   "note": "Mixed. Refuted with the configuration of the repository: 10082 rows instead of 10080 in both modes. Proved: never fewer rows than requested, the exact number when samples are averaged, bounds in equivalent mode, and success whenever there is a sample per step."
  },
  {
   "property": "C68",
   "status": "partial",
   "theorems": [
    "C68_no_known_lines",
    "C68_symmetric",
    "C68_laplacian_index_error",
    "C68_laplacian_line_ignored",
    "C68_laplacian_refuted"
   ],
   "note": "The property does not hold as stated. Refuted for Laplacian matrices: 29 to 38 nodes give an IndexError, from 39 nodes on the conductance of the first known line is not constrained at all. Proved for symmetric matrices and without known lines."
  },
  {
   "property": "C69",
   "status": "proved",
   "theorems": [
    "C69_exact_lines"
   ],
   "note": ""
  },
  {
   "property": "C70",
   "status": "partial",
   "theorems": [
    "C70_standard_read_back",
    "C70_three_phase_standard_read_back",
    "C70_bayesian_read_back",
    "C70_redoing_a_stage_changes_nothing",
    "C70_three_phase_results_cannot_be_loaded",
    "C70_three_phase_reload_refuted"
   ],
   "note": "Mixed. Proved for one phase and all flag combinations, and for three phases when the Bayesian method is run again or no flag is given. Refuted for three phases with the standard methods alone: the Bayesian results of the whole network are loaded once per phase and do not fit the block, so that every such run ends with ValueError."
  },
  {
   "property": "C71",
   "status": "partial",
   "theorems": [
    "C71_continuing_never_succeeds",
    "C71_saved_history_is_of_one_run",
    "C71_continue_refuted"
   ],
   "note": "The property does not hold as stated. Refuted: no run with -c succeeds (the loaded history is an array, which has no method extend), after the Bayesian results of the new run have replaced the earlier ones. Proved: the saved history is that from before or holds at most the iterations of one run."
  },
  {
   "property": "C72",
   "status": "partial",
   "theorems": [
    "C72_uncertainty_never_succeeds",
    "C72_uncertainty_never_saved",
    "C72_uncertainty_refuted"
   ],
   "note": "The property does not hold as stated. Refuted: no run with the option succeeds (an undefined name is tested), and no run writes the uncertainty results of any network."
  },
  {
   "property": "C73",
   "status": "proved",
   "theorems": [
    "C73_unsynchronized_needs_weighted",
    "C73_exact_ignored_with_laplacian",
    "C73_weighted_needs_bayesian"
   ],
   "note": "Equality of result and all files."
  },
  {
   "property": "C74",
   "status": "partial",
   "theorems": [
    "C74_offsets_standard",
    "C74_offsets_bayesian",
    "C74_common_offset_standard",
    "C74_common_offset_bayesian",
    "C74_single_offset_with_laplacian_refuted"
   ],
   "note": "Mixed. Proved for the ordinary centring (all offsets) and for the Laplacian centring with an offset common to all voltages. Refuted for an offset of one voltage sensor with the Laplacian centring."
  },
  {
   "property": "C75",
   "status": "proved",
   "theorems": [
    "C75_other_phases_do_not_matter"
   ],
   "note": "For every pair of simulation files in which some label differs from 1 (otherwise the labels are ignored, see C61)."
  },
  {
   "property": "C76",
   "status": "partial",
   "theorems": [
    "C76_files_written",
    "C76_simulation_kept",
    "C76_other_results_kept",
    "C76_other_simulation_refuted"
   ],
   "note": "Mixed. The frame, the network's own simulation and the results of other networks are proved, also for runs that fail. Refuted: the simulation of a network called standard_results_x is overwritten by identifying x."
  },
  {
   "property": "C77",
   "status": "partial",
   "theorems": [
    "C77_three_phases_need_label_zero",
    "C77_phases_123_refuted"
   ],
   "note": "The property does not hold as stated. Refuted: no three-phase run without a node labelled 0 succeeds, so phases 1, 2, 3 can never be identified together; an example with labels 0, 1, 2 succeeds."
  },
  {
   "property": "C78",
   "status": "partial",
   "theorems": [
    "C78_standard_needs_earlier_results",
    "C78_standard_alone_refuted"
   ],
   "note": "The property does not hold as stated. Refuted: without earlier Bayesian results no run of the standard methods alone succeeds (the Bayesian results are loaded unconditionally)."
  },
  {
   "property": "C79",
   "status": "partial",
   "theorems": [
    "C79_announced",
    "C79_run_again_refuted",
    "C79_noise_level_left_refuted"
   ],
   "note": "Mixed. Proved for every batch started with the original settings, any lists of values. Refuted after an interruption: run again, the experiments announced for seed 11 run with seed 13, and a noise level left behind is used by all experiments of a later batch of sample sizes."
  },
  {
   "property": "C80",
   "status": "partial",
   "theorems": [
    "C80_nodes_and_phases",
    "C80_balanced_loads",
    "C80_uneven_phases_fail",
    "C80_other_nodes_per_phase_refuted",
    "C80_unbalanced_loads_refuted",
    "C80_substation_first_refuted",
    "C80_uneven_phases_refuted"
   ],
   "note": "Mixed. Proved for all networks with the substations after the removed nodes, when every node without load on one phase has none on the others (or passive nodes are looked for per node): the hidden loads enter as their average over the phases, which is the load itself when it is balanced. Refuted: different numbers of passive nodes per phase give ValueError; equal numbers of different nodes, an unbalanced hidden load and a substation at the first bus give a matrix that does not describe the remaining phases. numpy.linalg.pinv is assumed to satisfy the Penrose conditions."
  },
  {
   "property": "C81",
   "status": "partial",
   "theorems": [
    "C81_reduced_data",
    "C81_simulated_currents_refuted"
   ],
   "note": "Mixed. Proved for currents given as drawn currents, with the substations after the removed nodes and data zero at the substations. Refuted for simulated currents, which are injections: the shunt has the wrong sign."
  },
  {
   "property": "C82",
   "status": "partial",
   "theorems": [
    "C82_complete_run",
    "C82_repeated_with_noise",
    "C82_repeated_without_noise",
    "C82_repeated_same",
    "C82_safety_factor_refuted"
   ],
   "note": "Mixed. Complete runs do not depend on the files found, and repeating with -d (or with no flag) changes nothing. Without -d (`-s`, `-p`, `-p -s`) loads, results and measurements are the same, but the ratings are recomputed for the safety factor 4 instead of the one in the settings, and for three phases with equivalent noise the averaging factor changes from 1 to the number of samples per step: the output is the same for safety factor 4 otherwise, and refuted for another factor by a concrete run. The generator is reseeded by each part (parameter `seeded`)."
  },
  {
   "property": "C83",
   "status": "partial",
   "theorems": [
    "C83_up_to_date",
    "C83_noise_after_up_to_date",
    "C83_noise_repeated",
    "C83_stale",
    "C83_untouched_files",
    "C83_failed_run",
    "C83_new_loads_refuted"
   ],
   "note": "Mixed. Proved for runs that recompute simulation and noise (and for -d alone after such a run); failing runs leave the output, and untouched parts keep their files. Refuted for `-p -s` (and any -p or -s without -d): the saved measurements are always the old ones, and a concrete run shows new loads and a new simulation in the other files with the old measurements in the output."
  },
  {
   "property": "C84",
   "status": "partial",
   "theorems": [
    "C84_columns_and_ratings",
    "C84_every_bus_needs_a_load",
    "C84_three_phases",
    "C84_three_phase_ratings_refuted"
   ],
   "note": "Mixed. Proved for one phase (columns, ratings, labels; the template must have a load at every bus, or the run fails). Three phases: the labels fit the columns, the ratings do not: they are ordered by phase and bus while the columns are ordered by bus and phase (proved for all runs, with a concrete run whose rating is that of another bus)."
  },
  {
   "property": "C85",
   "status": "partial",
   "theorems": [
    "C85_laplacian",
    "C85_grounded",
    "C85_hidden_impedance_refuted",
    "C85_substation_first_refuted"
   ],
   "note": "Mixed. Proved for idle (no-current) eliminated buses, with and without the substation. Refuted for hidden loads of constant impedance: the program passes injected currents to a reduction that expects drawn ones, so the shunt has the wrong sign. Refuted for a substation listed before an idle bus without -l: the matrix has more nodes than the measurements. The order hypothesis `orderly` is the one of C45."
  },
  {
   "property": "C86",
   "status": "proved",
   "theorems": [
    "C86_laplacian",
    "C86_grounded"
   ],
   "note": "Proved in exact arithmetic, from the characterisation of both programs; the contracts of pinv and svd are hypotheses about the data of the run. Examples compute both programs on a Laplacian and a grounded network."
  },
  {
   "property": "C87",
   "status": "proved",
   "theorems": [
    "C87_lasso_is_reweighted_regression"
   ],
   "note": "Proved for the model of the whole program, in exact arithmetic. The penalty is written with the parameters of the matrices (entries below or on the diagonal), not with the prior objects."
  },
  {
   "property": "C88",
   "status": "partial",
   "theorems": [
    "C88_weighted_identification",
    "C88_unsynchronised_identification",
    "C88_unweighted_identification"
   ],
   "note": "Proved for three modes of the program, in exact arithmetic. The penalty is a sum over lines and nodes; the covariance routines are parameters (C30-C36 describe them). The case of a given exact matrix (-e without -l) is not covered."
  },
  {
   "property": "C89",
   "status": "proved",
   "theorems": [
    "C89_ratings_and_current_noise_unused"
   ],
   "note": "Proved for all runs. It is the program-level consequence of C25: the weights of the outputs are read but the weights of the inputs are used in their place."
  },
  {
   "property": "C90",
   "status": "proved",
   "theorems": [
    "C90_standard_reports",
    "C90_bayesian_reports",
    "C90_figures",
    "C90_zero_error"
   ],
   "note": "Proved for the model of plot_results.py:22-149. The metrics are described by sums over entries, not by the functions of error_metrics.py."
  },
  {
   "property": "C91",
   "status": "proved",
   "theorems": [
    "C91_overall_errors",
    "C91_largest_error_refuted"
   ],
   "note": "Mixed. The overall errors agree (proved); the largest error is refuted with a network of one node and three phases."
  },
  {
   "property": "C92",
   "status": "proved",
   "theorems": [
    "C92_sparsity_report",
    "C92_hundred_percent"
   ],
   "note": "Proved. The second theorem is a finding: the arguments of error_metrics are the other way round than in the other reports."
  },
  {
   "property": "C93",
   "status": "proved",
   "theorems": [
    "C93_finishes",
    "C93_no_absent_line"
   ],
   "note": "Proved, both when the program finishes and when it fails."
  },
  {
   "property": "C94",
   "status": "proved",
   "theorems": [
    "C94_bayesian_alone"
   ],
   "note": "Proved. A finding: plot_results.py:127 uses variables that are only set when the standard file exists."
  },
  {
   "property": "C95",
   "status": "proved",
   "theorems": [
    "C95_old_reports",
    "C95_reports_of_the_network_refuted"
   ],
   "note": "Mixed. The frame is proved; that the reports belong to the network is refuted."
  },
  {
   "property": "C96",
   "status": "proved",
   "theorems": [
    "C96_correlations",
    "C96_values"
   ],
   "note": "Proved. A finding: the label is fixed to 1 in plot_results.py:45."
  },
  {
   "property": "C97",
   "status": "proved",
   "theorems": [
    "C97_colours",
    "C97_labels_fail"
   ],
   "note": "Proved. The failure with labels is the misspelt method in utils.py:134."
  },
  {
   "property": "C98",
   "status": "proved",
   "theorems": [
    "C98_can_be_eliminated",
    "C98_islands",
    "C98_exactly",
    "C98_equal_voltages",
    "C98_program",
    "C98_saved_laplacian",
    "C98_saved_grounded",
    "C98_identified_laplacian",
    "C98_identified_grounded"
   ],
   "note": "Proved by an energy argument (the real part of v* Y v is a sum of nonnegative losses), in exact arithmetic over any ordered field. C98_program discharges the hypothesis `solvable` of C85 and C86; the four saved/identified theorems are C85 and C86 with it."
  },
  {
   "property": "C99",
   "status": "proved",
   "theorems": [
    "C99_networks",
    "C99_can_be_eliminated",
    "C99_saved_laplacian",
    "C99_saved_grounded"
   ],
   "note": "Mixed. The tables are transcribed with exact decimals. Without the substation the claim excludes ieee_33: C85_substation_first_refuted shows what happens when the substation is not the last bus."
  },
  {
   "property": "C100",
   "status": "proved",
   "theorems": [
    "C100_observed_nodes_refuted",
    "C100_missing_node",
    "C100_shipped_networks",
    "C100_shipped_columns",
    "C100_missing_node_three_phases"
   ],
   "note": "Mixed. The failures and the columns of a successful run are proved; C100_observed_nodes_refuted is a run (whose success comes from C103) with the shipped settings. The order of the shipped list is that of CPython's set."
  },
  {
   "property": "C101",
   "status": "proved",
   "theorems": [
    "C101_bolognani33",
    "C101_ieee123center",
    "C101_cigre_mv_feeder",
    "C101_bolognani21_refuted"
   ],
   "note": "Mixed. Three pairs agree; C101_bolognani21_refuted also shows that the table with a repaired last line would be a part of bolognani56."
  },
  {
   "property": "C102",
   "status": "proved",
   "theorems": [
    "C102_uneven_phases",
    "C102_ieee123center",
    "C102_test_3phase",
    "C102_shipped_settings"
   ],
   "note": "Proved as impossibility: no run succeeds. The sequence admittances are parameters with the right shapes."
  },
  {
   "property": "C103",
   "status": "proved",
   "theorems": [
    "C103_runs_to_the_end",
    "C103_shipped_networks",
    "C103_shipped_settings"
   ],
   "note": "The power flow is a parameter that converges. Exact arithmetic."
  },
  {
   "property": "C104",
   "status": "proved",
   "theorems": [
    "C104_one_phase",
    "C104_three_phases"
   ],
   "note": "The power flow and, for three phases, the admittance matrix are parameters; one theorem for each of the two kinds of networks."
  },
  {
   "property": "C105",
   "status": "proved",
   "theorems": [
    "C105_analysis",
    "C105_reported_error",
    "C105_equal_errors",
    "C105_read_back",
    "C105_exceptions",
    "C105_expected_error_refuted"
   ],
   "note": "Mixed. C105_analysis says what is computed and when; C105_expected_error_refuted is a run with samples that are all wrong by 100 % and the reported value 0. The sampler is a parameter. Exact arithmetic over R. C105_exceptions: a failed analysis leaves the file as it was, and without data the only exception is that of a missing file."
  },
  {
   "property": "C106",
   "status": "proved",
   "theorems": [
    "C106_same_results",
    "C106_later_laplacian",
    "C106_other_network",
    "C106_other_network_fails",
    "C106_shipped_networks",
    "C106_separate_refuted"
   ],
   "note": "Mixed. C106_same_results is the positive part; C106_separate_refuted is a pair of calls with different results in one process and in two, C106_later_laplacian, C106_other_network, C106_other_network_fails and C106_shipped_networks say what goes wrong. An exception ends its call only."
  },
  {
   "property": "C107",
   "status": "proved",
   "theorems": [
    "C107_gaussian",
    "C107_profiles",
    "C107_no_source",
    "C107_three_phases_gaussian",
    "C107_three_phases",
    "C107_same_loads"
   ],
   "note": "Mixed. C107_gaussian, C107_profiles and C107_three_phases give the contents of the file, or the run fails with the files unchanged; C107_same_loads says that nothing else matters; C107_no_source and C107_three_phases_gaussian are the cases in which no loads can be made (the second is a defect, see also C52)."
  },
  {
   "property": "C108",
   "status": "proved",
   "theorems": [
    "C108_standard_run",
    "C108_eiv_run",
    "C108_program",
    "C108_weights",
    "C108_ols",
    "C108_tls",
    "C108_tls_single_output",
    "C108_regression",
    "C108_eiv_unweighted",
    "C108_eiv_weighted"
   ],
   "note": "C108_ols, C108_tls, C108_tls_single_output, C108_regression, C108_eiv_unweighted, C108_eiv_weighted for the estimators; C108_weights for the weights; C108_standard_run, C108_eiv_run and C108_program for the runs (no weights; the conditions on pinv, svd and the singular values are required of the tables the runs fit). The results are equal in exact arithmetic; in floating point the sums are formed in another order."
  },
  {
   "property": "C109",
   "status": "proved",
   "theorems": [
    "C109_least_correction",
    "C109_size_of_correction",
    "C109_only_one",
    "C109_single_output"
   ],
   "note": "C109_least_correction, C109_size_of_correction, C109_only_one (unique when the singular values are apart) and C109_single_output. No condition on the number of samples or the rank of the data is needed for optimality; the fit raises LinAlgError when the block of the singular vectors is singular."
  },
  {
   "property": "C110",
   "status": "proved",
   "theorems": [
    "C110_standard",
    "C110_eiv",
    "C110_program"
   ],
   "note": "C110_standard, C110_eiv and C110_program (one or three phases; result and all files). With weights the covariances are computed from the measured values, so offsets matter there by design."
  },
  {
   "property": "C111",
   "status": "proved",
   "theorems": [
    "C111_two_conductors",
    "C111_one_conductor",
    "C111_cigre"
   ],
   "note": "C111_two_conductors, C111_one_conductor, C111_cigre. ieee_33 has no such regularity (all lengths are 1). The three-phase tables name their conductors and are compared with these in C101."
  },
  {
   "property": "C112",
   "status": "proved",
   "theorems": [
    "C112_ols",
    "C112_tls",
    "C112_bayesian_unweighted",
    "C112_bayesian_weighted",
    "C112_weights",
    "C112_standard"
   ],
   "note": "C112_ols, C112_tls; from the more general fact that a unitary change of the columns of x and y changes the estimate b to p^H b q (ProofRenumber.v). C112_standard: each round of the Lasso has exactly one best admissible matrix, and the penalty and the misfit are the same for renumbered matrices. Needs n > 0 for total least squares and two nodes for the Lasso. C112_bayesian_unweighted, C112_bayesian_weighted: the correction of the voltages is unique too (weighted: positive definite weights; unweighted: a projection), and with a positive factor the penalties of the lines determine a Laplacian matrix, so each round has one result whatever the voltages are. C112_weights: the hypothesis on the weights holds for the three covariance functions. Not covered: the Bayesian identification without the Laplacian structure."
  },
  {
   "property": "C113",
   "status": "proved",
   "theorems": [
    "C113_ols",
    "C113_tls",
    "C113_tls_own_units_refuted"
   ],
   "note": "Mixed. C113_ols, C113_tls proved; C113_tls_own_units_refuted: voltages in a unit four times larger make the fit raise LinAlgError."
  },
  {
   "property": "C114",
   "status": "proved",
   "theorems": [
    "C114_ols",
    "C114_tls",
    "C114_regression",
    "C114_eiv_weighted",
    "C114_eiv_unweighted_refuted"
   ],
   "note": "Mixed. C114_ols, C114_tls, C114_regression, C114_eiv_weighted proved. C114_eiv_unweighted_refuted: the unweighted target contains da.dot(da) without a conjugate; two samples turned by a right angle stop after three iterations instead of two, with another estimate."
  },
  {
   "property": "C115",
   "status": "proved",
   "theorems": [
    "C115_standard",
    "C115_bayesian",
    "C115_program"
   ],
   "note": "C115_standard, C115_bayesian and C115_program. The results are the unique minimisers of each round, so they are fixed by the requirements on the routines. Exact arithmetic; rounding differences of real routines are not covered. The Bayesian identification without the Laplacian structure is not covered (its rounds need not have one minimiser only)."
  },
  {
   "property": "C116",
   "status": "proved",
   "theorems": [
    "C116_ratio",
    "C116_larger_bayesian",
    "C116_larger_lasso"
   ],
   "note": "C116_ratio, C116_larger_bayesian and C116_larger_lasso. The statements on a larger factor are for one iteration from the same start value, because the weights of the penalty of the next iterations depend on the estimate of the one before. The penalties are the smoothed ones of the code (relaxed_pen, relaxed_lasso of SpecBayes.v)."
  },
  {
   "property": "C117",
   "status": "proved",
   "theorems": [
    "C117_samples",
    "C117_samples3",
    "C117_voltages",
    "C117_voltages3",
    "C117_failures",
    "C117_failures3",
    "C117_other_file",
    "C117_parallel",
    "C117_mixed_refuted",
    "C117_same_second_refuted"
   ],
   "note": "Mixed. C117_samples, C117_samples3, C117_voltages, C117_voltages3, C117_failures, C117_failures3, C117_other_file and C117_parallel are proved. Two gaps of the program are proved with witnesses: two programs that start in the same second share the directory and one can read the voltages of the other one (C117_same_second_refuted), and a simulation with three phases after one with one phase in the same second fails with TypeError after all its power flows (C117_mixed_refuted; C117_other_file is the general reason). The power flow of pandapower is a parameter that depends on the network with its present loads only; controllers, writer and files follow the documentation of pandapower."
  },
  {
   "property": "C118",
   "status": "proved",
   "theorems": [
    "C118_least_squares",
    "C118_standard",
    "C118_unchanged_refuted"
   ],
   "note": "Mixed. C118_least_squares and C118_standard are proved; C118_unchanged_refuted shows with a witness that with the same lambda_lasso the Lasso gives another matrix for the repeated samples (the penalty is not scaled with the number of samples). As in C108 the pseudo-inverse and the singular value decomposition are assumed exact on the two centred tables, the singular values apart, and for the Lasso the centred voltages independent and the least squares estimate without zeros at the penalised places. The Bayesian identification is not part of this property."
  },
  {
   "property": "C119",
   "status": "proved",
   "theorems": [
    "C119_lines",
    "C119_lines_3ph",
    "C119_same_as_numpy",
    "C119_failures",
    "C119_files_of_other_length_refuted"
   ],
   "note": "Mixed. C119_lines, C119_lines_3ph, C119_same_as_numpy and C119_failures are proved; C119_files_of_other_length_refuted shows with a witness that the readers disagree if the file of the reactive powers is longer than that of the active ones. A csv file is the table of its numbers: the parsing by pandas is not modelled, and its arguments skiprows and skipfooter are taken to drop the first and the last lines."
  },
  {
   "property": "C120",
   "status": "proved",
   "theorems": [
    "C120_documented",
    "C120_no_coupling_iff",
    "C120_single_phase_refuted"
   ],
   "note": "Mixed. C120_documented and C120_no_coupling_iff are proved; C120_single_phase_refuted shows with a witness that OG1 does not have the documented impedances (`Z1_0_og = Z1_1_og / 0.3` divides a value that is already per km). That pandapower puts -1/(length * impedance), in units of a base, between joined nodes of the sequence matrices is a hypothesis (`joins`), and so is that the positive and negative sequences agree. Nothing is documented about UG3CIGRE, whose positive-sequence resistance, but not its reactance, is a third of that of UG3."
  },
  {
   "property": "C121",
   "status": "proved",
   "theorems": [
    "C121_units",
    "C121_units_3ph",
    "C121_random_loads",
    "C121_generate_loads",
    "C121_generate_loads_3ph",
    "C121_file_alone_refuted"
   ],
   "note": "Mixed. C121_units, C121_units_3ph, C121_random_loads, C121_generate_loads and C121_generate_loads_3ph are proved; C121_file_alone_refuted shows with a witness that the nominal values have to be scaled with the file. Arithmetic is exact, so the factors do not change the rounding of floats."
  }
 ]
}