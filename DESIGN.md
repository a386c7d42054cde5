# Design of the verification of eiv-grid-id

The code under study is the Python package in `/repo` (grid admittance identification:
error-in-variables regression, Bayesian priors, simulation of distribution grids).
Nothing of it is run. Every function that matters to a property is re-written by hand
as a total Gallina function, next to a comment giving file and line numbers, and the
properties of `properties.jsonl` are proved about those functions.

## 1. Layout

| directory / file          | content |
|---------------------------|---------|
| `rocq/theories/Base*.v`   | exceptions-as-values, fields, complex numbers, sums, numpy-like arrays |
| `rocq/theories/Model*.v`  | the model: one file per Python module, definitions only, line citations |
| `rocq/theories/Spec*.v`   | small specifications, written without the model's helpers |
| `rocq/theories/Proof*.v`  | lemmas |
| `rocq/theories/Prop*.v`   | property theorems only: statement, `exact lemma`, `Print Assumptions`, a worked example |

Every `.v` file is listed in `_CoqProject`.

## 2. How Python is modelled

* **Exceptions** are values: `res A := Ok a | Err e` with `e` one of the Python exception
  classes. A function that can raise returns `res`. Branches that raise are part of the model.
* **Arrays.** A 2-D array is a record (rows, columns, list of row lists); 1-D arrays are lists.
  Leibniz equality on these is array equality. Shape errors (`ValueError`), index errors
  (`IndexError`) and negative-index wrap-around are modelled where the code can reach them.
* **Numbers.** Floating point arithmetic is replaced by exact arithmetic: an arbitrary
  field (`Fld`), complex numbers over a formally real field, or the real numbers of the
  Coq standard library when order, `sqrt`, `exp`, `cos` are needed.  Rounding, overflow, NaN and
  infinities are *not* modelled (except in `lines_per_week`, where a double is truncated to an integer: Flocq's
  rounding to nearest even); where a comparison with NaN/inf decides a branch
  (`_is_stationary_point` with a zero previous target) the branch taken by IEEE is written out.
  Theorems carry the hypothesis "non-zero" wherever the code divides.
* **In-place loops** (`res[i,j] = 1`) are folds of a checked update.
* **Objects** with mutable state (priors, estimators, networks) are records; methods return the
  new record. Aliasing is modelled where it matters (shared lists, module-level configuration).
* **External calls** are parameters ("oracles"): `numpy.linalg.inv/pinv/svd`,
  `scipy.sparse.linalg.spsolve`, `numpy.random`, pandapower's power flow. A theorem that depends on what they
  return states the required fact as a hypothesis on exactly the call made
  (e.g. "the returned vector solves this system"), and an example shows the hypothesis is satisfiable.
  Theorems that do not need such facts hold for every oracle.
* **CPython sets of small integers** are modelled by the open-addressing table of
  `Objects/setobject.c` (insertion, probing, resizing, difference), because one property depends on
  iteration order.

## 3. Trusted base

* Coq 8.16.1's kernel (and `coqchk`), the standard library axioms listed by `Print Assumptions`
  under every property theorem. Purely structural theorems (indices, lists, fields) are
  closed under the global context. Theorems about real numbers use the standard
  library's axiomatisation of `R`: `ClassicalDedekindReals.sig_forall_dec`,
  `ClassicalDedekindReals.sig_not_dec`, `FunctionalExtensionality.functional_extensionality_dep`
  (and `Classical_Prop.classic` where Coquelicot or the trigonometric part of the library needs it).
  No other axiom, no axiom of our own. The full table is in section 6.
* That the model says what the Python says (sections 2 and 5).
* That numpy/scipy/pandas/pandapower primitives behave as the small definitions in `Base*.v`
  and the model comments say.

## 4. Plan per property

Status in MANIFEST.json: `proved` means that the statement in properties.jsonl is proved as it stands (a few of these
statements themselves say that something fails). `partial` means that the statement is not true of the code as it stands:
theorems with the suffix `_refuted` give witnesses, and the other theorems of the claim prove the part that holds or say
what the code does instead; C88 is partial because one option of the program is not covered. 52 claims are partial;
20 of them (C04, C17, C24, C25, C30, C38, C40, C42, C45, C54, C56, C58, C63, C64, C65, C68, C71, C72, C77, C78) have a note that begins with "The property does not
hold as stated".

Array layer
* C01 `flatten('F')`, `reshape(...,'F')`, transpose+flatten as list functions; both round trips, index law, error branch, CPU = GPU.
* C02 hstack of real/imag, slicing at `int(size/2)`, numpy broadcasting of `+`; round trips by list reasoning; the odd case is refuted (lengths 1 and 3 broadcast).
* C03 block matrix; homomorphism by entry-wise computation with finite sums over any field.
* C04 slicing with a float bound raises `TypeError`: refuted for every argument.
* C05-C08 the double loops as folds of checked updates, closed form of every entry by loop invariants over all n, `vech`, symmetric and Laplacian specified entry-wise in a separate file.
* C09 `np.delete` (index set) and the insertion loop; induction over the sorted index list.
* C10-C11 norms over the reals; Cauchy-Schwarz/triangle inequality for lists of complex numbers.

Estimators
* C12-C13 `pinv` oracle characterised by the four Penrose equations for the call made.
* C14 `svd` oracle: unitary factors, sorted non-negative singular values; rank argument by a proved dimension lemma.
* C15-C18 prior as record with the methods as functions returning `res`; histories are lists of operations; induction.
* C63 the add methods change the prior before the index check that raises: the state left behind is part of the model, and every later evaluation fails.
* C64 the default builders as coded (sparse identity for the plain regression, dense identity for errors in variables).
* C19-C20 `log_distribution` over the reals; sparse variant with its `squeeze` calls.
* C24 (continued) the loop appends to the list of records it was given, and only the stopping test reads that list: it reads the record of the same number, which is a record of the first fit.
* C21-C24 `fit` loops as recursive functions over remaining iterations with the estimator state; solver is an oracle.
* C25-C27 weighted branch of the error-in-variables loop, convexity of quadratic forms.
* C28 majorise-minimise argument with the smoothed l1 function (logarithm inequality over the reals); the recorded target is refuted on a concrete problem if it can increase.
* C29 projector algebra with an `inv` oracle.
* C30 the block weights as coded versus the inverse of the residual covariance: refuted by a one-node example.

Noise
* C31-C36 closed formulas over the reals, including `angle` (atan2) and argument-type dispatch;
  C33/C34 with an abstract expectation operator (linear, product form, Gaussian characteristic values) and a concrete three-point distribution realising it. Integration against the Gaussian density itself is not modelled.
* C37-C38 random draws are arguments; polar form and back.
* C39-C40 linear interpolation and block mean as list functions.

Simulation
* C41-C42 3x3 transforms with an abstract primitive cube root of unity, Kronecker product with the identity.
* C43-C45 Schur complement over a field with `pinv` replaced by "inverse of an invertible block"; the kept order comes from the set model.
* C46, C65, C80, C81 index lists of `reduce_network` literally (single- and three-phase), shunts from column means; "what remains" is stated through voltages and currents (grounded nodes at zero, eliminated nodes without injection).
* C47-C49 pandapower tables as association lists; bus admittance matrix of lines without shunt as documented by pandapower.
* C82, C83 `simulate_network.py` as a function from four optional files to four files and a result; power flow, polar form, three-phase admittance matrix and reduction are parameters. A complete characterisation of successful runs (`run_ok`), then comparison of two runs. The full program is evaluated on a one-day example over the rationals.
* C90-C97 the program `plot_results.py`: it reads the files of the simulation and the identification and changes a map from output names to texts (lists of titles and metrics) and arrays. The metrics in the reports are described by sums of squares over entries or pairs of nodes (`SpecPlot.v`); the conversion between phases and sequences keeps these sums because its matrix is a multiple of a unitary one. Eigenvalues are a parameter. Inversion lemmas describe successful runs, forward lemmas when a run succeeds.
* C87-C89 the numerical content of an identification: the frozen quadratic of each prior (C56-C58) is computed as a sum over lines and nodes (`SpecBayes.v`), then the characterisations of the fits (C21-C25) are combined with the characterisation of successful single-phase runs. C89 relates two runs step by step.
* C99 the tables are transcribed row by row with exact decimals; soundness is checked by evaluation of labels and ends, with a table of next hops as a certificate for connectedness, and by lemmas on decimals; then C98 is applied.
* C100 the positions of the hidden nodes are computed before anything else can stop the reduction; a successful run needs all of them. The list of hidden nodes is the iteration order of the model of CPython's set.
* C101 row by row comparison of decimals over any field.
* C102 after the reduction the three blocks of the phases have different sizes and cannot be combined.
* C103 every step of the program is shown to succeed; with C100 this is an equivalence on the shipped networks.
* C112 for the Lasso: the parameters of the renumbered matrix are not a permutation of the parameters (the sign and the triangle change), so the rounds are compared through matrices: the round is characterised as the unique minimiser of misfit and frozen penalty over the admissible matrices (ProofEquiv.v, ProofEquiv2.v), both invariant under renumbering because a sum over lines is half a sum over ordered pairs; the two loops then run side by side (ProofEquiv3.v).
* C112 for the Bayesian identification: both halves of a round have one result (ProofEquiv4.v, ProofEquiv5.v); the line and node penalties, the projection onto the flow equations and the costs of corrections are the same for renumbered data, so the loops run side by side (ProofEquiv6.v). The weights are four diagonal blocks whose entries depend on one phasor each (ProofRenumberCov.v).
* C121 sorting commutes with a positive factor, hence the percentiles and the mean share are multiplied by it and the numbers of households stay the same; then column by column with one generator (ProofScale.v, PropScale.v).
* C120 the blocks of the phase matrix are Kronecker factors; with two equal sequences a block has (y0 + 2 y1)/3 on its diagonal and (y0 - y1)/3 beside it (ProofTypes.v), and the products with the documented impedances are computed from there (PropTypes.v).
* C119 the tables read so far are the listed rows of the files, by induction on the list of parts (ProofCsv.v); the slices of the npy reader are the same rows, and the households are those of C50 (PropCsv.v).
* C118 sums over the records are the sums over the samples times the number of records; so the means are the same, the Gram matrices are multiples (total least squares: the right singular spaces are the same although the singular values are scaled), the pseudo-inverse is found by the uniqueness of Penrose, and in each round of the Lasso the objective is multiplied by the number of records, so its unique minimum is the same (ProofRepeat.v, PropRepeat.v).
* C117 an invariant of the loop over the samples (the network differs from the first one in the powers only) and the overwriting of every power in every step; the files by induction over the written list; the parallel programs by induction over the schedule (ProofSimRun.v, PropSimRun.v).
* C116 each round minimises misfit + factor * penalty and has one minimiser, so scaling both parts does not move it, and for two factors the usual exchange argument orders penalty and misfit (ProofFactor.v).
* C115 pseudo-inverses are unique, the used block of singular vectors is fixed up to a unitary factor that cancels, and each round of the iterative fits has one minimiser; the simulation of C112 is used with two solvers and the numbering that changes nothing (ProofRoutines.v).
* C114 turning the samples is a product with a unitary diagonal matrix; the development of C108 for real orthogonal matrices is repeated for complex unitary ones (ProofAngle.v). Symmetric weights are determined by their quadratic form, so the specification by costs fixes the turned weights.
* C112, C113 a unitary change of basis of the columns turns a pseudo-inverse into the pseudo-inverse and a singular value decomposition into a decomposition of the new data; the uniqueness results of C108 (Penrose equations; the spaces of the singular vectors on both sides of the gap) then compare with the decomposition that was computed for the new data. Scaling in the same way.
* C111 every row is compared with the conductors as a quotient of decimals, over every ordered field; the constructed network is described by `p_build` (ProofNetBuild.v).
* C110 centring removes the offsets exactly, so all estimators see identical arrays; the rest of the program is carried along by a congruence for the input and output actions, and the frame lemma (the simulation file is read once) gives the equality of all other files. The same congruence lifts C108 from the estimators to the program.
* C109 coefficients b and corrections E = [dx dy] fit exactly when ([x y] + E) N = 0 with N = [b; -I]. Lower bound: E restricted to the range of N is minus the data there; in the basis of the right singular vectors the projector on that range has diagonal entries q_i between 0 and 1 with sum m, so the sum of s_i^2 q_i is at least the sum of the m smallest s_i^2. Attained: remove the part of the data in the last m singular vectors. Uniqueness: equality forces q_i = 0 for the first n vectors. No square roots, no compactness: everything is finite sums over an ordered field.
* C108 a permutation of the samples is multiplication by an orthogonal matrix Q; the stacked real data are multiplied by an orthogonal matrix B. Normal equations, targets and projections do not change. With weights the system for the input error is conjugated by B and its unique solution is multiplied by B. Ordinary least squares: the pseudo-inverse is unique. Total least squares: two decompositions of data with the same Gram matrix have right singular vectors that differ, in the columns used, by a unitary factor, which cancels; the gap between the singular values and a dimension count exclude other cases.
* C107 what was proved about load generation (C49 to C52) for any network is combined with the tables of loads of a network built from a template (no assumption on the template but that the network could be built) and carried through the remaining steps of the program, none of which writes the file of loads.
* C106 repeated labels at the end of the list of hidden nodes change neither the sets (iteration order included) nor the loads nor the reduced matrix; by induction over the calls. For the later Laplacian the rows of the matrix are counted: the nodes that stay and the substations.
* C105 the computed matrix is B^T W B with W positive definite, so it is regular exactly if B is injective; B is block diagonal with the real and the imaginary parts of the voltages. The standard deviation of the norms is compared with their root mean square.
* C104 the successful run is decomposed into its steps; each of the three saved values is compared with an entrywise specification.
* C98 an energy argument: if `Y[E,E] v = 0`, the sum of the losses in the lines is zero, so voltages agree along lines and vanish where a line leads out of `E`; a square matrix with trivial kernel has an inverse. Conversely the indicator vector of an island is in the kernel. The set of nodes that lead out is computed by iteration to decide it.
* C84-C86 what the file saved by `simulate_network.py` holds: the characterisation of successful runs (`run_facts`) is combined with C45-C49 (reduction), C50-C55 (measurements) and C59 (exact standard estimates). Two full programs are evaluated one after the other on small networks over the rationals.
* C50-C55, C66, C67 load profiles, ratings, averaging factor as list functions; random draws are arguments; Python's `round` is any function to the nearest integer, even on ties.

Identification and scripts
* C56-C58, C68, C69 prior builders of `identification/run.py`, literally (elimination and duplication matrices, `np.where` index lists, priors of C15-C20). The specification is a penalty: a sum over lines and nodes of the candidate matrix. Decimal constants are exact, division by zero is excluded by hypotheses on the estimate.
* C59-C61, C70-C78 the program `identify_network.py` with `identification/run.py` and `run3ph.py`: files are a map from paths to contents, a run is a function from files to files and a result, so that failing runs keep what they wrote. Options and configuration are records, the numerical routines, covariances and constants are parameters. Printing is left out; `eiv_fim` is not reached (C72). C59 uses exact arithmetic and the specifications of `pinv` and `svd`; C60 boolean-mask assignment with counts checked as numpy does; C70, C73, C75 compare two runs.
* C62, C79 `run_multiple_sims.sh` as a list of steps (`sed` substitution on texts of characters, start of a program); a crash is a prefix of the list. Only `.` is special in the patterns that occur. The specification describes the texts by lines with numbers in them, without `sed`. Started programs are recorded with the texts they see; they do not change them.

Not expressible / left out: drawing, printing on the terminal, timing, csv parsing, numerical rounding, convergence of the
power flow solver, GPU memory handling.

## 5. What is modelled

| file in `/repo` | modelled, in | not modelled |
|---|---|---|
| `src/models/matrix_operations.py` | all, `ModelMatrixOps.v` | — |
| `src/models/gpu_matrix_operations.py` | the functions that differ from the CPU ones, `ModelMatrixOps.v` | transfers to the device |
| `src/models/error_metrics.py` | all, `ModelErrorMetrics.v` | printing |
| `src/models/abstract_models.py` | the fields used by the subclasses | abstract declarations |
| `src/models/regression.py` | lines 32-148, `ModelLS.v`, `ModelFit.v` (CPU branch) | GPU branch, progress bar |
| `src/models/error_in_variable.py` | 34-51 `ModelLS.v`, 53-127 `ModelFisher.v`, 130-288 `ModelFit.v` (CPU branch) | 289-319, GPU branch |
| `src/models/bayesian_prior.py`, `smooth_prior.py` | all, `ModelPrior.v` | — |
| `src/models/noise_transformation.py` | all, `ModelNoiseCov.v` | — |
| `src/simulation/lines.py` | data class `ModelNet.v`, conversions `ModelLines.v` | — |
| `src/simulation/load_profile.py` | data class `ModelNet.v`, generators `ModelLoads.v`, csv reader `ModelCsv.v` (a file is the table of its numbers) | csv parsing, numpy's choice of draws |
| `src/simulation/network.py`, `network_3ph.py`, `abstract_network.py` | all, `ModelNet.v`, `ModelKron.v`, `ModelReduce3.v` | pandapower's own `Ybus` computation (documented formula instead) |
| `src/simulation/noise.py` | all, `ModelNoise.v`, `ModelResample.v` | distribution of the draws |
| `src/simulation/run.py` | generate_loads, add_noise_and_filter, reduce_network: `ModelLoads.v`, `ModelMeasure.v`, `ModelReduce.v`; make_net, simulate_net: `ModelScript.v` | — |
| `src/simulation/run3ph.py` | generate_loads, add_noise_and_filter, reduce_network: `ModelLoads.v`, `ModelMeasure.v`, `ModelReduce3.v`; make_net, simulate_net: `ModelScript.v` | — |
| `src/simulation/simulation.py`, `simulation_3ph.py` | get_current_and_voltage, `ModelScript.v`; `run`, `from_dir`, `ModelSimRun.v` | the power flow of pandapower (a parameter), csv formatting of the numbers |
| `src/simulation/net_templates.py`, `net_templates_3ph.py` | the tables of the networks and of the line types, `ModelTemplates.v`; zero-sequence parameters of the line types, `ModelTypes.v` | limits of the currents |
| `simulate_network.py` | 30-125, `ModelScript.v`; several calls in one process `ModelSession.v` | command line parsing (click), printing |
| `src/identification/run.py` | 15-243 `ModelIdent.v`, 246-455 `ModelRun.v`, `eiv_fim` 458-534 `ModelFim.v` | — |
| `src/identification/run3ph.py` | `ModelIdent.v`, `ModelRun.v` | `eiv_fim` (returns zeros) |
| `src/identification/utils.py` | choice of colours, saved arrays, `ModelPlot.v` | drawing, tikz files |
| `plot_results.py` | 22-149, `ModelPlot.v` | after 151 (no program writes the file read there, C72), drawing, printing |
| `identify_network.py` | 25-128, `ModelRun.v` | command line parsing (click) |
| `run_multiple_sims.sh` | all, `ModelBatch.v` | exit codes of the programs it starts |
| `conf/*.py` | texts of `conf.py`, `simulation.py` in `PropBatch.v`; hidden and observed nodes in `ModelTemplates.v`; values as arguments elsewhere | — |

## 6. Assumptions of every theorem

What `Print Assumptions` lists. Theorems not named below are closed under the global context
(no axiom at all): 326 of 487.

* `ClassicalDedekindReals.sig_forall_dec`, `FunctionalExtensionality.functional_extensionality_dep` (5 theorems): C37_zero_cartesian_noise, C37_zero_cartesian_noise_on_both, C37_cartesian_noise_form, C37_cartesian_noise_form_on_both, C80_balanced_loads.
* `ClassicalDedekindReals.sig_forall_dec`, `ClassicalDedekindReals.sig_not_dec`, `FunctionalExtensionality.functional_extensionality_dep` (35 theorems): C10_fro_error_is_root_of_squares, C10_max_error_is_largest_modulus, C10_fro_error_zero_iff_equal, C10_fro_error_triangle, C10_max_error_zero_iff_equal, C10_max_error_triangle, C10_max_le_fro_le_sqrt_size_max, C10_shape_mismatch_and_empty_are_rejected, C11_rrms_is_percentage_of_norm, C11_rrms_scale_free, C11_rrms_zero_iff_perfect, C11_zero_estimate_gives_100, C11_zero_truth_has_no_finite_error, C11_map_below_rrms, C41_admittances_round_trip, C41_measurements_round_trip, C41_other_sizes_rejected, C41_rectangular_admittances_rejected, C42_relation_preserved_iff_symmetric_phases, C42_networks_with_equal_sequences, C42_relation_refuted, C80_nodes_and_phases, C80_uneven_phases_fail, C80_other_nodes_per_phase_refuted, C80_unbalanced_loads_refuted, C80_substation_first_refuted, C80_uneven_phases_refuted, C81_reduced_data, C81_simulated_currents_refuted, C90_zero_error, C92_hundred_percent, C105_equal_errors, C120_documented, C120_no_coupling_iff, C120_single_phase_refuted.
* `ClassicalDedekindReals.sig_forall_dec`, `ClassicalDedekindReals.sig_not_dec`, `Classical_Prop.classic`, `FunctionalExtensionality.functional_extensionality_dep` (121 theorems): C28_regression_descent, C28_eiv_descent, C28_eiv_descent_symmetric, C31_inverted_is_inverse, C31_finite_only_if_invertible, C31_invertible_for_nonzero_noise, C32_symmetric_positive, C32_turns_with_the_phasor, C33_exact_is_covariance_of_polar_noise, C33_polar_coordinates_exist, C34_average_is_expected_covariance, C34_average_is_expectation_of_exact, C35_naive_is_linearised, C36_uniform_vector_is_float, C36_numpy_scalar_is_float, C36_wrong_length_truncated, C36_wrong_length_rejected_refuted, C36_scalar_for_one_node_fails, C36_int_refused, C37_zero_polar_noise, C37_zero_polar_noise_on_both, C37_zero_noise_while_resampling, C38_effective_noise, C38_effective_noise_on_both, C38_positive_reals_keep_their_phase, C38_requested_phase_noise_refuted, C38_requested_magnitude_noise_refuted, C38_covariance_formulas_disagree, C50_one_phase, C50_three_phases, C51_profiles, C51_successive_draws, C51_rows_bound, C51_profiles_succeed, C51_negative_loads_fail, C51_gaussian, C51_one_row_per_time_refuted, C51_short_file_refuted, C52_profiles_order, C52_successive_draws, C52_gaussian_branch_refuted, C66_small_loads_vanish, C66_large_loads_draw, C66_every_load_draws_refuted, C82_complete_run, C82_repeated_with_noise, C82_repeated_without_noise, C82_repeated_same, C82_safety_factor_refuted, C83_up_to_date, C83_noise_after_up_to_date, C83_noise_repeated, C83_stale, C83_untouched_files, C83_failed_run, C83_new_loads_refuted, C84_columns_and_ratings, C84_every_bus_needs_a_load, C84_three_phases, C84_three_phase_ratings_refuted, C85_laplacian, C85_grounded, C85_hidden_impedance_refuted, C85_substation_first_refuted, C86_laplacian, C86_grounded, C90_standard_reports, C90_bayesian_reports, C90_figures, C91_overall_errors, C91_largest_error_refuted, C92_sparsity_report, C93_finishes, C93_no_absent_line, C94_bayesian_alone, C95_old_reports, C95_reports_of_the_network_refuted, C96_correlations, C96_values, C98_program, C98_saved_laplacian, C98_saved_grounded, C98_identified_laplacian, C98_identified_grounded, C99_saved_laplacian, C99_saved_grounded, C100_observed_nodes_refuted, C100_missing_node, C100_shipped_networks, C100_shipped_columns, C100_missing_node_three_phases, C102_uneven_phases, C102_ieee123center, C102_test_3phase, C102_shipped_settings, C103_runs_to_the_end, C103_shipped_networks, C103_shipped_settings, C104_one_phase, C104_three_phases, C105_analysis, C105_reported_error, C105_read_back, C105_exceptions, C105_expected_error_refuted, C106_same_results, C106_later_laplacian, C106_other_network, C106_other_network_fails, C106_shipped_networks, C106_separate_refuted, C107_gaussian, C107_profiles, C107_no_source, C107_three_phases_gaussian, C107_three_phases, C107_same_loads, C108_weights, C112_weights, C121_generate_loads, C121_generate_loads_3ph.
