{"id": "C01", "title": "Column vectorisation loses nothing and is column-major", "statement": "Vectorising a matrix puts entry (i,j) at position j*rows+i; unvectorising with the original shape gives back the matrix, vectorising an unvectorised vector gives back the vector, and unvectorising with a shape whose size differs from the vector length raises ValueError. The CPU and GPU versions return the same vector.", "quantifier": "for every shape (including empty ones), every matrix, every vector and every requested shape", "why_tests_cant": "Shapes and contents are unbounded; a test fixes one small shape, and a row-major/column-major mix-up is invisible on symmetric or one-row inputs.", "anchors": ["src/models/matrix_operations.py:vectorize_matrix", "src/models/matrix_operations.py:unvectorize_matrix", "src/models/gpu_matrix_operations.py:vectorize_matrix", "src/models/gpu_matrix_operations.py:unvectorize_matrix"]}
{"id": "C02", "title": "Complex vector to stacked real vector round trip", "statement": "Stacking real and imaginary parts and rebuilding the complex vector is the identity, in both directions for even lengths; a stacked vector of odd length must be refused with an error, never silently turned into a complex vector.", "quantifier": "for every complex vector and every real vector of any length", "why_tests_cant": "The even case is an unbounded round trip; the odd case depends on broadcasting of two halves of different length and only a few lengths escape the error.", "anchors": ["src/models/matrix_operations.py:make_real_vector", "src/models/matrix_operations.py:make_complex_vector"]}
{"id": "C03", "title": "The real form of a complex matrix computes like the complex matrix", "statement": "The real block form of a product is the product of the block forms, of a sum the sum, of the identity the identity, of a conjugate transpose the transpose; and applying the block form to a stacked vector gives the stacked result of applying the complex matrix.", "quantifier": "for all compatible shapes and all complex matrices and vectors", "why_tests_cant": "It is an algebraic homomorphism over infinitely many matrices; a sign error in one block survives any test with real or purely imaginary data.", "anchors": ["src/models/matrix_operations.py:make_real_matrix", "src/models/gpu_matrix_operations.py:make_real_matrix"]}
{"id": "C04", "title": "A real block matrix can be turned back into the complex matrix", "statement": "Rebuilding the complex matrix from its real block form returns the original complex matrix.", "quantifier": "for every complex matrix of every shape", "why_tests_cant": "No test covers it; the claim is about every input, and the faithful model shows that the call fails on every input.", "anchors": ["src/models/matrix_operations.py:make_complex_matrix", "src/models/gpu_matrix_operations.py:make_complex_matrix"]}
{"id": "C05", "title": "The duplication matrix rebuilds every symmetric matrix from its lower triangle", "statement": "For a symmetric n-by-n matrix, the duplication matrix times the column-wise stacked lower triangle equals the column vectorisation; conversely the duplication matrix applied to any vector is the vectorisation of a symmetric matrix. Building it never touches an index outside the array.", "quantifier": "for every n and every symmetric matrix over any field", "why_tests_cant": "The index arithmetic j*n+i-j(j+1)/2 must be right for every n; tests check n=3.", "anchors": ["src/models/matrix_operations.py:duplication_matrix"]}
{"id": "C06", "title": "The transformation matrix rebuilds every Laplacian from its off-diagonal entries", "statement": "For a symmetric matrix with zero row sums, the transformation matrix times the negated strictly-lower entries equals the stacked lower triangle; conversely duplication times transformation applied to any vector is the vectorisation of a symmetric matrix all of whose rows sum to zero. Building it never touches an index outside the array.", "quantifier": "for every n and every symmetric zero-row-sum matrix", "why_tests_cant": "The slice and running-row index arithmetic must be right for every n; tests check n=3.", "anchors": ["src/models/matrix_operations.py:transformation_matrix"]}
{"id": "C07", "title": "Symmetric elimination inverts duplication and symmetrises", "statement": "The elimination matrix applied to the vectorisation of any square matrix gives the stacked lower triangle of (M+M^T)/2; elimination times duplication is the identity; duplication times elimination is the orthogonal projection on symmetric matrices.", "quantifier": "for every n and every square matrix", "why_tests_cant": "Needs all n and all matrices, including non-symmetric ones.", "anchors": ["src/models/matrix_operations.py:elimination_sym_matrix", "src/models/matrix_operations.py:duplication_matrix"]}
{"id": "C08", "title": "Laplacian elimination inverts the Laplacian transformation", "statement": "Removing the diagonal entries and negating returns the off-diagonal parameters of a Laplacian; elimination times transformation is the identity, so every Laplacian survives the round trip matrix -> parameters -> matrix and every parameter vector survives the reverse one.", "quantifier": "for every n and every Laplacian matrix and parameter vector", "why_tests_cant": "The set of deleted row numbers is computed by a closed formula that must hit exactly the diagonal positions for every n.", "anchors": ["src/models/matrix_operations.py:elimination_lap_matrix", "src/models/matrix_operations.py:transformation_matrix"]}
{"id": "C09", "title": "Undelete is the inverse of delete", "statement": "Deleting a set of rows (or columns) and then un-deleting the same set gives the original array with those rows (columns) zeroed, with all others at their original place, whatever order the indices are listed in.", "quantifier": "for every array, every list of distinct in-range indices in any order, on either axis", "why_tests_cant": "Insertion positions shift as rows are inserted; correctness is an induction over the index list that examples with one or two indices do not exercise.", "anchors": ["src/models/matrix_operations.py:undelete"]}
{"id": "C10", "title": "Error metrics are zero exactly on perfect estimates", "statement": "The Frobenius and maximum errors are non-negative, symmetric in their arguments, satisfy the triangle inequality and vanish exactly when the matrices are equal; the maximum error never exceeds the Frobenius error, which never exceeds sqrt(number of entries) times the maximum error.", "quantifier": "for all matrices of equal shape", "why_tests_cant": "Metric axioms quantify over all triples of matrices.", "anchors": ["src/models/error_metrics.py:fro_error", "src/models/error_metrics.py:max_error"]}
{"id": "C11", "title": "Relative error metrics are percentages, scale free, and ordered", "statement": "The relative RMS error is 100*||y-y_hat||/||y||: multiplying both matrices by the same non-zero complex factor does not change it, it vanishes exactly for a perfect estimate of a non-zero matrix, and estimating zero gives 100. The error restricted to non-zero true entries never exceeds it, and the two agree when the estimate is zero wherever the truth is.", "quantifier": "for all matrices of equal shape with non-zero truth", "why_tests_cant": "Quantifies over all pairs of matrices and all factors; the repository's tests expect 1 where the code yields 100.", "anchors": ["src/models/error_metrics.py:rrms_error", "src/models/error_metrics.py:map_error"]}
{"id": "C12", "title": "Ordinary least squares recovers the admittance from noise-free data", "statement": "If currents = voltages @ Y and the voltage matrix has independent columns, the fitted matrix equals Y exactly.", "quantifier": "for every number of samples and nodes, every full-column-rank voltage matrix and every Y", "why_tests_cant": "Quantifies over all data sets; tests draw a few random ones and compare up to rounding.", "anchors": ["src/models/regression.py:ComplexRegression.fit"]}
{"id": "C13", "title": "Ordinary least squares is optimal on noisy data", "statement": "The residual of the fitted matrix is orthogonal to every voltage column and no other matrix has a smaller squared residual.", "quantifier": "for every data set and every competitor matrix", "why_tests_cant": "Optimality quantifies over all competitors.", "anchors": ["src/models/regression.py:ComplexRegression.fit"]}
{"id": "C14", "title": "Total least squares recovers the admittance from noise-free data", "statement": "If currents = voltages @ Y with independent voltage columns, total least squares returns Y exactly (as a matrix, or as a vector when there is a single output), and does not fail.", "quantifier": "for every data set with at least as many samples as the augmented matrix needs, any valid singular value decomposition", "why_tests_cant": "The decomposition is not unique; the property must hold for every valid one.", "anchors": ["src/models/error_in_variable.py:TotalLeastSquares.fit"]}
{"id": "C15", "title": "A prior stays well formed through any history of additions", "statement": "After any sequence of exact, sparsity, adaptive sparsity, contrast and ratio additions that raised no error, with as many values, weights and orders as indices, the penalty matrix has one row per target, one exponent per row and one column per parameter, and earlier rows are never altered by later additions.", "quantifier": "for every sequence of additions of every kind and size", "why_tests_cant": "Histories are unbounded.", "anchors": ["src/models/bayesian_prior.py:BayesianPrior", "src/models/smooth_prior.py:SmoothPrior"]}
{"id": "C16", "title": "Each kind of prior row encodes the documented constraint", "statement": "The residual of the added rows at a parameter vector x is: weight*(x_i - value) for exact, weight*x_i for sparsity, x_i/value for adaptive sparsity, weight*(sum of selected x / value - 1) for contrast, weight*(x_a - value*x_b) for ratio; so the residual vanishes exactly when the documented constraint holds.", "quantifier": "for every parameter vector, indices, values (non-zero where divided) and weights", "why_tests_cant": "Quantifies over all parameter vectors; tests print the rows for one case.", "anchors": ["src/models/bayesian_prior.py:BayesianPrior.add_exact_prior", "src/models/bayesian_prior.py:BayesianPrior.add_sparsity_prior", "src/models/bayesian_prior.py:BayesianPrior.add_adaptive_sparsity_prior", "src/models/bayesian_prior.py:BayesianPrior.add_contrast_prior", "src/models/bayesian_prior.py:BayesianPrior.add_ratios_prior"]}
{"id": "C17", "title": "Adaptive exact priors are normalised by their value", "statement": "Adding an adaptive exact prior to a smooth prior yields rows whose residual is weight*(x_i/value - 1), i.e. relative deviations are penalised equally.", "quantifier": "for every index, non-zero value and weight", "why_tests_cant": "A wrong delegation gives the same number of rows and the same zero set; only the scaling differs, for all values other than 1.", "anchors": ["src/models/smooth_prior.py:SmoothPrior.add_exact_adaptive_prior", "src/models/bayesian_prior.py:BayesianPrior.add_exact_adaptive_prior"]}
{"id": "C18", "title": "A prior can be continued from an existing prior", "statement": "Constructing a prior from an existing one keeps its rows, and further additions behave as if they had been made on the original.", "quantifier": "for every existing prior and every later addition", "why_tests_cant": "History property across two objects.", "anchors": ["src/models/bayesian_prior.py:BayesianPrior.__init__"]}
{"id": "C19", "title": "The prior's quadratic form is symmetric positive semidefinite and vanishes on satisfied constraints", "statement": "For every parameter vector the returned matrix is symmetric and positive semidefinite, matrix*x - vector is zero when all row residuals vanish, and for the l2 case the matrix does not depend on x.", "quantifier": "for every prior, every parameter vector, every exponent in {0,1,2} and alpha>0", "why_tests_cant": "Quantifies over all priors and vectors.", "anchors": ["src/models/smooth_prior.py:SmoothPrior.log_distribution"]}
{"id": "C20", "title": "Sparse and dense priors are interchangeable", "statement": "Performing the same additions on the sparse and the dense implementation and evaluating at the same vector gives the same matrix, vector and penalty.", "quantifier": "for every history and every parameter vector", "why_tests_cant": "Equivalence of two implementations over all histories; fails only for particular sizes.", "anchors": ["src/models/smooth_prior.py:SparseSmoothPrior", "src/models/smooth_prior.py:SmoothPrior"]}
{"id": "C21", "title": "Every fitted matrix has the promised structure", "statement": "With the symmetric (resp. Laplacian) parametrisation, the admittance matrix produced after at least one iteration, and the one recorded at every iteration, is exactly symmetric (resp. symmetric with zero row sums), whatever the data, weights, prior and whatever the linear solver returned.", "quantifier": "for all data, priors, weights, solver results, iteration counts", "why_tests_cant": "The structure must hold for arbitrary noisy data and any solver output.", "anchors": ["src/models/regression.py:BayesianRegression.fit", "src/models/error_in_variable.py:BayesianEIVRegression.fit"]}
{"id": "C22", "title": "Each regression update minimises the regularised misfit", "statement": "When the solver returns a solution of the linear system, the new parameters minimise squared misfit plus lambda times the prior's current quadratic penalty over all parameter vectors.", "quantifier": "for all data, priors, lambda >= 0 and all competitor vectors", "why_tests_cant": "Optimality against all competitors.", "anchors": ["src/models/regression.py:BayesianRegression.fit"]}
{"id": "C23", "title": "Iteration records are complete and stopping is honest", "statement": "A fit on a fresh estimator records between 1 and max_iterations iterations numbered 0,1,2,..., returns the matrix of the last record (the initial guess if max_iterations is 0), stops early only if the last target did not exceed the previous one and changed by less than a tolerance, and never continues past such a point.", "quantifier": "for all data, tolerances, iteration limits and all sequences of targets", "why_tests_cant": "Loop invariant over unbounded iteration sequences.", "anchors": ["src/models/regression.py:BayesianRegression.fit", "src/models/error_in_variable.py:BayesianEIVRegression.fit", "src/models/error_in_variable.py:BayesianEIVRegression._is_stationary_point"]}
{"id": "C24", "title": "Fitting an estimator again forgets the previous fit", "statement": "Calling fit a second time on the same estimator gives the same result as on a fresh estimator with the same settings.", "quantifier": "for all pairs of data sets fitted one after the other", "why_tests_cant": "Depends on the history of calls on one object.", "anchors": ["src/models/regression.py:BayesianRegression.fit", "src/models/error_in_variable.py:BayesianEIVRegression.fit"]}
{"id": "C25", "title": "Both misfit weights influence an error-in-variables fit as documented", "statement": "The fit uses the given inverse covariance of the outputs: changing it (with everything else equal) can change the result.", "quantifier": "for all weight matrices", "why_tests_cant": "A test with equal weights for inputs and outputs cannot see that one is discarded.", "anchors": ["src/models/error_in_variable.py:BayesianEIVRegression.fit"]}
{"id": "C26", "title": "The input-error step minimises the weighted misfit", "statement": "Given the current symmetric admittance estimate, the computed input error minimises weighted output misfit plus weighted input error over all input errors; this must hold for every current estimate.", "quantifier": "for all data, weights (symmetric positive semidefinite), estimates and competitor errors", "why_tests_cant": "Optimality against all competitors; a transposed factor is invisible for symmetric estimates.", "anchors": ["src/models/error_in_variable.py:BayesianEIVRegression.fit"]}
{"id": "C27", "title": "On noise-free data the true admittance is a fixed point", "statement": "If outputs = inputs @ Y exactly, Y has the parametrised structure, the prior is satisfied by Y and the linear systems have unique solutions, then starting from Y every iteration returns Y and zero input error.", "quantifier": "for all noise-free data sets, weights and iteration counts", "why_tests_cant": "Quantifies over data sets and any number of iterations.", "anchors": ["src/models/error_in_variable.py:BayesianEIVRegression.fit", "src/models/regression.py:BayesianRegression.fit"]}
{"id": "C28", "title": "Regularised regression iterations never worsen the objective", "statement": "With an l1 prior, no iteration increases the smoothed l1-regularised misfit; and the target values recorded are non-increasing.", "quantifier": "for all data, priors, lambda >= 0 and all iteration counts", "why_tests_cant": "Descent along an unbounded iteration; the recorded target may go up only on particular data.", "anchors": ["src/models/regression.py:BayesianRegression.fit", "src/models/smooth_prior.py:SmoothPrior.log_distribution"]}
{"id": "C29", "title": "The unweighted input correction is a projection on exact power flows", "statement": "Without weights, the corrected inputs and outputs satisfy outputs = inputs @ Y exactly, data already satisfying it are unchanged, and the correction is orthogonal to the corrected data.", "quantifier": "for all data and all current estimates Y", "why_tests_cant": "Algebraic property over all data and estimates.", "anchors": ["src/models/error_in_variable.py:BayesianEIVRegression.fit"]}
{"id": "C30", "title": "Fisher information is the weighted Gram matrix of the measurements", "statement": "The returned information matrix equals A^T Sigma^-1 A with A the real form of the regressor and Sigma the covariance of the residual, as documented.", "quantifier": "for all data and covariances", "why_tests_cant": "A swapped weight block is invisible when real and imaginary variances coincide.", "anchors": ["src/models/error_in_variable.py:TotalLeastSquares.fisher_info"]}
{"id": "C31", "title": "The inverse covariance really is the inverse", "statement": "Requesting the inverted covariance returns the matrix inverse of the covariance returned without that option, for the naive, exact and averaged variants.", "quantifier": "for all measurements and standard deviations for which the covariance is non-singular", "why_tests_cant": "Quantifies over all measurements; a wrong sign on the cross term vanishes on real-valued data.", "anchors": ["src/models/noise_transformation.py:exact_noise_covariance", "src/models/noise_transformation.py:naive_noise_covariance", "src/models/noise_transformation.py:average_true_noise_covariance"]}
{"id": "C32", "title": "Noise covariances are valid covariance matrices", "statement": "Every returned covariance is symmetric and positive semidefinite, with non-negative variances; it is positive definite for non-zero phasors when both standard deviations are positive; it rotates with the phasor.", "quantifier": "for all measurements and standard deviations", "why_tests_cant": "Positive semidefiniteness for all phasors and deviations is a real-analytic inequality.", "anchors": ["src/models/noise_transformation.py:exact_noise_covariance", "src/models/noise_transformation.py:naive_noise_covariance", "src/models/noise_transformation.py:average_true_noise_covariance"]}
{"id": "C33", "title": "The exact covariance is the covariance of polar noise", "statement": "For additive independent magnitude noise of variance s_m^2 and phase noise with Gaussian characteristic values, the returned real variance, imaginary variance and covariance are exactly those of the perturbed phasor.", "quantifier": "for all phasors, all standard deviations and every noise distribution with those moments", "why_tests_cant": "Statistical tests only approximate it; it is an identity between formulas for all arguments.", "anchors": ["src/models/noise_transformation.py:exact_noise_covariance"]}
{"id": "C34", "title": "The averaged covariance is the expectation of the exact one given the measurement", "statement": "The measurement-conditioned covariance equals the expectation of the exact covariance evaluated at measurement minus noise.", "quantifier": "for all measurements, standard deviations and every noise distribution with those moments", "why_tests_cant": "Identity over all arguments; no test can integrate over noise exactly.", "anchors": ["src/models/noise_transformation.py:average_true_noise_covariance", "src/models/noise_transformation.py:average_true_var_real", "src/models/noise_transformation.py:average_true_var_imag", "src/models/noise_transformation.py:average_true_cov"]}
{"id": "C35", "title": "The naive covariance is the linearised one", "statement": "The naive covariance equals J diag(s_m^2,s_p^2) J^T with J the derivative of the polar-to-Cartesian map at the measurement.", "quantifier": "for all measurements and standard deviations", "why_tests_cant": "Involves derivatives at every point.", "anchors": ["src/models/noise_transformation.py:naive_noise_covariance"]}
{"id": "C36", "title": "Scalar and per-node standard deviations are treated alike", "statement": "Passing the same value for every node as a vector gives the same covariance as passing it as a float; a vector of any other length is rejected rather than silently truncated.", "quantifier": "for all measurements, all values and all vector lengths", "why_tests_cant": "Depends on the combination of argument type, size and measurement shape.", "anchors": ["src/models/noise_transformation.py:exact_noise_covariance", "src/models/noise_transformation.py:naive_noise_covariance", "src/models/noise_transformation.py:average_true_noise_covariance"]}
{"id": "C37", "title": "Zero noise changes nothing", "statement": "Adding Cartesian or polar noise with zero standard deviations returns the measurement unchanged, for every draw of the random generator.", "quantifier": "for all measurements and all random draws", "why_tests_cant": "Quantifies over all random draws and all phasors incl. zero and negative reals.", "anchors": ["src/simulation/noise.py:add_polar_noise_to_measurement", "src/simulation/noise.py:add_cartesian_noise_to_measurement", "src/simulation/noise.py:add_noise_in_polar_coordinates", "src/simulation/noise.py:add_noise_in_cartesian_coordinates"]}
{"id": "C38", "title": "Polar noise has the requested phase deviation on every phasor", "statement": "The phase perturbation applied to a measurement is the drawn phase noise itself and the magnitude perturbation the drawn magnitude noise itself, consistently with the covariance formulas.", "quantifier": "for all measurements and draws", "why_tests_cant": "Wrong scaling is invisible for phasors with phase 1 rad and magnitude 1.", "anchors": ["src/simulation/noise.py:add_polar_noise_to_measurement", "src/models/noise_transformation.py:exact_noise_covariance"]}
{"id": "C39", "title": "Resampling and averaging preserve constants, bounds and means", "statement": "Without noise, each output sample is the mean of fparam consecutive linearly interpolated samples: constants are preserved, outputs stay within the range of the inputs, the operation is linear, the number of rows is floor(number of new times / fparam), and columns do not influence each other.", "quantifier": "for all signals, time grids, averaging lengths", "why_tests_cant": "Quantifies over all signals and grids.", "anchors": ["src/simulation/noise.py:filter_and_resample_measurement"]}
{"id": "C40", "title": "Optional arguments of the resampler are optional", "statement": "Calling the resampler with the documented default time arguments returns the averaged signal.", "quantifier": "for all signals and averaging lengths", "why_tests_cant": "The default path is never exercised; it fails for every input.", "anchors": ["src/simulation/noise.py:filter_and_resample_measurement"]}
{"id": "C41", "title": "Sequence and phase quantities convert back and forth without loss", "statement": "Converting admittances or measurements from phase to sequence values and back is the identity, for any number of nodes; a column count that is not a multiple of three is rejected.", "quantifier": "for every number of nodes and every matrix", "why_tests_cant": "Unbounded sizes and an algebraic identity on cube roots of unity.", "anchors": ["src/simulation/lines.py:admittance_sequence_to_phase", "src/simulation/lines.py:admittance_phase_to_sequence", "src/simulation/lines.py:measurement_sequence_to_phase", "src/simulation/lines.py:measurement_phase_to_sequence"]}
{"id": "C42", "title": "Converting to sequence values preserves currents = voltages @ admittance", "statement": "If phase currents equal phase voltages times the phase admittance, the converted currents equal the converted voltages times the converted admittance.", "quantifier": "for all voltages and admittances", "why_tests_cant": "Holds for balanced lines, which is all the tests use, and fails for particular unbalanced ones.", "anchors": ["src/simulation/lines.py:admittance_phase_to_sequence", "src/simulation/lines.py:measurement_phase_to_sequence"]}
{"id": "C43", "title": "Kron reduction preserves the external behaviour of the grid", "statement": "If the eliminated nodes draw no current, the kept currents equal the kept voltages times the reduced matrix; conversely any kept voltage extends to a full solution; the order in which eliminated nodes are listed is irrelevant.", "quantifier": "for every admittance matrix whose eliminated block is invertible, every set of eliminated nodes, all voltages", "why_tests_cant": "Quantifies over all networks and node sets.", "anchors": ["src/simulation/abstract_network.py:Net.kron_reduction"]}
{"id": "C44", "title": "Kron reduction keeps grids grids", "statement": "The reduced matrix of a symmetric matrix is symmetric; of a matrix with zero row sums, has zero row sums.", "quantifier": "for all networks and node sets with invertible eliminated block", "why_tests_cant": "Quantifies over all networks.", "anchors": ["src/simulation/abstract_network.py:Net.kron_reduction"]}
{"id": "C45", "title": "Reduced rows follow the order of the remaining measurement columns", "statement": "Row and column k of the reduced matrix belong to the k-th remaining node in ascending order, i.e. the order in which measurement columns remain after deletion.", "quantifier": "for all network sizes and all sets of eliminated nodes", "why_tests_cant": "Depends on hash-table iteration order; true for the small cases tests use and false for others.", "anchors": ["src/simulation/abstract_network.py:Net.kron_reduction", "simulate_network.py:simulate"]}
{"id": "C46", "title": "Network reduction keeps node bookkeeping consistent wherever the substation is", "statement": "After removing substation, hidden and passive nodes, the reduced matrix has one row per remaining measurement column, and the shunt estimated for a hidden node uses that node's own current and voltage.", "quantifier": "for all networks, positions of substations, hidden and passive node sets", "why_tests_cant": "Index shifting is only exercised by tests with the substation as last node.", "anchors": ["src/simulation/run.py:reduce_network"]}
{"id": "C47", "title": "Networks built from an admittance matrix have that admittance matrix", "statement": "Building lines from a symmetric zero-row-sum admittance matrix and asking for the network's admittance matrix returns the matrix.", "quantifier": "for all sizes, matrices, base voltages and powers", "why_tests_cant": "Quantifies over all matrices and bus numberings.", "anchors": ["src/simulation/network.py:NetData.create_lines_from_ybus", "src/simulation/network.py:NetData.make_y_bus"]}
{"id": "C48", "title": "Network construction and removal do what they say", "statement": "Building a network creates exactly the given buses, one line per in-service line record oriented from the smaller to the larger bus number; adding a single line works; removing lines removes those lines and no bus; a network can be created without lines.", "quantifier": "for all bus and line lists and all sequences of operations", "why_tests_cant": "Operation histories.", "anchors": ["src/simulation/network.py:NetData", "src/simulation/abstract_network.py:Net.remove_lines", "src/simulation/network.py:NetData.create_line"]}
{"id": "C49", "title": "Passive nodes are exactly the nodes without injection", "statement": "For every phase, the list of passive nodes contains exactly the numbers of the buses that have no external grid and whose loads have zero power in that phase, in the order of the bus table.", "quantifier": "for all networks built through the package", "why_tests_cant": "Quantifies over all networks; membership tests on tables look at labels, not values.", "anchors": ["src/simulation/abstract_network.py:Net.give_passive_nodes"]}
{"id": "C50", "title": "Nodes without nominal load get no load at any time", "statement": "A bus with zero nominal active and reactive load receives an identically zero profile, also after mixing with the constant share, so that it stays passive during the whole simulation.", "quantifier": "for all profile files, random draws, week choices and constancy factors", "why_tests_cant": "Quantifies over random draws and profile data.", "anchors": ["src/simulation/load_profile.py:load_profile_from_numpy", "src/simulation/run.py:generate_loads"]}
{"id": "C51", "title": "Load profiles have one row per time step and one column per bus", "statement": "The generated profile matrices have as many rows as time instants and one column per load, each being a sum of rounded-share many household columns over the selected weeks.", "quantifier": "for all numbers of days, week selections and loads", "why_tests_cant": "Depends on divisibility of days by the number of weeks.", "anchors": ["src/simulation/load_profile.py:load_profile_from_numpy", "src/simulation/run.py:generate_loads"]}
{"id": "C52", "title": "Three-phase load generators agree on the order of their results", "statement": "Every generator returning three-phase loads returns them in the order its caller assigns them.", "quantifier": "for all loads", "why_tests_cant": "A permutation of equal-shaped arrays is invisible on balanced or equal values.", "anchors": ["src/simulation/load_profile.py:generate_gaussian_load", "src/simulation/run3ph.py:generate_loads"]}
{"id": "C53", "title": "Measurement unit ratings follow the documented apparent power", "statement": "The current rating of a node is the safety factor times its apparent power, and the substation's rating is the sum of the other ratings.", "quantifier": "for all loads and numbers of substations", "why_tests_cant": "Depends on values other than 0 and 1 and on the number of substations.", "anchors": ["src/simulation/run.py:add_noise_and_filter"]}
{"id": "C54", "title": "Three-phase ratings belong to the measured phase", "statement": "The rating used for a measurement column is computed from the load of the same node and phase.", "quantifier": "for all numbers of nodes and loads", "why_tests_cant": "A transposed layout is invisible when all loads are equal or for special sizes.", "anchors": ["src/simulation/run3ph.py:add_noise_and_filter"]}
{"id": "C55", "title": "Three-phase and single-phase reductions report the averaging factor used", "statement": "The averaging factor stored with the measurements is the ratio by which the noise was divided, whether the measurements were computed or reloaded.", "quantifier": "for all sampling rates, durations, and histories of runs", "why_tests_cant": "History property: result of a run after a cached run.", "anchors": ["src/simulation/run.py:add_noise_and_filter", "src/simulation/run3ph.py:add_noise_and_filter"]}
{"id": "C56", "title": "Lasso weights are inversely proportional to the initial estimate", "statement": "The adaptive Lasso prior penalises parameter i with weight 1/|y_i| of the initial estimate.", "quantifier": "for all initial estimates", "why_tests_cant": "Inverse versus direct weighting coincide on unit entries.", "anchors": ["src/identification/run.py:build_lasso_prior", "src/models/bayesian_prior.py:BayesianPrior.add_adaptive_sparsity_prior"]}
{"id": "C57", "title": "Contrast priors are satisfied by the estimate they are built from", "statement": "The contrast rows of the complex prior contain, for each node, exactly the parameters of its incident lines, and have zero residual at the estimate whose diagonal/row sums define them.", "quantifier": "for all numbers of nodes, symmetric or Laplacian parametrisation, all estimates", "why_tests_cant": "Sign and index conventions of two parametrisations over all sizes.", "anchors": ["src/identification/run.py:build_complex_prior"]}
{"id": "C58", "title": "Every documented kind of line knowledge can be selected", "statement": "Selecting the sub-optimal line set adds the sub-optimal lines.", "quantifier": "for all prior type strings", "why_tests_cant": "String containment makes one branch unreachable.", "anchors": ["src/identification/run.py:add_known_lines"]}
{"id": "C59", "title": "Noise-free measurements identify the exact admittance", "statement": "Centring the measurements (subtracting means, or for Laplacians a common constant from all voltages) keeps currents = voltages @ Y with the same Y, and when a noise-free data set determines Y, the standard methods return exactly that Y, for synchronised and unsynchronised samples.", "quantifier": "for all data sets, admittances, constant loads and tolerances", "why_tests_cant": "Algebraic property over all data; a test on one data set compares norms up to a tolerance.", "anchors": ["src/identification/run.py:standard_methods", "src/identification/run.py:bayesian_eiv"]}
{"id": "C60", "title": "Per-phase results are assembled without cross-talk", "statement": "In three-phase identification, the assembled matrix restricted to one phase is that phase's estimate and all entries between different phases are zero, whatever the order of phases in the columns; this holds for the standard methods, the Bayesian method and its iterations.", "quantifier": "for all phase labelings and all per-phase estimates", "why_tests_cant": "Boolean-mask assignment order over all label patterns.", "anchors": ["src/identification/run3ph.py:standard_methods", "src/identification/run3ph.py:bayesian_eiv"]}
{"id": "C61", "title": "Command line phase selection accepts exactly the supported combinations", "statement": "Identification refuses every phase string outside the supported ones, refuses a phase for which the simulation has no data, and with no stage flags runs all stages.", "quantifier": "for all flag combinations and strings", "why_tests_cant": "All strings and flag combinations.", "anchors": ["identify_network.py:identify", "simulate_network.py:simulate"]}
{"id": "C62", "title": "Batch experiments leave the configuration as they found it", "statement": "After a batch run the configuration files are those from before the run, also when the batch is interrupted at any point, or interrupted and run again.", "quantifier": "for all configuration texts, lists of seeds, noise levels and days, and crash points", "why_tests_cant": "Every crash point of a batch that lasts days, for every list of values.", "anchors": ["run_multiple_sims.sh", "conf/conf.py:seed", "conf/conf.py:noise_level", "conf/simulation.py:days"]}
{"id": "C63", "title": "A rejected prior addition leaves the prior unchanged", "statement": "When an add method raises because of a bad index, the prior is as before the call: evaluating it still gives the same matrix, vector and penalty.", "quantifier": "for every prior and every rejected addition", "why_tests_cant": "Unit tests check that an exception is raised, not the state left behind for every kind of addition and every later evaluation.", "anchors": ["src/models/bayesian_prior.py:BayesianPrior.add_exact_prior", "src/models/bayesian_prior.py:BayesianPrior.add_sparsity_prior", "src/models/bayesian_prior.py:BayesianPrior.add_contrast_prior", "src/models/bayesian_prior.py:BayesianPrior.add_ratios_prior", "src/models/smooth_prior.py:SmoothPrior.log_distribution"]}
{"id": "C64", "title": "An estimator built with its default arguments can be fitted", "statement": "A BayesianRegression created without builder arguments can be fitted: the default builders (identity) describe unrestricted matrices.", "quantifier": "for all priors, data, lambda, tolerances, iteration limits and solver results", "why_tests_cant": "The package always passes builders, so no run exercises the default; the claim covers every data set.", "anchors": ["src/models/regression.py:BayesianRegression.__init__", "src/models/regression.py:BayesianRegression.fit", "src/models/error_in_variable.py:BayesianEIVRegression.__init__"]}
{"id": "C65", "title": "The reduced matrix relates the remaining measurements", "statement": "When a hidden node acts as a constant impedance (its current is proportional to its voltage) and passive nodes carry no current, the measurements left after the reduction satisfy current = voltage @ reduced matrix.", "quantifier": "for all networks, hidden nodes acting as constant impedances, numbers of samples and measurements", "why_tests_cant": "A test on one network compares norms up to a tolerance that hides small shunts; the claim is an exact identity for every network and every impedance, including its sign.", "anchors": ["src/simulation/run.py:reduce_network", "src/simulation/simulation.py:SimulatedNet.get_current_and_voltage", "simulate_network.py:simulate"]}
{"id": "C66", "title": "A bus with a nominal load draws power", "statement": "Every load with a non-zero nominal power gets a profile that is not identically zero.", "quantifier": "for all profile files, week selections, loads and random draws", "why_tests_cant": "Whether a load survives depends on the ratio of its nominal power to the mean 90th percentile of the household profiles, which no fixed test file exercises.", "anchors": ["src/simulation/load_profile.py:load_profile_from_numpy", "src/simulation/run.py:generate_loads"]}
{"id": "C67", "title": "Filtered measurements have the requested number of time steps", "statement": "Adding noise and filtering gives measurements with as many rows as time steps were requested, whether samples are averaged or the equivalent noise is used.", "quantifier": "for all durations, measurement frequencies, numbers of steps, networks and noise functions", "why_tests_cant": "Depends on the remainders of two successive integer divisions and one rounding; small round test values divide evenly and hide it.", "anchors": ["src/simulation/run.py:add_noise_and_filter", "src/simulation/run3ph.py:add_noise_and_filter", "conf/simulation.py:time_steps"]}
{"id": "C68", "title": "Known lines are imposed on the matrix that is identified", "statement": "When exact lines are given to the Bayesian identification, the prior penalises the distance of exactly those lines from their values, whether the matrix is parametrised as symmetric or as Laplacian.", "quantifier": "for all numbers of nodes, estimates and exact matrices, both parametrisations", "why_tests_cant": "Positions of lines differ between the parametrisations for every size; some sizes fail loudly, others silently constrain different lines.", "anchors": ["src/identification/run.py:bayesian_eiv", "src/identification/run.py:add_known_lines"]}
{"id": "C69", "title": "The prior for identifying loads holds every line at its exact value", "statement": "The prior built from an exact admittance matrix penalises the distance of every line from its exact value with unit weight and leaves the diagonal free.", "quantifier": "for all numbers of nodes, exact matrices and candidate matrices", "why_tests_cant": "Index selection over all sizes.", "anchors": ["src/identification/run.py:build_loads_id_prior"]}
{"id": "C70", "title": "Saved results are read back", "statement": "Redoing any subset of the stages after a complete identification reads the other stages' results back from the files and leaves every file as it was.", "quantifier": "for all options, stage flags, simulation files and numerical routines", "why_tests_cant": "Two runs of a program over all option combinations; every file must be compared.", "anchors": ["identify_network.py:identify", "src/identification/run.py:standard_methods", "src/identification/run.py:bayesian_eiv", "src/identification/run3ph.py:bayesian_eiv"]}
{"id": "C71", "title": "An identification can be continued", "statement": "With -c the program starts from the saved Bayesian estimate and afterwards the saved history holds the old iterations followed by the new ones.", "quantifier": "for all options, earlier results and files", "why_tests_cant": "The failing call is reached only after a full run with earlier results; no fixed result file shows that no option combination avoids it.", "anchors": ["identify_network.py:identify"]}
{"id": "C72", "title": "The uncertainty analysis can be requested", "statement": "With -u the program computes and saves the uncertainty results.", "quantifier": "for all options, files and numerical routines", "why_tests_cant": "The analysis is the last step of a run that lasts hours; the claim is about every option combination.", "anchors": ["identify_network.py:identify", "src/identification/run.py:eiv_fim"]}
{"id": "C73", "title": "Options without effect are exactly known", "statement": "Unsynchronised phases (-r) matter only with the weighted method, exact lines matter only without the Laplacian, and the weighting options matter only when the Bayesian method is run.", "quantifier": "for all other options, files and numerical routines", "why_tests_cant": "Equality of whole runs (result and every file) over all inputs.", "anchors": ["identify_network.py:identify", "src/identification/run.py:bayesian_eiv"]}
{"id": "C74", "title": "Constant sensor offsets do not influence the estimate", "statement": "Adding a constant to all samples of a voltage or current sensor does not change any result of the standard methods or of the unweighted Bayesian method.", "quantifier": "for all data sets, offsets, priors and numerical routines", "why_tests_cant": "Exact equality of the whole computation for all data and offsets.", "anchors": ["src/identification/run.py:standard_methods", "src/identification/run.py:bayesian_eiv"]}
{"id": "C75", "title": "Identifying one phase uses the data of this phase only", "statement": "Two simulation files that agree on the columns, rows and ratings of the chosen phase give the same results and the same files, whatever the other phases hold and however many nodes they have.", "quantifier": "for all pairs of simulation files, label patterns and options", "why_tests_cant": "Non-interference over pairs of files.", "anchors": ["identify_network.py:identify"]}
{"id": "C76", "title": "An identification writes only its own result files", "statement": "Only the reference, standard and Bayesian results of the network are written; simulations and results of other networks are untouched.", "quantifier": "for all options, file contents, network names and numerical routines", "why_tests_cant": "A frame condition over all files and all names, also for runs that end with an exception.", "anchors": ["identify_network.py:identify", "src/identification/run.py:standard_methods", "src/identification/run.py:bayesian_eiv", "src/identification/run3ph.py:standard_methods"]}
{"id": "C77", "title": "All supported three-phase labelings can be identified", "statement": "Identifying three phases works for data labelled with phases 1, 2, 3 as well as for data labelled with sequences 0, 1, 2.", "quantifier": "for all simulation files and options", "why_tests_cant": "Which labels the loops visit matters for every network; the run of one labelling says nothing about the other.", "anchors": ["identify_network.py:identify", "src/identification/run3ph.py:standard_methods", "src/identification/run3ph.py:bayesian_eiv", "simulate_network.py:simulate"]}
{"id": "C78", "title": "Each stage can be run on its own", "statement": "With only the standard methods requested the program computes and saves them and succeeds without earlier Bayesian results.", "quantifier": "for all options, files and numerical routines", "why_tests_cant": "Depends on which files exist before the run; tests start from prepared directories.", "anchors": ["identify_network.py:identify", "src/identification/run.py:bayesian_eiv"]}
{"id": "C79", "title": "Experiments of a batch run with the announced settings", "statement": "Every program started by the batch script runs with the seed, noise level and number of days announced for it.", "quantifier": "for all configuration texts and lists of seeds, noise levels and days, and for batches started after an interrupted one", "why_tests_cant": "The settings are in a text edited before and after each of hundreds of runs; which text a run sees depends on everything before it.", "anchors": ["run_multiple_sims.sh", "conf/conf.py:seed", "conf/conf.py:noise_level", "conf/simulation.py:days"]}
{"id": "C80", "title": "Three-phase reduction removes nodes with all their phases", "statement": "After removing substations, hidden nodes and nodes without load, the reduced three-phase matrix has one row per remaining measurement column and gives the same currents at the remaining phases as the full network with the loads of the hidden nodes, whether passive nodes are looked for per phase or per node.", "quantifier": "for all three-phase networks, sequence matrices, load distributions over phases, hidden and passive nodes, positions of substations and measurements", "why_tests_cant": "The reduction works on three sequence matrices with index lists computed per phase; tests use balanced or fully loaded nodes and a substation at the end, and only compare norms.", "anchors": ["src/simulation/run3ph.py:reduce_network", "src/simulation/network_3ph.py:NetData3P.make_y_bus"]}
{"id": "C81", "title": "The reduced three-phase matrix relates the remaining measurements", "statement": "When a hidden node is a constant impedance that is the same on its three phases and passive nodes carry no current, the three-phase measurements left after the reduction satisfy current = voltage @ reduced matrix.", "quantifier": "for all three-phase networks, impedances of hidden nodes, numbers of samples and measurements", "why_tests_cant": "The identity has to hold exactly for every network, every impedance and every measurement; a test can only try a few and compare up to a tolerance.", "anchors": ["src/simulation/run3ph.py:reduce_network", "src/simulation/simulation_3ph.py:SimulatedNet3P.get_current_and_voltage"]}
{"id": "C82", "title": "A repeated simulation reproduces its files", "statement": "A run of `simulate_network.py` that recomputes everything (no flag, or -p -s -d) writes files that do not depend on the files found before. After a successful complete run, a further run with the same settings and any choice of the flags -p, -s and -d leaves all files as they are.", "quantifier": "For all networks, settings, options and previous files; all choices of flags of the second run.", "why_tests_cant": "Needs runs that differ in flags and leftover files, for every network and setting; the difference only shows for settings other than the default ones, and only in two fields of the output.", "anchors": ["simulate_network.py:simulate", "src/simulation/run.py:add_noise_and_filter", "src/simulation/run3ph.py:add_noise_and_filter", "src/simulation/run.py:generate_loads", "src/simulation/run.py:simulate_net"]}
{"id": "C83", "title": "The saved data are those of the latest loads and simulation", "statement": "After every successful run of `simulate_network.py` the saved data are up to date: recomputing simulation and noise from the loads file changes no file. The files of parts that are not recomputed stay as they are, and a run that fails leaves the result file unchanged.", "quantifier": "For all networks, options, settings of two successive runs, and files.", "why_tests_cant": "The files after a run look complete and consistent in shape; that they belong to other loads shows only by recomputing them, for each combination of flags and each history of runs.", "anchors": ["simulate_network.py:simulate", "src/simulation/run.py:simulate_net", "src/simulation/run3ph.py:simulate_net"]}
{"id": "C84", "title": "Saved columns, ratings and labels belong to the same bus", "statement": "In the file saved by `simulate_network.py` the columns of the measurements are those of the visible loaded buses (and of the substation if a Laplacian is asked for) in the order of the template, and the rating and the phase label at each position are those of the bus and phase of the column at this position.", "quantifier": "For all templates, settings, options and previous files of a successful run that recomputes simulation and measurements.", "why_tests_cant": "Columns, ratings and labels are built by different functions that each reorder and delete entries; the lengths always agree, so only the value at every position for every template and set of hidden buses tells.", "anchors": ["simulate_network.py:simulate", "src/simulation/run.py:add_noise_and_filter", "src/simulation/run3ph.py:add_noise_and_filter", "src/simulation/run.py:reduce_network"]}
{"id": "C85", "title": "The saved matrix explains the saved data", "statement": "The admittance matrix in the file saved by `simulate_network.py` explains the saved actual voltages and currents: currents are voltages times the matrix (up to a constant per current without the substation, whose voltage is constant). With noise deviations 0 the noisy measurements are the actual ones.", "quantifier": "For all templates, power-flow results, settings and options of a successful run that recomputes simulation and measurements, with idle buses only, an invertible block of these buses, and sizes for which the order of rows is known.", "why_tests_cant": "An identity between all entries of reduced data for all networks; wrong rows, signs or removed nodes give matrices of the right size.", "anchors": ["simulate_network.py:simulate", "src/simulation/run.py:reduce_network", "src/simulation/run.py:add_noise_and_filter", "src/simulation/simulation.py:SimulatedNet"]}
{"id": "C86", "title": "Simulating without noise and identifying gives the saved matrix", "statement": "If `simulate_network.py` runs with all noise deviations 0 and `identify_network.py` then runs on its output, the ordinary and total least squares estimates that are saved are exactly the saved admittance matrix.", "quantifier": "For all networks, power-flow results with linearly independent voltages, settings and options (one phase, idle buses eliminated) for which both programs succeed; exact arithmetic.", "why_tests_cant": "End-to-end equality through two programs and a file, for all networks and loads.", "anchors": ["simulate_network.py:simulate", "identify_network.py:identify", "src/identification/run.py:standard_methods", "src/simulation/run.py:reduce_network"]}
{"id": "C87", "title": "The saved Lasso estimate solves the documented regressions", "statement": "With at least one iteration the Lasso estimate saved by `identify_network.py` ends a chain of at most the requested number of symmetric (Laplacian if asked) matrices that starts from the symmetric part of the ordinary least squares estimate, each minimising the squared current misfit of the centred data plus lambda times the reweighted l1 penalty of the matrix before. Without iterations it is the ordinary estimate.", "quantifier": "For all measurements, options, configurations with nonnegative lambda and previous files of successful single-phase runs that redo the standard methods, with a nonzero ordinary estimate; any correct linear solver.", "why_tests_cant": "Optimality over all admissible matrices in every iteration, for all data; a wrong prior, start value or centring still gives a plausible matrix.", "anchors": ["identify_network.py:identify", "src/identification/run.py:standard_methods", "src/identification/run.py:build_lasso_prior", "src/models/regression.py:BayesianRegression"]}
{"id": "C88", "title": "The saved Bayesian estimate solves the documented problem", "statement": "The history saved by the Bayesian method starts from the symmetric part of the total least squares estimate; in every round the voltages are corrected optimally for the matrix before and the new matrix is the best admissible one for the corrected voltages, with the weights computed from the configured voltage noise (divided by the root of the saved averaging factor), the configured lambda, and the penalty on lines and node sums relative to the estimate. The reported target is that of the round, the saved matrix is the last one. Without synchronisation magnitudes and rotated currents replace the data.", "quantifier": "For all measurements, options, configurations (rows contrasted, diagonal not regularised, as configured in the repository) and files of successful single-phase runs of at least one round, with nonzero lines of the estimate, positive semidefinite weights and a correct linear solver; three cases: weighted, weighted without synchronisation, unweighted.", "why_tests_cant": "Optimality over all corrections and matrices in every round for all data; swapped deviations, weights or flags change the numbers but not their form.", "anchors": ["identify_network.py:identify", "src/identification/run.py:bayesian_eiv", "src/identification/run.py:build_complex_prior", "src/models/error_in_variable.py:BayesianEIVRegression.fit"]}
{"id": "C89", "title": "Sensor ratings and current noise have no influence on the results", "statement": "Two successful runs of `identify_network.py` that differ only in the saved sensor ratings and in the configured noise deviations of the currents leave the same files, although the program computes the covariances of the currents from them.", "quantifier": "For all data, options (one and three phases, weighted or not), configurations, ratings and deviations, and all numerical routines.", "why_tests_cant": "Equality of two whole runs for arbitrary inputs; a test fixes the ratings.", "anchors": ["identify_network.py:identify", "src/identification/run.py:bayesian_eiv", "src/identification/run3ph.py:bayesian_eiv", "src/models/error_in_variable.py:BayesianEIVRegression.fit"]}
{"id": "C90", "title": "The error reports describe the saved estimates", "statement": "After a successful run of `plot_results.py` each of the files `ols_`, `tls_`, `lasso_` and `sparse_tls_error_metrics.txt` holds exactly one set of metrics: the Frobenius error and the relative error of the corresponding saved estimate with respect to the saved true matrix, and the largest and the entrywise relative error of the matrices that are shown (phases or sequences). The error series has the relative error of every saved iterate, the target series the targets from the second iterate on, the other figures show the moduli of the matrices, of their difference and of the lines of the network. A Frobenius error of zero means that the estimate is exact.", "quantifier": "For all files, phases, networks of any size, with and without conversion to sequences, and all contents of the output files before.", "why_tests_cant": "The metrics of arbitrary matrices, through unitary conversions of any size; swapped files or arguments give plausible numbers.", "anchors": ["plot_results.py:plot_results", "src/identification/utils.py:plot_heatmap", "src/identification/utils.py:plot_series", "src/models/error_metrics.py:error_metrics"]}
{"id": "C91", "title": "Reported overall errors do not depend on phases or sequences being shown", "statement": "For three-phase results the Frobenius and relative errors reported with and without the option `-q` agree. The largest error of an entry does not: it can be larger with the option than without.", "quantifier": "For all files, sizes and previous outputs; the second part by an example.", "why_tests_cant": "Equality for all matrices; rests on the conversion being a multiple of a unitary one.", "anchors": ["plot_results.py:plot_results", "src/simulation/lines.py:admittance_phase_to_sequence", "src/simulation/lines.py:admittance_sequence_to_phase"]}
{"id": "C92", "title": "The sparsity report covers the pairs without a line, but its relative errors carry no information", "statement": "`sparsity_metrics.txt` reports for each of the four estimates the errors of the sums of the two entries of each pair of nodes that is not connected (and of the diagonal entries if the matrix is not a Laplacian), relative to the estimate instead of the true value. For Laplacian networks both relative errors are therefore always 100 percent, or not a number if the estimate is exact there.", "quantifier": "For all files, networks and estimates of any size.", "why_tests_cant": "All estimates: a test sees one number, 100, that looks like an unlucky estimate.", "anchors": ["plot_results.py:plot_results", "src/models/matrix_operations.py:elimination_sym_matrix", "src/models/error_metrics.py:rrms_error"]}
{"id": "C93", "title": "When the reports can be written", "statement": "With consistent files the program finishes if there are no Bayesian results, or if there are also standard results and some pair of nodes has no line (or the matrix is not a Laplacian). If all pairs have lines in a Laplacian network, it fails with a ValueError after writing the Bayesian errors, and leaves a sparsity report that consists of the title OLS.", "quantifier": "For all consistent files, sizes, phases and options.", "why_tests_cant": "Absence of failures for all inputs; the failing networks are unusual ones.", "anchors": ["plot_results.py:plot_results"]}
{"id": "C94", "title": "Bayesian results cannot be reported without standard results", "statement": "If only the Bayesian file exists the program writes the Bayesian errors and then fails with an UnboundLocalError; the sparsity report stays the old one.", "quantifier": "For all consistent files without standard results.", "why_tests_cant": "All inputs without that file.", "anchors": ["plot_results.py:plot_results"]}
{"id": "C95", "title": "Reports of an earlier network stay in place", "statement": "Output names do not contain the name of the network: if a result file is missing, all reports and figures that belong to it keep their contents, so that after a successful run for one network the error report may be that of another one. Nothing but the listed files is written.", "quantifier": "For all files, networks, options and results of the run (also failing ones); the second part by an example with two networks.", "why_tests_cant": "A frame property over all runs.", "anchors": ["plot_results.py:plot_results", "src/identification/utils.py:plot_heatmap"]}
{"id": "C96", "title": "The correlation figure of a single phase always shows phase 1", "statement": "The figure `correlations` shows the logarithms of the roots of the moduli of the eigenvalues of the Gram matrix of the centred voltages that are shown. If one phase was identified, these are the voltages with label 1, whatever the identified phase: two simulations that agree on these columns give the same figure.", "quantifier": "For all pairs of successful runs with files that agree on the columns with label 1; all phase names other than 012 and 123; any eigenvalue routine.", "why_tests_cant": "A relation between two runs for all voltages.", "anchors": ["plot_results.py:plot_results", "src/identification/utils.py:plot_series"]}
{"id": "C97", "title": "Colours and labels of figures", "statement": "`map_color_colormap` returns the requested number of colours, the first ones of a list that is long enough and otherwise its first colour again and again; only an empty list fails. `plot_series` fails with an AttributeError whenever it is given as many labels as columns, after saving the array.", "quantifier": "For all arguments.", "why_tests_cant": "All lengths.", "anchors": ["src/identification/utils.py:map_color_colormap", "src/identification/utils.py:plot_series"]}
{"id": "C98", "title": "Nodes can be eliminated unless they form an island", "statement": "In a single-phase network whose lines have resistance (and whose constant-impedance loads consume), the block of the admittance matrix of a set of nodes is invertible if from each of these nodes lines in service lead to a node outside; an island without constant-impedance loads makes it singular. Without currents, joined nodes have equal voltages. Therefore in `simulate_network.py` the saved data satisfy the admittance equation, and noise-free data are identified exactly, for every table in which lines lead from the removed nodes to others: no assumption on the matrix is left.", "quantifier": "For all networks and tables with positive resistances, all sets of nodes, all node voltages; all successful single-phase runs and a pseudo-inverse that inverts every invertible matrix.", "why_tests_cant": "Invertibility of all blocks of all admittance matrices with arbitrary topology; a test computes single determinants in floating point.", "anchors": ["src/simulation/network.py:NetData.make_y_bus", "src/simulation/run.py:reduce_network", "src/simulation/abstract_network.py:Net.kron_reduction", "simulate_network.py:simulate"]}
{"id": "C99", "title": "The shipped single-phase networks are sound", "statement": "Every network of `net_templates.py` can be built: its labels are 1, 2, ..., it has one substation (the last bus, but the first one in ieee_33), and lines in service lead from every bus to it; any set of other nodes can be eliminated. So the data saved by `simulate_network.py` for them satisfy the admittance equation, with the substation, and without it unless the network is ieee_33, with no assumption on the network left.", "quantifier": "For all shipped single-phase networks, all lists of hidden nodes and all other settings, all successful runs, all sets of eliminated nodes.", "why_tests_cant": "All subsets of nodes and all runs; invertibility cannot be tested exactly.", "anchors": ["src/simulation/net_templates.py", "src/simulation/network.py:NetData", "simulate_network.py:simulate"]}
{"id": "C100", "title": "The shipped list of hidden nodes", "statement": "A label that the network does not have makes `simulate_network.py` fail, whatever the options and the files. With the list `hidden_nodes` of `conf/simulation.py` the only single-phase network that can be simulated is bolognani56, and its data then have the columns of 29 nodes, which are not the nodes called observed there: node 1 is called observed and lost, node 2 is kept and not called observed (labels and positions are mixed up).", "quantifier": "For all options, files, parameters of the numerical routines; all networks for the first claim.", "why_tests_cant": "All options, files and networks; the failure concerns every run.", "anchors": ["conf/simulation.py:hidden_nodes", "conf/simulation.py:observed_nodes", "src/simulation/run.py:reduce_network", "src/simulation/run3ph.py:reduce_network", "simulate_network.py:simulate"]}
{"id": "C101", "title": "Shipped networks that describe the same grid agree", "statement": "bolognani33 consists of buses of bolognani56 and of all lines between them; ieee123center has the buses and lines of bolognani56 with loads that add up to the single-phase ones and lengths times 0.3 in thousandths; cigre_mv_feeder3 has the loads of cigre_mv_feeder1 on each phase, and its lines. bolognani21 is not a part of bolognani56: its last line joins 20 and 21 instead of 19 and 20.", "quantifier": "For all rows of the tables, over every field (exact decimals).", "why_tests_cant": "Nothing in the repository states the relation between the tables; two tables compared in floating point agree only approximately.", "anchors": ["src/simulation/net_templates.py:bolognani56_net", "src/simulation/net_templates.py:bolognani33_bus", "src/simulation/net_templates.py:bolognani33_net", "src/simulation/net_templates.py:bolognani21_bus", "src/simulation/net_templates.py:bolognani21_net", "src/simulation/net_templates.py:cigre_mv_feeder1_net", "src/simulation/net_templates_3ph.py:ieee123center_net", "src/simulation/net_templates_3ph.py:cigre_mv_feeder3_net"]}
{"id": "C102", "title": "Three phases with unequal numbers of removed nodes cannot be simulated", "statement": "If two phases of a three-phase network have different numbers of nodes that are hidden or without load, `simulate_network.py -3` without `-q` fails, whatever the loads and the files. This is so for ieee123center without hidden nodes and with the shipped ones, and for test_3phase without hidden nodes; with the shipped list of hidden nodes no shipped three-phase network can be simulated.", "quantifier": "For all tables, hidden nodes, files, power flow results and pseudo-inverses that keep shapes.", "why_tests_cant": "All inputs: a test shows that one run fails, not that none can succeed.", "anchors": ["src/simulation/run3ph.py:reduce_network", "src/simulation/net_templates_3ph.py", "simulate_network.py:simulate"]}
{"id": "C103", "title": "When the simulation program runs to its end", "statement": "For a network with valid tables, one substation and loads on all other buses, `simulate_network.py` runs to its end whenever the power flow converges, the loads are given (by an earlier run, by profiles that are long enough, or at random), the nodes to hide exist and there are at least as many samples as time steps. On the shipped networks this holds exactly if the nodes to hide exist. With the shipped settings and a week of profiles bolognani56 can be simulated.", "quantifier": "For all tables, profiles, options without three phases, rounding to nearest, noise that does not fail, pseudo-inverses that keep shapes.", "why_tests_cant": "Absence of failures for all inputs.", "anchors": ["simulate_network.py:simulate", "src/simulation/run.py", "src/simulation/net_templates.py", "conf/simulation.py"]}
{"id": "C104", "title": "The saved voltages and currents are those of the power flow", "statement": "After a run of `simulate_network.py` that recomputes the results, the saved exact voltages are the magnitudes and angles which the power flow returned for the saved loads (one column per bus, or with three phases column 3k+p for phase p of bus k), the saved admittance matrix is that of the network built from the tables, and the saved currents are the product of the two.", "quantifier": "For all networks, loads, options, settings, files, power flow results and runs that succeed.", "why_tests_cant": "An equation between three files and the result of the power flow for all runs; a swapped argument shows only in data whose columns differ.", "anchors": ["src/simulation/simulation.py:SimulatedNet.get_current_and_voltage", "src/simulation/simulation_3ph.py:SimulatedNet3P.get_current_and_voltage", "src/simulation/run.py:simulate_net", "src/simulation/run3ph.py:simulate_net", "simulate_network.py:simulate"]}
{"id": "C105", "title": "The uncertainty analysis of an estimate", "statement": "`eiv_fim` succeeds exactly if the real parts and the imaginary parts of the centred voltages are each linearly independent (otherwise it raises and keeps the old file); then the returned matrix is positive semidefinite, the returned covariance is its inverse, and both are saved with the data and read back by a call without data. The voltages are centred by column means, with a Laplacian by one mean of all entries. The number reported as the expected error is not the expected error: its square is the mean square of the relative errors of the samples minus the square of their mean, so it is smaller than their root mean square unless all samples are exact, and it is 0 if all samples are equally wrong.", "quantifier": "For all voltages, currents, ratings, noise levels other than zero, parameters, numbers of samples, samplers and files.", "why_tests_cant": "The criterion is an equivalence over all data; the reported number is wrong for every distribution, but a test with fixed samples only sees one number without knowing the right one.", "anchors": ["src/identification/run.py:eiv_fim", "src/models/error_in_variable.py:TotalLeastSquares.fisher_info"]}
{"id": "C106", "title": "Several simulations in one process", "statement": "Calling `simulate` several times in one Python process gives the same files and results as separate processes, provided that after the first single-phase call without `-l` all calls are of this kind and of networks whose substations have the same labels. In general it does not, because the substations are appended to `conf.simulation.hidden_nodes` itself: a later call with `-l` for the same network saves a matrix with more rows than the saved data have columns (one for each substation), and a later call for another network removes the buses which have the labels of the first network's substations, or fails if there is none; after `bolognani56` no other shipped single-phase network can be simulated.", "quantifier": "For all settings, options, templates, files, power flows, noise and numbers of calls.", "why_tests_cant": "The program is tested in a fresh process each time; the effect depends on the order of the calls and on bus labels of unrelated networks.", "anchors": ["simulate_network.py:simulate", "conf/simulation.py:hidden_nodes", "src/simulation/run.py:reduce_network"]}
{"id": "C107", "title": "The saved loads are those of the template and the chosen source", "statement": "When `simulate_network.py` recomputes the loads (with `-p`, or without `-p`, `-s` and `-d`) the file of loads it saves has one row for each minute of the simulated days and one column for each bus with a load, in the order of the template. With `-g` the active and reactive columns are the nominal active and reactive loads of the template's row, varied by the given deviation; with `-a` and `-r` they are combinations of randomly picked households of the active and of the reactive profile respectively, for the selected weeks, scaled to the nominal load; hidden nodes are kept nearly constant if configured. Substations have no load. Unbalanced loads of three-phase networks are treated phase by phase in the same way. The loads depend on nothing else: not on `-l`, `-e`, the noise settings or files found. Without `-g` and profiles the program exits and writes nothing; `-t` together with `-g` always fails with a NameError.", "quantifier": "For all templates, settings, options, profiles, generators of random numbers and files found.", "why_tests_cant": "Swapped profiles, swapped active and reactive power or a shifted column give plausible loads; tests on one template with equal profiles cannot see it, and the loads are random.", "anchors": ["simulate_network.py:simulate", "src/simulation/run.py:generate_loads", "src/simulation/run3ph.py:generate_loads", "src/simulation/load_profile.py:generate_gaussian_load", "src/simulation/load_profile.py:load_profile_from_numpy", "conf/simulation.py"]}
{"id": "C108", "title": "The order of the samples has no influence on the estimates", "statement": "If the rows (samples) of the voltage and current tables given to an estimator are put in another order, the same for both, then `ComplexRegression`, `TotalLeastSquares`, `BayesianRegression` and `BayesianEIVRegression` return the same admittance matrix, and the iterative ones also the same records of their iterations or the same exception. The weights of `BayesianEIVRegression` must be those of the reordered samples, and the functions of noise_transformation.py compute exactly those from the reordered measurements. For total least squares the singular values belonging to the inputs must be larger than the others. A whole run of `identify_network.py` without weights on a file of reordered samples, with one or three phases, ends in the same way and leaves the same result files.", "quantifier": "For all numbers of samples and nodes, data, permutations, priors, settings and positive definite weights; every sound and complete linear solver, pseudo-inverse and singular value decomposition.", "why_tests_cant": "Tests cannot try all permutations of all data sets, and an estimator that treats, say, the first or the last sample differently gives nearly the same result on long series.", "anchors": ["src/models/regression.py:ComplexRegression.fit", "src/models/regression.py:BayesianRegression.fit", "src/models/error_in_variable.py:TotalLeastSquares.fit", "src/models/error_in_variable.py:BayesianEIVRegression.fit", "src/models/noise_transformation.py", "src/identification/run.py:standard_methods", "src/identification/run.py:bayesian_eiv", "src/identification/run3ph.py", "identify_network.py:identify"]}
{"id": "C109", "title": "Total least squares returns the smallest correction of the data", "statement": "When `TotalLeastSquares.fit(x, y)` returns coefficients, there are corrections dx and dy of the samples such that the corrected data fulfil (x + dx) beta = y + dy exactly, and no coefficients at all can be made to fit with corrections whose squares have a smaller sum. That sum equals the sum of the squares of the singular values of [x y] that belong to the outputs. When the singular values of the inputs are larger than those of the outputs, the returned coefficients are the only ones with this property. It also holds for a single output given as a list.", "quantifier": "For all numbers of samples, inputs and outputs, all complex data for which the fit does not raise, every singular value decomposition, all other coefficients and corrections.", "why_tests_cant": "The minimum is over infinitely many coefficients and corrections; a test can only compare with a few of them, and a wrong sign, a missing conjugation or the wrong block of the singular vectors still fits noiseless or real data.", "anchors": ["src/models/error_in_variable.py:TotalLeastSquares.fit"]}
{"id": "C110", "title": "Constant offsets of the measurements have no influence on the estimates", "statement": "If a constant is added to all samples of a voltage or current column (another one for each column), a run of `identify_network.py` without weights and without the Laplacian option ends in the same way and leaves the same result files; with the Laplacian option this holds for one constant added to all voltages. The same holds for the calls of `standard_methods` and `bayesian_eiv`. The exact values in the file of measurements have no influence either.", "quantifier": "For all data, offsets, numbers of samples and nodes, phases, options other than the weights, configurations, numerical routines and files present before.", "why_tests_cant": "Equality for all data and all offsets, over the complete program with its files; a test compares a few runs up to a tolerance.", "anchors": ["src/identification/run.py:standard_methods", "src/identification/run.py:bayesian_eiv", "src/identification/run3ph.py:standard_methods", "src/identification/run3ph.py:bayesian_eiv", "identify_network.py:identify"]}
{"id": "C111", "title": "The lines of the shipped networks are made of a few conductors", "statement": "In the pandapower network that the constructor of `NetData` builds from the tables of bolognani56 or bolognani33, every line has the resistance and the reactance per length of one of two conductors (differences of at most 1e-10, from the rounding in the tables); in bolognani21 it is always the first one; in cigre_mv_feeder1 every line has exactly 0.501 and 0.716 ohms per kilometre.", "quantifier": "For all lines of the networks, over every ordered field (exact decimals).", "why_tests_cant": "A wrong digit, or resistance and reactance exchanged in a row, still gives a network that runs; a test of the results compares with the same table.", "anchors": ["src/simulation/net_templates.py:bolognani56_net", "src/simulation/net_templates.py:cigre_mv_feeder1_net", "src/simulation/network.py:NetData.create_lines"]}
{"id": "C112", "title": "The numbers of the nodes are only names", "statement": "If the nodes get other numbers, that is the columns of the voltages and those of the currents are put in the same new order, then `ComplexRegression.fit` and `TotalLeastSquares.fit` (for data whose used singular values are apart from the others) give the admittance matrix whose rows and columns are in the new order, or end with the same exception. So do all three estimates of `run.standard_methods`, including the Lasso with its iterations, symmetrised start value, vectorised symmetric unknowns and weights, if the centred voltages are linearly independent and no weight of the Lasso vanishes. So does `run.bayesian_eiv` (Laplacian structure, penalties of lines and node sums with a positive factor, start value in the new order), with and without weights: both runs succeed, make the same number of iterations with the same targets, and each recorded matrix is the renumbered one. The covariance functions of noise_transformation.py give the weights of the renumbered measurements.", "quantifier": "For all numbers of samples and nodes, all permutations of the nodes, all complex data, every exact pseudo-inverse and singular value decomposition (which may be another one for the new columns), every solver that solves the systems with a unique solution, all numbers of iterations and tolerances, with and without the Laplacian structure (Bayesian identification: with it), every positive definite weight matrix.", "why_tests_cant": "There are n! numberings, and the decomposition of the reordered matrix is not determined by the one of the original matrix. The vectorisations of the Lasso treat the two triangles and the last row differently; the statement needs that the result does not depend on that choice.", "anchors": ["src/models/regression.py:ComplexRegression.fit", "src/models/regression.py:BayesianRegression.fit", "src/models/error_in_variable.py:TotalLeastSquares.fit", "src/models/error_in_variable.py:BayesianEIVRegression.fit", "src/models/noise_transformation.py:average_true_noise_covariance", "src/identification/run.py:standard_methods", "src/identification/run.py:bayesian_eiv", "src/identification/run.py:build_lasso_prior", "src/identification/run.py:build_complex_prior"]}
{"id": "C113", "title": "Units of the data", "statement": "Voltages multiplied by a (not zero) and currents multiplied by b give the ordinary least squares estimate multiplied by b/a. Total least squares gives the same estimate if voltages and currents are multiplied by the same positive number. It does not follow the units if they have factors of their own: the estimate is not the old one in new units, and the fit can even raise LinAlgError in one unit and succeed in the other.", "quantifier": "For all data of all sizes and all factors; the last part is refuted by a witness.", "why_tests_cant": "The dependence on the unit of total least squares is a property of the estimator on all data; on data without noise no test shows it.", "anchors": ["src/models/regression.py:ComplexRegression.fit", "src/models/error_in_variable.py:TotalLeastSquares.fit"]}
{"id": "C114", "title": "The reference of the angles", "statement": "If the phasors of the voltages and of the currents of each sample are referred to another angle (which may be another one for each sample), then `ComplexRegression.fit`, `TotalLeastSquares.fit` (used singular values apart from the others) and `BayesianRegression.fit` return what they returned before, the last one with the same records of the iterations and the same exceptions. `BayesianEIVRegression.fit` does so if it is given weights and the weights are turned with the deviations. Without weights it does not: the recorded targets change, so the number of iterations and the estimate can change.", "quantifier": "For all numbers of samples and nodes, all data, all angles, all priors, start values and tolerances; every exact pseudo-inverse and decomposition. The last part is refuted by a witness.", "why_tests_cant": "The reference angle is a choice of the measurement system; a test can try a few angles on a few data sets and would not see the effect on the stopping rule unless the tolerance is hit differently.", "anchors": ["src/models/regression.py:ComplexRegression.fit", "src/models/regression.py:BayesianRegression.fit", "src/models/error_in_variable.py:TotalLeastSquares.fit", "src/models/error_in_variable.py:BayesianEIVRegression.fit"]}
{"id": "C115", "title": "The numerical routines", "statement": "The pseudo-inverse, the singular value decomposition and the sparse solver are called from libraries. If two versions of them do what they should (exact pseudo-inverse; exact decomposition, whose singular vectors are not unique; a solver that returns only solutions and solves every regular system), `run.standard_methods` and `run.bayesian_eiv` (Laplacian structure, with or without weights) return the same matrices, the same records of the iterations and the same exceptions and write the same files with both of them. So does the whole program `identify_network.py -l` for a network with one phase.", "quantifier": "For all data of all sizes, all files, all versions of the routines that meet the stated requirements, all configurations with positive factors and the settings of the prior of the shipped script; the used singular values are larger than the others, the centred voltages have independent columns and no value the priors divide by is zero.", "why_tests_cant": "A test runs with one version of the libraries on one machine; a decomposition with other singular vectors or a solver with another order of elimination (GPU or CPU, another LAPACK) is not tried.", "anchors": ["src/identification/run.py:standard_methods", "src/identification/run.py:bayesian_eiv", "identify_network.py:identify", "src/models/regression.py:ComplexRegression.fit", "src/models/error_in_variable.py:TotalLeastSquares.fit", "src/models/error_in_variable.py:BayesianEIVRegression.fit"]}
{"id": "C116", "title": "The factor of the penalties", "statement": "The configuration has one factor for the penalty of the Lasso (`lambda_lasso`) and one for the penalty of the Bayesian identification (`lambda_eiv`). (a) If all weights of the measurements, `lambda_eiv` and `abs_tol` are multiplied by the same positive number, `run.bayesian_eiv` returns the same matrix after the same iterations with the same estimates, and every recorded target is multiplied by the number; only the ratio of the factor and the weights matters. (b) In one iteration a larger `lambda_eiv` gives an estimate with a smaller or equal penalty and a larger or equal weighted misfit to the data; the corrected voltages are the same. (c) In one iteration of the Lasso in `run.standard_methods` a larger `lambda_lasso` gives an estimate with a smaller or equal penalty and a larger or equal misfit; the estimates of ordinary and total least squares do not change.", "quantifier": "For all data of all sizes, all positive factors, all weights (positive definite in (a) and (b)), all configurations with the settings of the prior of the shipped script; (a) and (b) with the Laplacian structure and weights, (a) for every positive number of iterations, (c) with and without the Laplacian structure; no value the priors divide by is zero.", "why_tests_cant": "A test runs with a few values of the factor; it can neither try all factors, data and weights nor see that the estimate is exactly the same when everything is scaled.", "anchors": ["src/identification/run.py:bayesian_eiv", "src/identification/run.py:standard_methods", "src/models/error_in_variable.py:BayesianEIVRegression.fit", "src/models/regression.py:BayesianRegression.fit"]}
{"id": "C117", "title": "The time series and its directory", "statement": "`SimulatedNet.run` and `SimulatedNet3P.run` set the k-th column of the given tables as the powers of the k-th load (and, with three phases, the six tables as the active and reactive powers of the phases of the k-th unbalanced load) and make one power flow for each row. Row t of every result is the power flow of the network with row t of the loads and nothing else; earlier rows, the nominal loads and older results of the same kind in the directory have no influence, and the voltages saved by `run.simulate_net` are these values. A table with another number of columns raises ValueError, a power flow that fails raises its exception, and both leave all files as they were. The directory is named after the present second: programs that started in different seconds can run at the same time and each one gets its own results.", "quantifier": "For all networks, loads, numbers of samples, power flows (a parameter) and contents of the disk; for any number of programs and every order of their writing and reading.", "why_tests_cant": "Tests simulate one network with one power flow solver and an empty directory; a shifted column, a value left over from the previous sample or two programs in the same second are not seen.", "anchors": ["src/simulation/simulation.py:SimulatedNet.run", "src/simulation/simulation.py:SimulationResult.from_dir", "src/simulation/simulation_3ph.py:SimulatedNet3P.run", "src/simulation/simulation_3ph.py:SimulationResult3P.from_dir", "src/simulation/run.py:simulate_net"]}
{"id": "C118", "title": "Repeated samples", "statement": "If every sample is recorded the same number of times, in any order, `standard_methods` gives the same matrices for ordinary and total least squares as for the samples recorded once, writes the same file and ends in the same way. The Lasso gives the same matrix too if lambda_lasso and the absolute tolerance are multiplied by the number of records; with the unchanged configuration it does not.", "quantifier": "For all tables of voltages and currents, all numbers of samples and records, all orders of the records, with and without the Laplacian structure, any number of iterations, and all exact pseudo-inverses, singular value decompositions and solvers.", "why_tests_cant": "Tests run on one table; a mean with a wrong divisor, or a data term that is scaled by the number of samples in one method only, needs two related tables of different length, and the statement is about all orders and all numbers of records.", "anchors": ["src/identification/run.py:standard_methods", "src/models/regression.py:ComplexRegression.fit", "src/models/error_in_variable.py:TotalLeastSquares.fit", "src/models/regression.py:BayesianRegression.fit"]}
{"id": "C119", "title": "Load profiles from csv files", "statement": "`load_profile_from_csv` uses exactly the lines of the two files that are neither in the header nor in the footer of a part, part after part, and every load it returns (one or three phases) is a sum of as many households as its nominal value asks for. If the two files have the same number of lines and the footers belong to parts of one length, the result is that of `load_profile_from_numpy`. No part at all is a TypeError, a negative footer or a header as long as the file a ValueError, a missing footer an IndexError. If the file of the reactive powers is longer, the two readers do not agree: the reactive powers get more samples than the active ones.", "quantifier": "For all files, all lists of headers and footers, all nominal values, one and three phases, every rounding function and every generator of household numbers.", "why_tests_cant": "Tests read a few files with one list of parts; the statement is about every list of headers and footers, with overlapping or empty parts, about every way to draw households, and about the agreement of two readers that share no code for the lines.", "anchors": ["src/simulation/load_profile.py:load_profile_from_csv", "src/simulation/load_profile.py:load_profile_from_numpy"]}
{"id": "C120", "title": "Impedances of the three-phase line types", "statement": "In the admittance matrix of a three-phase network, the admittances between the phases of two nodes joined by a line of type OG3 or UG3 are the inverse of the impedance matrix documented beside the table of types (own impedance on the diagonal, mutual impedance beside it, in ohm per kft), for the length of the line. For any type, the phases of the two nodes do not influence each other exactly if its positive- and zero-sequence impedances agree. The one-phase type OG1 is documented with two equal impedances, but in the table the second one is divided twice by 0.3, so its phases do influence each other.", "quantifier": "For all networks (any number of nodes), all pairs of joined nodes, all lengths and all bases of the units.", "why_tests_cant": "A test compares numbers of one network; whether sequence impedances stand for the documented phase impedances is a statement about a change of coordinates in every network, and the wrong entry of OG1 shows up in no shipped network.", "anchors": ["src/simulation/net_templates_3ph.py:ieee123_types", "src/simulation/network_3ph.py:NetData3P.make_y_bus", "src/simulation/lines.py:admittance_sequence_to_phase"]}
{"id": "C121", "title": "Units of the load profiles", "statement": "If a file of household profiles and the nominal values of the loads are given in another unit, `load_profile_from_numpy` and `load_profile_from_csv` draw the same households and return the same loads in this unit, for the active and the reactive powers independently, in one and in three phases; the random number generator is left in the same state and failures are the same. With another unit of the file alone other households are drawn and the loads are not those in this unit. The random loads of `generate_gaussian_load` follow the unit of the nominal values in the same way. So do the loads of `generate_loads` for one and for three phases, with the constant loads mixed in.", "quantifier": "For all files, positive factors, lists of parts, nominal values, rounding functions and generators of household numbers.", "why_tests_cant": "A test with one file and one factor cannot tell a reader that compares with a fixed threshold, or that mixes the shares of active and reactive powers, from a correct one; the statement relates two runs for all factors.", "anchors": ["src/simulation/load_profile.py:load_profile_from_numpy", "src/simulation/load_profile.py:load_profile_from_csv", "src/simulation/load_profile.py:generate_gaussian_load", "src/simulation/run.py:generate_loads", "src/simulation/run3ph.py:generate_loads"]}
