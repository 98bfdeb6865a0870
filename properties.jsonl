{"id": "C01", "title": "Half-vectorisation round trip", "statement": "vecp followed by unvecp returns the original matrix for every symmetric matrix; unvecp followed by vecp returns the original vector whenever its length is a triangular number; unvecp always returns a symmetric matrix; vecp rejects every non-square matrix.", "quantifier": "all matrix sizes and all entries over any field of characteristic not two", "why_tests_cant": "the index arithmetic is size dependent; tests fix a few sizes", "anchors": ["seyfert/fisher/linalg_tools.py:vecp", "seyfert/fisher/linalg_tools.py:unvecp", "seyfert/fisher/linalg_tools.py:triu_idxs_by_col"]}
{"id": "C02", "title": "Row numbering agrees with vectorisation order", "statement": "The row number that get_enumeration_map assigns to a pair (i,j) is exactly the position of entry (i,j) in vecp (symmetric enumeration) or vec (full enumeration); the numbering is a bijection onto 0..N-1 with N = n(n+1)/2 or nA*nB; symmetric enumeration of a non-square shape is rejected.", "quantifier": "all shapes", "why_tests_cant": "covariance rows and derivative components are matched only through this numbering, for every bin count", "anchors": ["seyfert/fisher/linalg_tools.py:get_enumeration_map", "seyfert/fisher/linalg_tools.py:vec", "seyfert/fisher/linalg_tools.py:vecp"]}
{"id": "C03", "title": "Duplication, elimination and commutation matrices", "statement": "For every n and symmetric A: duplication_matrix(n) @ vecp(A) = vec(A); for every square A elimination_matrix(n) @ vec(A) = vecp(A); for every p x q matrix A commutation_matrix(p,q) @ vec(A) = vec(A^T).", "quantifier": "all sizes and all entries", "why_tests_cant": "identities quantified over every dimension", "anchors": ["seyfert/fisher/linalg_tools.py:duplication_matrix", "seyfert/fisher/linalg_tools.py:elimination_matrix", "seyfert/fisher/linalg_tools.py:commutation_matrix"]}
{"id": "C04", "title": "Common multipoles are the exact intersection", "statement": "Given any list of at least two multipole arrays the computed common array contains exactly the values present in all of them, sorted and without repetition, and does not depend on the order of the arrays; an empty list is rejected; a single array is returned as given. Likewise the union of at least two arrays contains exactly the values of any of them, sorted and without repetition, in whatever order they are given; fewer than two are rejected.", "quantifier": "all lists of arrays", "why_tests_cant": "any number of probes and any overlap pattern", "anchors": ["seyfert/utils/array_utils.py:compute_arrays_intersection1d", "seyfert/utils/array_utils.py:compute_arrays_union1d"]}
{"id": "C05", "title": "Masked blocks stay aligned with the common multipoles", "statement": "After restricting spectra to common multipoles, row r of every block is the row the original block had at the r-th common multipole, so all blocks have the same length; this needs each multipole array to be strictly increasing and fails otherwise.", "quantifier": "all multipole arrays and blocks", "why_tests_cant": "misalignment only shows for particular overlap patterns", "anchors": ["seyfert/fisher/fisher_evaluator.py:mask_cl_blocks_to_common_ells"]}
{"id": "C06", "title": "Covariance entries follow the Gaussian formula", "statement": "For every data vector and every multipole common to the four spectra involved, the covariance entry between (A_i,B_j) and (C_k,D_m) is (dC_AC[i,k] dC_BD[j,m] + dC_AD[i,m] dC_BC[j,k])/(2l+1), whichever orientation of each probe pair is stored.", "quantifier": "all data vectors, block sizes, multipoles, stored orientations", "why_tests_cant": "block/row/column bookkeeping over every combination", "anchors": ["seyfert/fisher/fisher_evaluator.py:ClCovarianceMatrix.computeCovBlock", "seyfert/utils/shortcuts.py:ClSmartKeyDict"]}
{"id": "C07", "title": "Covariance matrix is symmetric", "statement": "When auto spectra are symmetric, the assembled covariance matrix is symmetric at each multipole, and assembling never reads a block that has not been computed.", "quantifier": "all data vectors (with repetitions) and spectra", "why_tests_cant": "all block layouts", "anchors": ["seyfert/fisher/fisher_evaluator.py:ClCovarianceMatrix.evaluateAllBlocks", "seyfert/fisher/fisher_evaluator.py:ClCovarianceMatrix.buildMatrix"]}
{"id": "C08", "title": "Fisher elements", "statement": "The Fisher matrix computed for a data vector is symmetric, has one row and column per free parameter, and entry (a,b) is the sum over the common multipoles of d_a^T Cov^-1 d_b; with a symmetric inverse covariance it does not depend on the order in which parameters are listed.", "quantifier": "all parameter lists, derivatives, covariances", "why_tests_cant": "all orders and sizes", "anchors": ["seyfert/fisher/fisher_evaluator.py:FisherEvaluator.computeFisherOfMultipole", "seyfert/fisher/fisher_evaluator.py:FisherEvaluator.sumFisherOverMultipoles"]}
{"id": "C09", "title": "Fisher matrix is positive semi-definite", "statement": "If the inverse covariance is positive semi-definite at each multipole then so is the Fisher matrix returned for the data vector, also after single-probe contributions are added.", "quantifier": "all parameter lists, derivatives, covariances, test vectors", "why_tests_cant": "universally quantified over directions", "anchors": ["seyfert/fisher/fisher_evaluator.py:FisherEvaluator.computeFisherMatrix"]}
{"id": "C10", "title": "Single-probe multipoles are counted exactly once", "statement": "For a combined data vector, the result is the joint sum over common multipoles plus, for each auto-correlated probe in the vector, that probe's own terms at exactly those multipoles that are not common; parameters absent from a probe contribute nothing.", "quantifier": "all data vectors, multipole ranges", "why_tests_cant": "double counting depends on overlap pattern", "anchors": ["seyfert/fisher/fisher_evaluator.py:FisherEvaluator.addInvolvedProbesContribution"]}
{"id": "C11", "title": "Free parameters of a data vector", "statement": "The parameters of a Fisher matrix are exactly the free cosmological ones plus the free nuisance ones of a probe occurring in the data vector, each once.", "quantifier": "all parameter collections and data vectors", "why_tests_cant": "all collections", "anchors": ["seyfert/fisher/fisher_evaluator.py:FisherEvaluator.selectFreeParameters", "seyfert/cosmology/parameter.py:PhysicalParametersCollection"]}
{"id": "C12", "title": "Sum of Fisher matrices", "statement": "F1 + F2 is defined over the union of the parameters; its entry (a,b) is the sum of the entries of the operands with 0 for a missing parameter; its cosmological and nuisance sets are the unions; operands are left unchanged.", "quantifier": "all pairs of Fisher matrices with any labels in any order", "why_tests_cant": "label alignment over any overlap", "anchors": ["seyfert/fisher/fisher_matrix.py:FisherMatrix.__add__", "seyfert/fisher/fisher_matrix.py:FisherMatrix.zeroPadMatrices"]}
{"id": "C13", "title": "Fisher sums commute and associate", "statement": "Up to the name, + is commutative and associative, and summing any list in any order gives the same matrix and parameter sets.", "quantifier": "all lists of Fisher matrices and permutations", "why_tests_cant": "all permutations", "anchors": ["seyfert/fisher/fisher_matrix.py:FisherMatrix.__add__", "seyfert/fisher/fisher_analysis.py:FisherAnalysis.evaluateFishersFromAddendsList"]}
{"id": "C14", "title": "Subtraction undoes addition", "statement": "(F1 + F2) - F2 has the entries of F1 on the parameters of F1 and zero elsewhere; F1 - F2 is antisymmetric in its operands.", "quantifier": "all pairs", "why_tests_cant": "all overlaps", "anchors": ["seyfert/fisher/fisher_matrix.py:FisherMatrix.__sub__"]}
{"id": "C15", "title": "Fixing parameters", "statement": "fixParameters removes exactly the rows and columns of the given parameters from matrix and parameter sets, leaves other entries unchanged, raises (changing nothing) if one is unknown, and fixing in two steps equals fixing at once, in any order.", "quantifier": "all matrices, parameter sets, histories", "why_tests_cant": "all subsets", "anchors": ["seyfert/fisher/fisher_matrix.py:FisherMatrix.fixParameters"]}
{"id": "C16", "title": "Marginalisation keeps the other parameters' covariance", "statement": "marginalizeParameters leaves the inverse restricted to the kept parameters unchanged: every kept error and covariance read afterwards equals the one before; the matrix becomes the Schur complement; asking for an unknown parameter raises and changes nothing.", "quantifier": "all invertible matrices over any field and all subsets", "why_tests_cant": "matrix identity for all sizes", "anchors": ["seyfert/fisher/fisher_matrix.py:FisherMatrix.marginalizeParameters", "seyfert/fisher/fisher_utils.py:invert_dataframe"]}
{"id": "C17", "title": "Marginalisation composes", "statement": "Marginalising over S then T equals marginalising over S and T at once, in either order; marginalising over nothing leaves the matrix unchanged.", "quantifier": "all invertible matrices, all S and T", "why_tests_cant": "matrix identity", "anchors": ["seyfert/fisher/fisher_matrix.py:FisherMatrix.marginalizeParameters"]}
{"id": "C18", "title": "Marginalise before or after combining", "statement": "If two Fisher matrices share no nuisance parameter then marginalising each over its nuisance parameters and adding equals adding and marginalising; with a shared nuisance parameter it can differ.", "quantifier": "all pairs of matrices", "why_tests_cant": "matrix identity", "anchors": ["seyfert/fisher/final_results_core.py:create_results_for_cosmology", "seyfert/fisher/fisher_matrix.py:FisherMatrix.marginalizeNuisance"]}
{"id": "C19", "title": "Marginalised errors are never smaller than conditional ones", "statement": "For a positive definite Fisher matrix the marginalised error of every parameter is at least its unmarginalised error, and fixing parameters never increases an error.", "quantifier": "all positive definite matrices", "why_tests_cant": "inequality over all matrices", "anchors": ["seyfert/fisher/fisher_matrix.py:FisherMatrix.getMarginalizedErrors", "seyfert/fisher/fisher_matrix.py:FisherMatrix.getUnmarginalizedErrors"]}
{"id": "C20", "title": "Reported errors belong to the current matrix", "statement": "After any sequence of operations on a Fisher matrix object the marginalised errors it reports are those of the matrix it currently holds.", "quantifier": "all operation histories", "why_tests_cant": "depends on the history (cached inverse)", "anchors": ["seyfert/fisher/fisher_matrix.py:FisherMatrix.getMarginalizedErrors", "seyfert/fisher/fisher_matrix.py:FisherMatrix.fixParameters", "seyfert/fisher/fisher_matrix.py:FisherMatrix.addPriorToParameters", "seyfert/fisher/fisher_matrix.py:FisherMatrix.selectRelevantFisherSubMatrix"]}
{"id": "C21", "title": "Copy-returning marginalisation leaves the object alone", "statement": "marginalizeParameters(..., ret_copy=True) does not change anything observable on the object it is called on.", "quantifier": "all matrices and later histories", "why_tests_cant": "effect only visible through later calls", "anchors": ["seyfert/fisher/fisher_matrix.py:FisherMatrix.marginalizeParameters"]}
{"id": "C22", "title": "Correlation matrix", "statement": "The correlation matrix has unit diagonal, is symmetric, and entry (a,b) is C_ab/(s_a s_b) for the labels a and b shown.", "quantifier": "all matrices, histories, and iteration orders of the parameter sets", "why_tests_cant": "depends on set iteration order", "anchors": ["seyfert/fisher/fisher_matrix.py:FisherMatrix.evaluateCorrelationMatrix"]}
{"id": "C23", "title": "Figure of merit", "statement": "The figure of merit is the inverse square root of the determinant of the 2x2 covariance of the two parameters, does not depend on their order, and is unchanged by marginalising over other parameters.", "quantifier": "all matrices", "why_tests_cant": "all matrices", "anchors": ["seyfert/fisher/fisher_matrix.py:FisherMatrix.getFigureOfMerit"]}
{"id": "C24", "title": "Adding priors", "statement": "addPriorToParameters adds 1/(f*value)^2 to the diagonal entries of the named parameters and changes nothing else; a name that is not in the matrix is rejected.", "quantifier": "all matrices and prior dictionaries", "why_tests_cant": "all dictionaries", "anchors": ["seyfert/fisher/fisher_matrix.py:FisherMatrix.addPriorToParameters"]}
{"id": "C25", "title": "Fisher files", "statement": "Writing a Fisher matrix and loading it gives the same name, labels, entries and parameter sets; an existing file is left untouched, replaced, or causes FileExistsError exactly according to the flags; no other file changes.", "quantifier": "all matrices, file system states and flags", "why_tests_cant": "all states of the file system", "anchors": ["seyfert/fisher/fisher_matrix.py:FisherMatrix.writeToFile", "seyfert/fisher/fisher_matrix.py:FisherMatrix.loadFromFile"]}
{"id": "C26", "title": "Different Fisher matrices go to different files", "statement": "Two Fisher matrices with different names are written to different files.", "quantifier": "all pairs of names", "why_tests_cant": "collisions are rare names", "anchors": ["seyfert/fisher/fisher_matrix.py:FisherMatrix.getFilename"]}
{"id": "C27", "title": "A posteriori combinations", "statement": "A combination name 'X1 op X2 op ...' yields the left-to-right sum/difference of the named matrices, is skipped with no effect if an operand is missing, and no other matrix of the dictionary changes.", "quantifier": "all dictionaries and combination lists", "why_tests_cant": "all names/dictionaries", "anchors": ["seyfert/fisher/final_results_core.py:evaluate_a_posteriori_fisher_combinations", "seyfert/fisher/final_results_core.py:_compute_a_posteriori_fisher_comb_from_name"]}
{"id": "C28", "title": "Result sets are independent", "statement": "Each result set (cosmology x nuisance treatment) depends only on the base matrices and not on the result sets created before it; base matrices are unchanged.", "quantifier": "all base matrices and orders of creation", "why_tests_cant": "history", "anchors": ["seyfert/fisher/final_results_core.py:create_results_for_cosmology", "seyfert/fisher/final_results_core.py:create_final_results"]}
{"id": "C29", "title": "A Fisher analysis holds the matrices it was given", "statement": "Building an analysis from a dictionary or a list of Fisher matrices keeps all of them; an explicit order is a permutation of them.", "quantifier": "all inputs", "why_tests_cant": "all inputs", "anchors": ["seyfert/fisher/fisher_analysis.py:FisherAnalysis.__init__", "seyfert/fisher/fisher_analysis.py:FisherAnalysis.fishers_order"]}
{"id": "C30", "title": "Relative errors", "statement": "The relative error of a parameter is |sigma/fiducial|, or sigma for a zero fiducial, and is never negative; the FoM column is unchanged.", "quantifier": "all fiducials", "why_tests_cant": "all values", "anchors": ["seyfert/fisher/fisher_analysis.py:FisherAnalysis.evaluateRelativeMarginalizedErrors"]}
{"id": "C31", "title": "Probe-pair key conversions", "statement": "For every pair of known probes, long, short and tuple spellings convert into each other without loss, compare equal and hash equal; reversing twice is the identity and commutes with conversion.", "quantifier": "all probe pairs and spellings", "why_tests_cant": "all conversion paths", "anchors": ["seyfert/utils/shortcuts.py:ClKey"]}
{"id": "C32", "title": "Orientation-blind lookup", "statement": "Looking up a probe pair in a spectra dictionary returns the stored array for any spelling, the transposed array if only the reversed pair is stored, and raises if neither is stored.", "quantifier": "all dictionaries, keys, spellings", "why_tests_cant": "all stored orientations", "anchors": ["seyfert/utils/shortcuts.py:SmartKeyDict.__getitem__", "seyfert/utils/shortcuts.py:ClSmartKeyDict"]}
{"id": "C33", "title": "Data vector names", "statement": "For every data vector of known probe pairs the name, the brief string and the printed form can be parsed back into an equal data vector of the same length.", "quantifier": "all data vectors", "why_tests_cant": "string grammar of any length", "anchors": ["seyfert/fisher/datavector.py:ClDataVector"]}
{"id": "C34", "title": "Data vectors compare equal only if they are", "statement": "Two data vectors are equal only when they have the same entries; a probe-pair key is accepted only when the whole text is a key.", "quantifier": "all data vectors and texts", "why_tests_cant": "prefix cases", "anchors": ["seyfert/fisher/datavector.py:ClDataVector.__eq__", "seyfert/utils/shortcuts.py:ClKey.inferKind"]}
{"id": "C35", "title": "Parameter displacement", "statement": "The value for displacement eps is fiducial*(1+eps*factor), or eps*factor for a zero fiducial; it is strictly monotone in eps for positive factor and fiducial, and stem values are ordered with the fiducial in the middle.", "quantifier": "all parameters and displacements", "why_tests_cant": "all values", "anchors": ["seyfert/cosmology/parameter.py:PhysicalParameter.computeValueForDisplacement", "seyfert/cosmology/parameter.py:PhysicalParameter.computeSteMValues"]}
{"id": "C36", "title": "Flat universe", "statement": "In a flat universe, after any successful update of Omm or OmDE the current values sum to 1.", "quantifier": "all collections and updates", "why_tests_cant": "history", "anchors": ["seyfert/cosmology/parameter.py:PhysicalParametersCollection.updatePhysicalParametersForDvarStep"]}
{"id": "C37", "title": "Variations start from the fiducial", "statement": "While spectra are computed for (parameter, step), exactly that parameter (and its flatness partner) differs from its fiducial, and at the end all parameters are back at the fiducial.", "quantifier": "all collections and schedules of steps", "why_tests_cant": "history of updates", "anchors": ["seyfert/cosmology/parameter.py:PhysicalParametersCollection.resetPhysicalParametersToFiducial", "seyfert/main/cl_core.py:compute_cls_variations"]}
{"id": "C38", "title": "Parameter files", "statement": "Writing the parameter collection and reading it back gives equal parameters, displacements and flatness flag.", "quantifier": "all collections", "why_tests_cant": "all values", "anchors": ["seyfert/cosmology/parameter.py:PhysicalParametersCollection.writeJSON", "seyfert/cosmology/parameter.py:PhysicalParametersCollection.fromJSON"]}
{"id": "C39", "title": "Variation files line up with displacements", "statement": "For every set of displacements the n-th spectrum handed to the differentiator belongs to the n-th parameter value.", "quantifier": "all displacement lists", "why_tests_cant": "ordering for any number of steps", "anchors": ["seyfert/derivatives/differentiator.py:SteMClDifferentiator.collectClVariationsFiles", "seyfert/cosmology/parameter.py:PhysicalParametersCollection.loadStemDisplacements"]}
{"id": "C40", "title": "Derivative of a linear spectrum is exact", "statement": "If a spectrum depends linearly on the parameter, the computed derivative is exactly the slope, in both implementations.", "quantifier": "all parameter values and linear data", "why_tests_cant": "all data", "anchors": ["seyfert/derivatives/differentiator.py:SteMClDifferentiator.STEM_derivative", "seyfert/derivatives/differentiator.py:SteMClDifferentiator.vectorizedSteM"]}
{"id": "C41", "title": "Derivative loop terminates; both implementations agree", "statement": "The derivative computation terminates on every input, and the vectorised implementation gives the same result as the scalar one.", "quantifier": "all data", "why_tests_cant": "rare data patterns", "anchors": ["seyfert/derivatives/differentiator.py:SteMClDifferentiator.STEM_derivative", "seyfert/derivatives/differentiator.py:SteMClDifferentiator.vectorizedSteM"]}
{"id": "C42", "title": "Unrelated nuisance parameters have zero derivative", "statement": "The derivative of a spectrum with respect to a nuisance parameter of a probe that is in neither slot is identically zero with the shape of the spectrum.", "quantifier": "all spectra and parameters", "why_tests_cant": "all cases", "anchors": ["seyfert/derivatives/differentiator.py:ClDifferentiator.computeDerivative"]}
{"id": "C43", "title": "Job directory names", "statement": "The directory name written for (parameter, step) decodes to the same parameter and step.", "quantifier": "all alphanumeric parameter names and all integer steps", "why_tests_cant": "large steps", "anchors": ["seyfert/utils/filesystem_utils.py:get_cosmology_jobdir_name", "seyfert/utils/filesystem_utils.py:get_dvar_step_from_cosmology_jobdir_name"]}
{"id": "C44", "title": "Pair names", "statement": "Fisher job directory names and probe combination keys decode to the pair they encode; reversing a combination key swaps the probes and is involutive.", "quantifier": "all names without the separator", "why_tests_cant": "all strings", "anchors": ["seyfert/utils/filesystem_utils.py:get_fisher_jobdir_name_from_dvar1_dvar2", "seyfert/utils/general_utils.py:reverse_probes_comb_key"]}
{"id": "C45", "title": "Composite Newton-Cotes integration", "statement": "Every sampled interval is integrated exactly once (with the leftover rule on the final points), so that the rule is linear, exact on linear functions for every number of points and any order from 1 to 6, and the trapezoid rule for order 1.", "quantifier": "all numbers of samples and orders", "why_tests_cant": "remainder handling", "anchors": ["seyfert/numeric/integration.py:CompositeNewtonCotesIntegrator.doIntegrate"]}
{"id": "C46", "title": "Stencil derivative", "statement": "The five-point derivative is exact for all polynomials of degree up to four, at all points and non-zero steps.", "quantifier": "all polynomials, points, steps", "why_tests_cant": "all values", "anchors": ["seyfert/numeric/general.py:callable_stencil_derivative"]}
{"id": "C47", "title": "Smooth step", "statement": "The smooth step of order N is 0 below x_min, 1 above x_max, and S(x)+S(1-x)=1 in between; the filter is 1 inside and 0 outside.", "quantifier": "all x, all orders", "why_tests_cant": "all orders", "anchors": ["seyfert/numeric/general.py:smoothstep", "seyfert/numeric/general.py:top_hat_filter"]}
{"id": "C48", "title": "Percentage difference", "statement": "The percentage absolute difference is symmetric, non-negative, zero for equal inputs, and the same for arrays and tables.", "quantifier": "all values", "why_tests_cant": "all signs", "anchors": ["seyfert/numeric/general.py:pad"]}
{"id": "C49", "title": "Bin overlap", "statement": "The overlap of two redshift bins is the intersection interval, symmetric in its arguments, and is absent exactly when the bins have no common interior.", "quantifier": "all bins", "why_tests_cant": "all interval configurations", "anchors": ["seyfert/cosmology/redshift_density.py:get_bins_overlap"]}
{"id": "C50", "title": "Piecewise bias", "statement": "The piecewise bias is defined at all redshifts, equals the value of the bin containing z (the right-hand bin on an interior edge), and is constant beyond the first and last edge; bin values are taken in numerical order of the parameter names.", "quantifier": "all bin edges, values, redshifts", "why_tests_cant": "all z", "anchors": ["seyfert/cosmology/bias.py:PiecewiseBias"]}
{"id": "C51", "title": "Multipole grids", "statement": "For linear spacing the grid has l_max-l_min unit-width bins centred at half integers and covering the range; the widths of a logarithmic grid are positive and sum to l_max-l_min; invalid ranges and spacings are rejected.", "quantifier": "all ranges and bin numbers", "why_tests_cant": "all values", "anchors": ["seyfert/utils/array_utils.py:compute_multipoles_arrays"]}
{"id": "C52", "title": "Multipoles of a probe pair", "statement": "Each unordered pair of probes is listed exactly once; the multipoles of a pair are those common to both probes, with widths that belong to them, whichever way the pair is spelled.", "quantifier": "all probe lists and grids", "why_tests_cant": "all overlap patterns", "anchors": ["seyfert/config/forecast_config.py:ForecastConfig.getMultipoleArraysForProbeComb", "seyfert/config/forecast_config.py:ForecastConfig.loadProbeConfigurations"]}
{"id": "C53", "title": "Forecast configurations compare equal only if they are", "statement": "Two forecast configurations with different sky fractions, flags or probes are not equal.", "quantifier": "all pairs of configurations", "why_tests_cant": "all values", "anchors": ["seyfert/config/forecast_config.py:ForecastConfig.__eq__"]}
{"id": "C54", "title": "Background cosmology closure", "statement": "For every set of density parameters the dimensionless Hubble rate is 1 and the matter fraction Omm at z=0, and matter, dark energy and curvature fractions sum to 1.", "quantifier": "all parameters", "why_tests_cant": "all values", "anchors": ["seyfert/cosmology/cosmology.py:Cosmology"]}
{"id": "C55", "title": "Density budget for the Boltzmann codes", "statement": "The physical densities passed to the solver (baryons, cold dark matter, neutrinos) add up to the total matter density of the parameters.", "quantifier": "all parameters", "why_tests_cant": "all values", "anchors": ["seyfert/cosmology/boltzmann_solver.py"]}
{"id": "C56", "title": "Redshift batching", "statement": "The redshift grid is split into consecutive batches none of which exceeds the limit of 150, whose concatenation is the grid.", "quantifier": "all grid lengths", "why_tests_cant": "boundary lengths", "anchors": ["seyfert/cosmology/boltzmann_solver.py:computeCAMBRedshiftGroupsNumber"]}
{"id": "C57", "title": "INI files", "statement": "A settings dictionary written to an INI file is read back unchanged.", "quantifier": "all dictionaries", "why_tests_cant": "special characters", "anchors": ["seyfert/cosmology/boltzmann_solver.py:readCAMBIniFileToDict", "seyfert/cosmology/boltzmann_solver.py:writeDictToIniFile"]}
{"id": "C58", "title": "Amplitude tuning", "statement": "If sigma8 scales as the square root of the scalar amplitude then tuning stops with the requested sigma8.", "quantifier": "all starting amplitudes, targets and tolerances", "why_tests_cant": "termination", "anchors": ["seyfert/cosmology/boltzmann_solver.py:finetuneScalarAmpFromSigma8"]}
{"id": "C59", "title": "Assembly of angular spectra", "statement": "Auto spectra are symmetric; with off-diagonals switched off they are exactly zero off the diagonal; cross spectra fill every bin pair once.", "quantifier": "all bin counts and integrands", "why_tests_cant": "all index pairs", "anchors": ["seyfert/cosmology/c_ells.py:AngularCoefficient.evaluateAngularCorrelation"]}
{"id": "C60", "title": "Fisher stage can be restarted", "statement": "Interrupting the Fisher stage at any point and running it again leads to the same set of files as an uninterrupted run, files already complete are not recomputed.", "quantifier": "all crash points and data vector lists", "why_tests_cant": "all crash points", "anchors": ["seyfert/main/fisher_core.py:compute_and_save_fishers", "seyfert/main/seyfert_core.py:compute_fishers"]}
{"id": "C61", "title": "Derivative stage can be restarted", "statement": "Interrupting the derivative stage at any point and running it again completes the stage.", "quantifier": "all crash points", "why_tests_cant": "all crash points", "anchors": ["seyfert/main/seyfert_core.py:compute_cl_derivatives"]}
{"id": "C62", "title": "Waiting for batch jobs", "statement": "Waiting for submitted jobs returns normally only when all of them are done, and raises when one has failed.", "quantifier": "all sequences of queue listings", "why_tests_cant": "all schedules", "anchors": ["seyfert/main/bsub_utils.py:BsubInterface.waitForJobsToComplete"]}
{"id": "C63", "title": "External commands", "statement": "Running an external command raises exactly when the command fails.", "quantifier": "all exit codes and outputs", "why_tests_cant": "all outcomes", "anchors": ["seyfert/main/task_runners.py:TaskRunner.executeCommand"]}
{"id": "C64", "title": "Batches of runs", "statement": "A batch launches each combination of configuration and power spectrum directory exactly once, in order, each with its own power spectrum directory.", "quantifier": "all configuration lists", "why_tests_cant": "all lists", "anchors": ["seyfert/main/orchestration.py:do_multiple_new_seyfert_runs"]}
{"id": "C65", "title": "Collecting run directories", "statement": "Collecting the run directories of a list of run identifiers returns exactly the directories of these runs.", "quantifier": "all identifiers and directory listings", "why_tests_cant": "prefix collisions", "anchors": ["seyfert/main/orchestration.py:collect_rundirs"]}
{"id": "C66", "title": "Order of the pipeline stages", "statement": "A run executes exactly the requested stages in the order densities, power spectrum, spectra, noise, derivatives, Fisher, results.", "quantifier": "all switches", "why_tests_cant": "all subsets of stages", "anchors": ["seyfert/main/task_runners.py:ForecastRunner.run"]}
{"id": "C67", "title": "TeX names", "statement": "Different parameters and probes have different TeX names, and probe names can be recovered from them; unknown names raise.", "quantifier": "all names", "why_tests_cant": "all strings", "anchors": ["seyfert/utils/tex_utils.py:TeXTranslator"]}
{"id": "C68", "title": "Analytic bias derivative", "statement": "For a constant bias model the analytic derivative with respect to the bias of bin k is (number of slots of the probe equal to k)/b_k times the spectrum, for every bin.", "quantifier": "all spectra, bins", "why_tests_cant": "more than ten bins", "anchors": ["seyfert/derivatives/differentiator.py:AnalyticClDifferentiator.doComputeDerivative"]}
{"id": "C69", "title": "Saving to HDF5", "statement": "Saving an object and loading it gives an equal object, and saving twice to the same place is either refused or replaces the content.", "quantifier": "all file states", "why_tests_cant": "all histories of saves", "anchors": ["seyfert/file_io/hdf5_io.py:AbstractH5FileIO"]}
{"id": "C70", "title": "Table files", "statement": "Writing a table creates or replaces exactly the requested file when it is absent or overwrite is set, and otherwise changes nothing; unknown formats are rejected.", "quantifier": "all file system states", "why_tests_cant": "all states", "anchors": ["seyfert/utils/table_utils.py:write_dataframe_table"]}
{"id": "C71", "title": "Interrupted Fisher file writes are detected", "statement": "If writing a Fisher file is interrupted at any point, loading the file raises instead of returning a different matrix.", "quantifier": "all matrices, file systems and interruption points", "why_tests_cant": "Tests do not kill the process between two datasets.", "anchors": ["seyfert/fisher/fisher_matrix.py:323-385"]}
{"id": "C72", "title": "Fisher matrices from lists of addends", "statement": "For each list of addends the analysis holds, under the names joined by '+', the sum of the named base matrices; base matrices are unchanged; an unknown addend raises.", "quantifier": "all base dictionaries and lists of addends", "why_tests_cant": "Tests use two or three particular matrices.", "anchors": ["seyfert/fisher/fisher_analysis.py:210-226"]}
{"id": "C73", "title": "Marginalising an analysis keeps its base matrices", "statement": "Marginalising the matrices of an analysis changes no other matrix, in particular not the base matrices it was made from.", "quantifier": "all analyses and heaps", "why_tests_cant": "Aliasing shows only when the base matrices are looked at again afterwards.", "anchors": ["seyfert/fisher/fisher_analysis.py:190-208"]}
{"id": "C74", "title": "Selecting the relevant parameters", "statement": "selectRelevantFisherSubMatrix keeps exactly the declared parameters (without the nuisance ones when they are not marginalised), sorted, with unchanged entries; a declared parameter without a row raises and nothing changes.", "quantifier": "all matrices", "why_tests_cant": "Tests cannot cover all label orders and parameter sets.", "anchors": ["seyfert/fisher/fisher_matrix.py:195-208"]}
{"id": "C75", "title": "Probe names", "statement": "Exactly the twelve names (long, short, alias) of the four probes are accepted; every accepted name converts to each kind, conversions compose, and two names compare equal exactly when they name the same probe.", "quantifier": "all texts, kinds, pairs of names", "why_tests_cant": "all texts; the equivalence is over all pairs of spellings", "anchors": ["seyfert/utils/shortcuts.py:269-329"]}
{"id": "C76", "title": "Configuration editor", "statement": "An editor is created exactly for complete and valid options; updating sets the multipole range, density and bias files the options ask for and leaves every other setting as it was; contradictory switches are refused; options that differ are written to files with different names.", "quantifier": "all option dictionaries and base configurations", "why_tests_cant": "unbounded option dictionaries and arbitrary base configurations", "anchors": ["seyfert/config/forecast_config.py:185-301"]}
{"id": "C77", "title": "Configuration identifiers", "statement": "Two configurations have the same identifier exactly when their options are the same.", "quantifier": "all pairs of option dictionaries", "why_tests_cant": "all pairs of dictionaries", "anchors": ["seyfert/file_io/json_io.py:100-114"]}
{"id": "C78", "title": "Growth rescaling", "statement": "After the power spectra are rescaled to a given growth factor, the growth read off the linear spectrum is that growth (normalised to its first entry), and linear and non-linear spectra keep their shapes and ratio.", "quantifier": "all positive spectra and growth factors", "why_tests_cant": "all values", "anchors": ["seyfert/cosmology/cosmology.py:rescalePowerSpectrumByComputedGrowth", "seyfert/cosmology/power_spectrum.py:getGrowthFromLinearPowerSpectrum"]}
{"id": "C79", "title": "Redshift-grid evaluation", "statement": "After evaluation over the redshift grid the stored arrays are those of the cosmology's current parameters at every grid point, and evaluating again changes nothing.", "quantifier": "all parameters, grids and histories", "why_tests_cant": "histories of changes and evaluations", "anchors": ["seyfert/cosmology/cosmology.py:evaluateOverRedshiftGrid"]}
{"id": "C80", "title": "Void scale cut", "statement": "The void cut leaves the power spectrum untouched below the cut window, removes it above, and never amplifies it or changes its sign in between, decreasing with wavenumber.", "quantifier": "all spectra, windows and grids", "why_tests_cant": "all values", "anchors": ["seyfert/cosmology/c_ells.py:AngularCoefficient.applyVoidsCutToLimberPowerSpectrum"]}
{"id": "C81", "title": "Submitting the jobs of a stage", "statement": "Submitting the jobs of a stage submits every script once, in order, and then waits for exactly the numbers the queue gave them; a refused submission, or a stage without scripts, raises.", "quantifier": "all lists of scripts and all answers of the queue", "why_tests_cant": "arbitrary numbers of scripts and places of the refusal", "anchors": ["seyfert/main/task_runners.py:TaskRunner.submitBatchJobs", "seyfert/main/bsub_utils.py:BsubInterface.getJobID"]}
{"id": "C82", "title": "Names of run directories", "statement": "Splitting the name of a run directory gives back the run identifier, version and time it was made from; other names come back whole.", "quantifier": "all identifiers, versions and dates", "why_tests_cant": "identifiers may contain anything, including other run names", "anchors": ["seyfert/utils/general_utils.py:split_run_id", "seyfert/main/task_runners.py:ForecastRunner.createRundir"]}
{"id": "C83", "title": "Noisy spectra", "statement": "Evaluating the noisy spectra of a pair of probes gives, at every multipole and pair of bins, sqrt(1/(width f_sky)) times the sum of the spectrum and of the shot noise. The shot noise is zero between different probes and between different bins, and 0.3^2 (lensing) or 1 (other probes) divided by the galaxies per unit solid angle of the bin otherwise, times the ratio of the galaxy numbers when the reduced spectroscopic noise is asked for. Auto-correlations are inverted. Evaluating again with another f_sky is the same as evaluating with that one only, and the covariance made from such spectra is the Gaussian covariance for that width and f_sky.", "quantifier": "all spectra, densities, multipoles, bins, widths and sky fractions", "why_tests_cant": "algebraic identity over all inputs, and histories of evaluations of shared objects", "anchors": ["seyfert/fisher/delta_cl.py:DeltaCl.evaluate", "seyfert/fisher/delta_cl.py:DeltaCl.computeNoise", "seyfert/fisher/delta_cl.py:DeltaClCollection.evaluateSingleBlocks", "seyfert/main/cl_core.py:compute_delta_cls"]}
{"id": "C84", "title": "Shot-noise files", "statement": "A run that reads the shot noise written by another run gets the same noisy spectra and matrices, whatever its own galaxy densities; a file without one of the pairs of the run, and an array whose shape is not that of the spectra, are refused.", "quantifier": "all runs and noise files", "why_tests_cant": "equality of whole results over all inputs; all shapes", "anchors": ["seyfert/fisher/delta_cl.py:DeltaClCollection.loadShotNoiseFromFile", "seyfert/fisher/delta_cl.py:DeltaClCollection.writeShotNoiseToFile"]}
{"id": "C85", "title": "Matrices of several probes", "statement": "For the list of all probes, and for every pair of probes when there are more than two, the collection gets an entry whose matrix has, at exactly the multipoles common to all pairs, the noisy spectrum of every two (probe, bin) positions, read from whichever orientation of the pair is stored, and its inverse. It is symmetric when the auto-correlations are. A pair stored in neither orientation is an error. Distinct groups get distinct names, from which the probes can be read back.", "quantifier": "all lists of probes, numbers of bins, stored orientations and multipole grids", "why_tests_cant": "block bookkeeping over every combination of probes and grids", "anchors": ["seyfert/fisher/fisher_utils.py:buildXCBlockMatrixForProbes", "seyfert/fisher/fisher_utils.py:get_probes_xc_fisher_name", "seyfert/fisher/fisher_utils.py:get_probes_from_fisher_name", "seyfert/fisher/delta_cl.py:DeltaClCollection.buildXCBlocks"]}
{"id": "C86", "title": "Comparing and checking Fisher matrices", "statement": "Two Fisher matrices compare equal exactly when they have the same parameters, the same entry for every two of them, the same name and the same declared parameters, whatever the order of rows; this is an equivalence, and a copy equals its original. Comparing matrices of other parameters raises ValueError. The consistency check accepts exactly objects whose rows, columns and declared parameters are the same sets, and otherwise says which of the two conditions fails by the kind of exception.", "quantifier": "all objects with complete matrices, all orders of their rows and sets", "why_tests_cant": "orders of rows and sets, and every way two objects may differ", "anchors": ["seyfert/fisher/fisher_matrix.py:FisherMatrix.__eq__", "seyfert/fisher/fisher_matrix.py:FisherMatrix.checkAttributes", "seyfert/fisher/fisher_matrix.py:FisherMatrix.marginalizeNuisance"]}
{"id": "C87", "title": "Normalised redshift densities", "statement": "After setUp and evaluate, the density of bin i at redshift z is the interpolated number of galaxies at z times the probability that a galaxy at z is measured between the edges of bin i, divided by the integral of this product over the domain; it therefore integrates to one, vanishes outside the domain, does not change when all counts are multiplied by a constant, and is not negative where the interpolated counts are not. The bins lose and repeat no galaxy: without normalisation they add up to the counts measured between the first and the last edge. Densities that are given directly are interpolated through their values.", "quantifier": "all domains, counts, bin edges, instrument responses and grids; every interpolation and quadrature with the stated properties", "why_tests_cant": "all counts and responses; an identity between integrals", "anchors": ["seyfert/cosmology/redshift_density.py:RedshiftDensity.computeNormalizedDensityAtBinAndRedshift", "seyfert/cosmology/redshift_density.py:RedshiftDensity.computeBinNormFactor", "seyfert/cosmology/redshift_density.py:RedshiftDensity.convolvedNdzdOmegaWithInstrumentResponse", "seyfert/cosmology/redshift_density.py:RedshiftDensity.computeInstrumentResponse", "seyfert/cosmology/redshift_density.py:RedshiftDensity.modifiedGaussianResponse", "seyfert/cosmology/redshift_density.py:RedshiftDensity.evaluate"]}
{"id": "C88", "title": "Galaxy numbers", "statement": "evaluateSurfaceDensity stores for every bin the integral of the counts between its edges, so the bins add up to the integral between the first and last edge; numbers that are given are kept, and missing ones raise. The shot noise of a bin times its number is one. The total number of galaxies is the sum over bins times the solid angle when the bins span the domain; an object that is not set up or an unknown method is refused.", "quantifier": "all domains, counts and bin edges", "why_tests_cant": "an identity between integrals over arbitrary bins", "anchors": ["seyfert/cosmology/redshift_density.py:RedshiftDensity.evaluateSurfaceDensity", "seyfert/cosmology/redshift_density.py:RedshiftDensity.computeSurfaceDensityAtBin", "seyfert/cosmology/redshift_density.py:RedshiftDensity.shot_noise", "seyfert/cosmology/redshift_density.py:RedshiftDensity.computeTotalGalaxyNumber"]}
{"id": "C89", "title": "Shot noise between photometric and spectroscopic galaxies", "statement": "Entry (i,j) times the numbers of photometric bin i and spectroscopic bin j is the number of spectroscopic galaxies in the overlap of the two bins, hence zero for bins that do not overlap; when the photometric bins cover spectroscopic bin j, the entries of its column times the photometric numbers add up to one. Densities of other probes are refused.", "quantifier": "all bin edges, counts and numbers", "why_tests_cant": "all relative positions of the bins", "anchors": ["seyfert/cosmology/redshift_density.py:compute_photoXspectro_shotnoise_ij", "seyfert/cosmology/redshift_density.py:get_bins_overlap"]}
{"id": "C90", "title": "Life cycle of a density object", "statement": "Evaluating a density or its total number before setUp raises and changes nothing; setUp succeeds exactly for an increasing domain of at least four points with counts on it and a complete instrument response of non-zero width; it keeps the input; evaluating changes only grid and values, and a second evaluation gives what a first one would. The stage that prepares all densities sets up and evaluates every one. The values always belong to the data last loaded.", "quantifier": "all objects and sequences of calls", "why_tests_cant": "histories of calls on one object", "anchors": ["seyfert/cosmology/redshift_density.py:RedshiftDensity.setUp", "seyfert/cosmology/redshift_density.py:RedshiftDensity.evaluate", "seyfert/cosmology/redshift_density.py:RedshiftDensity.loadFromHDF5", "seyfert/main/cl_core.py:compute_densities"]}
{"id": "C91", "title": "Making, reading and selecting parameters", "statement": "A parameter is made exactly when its kind is one of the two and a nuisance parameter names its probe; a missing current value is the fiducial. In a file, absent entries take the documented defaults and the last entry of a name counts. Reading a file into a collection replaces the parameters of the file's names in place, adds the new ones behind, leaves the others, and takes displacements and flatness from the file; reading it again changes nothing. Each selection (cosmological, nuisance, free, of a probe, and their combinations) holds exactly the parameters that qualify.", "quantifier": "all files and collections", "why_tests_cant": "all mixtures of present, absent and repeated entries", "anchors": ["seyfert/cosmology/parameter.py:PhysicalParameter.__init__", "seyfert/cosmology/parameter.py:PhysicalParameter.from_dict", "seyfert/cosmology/parameter.py:PhysicalParametersCollection.readJSON", "seyfert/cosmology/parameter.py:PhysicalParametersCollection.getParamsDictFromDictList", "seyfert/cosmology/parameter.py:PhysicalParametersCollection.getFreePhysicalParametersForProbe"]}
{"id": "C92", "title": "Workspace discovery", "statement": "The parameters, pairs of parameters, directories and files a workspace reports are exactly those for which a task wrote a directory: every parameter of a job directory and no other, each once; the spectra of a parameter and step are the one file of that parameter and step; derivatives are found for every directory or the search fails; the directory map has an entry for every (parameter, step).", "quantifier": "all contents of the task directories, all parameter names and steps", "why_tests_cant": "all names, steps and listing orders", "anchors": ["seyfert/utils/workspace.py:WorkSpace.collectClVariationParams", "seyfert/utils/workspace.py:WorkSpace.collectPmmVariationParams", "seyfert/utils/workspace.py:WorkSpace.getClFile", "seyfert/utils/workspace.py:WorkSpace.collectClDerivativeFiles", "seyfert/utils/workspace.py:WorkSpace.collectClVariationDirectories", "seyfert/utils/workspace.py:WorkSpace.collectFisherParamsPairs"]}
{"id": "C93", "title": "A run keeps its input files", "statement": "After createInputFilesDir every configuration file read through the workspace has the content of the file passed in for that task, the parameters file holds the parameters passed in, the data directory is the one given, and nothing outside the input files is changed.", "quantifier": "all sets of configuration files, run directories and file systems", "why_tests_cant": "all choices of file names and places", "anchors": ["seyfert/utils/workspace.py:WorkSpace.createInputFilesDir", "seyfert/utils/workspace.py:WorkSpace.getTaskJSONPath", "seyfert/utils/workspace.py:WorkSpace.getInputDataDirPath", "seyfert/utils/filesystem_utils.py:get_input_files_dict_for_rundir"]}
{"id": "C94", "title": "External results are used", "statement": "After symlinkToExternalDirs every task directory that was missing leads to the external directory given for it (and delta_cls.h5 to the other run's), an existing one is left alone, nothing else changes, an unknown task changes nothing, and a failed call can be repeated; prepare_workspace makes the power spectra, spectra and derivatives it is given available in the run directory.", "quantifier": "all file systems, run directories and relative or absolute external paths", "why_tests_cant": "all layouts of directories and links", "anchors": ["seyfert/utils/workspace.py:WorkSpace.symlinkToExternalDirs", "seyfert/utils/workspace.py:WorkSpace.createSymlink", "seyfert/main/seyfert_core.py:prepare_workspace"]}
{"id": "C95", "title": "A repeated run takes up earlier results", "statement": "A forecast that is run again in the same directory uses the densities, fiducial spectra and Delta C_l that the first run left in its files: it gets the values the first run computed, for every probe and pair of probes, and leaves the files as they are; a stage whose computation failed leaves no file and is computed again; a run that was interrupted is completed by the next one.", "quantifier": "all results of the stages, all interruptions between operations on the files, all later runs", "why_tests_cant": "all results, all points of interruption, any sequence of runs", "anchors": ["seyfert/main/seyfert_core.py:compute_densities", "seyfert/main/seyfert_core.py:compute_fiducial_cls", "seyfert/main/seyfert_core.py:do_forecast"]}
{"id": "C96", "title": "Files of spectra", "statement": "A collection of angular spectra saved to a file and loaded again has the same redshift grid, the same spectra under the same keys with the same multipoles and kernels, and the same weight function for every probe; it compares equal to the one saved, in both orders, when no value is NaN; two collections can be kept in one file under different roots; a collection that is saved can be loaded.", "quantifier": "all collections of spectra, kernels and weight functions over the known probes", "why_tests_cant": "all collections, values and group layouts", "anchors": ["seyfert/cosmology/c_ells.py:H5Cl.writeObjectToFile", "seyfert/cosmology/c_ells.py:H5Cl.writeToObject", "seyfert/cosmology/c_ells.py:H5ClCollection.writeObjectToFile", "seyfert/cosmology/c_ells.py:H5ClCollection.writeToObject", "seyfert/file_io/hdf5_io.py:AbstractH5FileIO.findGroup", "seyfert/cosmology/c_ells.py:AngularCoefficientsCollector.__eq__"]}
{"id": "C97", "title": "Lensing weights", "statement": "The lensing weight of a bin at a redshift depends only on the sources beyond that redshift, is zero where there are none, is linear in the source density and not negative; intrinsic alignments, when included, are taken off it in proportion to their amplitude and to the bin's density at that redshift; an unknown integration method is refused.", "quantifier": "all densities, distances, redshift grids, cosmological constants and quadratures with the stated properties", "why_tests_cant": "all functions on all grids", "anchors": ["seyfert/cosmology/weight_functions.py:LensingWeightFunction.computeLensingEfficiencyAtBin", "seyfert/cosmology/weight_functions.py:LensingWeightFunction.computeIntrinsicAlignmentContribution", "seyfert/cosmology/weight_functions.py:LensingWeightFunction.evaluateOverRedshiftGrid"]}
{"id": "C98", "title": "Files of cosmologies", "statement": "A cosmology saved to a file and loaded again has the same parameters, flatness, model name, grids and power spectra and compares equal to the one saved when its spectra hold no NaN; a cosmology that is saved can be loaded; the parameters of a loaded cosmology have passed the checks of the constructor; loading into an existing cosmology gives the one of the file; two cosmologies that compare equal have the same grids.", "quantifier": "all cosmologies, places in a file and files without a cosmology at that place", "why_tests_cant": "all parameters, arrays and file contents", "anchors": ["seyfert/cosmology/cosmology.py:Cosmology.fromHDF5", "seyfert/cosmology/cosmology.py:Cosmology.saveToHDF5", "seyfert/cosmology/cosmology.py:Cosmology.loadFromHDF5", "seyfert/cosmology/cosmology.py:Cosmology.__eq__", "seyfert/cosmology/cosmology.py:H5Cosmology", "seyfert/cosmology/cosmology.py:Cosmology.checkParameters"]}
{"id": "C99", "title": "Cosmology of a variation", "statement": "The cosmology used for a variation comes from the file of that variation if the parameter is cosmological, and from the central file for the central case and for nuisance parameters; its parameters are those of the run at that step, and a file with other values is not used; exactly the parameters that differ are reported.", "quantifier": "all parameter collections, variations, steps and power spectrum files", "why_tests_cant": "all collections and file contents", "anchors": ["seyfert/main/cl_core.py:load_cosmology", "seyfert/utils/workspace.py:WorkSpace.getPowerSpectrumFile"]}
{"id": "C100", "title": "Content of a result set", "statement": "The analysis created for a cosmology knows exactly the fiducials of the free parameters that vary in that cosmology; it holds every base matrix and every requested combination whose matrices are all there, and nothing else; each base matrix in it has the other cosmological parameters held fixed and its nuisance parameters fixed, marginalised or left according to the request, and each combination is the sum so treated; for positive definite base matrices over all parameters the analysis is always created; an unknown cosmology is refused.", "quantifier": "all base matrices, cosmologies, fiducials, combinations and treatments of the nuisance parameters", "why_tests_cant": "all dictionaries of matrices and all combinations of requests", "anchors": ["seyfert/fisher/final_results_core.py:create_results_for_cosmology", "seyfert/fisher/final_results_core.py:get_free_cosmo_pars_for_cosmology", "seyfert/fisher/final_results_core.py:evaluate_a_posteriori_fisher_combinations"]}
{"id": "C101", "title": "Confidence ranges, ellipses and plot ranges of an analysis", "statement": "Once the errors of an analysis are evaluated, for every matrix that is positive definite and every confidence level: computeParameterRangeForObsAtCL gives the fiducial value plus or minus sqrt(2) erfinv(CL) standard deviations of the inverse matrix; the ellipse of computeEllipseInfoDictForObsAndCL, drawn by matplotlib, covers exactly the points whose distance from the fiducial values in units of the 2x2 covariance is at most that factor, so its shadows on the axes are the two ranges, it does not depend on the order of the parameters, and it grows with the level; a range and an ellipse hold the probability of their level; the plot range of a parameter shows the 99 % range of every matrix.", "quantifier": "all analyses, matrices, parameters, levels, points and error functions", "why_tests_cant": "a claim about every point of the plane for every covariance matrix, including the degenerate angles", "anchors": ["seyfert/fisher/fisher_analysis.py:computeParameterRangeForObsAtCL", "seyfert/fisher/fisher_analysis.py:computeGaussianInfoDictForObsAndCL", "seyfert/fisher/fisher_analysis.py:computeEllipseInfoDictForObsAndCL", "seyfert/fisher/fisher_plot.py:computePlotRangeForParameter"]}
{"id": "C102", "title": "The forecasts of run_seyfert, in one process or as batch jobs", "statement": "run_seyfert runs every forecast configuration of its command line exactly once, in the order of the numbers of bins in their names (of their paths when a name has none). In interactive mode each gets its own directory under the working directory. In batch mode each is submitted with the queue, cores and memory asked for (10000 MB when it has more than 24 spectroscopic bins and less was asked for), independently of the submissions before it; the command handed to bsub, split by the shell and read again by run_seyfert, runs the forecast the interactive mode would have run: the same configuration, directory and options. Mode \"no\" runs nothing and another mode is an error.", "quantifier": "all command lines, configurations, times, file contents and outcomes of the forecasts and submissions", "why_tests_cant": "a round trip through printed options, the shell and the parser for every combination of values, and a claim about every list of configurations", "anchors": ["bin/run_seyfert:main", "seyfert/main/seyfert_core.py:submit_batch_jobs", "seyfert/main/seyfert_core.py:execute_interactively", "seyfert/main/seyfert_core.py:get_interactive_run_command", "seyfert/main/seyfert_core.py:compute_bsub_options", "seyfert/config/cmd_line.py:get_paths_from_files_list", "seyfert/main/bsub_utils.py:submitJob"]}
{"id": "C103", "title": "The final results on disk", "statement": "create_final_results leaves under the output directory, for each of w0_wa_CDM and LCDM and for nuisance parameters marginalised before, marginalised after and fixed, a file for every base matrix of the run with the parameters of the cosmology, a file for every a posteriori combination of base matrices that are there with their sum, and tables of the marginalised errors and relative errors of these matrices. Nothing outside the output directory changes, and without overwrite no existing file does. Positive definite base matrices always give all six result sets. Running it again is harmless, and FisherAnalysis.fromRundir loads a result set back as it was saved.", "quantifier": "all base matrices, parameters, combinations, disks, cosmologies and outcomes, including runs that stop with an error", "why_tests_cant": "a claim about every set of files, every combination list and every parameter set, and about all other paths of the disk", "anchors": ["seyfert/fisher/final_results_core.py:create_final_results", "seyfert/fisher/final_results_core.py:create_results_for_cosmology", "seyfert/fisher/fisher_analysis.py:saveFishersToDisk", "seyfert/fisher/fisher_analysis.py:writeAbsoluteAndRelativeMarginalizedErrors", "seyfert/fisher/fisher_analysis.py:fromRundir", "seyfert/fisher/fisher_analysis.py:loadBaseFishersFromDir", "seyfert/utils/workspace.py:getResultsDir"]}
{"id": "C104", "title": "Fisher matrices of the IST code comparison", "statement": "FisherMatrix.from_ISTfile reads every entry of an IST Fisher matrix file to the row and column of its own parameters under SEYFERT's names, sorted by name, for columns with the comparison's parameter names and any bias columns; a file that is not square is refused. The matrix is named after the probe in the file name. What the batch of a run adds as fisher_IST_gcsp_pk.hdf5 loads back as the spectroscopic clustering matrix of that file, and nothing else on disk changes.", "quantifier": "all column lists, matrices, file names and disks", "why_tests_cant": "a claim about every column order, every file name and every other path", "anchors": ["seyfert/file_io/ext_input.py:readISTFisherMatrixFile", "seyfert/fisher/fisher_matrix.py:from_ISTfile", "seyfert/main/seyfert_core.py"]}
{"id": "C105", "title": "Which variation an IST file belongs to", "statement": "parseISTCosmoString gives for each file name of the IST comparison the parameter and step of the variation it names, whose displacement is the one written in the name. Different variations give different results, a variation it does not know raises KeyError, and only names that contain no variation are taken as the fiducial case.", "quantifier": "all file names and parameter collections", "why_tests_cant": "file names are unbounded text, and the claim includes that no two names collide", "anchors": ["seyfert/file_io/ext_input.py:parseISTCosmoString", "seyfert/file_io/ext_input.py:ISTInputReader.__init__"]}
{"id": "C106", "title": "Angular spectra of the IST comparison", "statement": "readSCameraClFile puts each column of the file at the pair of bins its header names, at the multipole of its row, counting bins from the smallest number in the header, and nothing elsewhere; for an auto correlation also at the exchanged pair. The header's pairs may come in any order, with any text between them. A file whose header is missing, names no pairs or does not fit is refused.", "quantifier": "all headers, bin numbers, tables and both kinds of correlation", "why_tests_cant": "headers and tables are unbounded, and the claim includes all entries that are not in the file", "anchors": ["seyfert/file_io/ext_input.py:readSCameraClFile", "seyfert/file_io/ext_input.py:getIndicesFromSCameraClFileHeader"]}
{"id": "C107", "title": "Power spectra of the IST comparison", "statement": "readISTPowerSpectrumTextFile gives each value of a table at its own redshift and wave number, both increasing. convertISTPowerSpectra writes one directory per file, named after the variation in the file name, with the cosmological parameters of that variation and the spectra without factors of h, taking the h of that variation, at the positive redshifts of the file. No two files share a directory, and the parameters end as they began.", "quantifier": "all tables, sets of files and parameter collections", "why_tests_cant": "a claim about every grid and every collection of files, and about the state left behind", "anchors": ["seyfert/file_io/ext_input.py:readISTPowerSpectrumTextFile", "seyfert/file_io/ext_input.py:convertISTPowerSpectra"]}
{"id": "C108", "title": "Spectra from the inputs of a forecast", "statement": "compute_cls gives one spectrum for every pair of configured probes, at the multipoles of the probe or common to the two, each cell being the integral of the power spectrum at (l+1/2)/r (suppressed for voids) times the weights of the two probes in their bins. A weight uses the current values of the parameters of its own probe: the i-th bin of a constant bias has the i-th parameter, a piecewise bias has the parameter numbered after the bin of the redshift, lensing has its efficiency minus the alignment term. Displacing a nuisance parameter of one probe leaves every spectrum without that probe as it was. Missing densities, parameters, files and models are refused.", "quantifier": "all configurations, bias files, parameter collections, densities, cosmologies and numerical routines", "why_tests_cant": "a claim about every combination of probes and inputs, including what a spectrum does not depend on", "anchors": ["seyfert/cosmology/c_ells.py:AngularCoefficientsCollector", "seyfert/main/cl_core.py:compute_cls", "seyfert/cosmology/weight_functions.py:WeightFunctionWithBias", "seyfert/cosmology/bias.py:Bias", "seyfert/derivatives/differentiator.py:computeDerivative"]}
{"id": "C109", "title": "Which run directories are collected", "statement": "selectDirectories takes exactly the directories (below the root, or at any depth if asked) whose names follow one of the three ways runs are named, match all additional patterns, pass all filters, contain all wanted texts and none of the unwanted ones; each is given with the scenario and the number of bins its name says. A run made by the pipeline from the standard options is recognised with its scenario and number of bins. A directory whose name is no run's name is never taken, and links are judged alike in both kinds of search.", "quantifier": "all directory trees, patterns, filters and texts", "why_tests_cant": "trees and patterns are unbounded, and the claim includes every directory that is not taken", "anchors": ["seyfert/utils/dir_explorer.py:DirectoryExplorer.selectDirectories", "seyfert/utils/dir_explorer.py:DirectoryExplorer.directoryFilter", "seyfert/utils/dir_explorer.py:DirectoryExplorer.getMandatoryDirectoryMatches"]}
{"id": "C110", "title": "Tables of errors of several runs", "statement": "buildErrorsTable gives one row per run and matrix, in the order of the runs, with the errors of the only table of that run in the asked results directory and the options of that run in columns of their own; the columns are those of any run. It succeeds exactly if there are runs, each has exactly one such table and no column is called like the index. Relative and absolute errors are never mixed up.", "quantifier": "all lists of runs, their files, tables and options", "why_tests_cant": "a claim about every number of runs and every set of files and columns", "anchors": ["seyfert/fisher/results_collector.py:ResultsCollector.buildErrorsTable", "seyfert/fisher/results_collector.py:ResultsCollector.buildMarginalizedErrorsTable", "seyfert/utils/filesystem_utils.py:get_file_from_dir_with_pattern"]}
{"id": "C111", "title": "Analyses of several runs in a frame", "statement": "buildFisherAnalysesDataFrame gives each run a row with its own options and its own analysis. replaceHybridFishersWith4BinsEquivalents gives every forecast that has not four bins the matrices with Pk in their name, their errors and their relative errors, of the forecast with four bins and otherwise the same options, and changes nothing else; if it fails it can be called again. getFisherAnalysesSubDf chooses exactly the rows with the given values, be they numbers, truth values or texts. The table of all errors has the errors of each matrix beside the options of its forecast, and loaded analyses have both tables.", "quantifier": "all frames, options and analyses", "why_tests_cant": "a claim about every number of forecasts and all options, including what is left unchanged", "anchors": ["seyfert/fisher/results_collector.py:ResultsCollector.buildFisherAnalysesDataFrame", "seyfert/fisher/results_collector.py:ResultsCollector.replaceHybridFishersWith4BinsEquivalents", "seyfert/fisher/results_collector.py:ResultsCollector.getFisherAnalysesSubDf", "seyfert/fisher/results_collector.py:ResultsCollector.getErrorsTableFromAnalysesDataFrame", "seyfert/fisher/results_collector.py:ResultsCollector.loadFisherAnalysesPickle"]}
{"id": "C112", "title": "Dictionaries of spectra", "statement": "A dictionary of spectra gives for a pair of probes, written as a text or as a tuple of aliases, what is stored for it, or the transposed of what is stored for the exchanged pair, or KeyError; the pair is 'in' it exactly in the first two cases. Exchanging the probes exchanges the bins. tuple_keys are the stored pairs, tuple_key_to_str_key gives the text under which the pair is stored. What is stored for a pair, in whatever spelling or order, is what is given for it afterwards in all of them, and other pairs are as before; deleting takes exactly one pair away. A dictionary made from another has its entries.", "quantifier": "all dictionaries, pairs, spellings and values", "why_tests_cant": "the pairs, their orders, spellings and any sequence of entries cannot be enumerated together with all arrays", "anchors": ["seyfert/base_structs/cl_dict.py:FlexDict.__getitem__", "seyfert/base_structs/cl_dict.py:FlexDict.tuple_key_to_str_key", "seyfert/base_structs/cl_dict.py:FlexDict.tuple_keys", "seyfert/base_structs/cl_dict.py:TupleSmartDict.__getitem__", "seyfert/base_structs/generic_dict.py:GenericDictInterface"]}
{"id": "C113", "title": "Times and durations as texts", "statement": "A time written by datetime_str_format and read by date_from_str with the same separator is the same to the second; different times have different texts, and the texts of two times are ordered as the times are; with another separator the text is refused with ValueError, and only real dates are ever read. time_format splits a time into hours, minutes below 60, seconds below 60 and milliseconds below 1000 that add up to it. The metadata of a run contain its start, its end and how long it took, however long that was. str_to_bool reads true and false in any case and refuses everything else.", "quantifier": "all times of years of four digits, all texts, all rational numbers of seconds", "why_tests_cant": "dates, texts and durations are unbounded; the order of texts is a claim about all pairs of times", "anchors": ["seyfert/utils/formatters.py:datetime_str_format", "seyfert/utils/formatters.py:date_from_str", "seyfert/utils/formatters.py:time_format", "seyfert/utils/formatters.py:str_to_bool", "seyfert/main/task_runners.py:ForecastRunner.addTimingDataToMetadata"]}
{"id": "C114", "title": "Report of batch jobs", "statement": "A job is reported as failed exactly if its error file is not empty, as a success exactly if its error file is empty and there is an output, as not executed exactly if there are neither error nor output files; the status does not depend on the order in which files are listed, and jobs of a batch run are found. A stage lists all its jobs in the order of their identifiers, its counters add up and its status is failure exactly if a job failed, success if all succeeded, not executed if none ran, not completed if the rest was not executed; evaluating it again changes nothing. A run is a success exactly if all stages are (and there is one), a failure if one is, not completed if a stage is not completed. The report contains all stages and all jobs, the summary all stages, whatever the status of the jobs is; the job submitter writes it when all stages are done.", "quantifier": "all job directories and files in any listing order, all runs", "why_tests_cant": "listing orders, names and texts of logs are unbounded; the report is normally made only on a batch system", "anchors": ["seyfert/main/report_maker.py:JobReportMaker", "seyfert/main/report_maker.py:TaskReportMaker", "seyfert/main/report_maker.py:SeyfertReportMaker", "seyfert/main/bsub_utils.py:submitJob", "bin/job_submitter"]}
{"id": "C115", "title": "The derivative stage", "statement": "compute_derivatives, run on the files of spectra of all steps of a parameter in any order of listing, gives for every pair of probes the derivatives that the computation in memory gives; a spectrum of other probes than the parameter's has derivative zero; a step whose file is missing never goes unnoticed; the method of the parameter decides which derivative is computed and an unknown method is refused. The file written and read again has the derivative and multipoles of every pair of probes and nothing else; derivatives that were not evaluated are not written. The Fisher stage reads for every parameter the file of its directory, also after the stage was run again.", "quantifier": "all directories of spectra, all parameters and pairs of probes, any arithmetic field", "why_tests_cant": "directories, numbers of files and orders of listing are unbounded; both ways of computing derivatives are never compared by the project's tests", "anchors": ["seyfert/derivatives/cl_derivative.py:ClDerivative.evaluate", "seyfert/derivatives/cl_derivative.py:ClDerivativeCollector", "seyfert/derivatives/differentiator.py:SteMClDifferentiator.loadClData", "bin/compute_derivatives", "seyfert/main/fisher_core.py:prepare_inputs"]}
{"id": "C116", "title": "The table of resources used", "statement": "After the Fisher jobs of a batch run resources_usage.csv has a row for every log file, in the order of the directory: the name of the job is read from the name of its log, start and end are the times in the log, the duration is their difference, and CPU time and memory are the figures of the log, whatever text is around them. Without log files there is no table.", "quantifier": "all directories of log files, all texts around the times and figures, all times and figures", "why_tests_cant": "log files of the batch system exist only on its machines; times and texts are unbounded", "anchors": ["seyfert/main/bsub_utils.py:BsubInterface.getResourceUsageTable", "seyfert/main/bsub_utils.py:BsubInterface.extractDateTimeFromOut", "seyfert/main/bsub_utils.py:BsubInterface.submitJob", "seyfert/main/task_runners.py:FisherTaskRunner.submitBatchJobs"]}
{"id": "C117", "title": "The shot noise of the Fisher stage", "statement": "compute_fisher_matrix takes the noisy spectra saved by the run. When a shot-noise file is given, as an argument or else in the configuration, every spectrum, every entry of the collection and every matrix it uses is the one a run with that file from the start would have, whatever noise was saved; without a file they are the saved ones.", "quantifier": "all sets of spectra, all saved noises, all shot-noise files, all ways of giving them", "why_tests_cant": "the replaced noise meets the saved one inside the same objects; a test compares one noise with one other", "anchors": ["seyfert/main/fisher_core.py:prepare_inputs", "seyfert/fisher/delta_cl.py:DeltaClCollection.loadShotNoiseFromFile", "seyfert/fisher/delta_cl.py:DeltaClCollection.evaluateSingleBlocks", "seyfert/fisher/delta_cl.py:H5DeltaClCollection"]}
{"id": "C118", "title": "Comparing two runs", "statement": "compare_runs tests, for each Fisher matrix (and inverse) and each table of errors that both runs have, whether every entry of one differs from the other by less than the threshold relative to their mean; a run equals itself; the order of the runs does not matter; tables with other rows or columns are refused; runs that the program itself produced can be compared.", "quantifier": "all pairs of runs, all tables over an ordered field, all run names and results directories", "why_tests_cant": "the verdict is a message in a log, computed entry by entry; entries with negative values and directories written by the current version are not in any test", "anchors": ["seyfert/utils/run_loader.py:RunComparison.evaluateMetricsAndTest", "seyfert/utils/run_loader.py:ComparisonMetrics.testAllMetrics", "seyfert/utils/run_loader.py:ComparisonMetrics.getComparisonKeys", "seyfert/utils/run_loader.py:RunLoader.loadMetadata", "seyfert/utils/run_loader.py:RunLoader.loadResults", "seyfert/fisher/fisher_results.py:FisherResultsCollector.loadFromResultsDir", "seyfert/numeric/general.py:pad"]}
{"id": "C119", "title": "Jobs of a batch run", "statement": "A batch run has one job per variation: the central one and one per step of each free parameter derived by SteM (only cosmological ones for the power spectra), and one derivative job per free parameter. Each job has its own directory, reads its variation back from the name of that directory, finds the power spectrum it needs among those of the previous stage, and leaves the result that the computation in memory gives for the same variation. The script of each job names its own directory.", "quantifier": "all collections of parameters with distinct alphanumeric names, all numbers of displacements, all functions computing power spectra and spectra, all job directories", "why_tests_cant": "a job gets its variation only through the name of its directory; a wrong or shared name gives a run that finishes with spectra of another variation", "anchors": ["seyfert/main/task_runners.py:PowerSpectrumTaskRunner.createJobDirStructure", "seyfert/main/task_runners.py:AngularTaskRunner.createJobDirStructure", "seyfert/main/task_runners.py:DerivativeTaskRunner.createJobDirStructure", "seyfert/main/task_runners.py:TaskRunner.writeJobShellScript", "bin/compute_pmm", "bin/compute_cls"]}
{"id": "C120", "title": "Options of the job submitter", "statement": "A stage runs when its flag is given alone or as true or a nonzero number, and does not run when the flag is absent, false or zero, on the command line and in the ini file alike. A key of the ini file replaces the value of the command line and nothing else changes; an unknown key, a missing section or a missing file is an error. Execution is one of no, interactive and batch, the number of cores is positive, options naming configurations and directories become paths. The run is named by the identifier that was given, followed by the version. After the run the directories of the variations of the spectra are removed when they were computed by it and are not to be kept, and no others.", "quantifier": "all parsed command lines, all ini files, all texts of options, all contents of the directory of the spectra", "why_tests_cant": "options reach the runner through two conversions and an update; which text starts a stage, or removes directories, is seen only when the run is over", "anchors": ["bin/job_submitter:main", "bin/job_submitter:check_options", "seyfert/utils/general_utils.py:convert_keyval_params_type", "seyfert/config/cmd_line.py:JobSubmitterCommandLineArgs", "seyfert/main/task_runners.py:ForecastRunner.setRunID"]}
{"id": "C121", "title": "Inputs of new and existing runs", "statement": "In a new run directory every stage reads the configurations, the parameters and the input data given on the command line, densities and power spectra are on the same grid, and the metadata hold the name of the run. A run on an existing directory uses the forecast configuration, parameters and input data stored there, its densities and power spectra are on the same grid, its metadata keep the name of the run and record external directories; repeating it with the same options changes no result.", "quantifier": "all configurations, parameters, input data and grids, all choices of stages, all run directories", "why_tests_cant": "whether a result was computed from the stored or the given inputs does not show in it; runs on existing directories are rarely tested", "anchors": ["seyfert/main/task_runners.py:ForecastRunner.doForecast", "seyfert/main/task_runners.py:ForecastRunner.loadForecastConfiguration", "seyfert/main/task_runners.py:ForecastRunner.computeDensities", "seyfert/main/task_runners.py:ForecastRunner.populateInitialMetadata", "bin/compute_pmm", "bin/compute_cls"]}
{"id": "C122", "title": "Biases multiplied by sigma8", "statement": "The first transformation of a Fisher matrix replaces each galaxy bias by its product with sigma8 and then fixes sigma8: its quadratic form on a displacement of the new parameters is that of the given matrix on the displacement of the old ones that leaves sigma8 and changes each bias by the change of the product divided by sigma8. The second one then gives back sigma8 in place of the biases, all of which scale with it. Both work for every number of redshift bins and with all parameters the code knows.", "quantifier": "all Fisher matrices, all fiducial values with sigma8 not zero, all displacements", "why_tests_cant": "the transformations are used in the comparison with external matrices only and have no tests; a transposed or inverted Jacobian gives a symmetric matrix of the right size", "anchors": ["seyfert/utils/ist_comparison.py:get_params_bases", "seyfert/utils/ist_comparison.py:T1", "seyfert/utils/ist_comparison.py:T2", "seyfert/utils/ist_comparison.py:apply_T1_remove_sigma8", "seyfert/utils/ist_comparison.py:apply_T1_remove_sigma8_then_T2"]}
{"id": "C123", "title": "Configurations from the window", "statement": "A configuration saved from the window and loaded again holds what the window shows: every row of the parameter table becomes the parameter with that fiducial value, freedom, units, displacement and derivative method; the checked probes and no others are present, with the multipoles, the density file, the bias file, the settings and the nuisance parameters of their page, the latter belonging to the probe of the page. The name of the file ends with .json.", "quantifier": "all contents of all widgets whose texts are numbers where numbers are expected, all base displacements, all subsets of probes, all file names", "why_tests_cant": "there is no test of the window; the names of probes and widgets are matched as text and a wrong one leaves a field out or attaches a parameter to no probe", "anchors": ["seyfert/gui/interface_window.py:dumpToJSONAndExit", "seyfert/gui/interface_window.py:dumpGUIToJSON", "seyfert/config/forecast_config.py:loadProbeConfigurationsFromJSONConfig", "seyfert/config/forecast_config.py:loadPhysicalParametersFromJSONConfig", "seyfert/config/probe_config.py:loadFromJSONConfig", "seyfert/config/probe_config.py:loadAllNuisanceParameters"]}
{"id": "C124", "title": "Tables of results in the notebooks", "statement": "A selection of a table of results holds the rows that meet all conditions of the query, in order, with all result columns; unknown options and keys are reported and an empty query selects everything. Differences with respect to a reference matrix are taken between rows with the same values of the other index levels; the table of figures of merit holds for each row the difference and the percentage with respect to the reference of its matrix. Rows of matrices with GCsp(Pk) are replaced by those of four bins. A LaTeX row shows bins, name, figure of merit, its change with its sign, and all errors.", "quantifier": "all tables, all queries and excluded keys, all reference maps, all index levels, all numbers", "why_tests_cant": "the tables depend on how pandas aligns indexes and drops columns; a wrong alignment gives numbers of the right size for the wrong row", "anchors": ["seyfert/notebook_helpers/table_helpers.py:query_dict", "seyfert/notebook_helpers/table_helpers.py:select_from_query_dict", "seyfert/notebook_helpers/table_helpers.py:compute_percentage_difference", "seyfert/notebook_helpers/table_helpers.py:get_fom_table_for_fishers", "seyfert/notebook_helpers/table_helpers.py:replace_hybrid_fishers_with_4_bins_equivalents", "seyfert/notebook_helpers/table_helpers.py:get_latex_row"]}
{"id": "C125", "title": "Files of earlier versions", "statement": "The files of a run are read by the version in the name of its directory. Those before 1.1.0, pre-releases of it included, have the old layout: the cosmology gets the redshifts, the Hubble parameter, the distances, the growth factor and the power spectrum of the file, and each spectrum its values, multipoles, kernel and the weights and densities of its two probes, together with the grid. Files of 1.1.0 give the parameters with their values; the power spectrum is loaded if and only if it is asked for. A file of derivatives may hold datasets or groups. What is written in the old layout can be read again.", "quantifier": "all versions of three digits and a letter or none, all file trees", "why_tests_cant": "no run of an old version is among the tests; a swapped probe or dataset has the same shape", "anchors": ["seyfert/file_io/retro_comp.py:write_old_cosmo_file", "seyfert/file_io/retro_comp.py:read_v104_cosmo_file", "seyfert/file_io/retro_comp.py:read_v110_cosmo_file", "seyfert/file_io/retro_comp.py:read_v104_cls_file", "seyfert/file_io/retro_comp.py:read_cls_file", "seyfert/file_io/retro_comp.py:read_cosmo_file", "seyfert/file_io/retro_comp.py:read_dcl_file"]}
{"id": "C126", "title": "Spectra and derivatives of the comparison read from directories", "statement": "The files of the three directories of spectra are grouped by the variation in their names: every variation with a file is converted once, with the file of each directory that belongs to it, and variations that are not in all three directories are refused. A file is taken if its array has the bins of the surveys, and its values and multipoles are kept in order. The derivatives read from files are those of the parameter in the name and the probes of the directory; files with another name, with two different parameters, of an unknown parameter or in an unknown directory are refused.", "quantifier": "all file names, all contents of the directories, all displacements", "why_tests_cant": "the files of the comparison are not in the repository and no test converts them; a swapped directory has arrays of a valid size for another probe", "anchors": ["seyfert/file_io/ext_input.py:convertSCameraDerivativesInput", "seyfert/file_io/ext_input.py:readSCameraClDerivatives", "seyfert/file_io/ext_input.py:buildCosmoClsFilesDict"]}
{"id": "C127", "title": "Check of the parameters of the comparison", "statement": "The check before a conversion passes for exactly the eight cosmological parameters of the comparison with a fiducial h of 0.67, and then the collection is unchanged. A missing parameter, one that is not cosmological or another h is an AssertionError; parameters that are not of the comparison are removed.", "quantifier": "all collections of parameters", "why_tests_cant": "nothing calls the check in the tests; the removal happens inside a loop over the same dictionary", "anchors": ["seyfert/file_io/ext_input.py:ISTInputReader.checkISTParams", "seyfert/base_structs/generic_dict.py:GenericDictInterface.__delitem__"]}
{"id": "C128", "title": "Conversions of units", "statement": "Conversions between inches, points and centimetres, between steradians, square degrees and square minutes, and between densities per steradian, per square degree and per square minute undo one another; an inch is 72 points and 2.54 cm, a square degree is 3600 square minutes and the square of PI/180; the number of objects in an area, density times area, does not depend on the unit.", "quantifier": "all real numbers", "why_tests_cant": "equality for all numbers and the agreement of areas with densities cannot be tested case by case; no test calls them", "anchors": ["seyfert/utils/converters.py"]}
{"id": "C129", "title": "Directory of the configurations of several runs", "statement": "The directory made for several runs has a subdirectory for each kind of configuration, with the file given for it and all files that were there before; no external directory is named; a file that does not exist is a FileNotFoundError. Reading gives all JSON files for forecasts, Fisher matrices and spectra, the file for the other kinds and the external directories, and it gives back what was copied, whatever the order in which the file system lists it.", "quantifier": "all files given, all earlier contents, all orders of listing", "why_tests_cant": "neither function is called by a test; the order of listing and the names of files depend on the machine and the user", "anchors": ["seyfert/main/orchestration.py:create_config_dir_tree", "seyfert/main/orchestration.py:get_configs"]}
