{"id": "C01", "title": "runSolver always terminates within the iteration limit", "statement": "Whatever the QP subsolver answers and whatever the floating point arithmetic yields, runSolver returns after at most maxIterations+1 loop passes and after at most maxIterations+1 QP subproblem solves; it never loops forever.", "quantifier": "every problem, option setting with maxIterations < INT_MAX, every sequence of QP solver answers, every random stream, every arithmetic (IEEE doubles incl. NaN)", "why_tests_cant": "the loop is while(true); a test only sees finitely many QP solver behaviours and cannot exclude a cycle", "anchors": ["src/LCQProblem.cpp: LCQProblem::runSolver", "src/LCQProblem.cpp: updateTotalIter"]}
{"id": "C02", "title": "Success is returned only when both tolerance tests hold at the returned iterate", "statement": "If runSolver returns SUCCESSFUL_RETURN then, at the iterate delivered by getPrimalSolution, the complementarity value is below complementarityTolerance and the max-norm of the last stationarity residual is below stationarityTolerance; with storeSteps enabled these are the last recorded phi and stationarity values.", "quantifier": "every run: all data, options, QP answers, random streams and arithmetics", "why_tests_cant": "needs to hold at every exit of every run, including runs where the penalty is changed in the middle of a pass", "anchors": ["src/LCQProblem.cpp: runSolver", "src/LCQProblem.cpp: stationarityCheck", "src/LCQProblem.cpp: complementarityCheck", "src/LCQProblem.cpp: storeSteps"]}
{"id": "C03", "title": "On success the returned point satisfies the user's complementarity constraint up to tolerance", "statement": "In exact arithmetic, if a freshly loaded problem is solved successfully then the returned x satisfies (Lx-lbL)'(Rx-lbR) < complementarityTolerance for the L, R, lbL, lbR the user passed (missing bounds count as 0).", "quantifier": "all dimensions, all finite problem data, all options, all QP answers", "why_tests_cant": "ties the internally expanded quadratic form to the user's data for every L, R and bounds; a test only samples a few", "anchors": ["src/LCQProblem.cpp: loadLCQP", "src/LCQProblem.cpp: initializeSolver", "src/LCQProblem.cpp: getPhi", "src/LCQProblem.cpp: runSolver"]}
{"id": "C04", "title": "On success the returned primal-dual pair is stationary for the user's LCQP", "statement": "In exact arithmetic, if runSolver succeeds, the x and y delivered by getPrimalSolution/getDualSolution satisfy || Qx + g - A'y_A - L'y_L - R'y_R - y_box ||_inf < stationarityTolerance for the Q, g, A, L, R the user loaded.", "quantifier": "all dimensions, all finite problem data, options, QP answers, dense and sparse, with and without complementarity lower bounds", "why_tests_cant": "the dual transformation has to cancel the penalty term for every matrix and every penalty value", "anchors": ["src/LCQProblem.cpp: transformDuals", "src/LCQProblem.cpp: updateStationarity", "src/LCQProblem.cpp: getDualSolution"]}
{"id": "C05", "title": "Return code and reported algorithm status agree", "statement": "After runSolver returns, getPrimalSolution, getDualSolution and the statistics report PROBLEM_NOT_SOLVED if and only if the return code is not SUCCESSFUL_RETURN; on success they report the same W/C/M/S status.", "quantifier": "all call histories on one object, all return codes", "why_tests_cant": "depends on the state left behind by previous calls and on every error exit", "anchors": ["src/LCQProblem.cpp: runSolver", "src/LCQProblem.cpp: initializeSolver", "src/LCQProblem.cpp: getPrimalSolution", "src/OutputStatistics.cpp: updateSolutionStatus"]}
{"id": "C06", "title": "MAX_ITERATIONS_REACHED means the iteration budget was really used up", "statement": "getIterTotal never exceeds maxIterations+1 after a run; MAX_ITERATIONS_REACHED is returned exactly with getIterTotal = maxIterations+1 and never earlier.", "quantifier": "all runs, all QP answers, all arithmetics", "why_tests_cant": "off-by-one over an unbounded loop and over all exits", "anchors": ["src/LCQProblem.cpp: runSolver", "src/LCQProblem.cpp: updateTotalIter", "src/OutputStatistics.cpp: updateIterTotal"]}
{"id": "C07", "title": "The penalty parameter follows the documented geometric law and stays bounded", "statement": "After any run that passed initialisation, getRhoOpt is initialPenaltyParameter multiplied getIterOuter times by penaltyUpdateFactor; MAX_PENALTY_REACHED is returned only if it exceeds maxPenaltyParameter; every QP subproblem after the first is solved with a penalty not above the maximum, and the final penalty is at most max(rho0, maxPenalty)*factor^2.", "quantifier": "all runs; bounds in exact arithmetic with factor > 1", "why_tests_cant": "the number of penalty updates per pass (0, 1 or 2) depends on data; the law must hold for all interleavings", "anchors": ["src/LCQProblem.cpp: updatePenalty", "src/LCQProblem.cpp: updateOuterIter", "src/LCQProblem.cpp: runSolver", "src/OutputStatistics.cpp: updateRhoOpt"]}
{"id": "C08", "title": "A failing QP subproblem is always reported and ends the run", "statement": "If the QP solver fails in any subproblem, runSolver returns the corresponding error, calls the QP solver no further, reports the solver's exit flag through getQPSolverExitFlag and leaves the status PROBLEM_NOT_SOLVED; conversely a run that ends with another code had no failing subproblem.", "quantifier": "all failure points: any subproblem index, any QP exit flag", "why_tests_cant": "the failure may occur at any of unboundedly many subproblems", "anchors": ["src/LCQProblem.cpp: solveQPSubproblem", "src/LCQProblem.cpp: runSolver", "src/SubsolverQPOASES.cpp: solve", "src/SubsolverOSQP.cpp: solve"]}
{"id": "C09", "title": "Subproblem iterations are fully accounted for", "statement": "After a run getSubproblemIter is the sum of the iteration counts reported by all QP solves of that run, including a failing last one.", "quantifier": "all runs and all non-negative reported counts (sum below INT_MAX)", "why_tests_cant": "unbounded number of solves; every exit path", "anchors": ["src/LCQProblem.cpp: solveQPSubproblem", "src/OutputStatistics.cpp: updateSubproblemIter"]}
{"id": "C10", "title": "Recorded step statistics are complete and consistent", "statement": "With storeSteps enabled every tracking vector has exactly getIterTotal entries after the run, the accumulated subproblem iterations are the prefix sums of the per-pass ones and the stored final iterate is the one returned by getPrimalSolution; with storeSteps disabled all vectors are empty (the getters return NULL).", "quantifier": "all runs and exits", "why_tests_cant": "lengths must agree for every number of iterations and at every exit", "anchors": ["src/LCQProblem.cpp: storeSteps", "src/OutputStatistics.cpp: updateTrackingVectors", "src/OutputStatistics.cpp: getAccuSubproblemIters"]}
{"id": "C11", "title": "The dynamic (Leyffer) penalty strategy follows its documented rule", "statement": "A dynamic penalty update happens in a pass exactly if nDynamicPenalty > 0, at least nDynamicPenalty complementarity values were recorded since the last update, the current value is not within tolerance, and it is not smaller than eta times the maximum of the last nDynamicPenalty values; for nDynamicPenalty <= 0 it never happens.", "quantifier": "all sequences of complementarity values, all n and eta", "why_tests_cant": "rule quantifies over the whole history of the run", "anchors": ["src/LCQProblem.cpp: leyfferCheckPositive", "src/LCQProblem.cpp: updatePenalty"]}
{"id": "C12", "title": "The reported stationarity type matches the definitions of S-, M-, C- and W-stationarity", "statement": "On success the reported status is S iff all biactive pairs have both multipliers >= 0, M if not S but every biactive pair has both multipliers > 0 or (up to tolerance) zero product, C if not M but every product is >= 0 (up to tolerance), otherwise W.", "quantifier": "all index sets and multiplier values", "why_tests_cant": "decision table over unboundedly many pairs and real values including the boundary", "anchors": ["src/LCQProblem.cpp: determineStationarityType", "src/LCQProblem.cpp: getWeakComplementarities"]}
{"id": "C13", "title": "The reported stationarity type is that of the returned solution", "statement": "The biactive pairs are those with Lx-lbL <= tol and Rx-lbR <= tol, and the multipliers classified are those returned by getDualSolution.", "quantifier": "all successful runs, all lbL, lbR", "why_tests_cant": "depends on which of several dual vectors is used for every input", "anchors": ["src/LCQProblem.cpp: determineStationarityType", "src/LCQProblem.cpp: transformDuals", "src/LCQProblem.cpp: getWeakComplementarities"]}
{"id": "C14", "title": "Iterates remain feasible for the linear constraints", "statement": "In exact arithmetic, without step perturbation, if every successful QP solve returns a point satisfying the linear constraints (A;L;R) and the box, then after any run that performed an iteration the returned x satisfies all of them.", "quantifier": "all runs, any number of iterations, any step lengths", "why_tests_cant": "inductive: convex combinations over an unbounded number of steps", "anchors": ["src/LCQProblem.cpp: updateStep", "src/LCQProblem.cpp: getOptimalStepLength", "src/LCQProblem.cpp: solveQPSubproblem"]}
{"id": "C15", "title": "Step perturbation moves each coordinate by at most EPS", "statement": "With perturbStep enabled each pass moves every coordinate of the iterate by exactly -EPS, 0 or +EPS beyond the line-search step, for every random stream; with perturbStep disabled the outcome of a run does not depend on the random stream.", "quantifier": "all random streams, all dimensions", "why_tests_cant": "depends on rand()/time; tests see one stream", "anchors": ["src/LCQProblem.cpp: perturbStep", "src/LCQProblem.cpp: runSolver"]}
{"id": "C16", "title": "The step length is the exact minimiser of the penalised objective on the segment", "statement": "In exact arithmetic with symmetric Q the step length chosen lies in [0,1]; if the direction is a descent direction it minimises the penalised objective x'(Q+rho C)x/2 + (g + rho g_phi)'x over the segment, so the penalised objective never increases along a descent direction.", "quantifier": "all matrices, iterates and directions", "why_tests_cant": "inequality over all reals and dimensions", "anchors": ["src/LCQProblem.cpp: getOptimalStepLength", "src/LCQProblem.cpp: updateStep"]}
{"id": "C17", "title": "The penalised objective decreases monotonically while the penalty is unchanged", "statement": "In exact arithmetic, if Q is symmetric positive definite, the QP solver returns exact minimisers and no perturbation is used, then the penalised objective at consecutive iterates with the same penalty value is non-increasing.", "quantifier": "all problems, all passes", "why_tests_cant": "global convergence argument over arbitrary runs", "anchors": ["src/LCQProblem.cpp: runSolver", "src/LCQProblem.cpp: solveQPSubproblem", "src/LCQProblem.cpp: getOptimalStepLength"]}
{"id": "C18", "title": "Every QP subproblem is the linearisation of the penalised problem at the current iterate", "statement": "Each QP handed to the solver has the user's constraint system and bounds and the linear term g + rho*(Cx + g_phi), where C = L'R + R'L and g_phi = -(R'lbL + L'lbR), at the current iterate and penalty; the first one has the plain term g if solveZeroPenaltyFirst.", "quantifier": "all passes of all runs", "why_tests_cant": "quantifies over all subproblems of all runs", "anchors": ["src/LCQProblem.cpp: updateLinearization", "src/LCQProblem.cpp: updatePenalty", "src/LCQProblem.cpp: initializeSolver"]}
{"id": "C19", "title": "Dense loading builds exactly the stacked constraint system", "statement": "After a successful dense loadLCQP the QP solver is given the matrix (A;L;R) row by row, lower bounds (lbA or -inf; lbL or 0; lbR or 0), upper bounds (ubA or inf; ubL or inf; ubR or inf) and box bounds (lb or -inf; ub or inf).", "quantifier": "all dimensions, all data, all combinations of omitted (NULL) optional arguments", "why_tests_cant": "2^8 combinations of NULL arguments times all dimensions", "anchors": ["src/LCQProblem.cpp: setConstraints (dense)", "src/LCQProblem.cpp: setComplementarityBounds", "include/LCQProblem.ipp: setLB", "include/LCQProblem.ipp: setUB"]}
{"id": "C20", "title": "Sparse loading builds the same constraint system as dense loading", "statement": "For well-formed CSC inputs with sorted columns, sparse loadLCQP builds a CSC matrix whose entries are exactly those of (A;L;R), with the same bounds as dense loading.", "quantifier": "all well-formed CSC matrices of all sizes", "why_tests_cant": "all sparsity patterns", "anchors": ["src/LCQProblem.cpp: setConstraints (csc)", "src/Utilities.cpp: copyCSC", "src/Utilities.cpp: createCSC"]}
{"id": "C21", "title": "Missing mandatory data is rejected with an error code", "statement": "loadLCQP with a NULL Q, g, L, R (or NULL A when nC > 0) returns an error code and never dereferences the missing pointer.", "quantifier": "all combinations of missing arguments, dense and sparse", "why_tests_cant": "undefined behaviour need not show up in a test run", "anchors": ["src/LCQProblem.cpp: loadLCQP", "src/LCQProblem.cpp: setConstraints", "include/LCQProblem.ipp: setQ", "include/LCQProblem.ipp: setG"]}
{"id": "C22", "title": "Complementarity lower bounds of -infinity are rejected", "statement": "loadLCQP returns INVALID_LOWER_COMPLEMENTARITY_BOUND exactly if some entry of a given lbL or lbR is -infinity.", "quantifier": "all bound vectors (IEEE values incl. NaN and infinities)", "why_tests_cant": "all positions and all values", "anchors": ["src/LCQProblem.cpp: setComplementarityBounds"]}
{"id": "C23", "title": "An object constructed with invalid dimensions refuses to work", "statement": "If the constructor is given nV <= 0, nComp <= 0 or nC < 0 (or the default constructor is used) every later loadLCQP returns LCQPOBJECT_NOT_SETUP and runSolver does not crash.", "quantifier": "all invalid dimension triples", "why_tests_cant": "uninitialised members have arbitrary values", "anchors": ["src/LCQProblem.cpp: LCQProblem::LCQProblem", "src/LCQProblem.cpp: loadLCQP", "include/LCQProblem.hpp: nV, nC, nComp"]}
{"id": "C24", "title": "Omitting one of the complementarity lower bounds is supported", "statement": "A problem loaded with lbL given and lbR omitted (or vice versa) is solved as if the omitted bound were 0.", "quantifier": "all problems with exactly one of lbL, lbR given", "why_tests_cant": "documented default must hold for every input; a crash is undefined behaviour", "anchors": ["src/LCQProblem.cpp: initializeSolver", "src/Utilities.cpp: DotProduct"]}
{"id": "C25", "title": "Loading a new problem replaces the old one completely", "statement": "After loadLCQP succeeds on an object that was used before, a run behaves exactly as on a fresh object loaded with the same data.", "quantifier": "all histories before the load", "why_tests_cant": "the space of histories is infinite", "anchors": ["src/LCQProblem.cpp: loadLCQP", "src/LCQProblem.cpp: setComplementarityBounds", "src/LCQProblem.cpp: initializeSolver", "src/LCQProblem.cpp: leyfferCheckPositive"]}
{"id": "C26", "title": "Running the solver again solves the same problem", "statement": "Calling runSolver a second time without reloading presents the same constraints, box bounds and objective to the QP solver as the first call.", "quantifier": "all problems and options, any number of repeated calls", "why_tests_cant": "property of call histories", "anchors": ["src/LCQProblem.cpp: runSolver", "src/LCQProblem.cpp: initializeSolver"]}
{"id": "C27", "title": "Repeated sparse runs are memory safe", "statement": "Calling runSolver repeatedly in sparse mode never reads or writes outside of the problem's arrays.", "quantifier": "all call histories", "why_tests_cant": "out-of-bounds reads need not be visible in a test", "anchors": ["src/LCQProblem.cpp: setQk", "src/LCQProblem.cpp: updateQk"]}
{"id": "C28", "title": "A dual initial guess reaches the QP solver unchanged", "statement": "With OSQP the constraint part of the user's dual guess y0 is what the QP solver is warm started with; with qpOASES the complete y0.", "quantifier": "all y0, all dimensions", "why_tests_cant": "uninitialised memory may accidentally hold the right values in a test", "anchors": ["src/LCQProblem.cpp: initializeSolver", "include/LCQProblem.ipp: setInitialGuess", "src/SubsolverOSQP.cpp: solve"]}
{"id": "C29", "title": "OSQP can be used on an object without box constraints", "statement": "If the user never passed lb or ub, selecting OSQP_SPARSE in sparse mode never yields INVALID_OSQP_BOX_CONSTRAINTS; if the user passed lb or ub it always does.", "quantifier": "all call histories of load, switch, setOptions and run", "why_tests_cant": "history dependent", "anchors": ["src/LCQProblem.cpp: initializeSolver", "src/SubsolverOSQP.cpp: solve"]}
{"id": "C30", "title": "Dense use of the API is free of undefined behaviour", "statement": "For a validly constructed object, a dense loadLCQP with correctly sized arrays followed by runSolver with QPOASES_DENSE never dereferences NULL, accesses an array out of bounds, reads an uninitialised value or overflows an int.", "quantifier": "all dimensions, data, options, QP answers of the right length, all numbers of iterations (bounded by maxIterations below INT_MAX)", "why_tests_cant": "memory safety for all sizes and all runs", "anchors": ["src/LCQProblem.cpp: loadLCQP", "src/LCQProblem.cpp: runSolver", "src/Utilities.cpp: all dense kernels"]}
{"id": "C31", "title": "Sparse use of the API is free of undefined behaviour", "statement": "For a validly constructed object, a sparse loadLCQP with well-formed CSC arrays followed by one runSolver with a sparse QP solver never triggers undefined behaviour.", "quantifier": "all well-formed CSC data, options, QP answers", "why_tests_cant": "memory safety for all sparsity patterns", "anchors": ["src/LCQProblem.cpp: loadLCQP (csc)", "src/LCQProblem.cpp: setQk", "src/LCQProblem.cpp: updateQk", "src/Utilities.cpp: all csc kernels"]}
{"id": "C32", "title": "Dense/sparse mismatches are detected", "statement": "runSolver returns DENSE_SPARSE_MISSMATCH exactly if the selected QP solver's format differs from the format of the loaded problem (and, for OSQP, no earlier box-constraint error), and calls no QP solver in that case.", "quantifier": "all modes and solvers and histories", "why_tests_cant": "history dependent (switch functions)", "anchors": ["src/LCQProblem.cpp: initializeSolver", "src/LCQProblem.cpp: switchToSparseMode", "src/LCQProblem.cpp: switchToDenseMode"]}
{"id": "C33", "title": "The dense linear algebra kernels compute the documented expressions", "statement": "MatrixMultiplication, TransponsedMatrixMultiplication, AddTransponsedMatrixMultiplication, AffineLinearTransformation, WeightedMatrixAdd/WeightedVectorAdd (also with aliased output), QuadraticFormProduct and DotProduct compute A*B, A'*B, C+A'*B, alpha*A*b+c, alpha*A+beta*B, p'Qp and a'b.", "quantifier": "all dimensions and all inputs of the right size", "why_tests_cant": "all sizes; index arithmetic", "anchors": ["src/Utilities.cpp: MatrixMultiplication etc. (dense)"]}
{"id": "C34", "title": "The penalty function is the complementarity product", "statement": "The matrix built from L and R is L'R+R'L, is symmetric, and the penalty value computed from it, phi_const + g_phi'x + x'Cx/2, equals (Lx-lbL)'(Rx-lbR) for every x.", "quantifier": "all L, R, lbL, lbR, x", "why_tests_cant": "polynomial identity over all dimensions", "anchors": ["src/Utilities.cpp: MatrixSymmetrizationProduct", "src/LCQProblem.cpp: getPhi", "src/LCQProblem.cpp: initializeSolver"]}
{"id": "C35", "title": "Sparse kernels agree with dense kernels", "statement": "For every well-formed CSC matrix, the CSC versions of the matrix-vector, transposed, quadratic-form and (for symmetric matrices) affine kernels return the same as the dense versions on the matrix it represents.", "quantifier": "all well-formed CSC matrices", "why_tests_cant": "all sparsity patterns", "anchors": ["src/Utilities.cpp: MatrixMultiplication (csc)", "src/Utilities.cpp: AffineLinearTransformation (csc)", "src/Utilities.cpp: QuadraticFormProduct (csc)"]}
{"id": "C36", "title": "The sparse symmetrised product agrees with the dense one", "statement": "For CSC matrices L, R with sorted columns the sparse MatrixSymmetrizationProduct represents L'R+R'L up to dropping entries of absolute value at most 1e-25, has sorted columns and is well-formed.", "quantifier": "all CSC matrices with sorted columns (and: what happens for unsorted ones)", "why_tests_cant": "all sparsity patterns", "anchors": ["src/Utilities.cpp: MatrixSymmetrizationProduct (csc)", "src/Utilities.cpp: getIndexOfIn"]}
{"id": "C37", "title": "csc_to_dns is exact and rejects bad row indices", "statement": "csc_to_dns of a well-formed CSC matrix without duplicates returns exactly the dense matrix it represents; it returns NULL if and only if some stored row index is outside [0,m), and then never writes out of bounds.", "quantifier": "all CSC matrices", "why_tests_cant": "all index patterns including malicious ones", "anchors": ["src/Utilities.cpp: csc_to_dns"]}
{"id": "C38", "title": "dns_to_csc is exact", "statement": "dns_to_csc returns a well-formed CSC matrix with strictly increasing row indices and no stored zeros that represents exactly the given matrix, so csc_to_dns(dns_to_csc(M)) = M.", "quantifier": "all matrices of all sizes", "why_tests_cant": "round trip over all inputs", "anchors": ["src/Utilities.cpp: dns_to_csc", "src/Utilities.cpp: csc_to_dns"]}
{"id": "C39", "title": "The penalised Hessian is Q + rho*C at all times", "statement": "In exact arithmetic, after setup and after any number of penalty updates, the Hessian used for merit, step length and stationarity is Q + rho*C for the current penalty, in dense and (incrementally updated) sparse mode.", "quantifier": "any number of penalty updates; all sorted sparsity patterns", "why_tests_cant": "incremental updates over an unbounded history", "anchors": ["src/LCQProblem.cpp: setQk", "src/LCQProblem.cpp: updateQk", "src/LCQProblem.cpp: updatePenalty"]}
{"id": "C40", "title": "OSQP receives the upper triangle of Q", "statement": "copyCSC with toUpperTriangular keeps exactly the stored entries with row <= column, in order.", "quantifier": "all CSC matrices", "why_tests_cant": "all sparsity patterns", "anchors": ["src/Utilities.cpp: copyCSC", "src/SubsolverOSQP.cpp: SubsolverOSQP"]}
{"id": "C41", "title": "MaxAbs is the infinity norm", "statement": "MaxAbs(a,m) is the maximum of |a_i|; in particular a vector containing NaN is not reported as small.", "quantifier": "all vectors, all IEEE values", "why_tests_cant": "all lengths and NaN positions", "anchors": ["src/Utilities.cpp: MaxAbs", "src/LCQProblem.cpp: stationarityCheck"]}
{"id": "C42", "title": "Options always stay in their documented domain", "statement": "After any sequence of setter calls: tolerances > EPS, initial penalty > ZERO, update factor > 1, maxIterations > 0, max penalty > 0, eta in (EPS,1), print level and QP solver valid; a rejected call changes nothing and returns the documented error code; an accepted call changes exactly its own field, which the getter then returns.", "quantifier": "all sequences of setter calls with all argument values (incl. NaN)", "why_tests_cant": "infinitely many call sequences", "anchors": ["src/Options.cpp: setStationarityTolerance .. setQPSolver"]}
{"id": "C43", "title": "Copied options are independent", "statement": "setOptions takes a snapshot: later changes of the caller's Options object (or its OSQP settings) do not affect the solver and vice versa; self-assignment of the OSQP settings is harmless.", "quantifier": "all sequences of setter calls on both objects", "why_tests_cant": "aliasing over histories", "anchors": ["src/Options.cpp: copy", "src/Options.cpp: setOSQPOptions", "include/LCQProblem.ipp: setOptions"]}
{"id": "C44", "title": "Statistics are reset at each run and copied faithfully", "statement": "After each runSolver the statistics describe only that run; getOutputStatistics delivers an equal independent copy.", "quantifier": "all call histories", "why_tests_cant": "history dependent", "anchors": ["src/OutputStatistics.cpp: reset", "src/OutputStatistics.cpp: operator=", "src/LCQProblem.cpp: initializeSolver"]}
{"id": "C45", "title": "Data files are read completely or rejected", "statement": "readFromFile returns SUCCESSFUL_RETURN only if n values were read from the file, and then stores them in order; a missing, non-numeric or too short file yields UNABLE_TO_READ_FILE.", "quantifier": "all files and all n", "why_tests_cant": "all file contents incl. truncated ones", "anchors": ["src/Utilities.cpp: readFromFile"]}
{"id": "C46", "title": "Writing and re-reading data preserves it", "statement": "readFromFile after writeToFile returns the data that was written.", "quantifier": "all data vectors", "why_tests_cant": "all doubles", "anchors": ["src/Utilities.cpp: writeToFile", "src/Utilities.cpp: readFromFile"]}
{"id": "C47", "title": "The MATLAB statistics struct carries each value under its name", "statement": "Every field of the stats struct returned by the MATLAB interface holds the statistic its name says.", "quantifier": "all runs", "why_tests_cant": "finite table, but must hold for every run's values", "anchors": ["interfaces/matlab/LCQPow.cpp: mexFunction, fieldnames"]}
{"id": "C48", "title": "MATLAB matrices are converted to row-major correctly", "statement": "colMajorToRowMajor stores entry (i,j) of the MATLAB matrix at position i*n+j, for all m, n.", "quantifier": "all sizes and contents", "why_tests_cant": "index arithmetic over all sizes", "anchors": ["interfaces/matlab/LCQPow.cpp: colMajorToRowMajor"]}
{"id": "C49", "title": "The Python dense interface loads the matrix the caller means", "statement": "Passing the transposed matrices (as in the shipped examples) loads exactly the untransposed L, R, A into the solver.", "quantifier": "all sizes and contents", "why_tests_cant": "index arithmetic over all sizes", "anchors": ["interfaces/python/lcqpow/LCQProblem.cpp: loadLCQP"]}
{"id": "C50", "title": "All return codes are available to Python under their C++ name", "statement": "Every ReturnValue enumerator is exported by the Python module under exactly its C++ name and value.", "quantifier": "all enumerators", "why_tests_cant": "finite, but checked by no test", "anchors": ["interfaces/python/lcqpow/Utilities.cpp: ReturnValue", "include/Utilities.hpp: ReturnValue"]}
{"id": "C51", "title": "Reporting an error does not change it", "statement": "MessageHandler::PrintMessage returns the code it was given and has a message for every error code.", "quantifier": "all return values", "why_tests_cant": "finite, complete enumeration needed", "anchors": ["src/MessageHandler.cpp: PrintMessage"]}
{"id": "C52", "title": "Solution getters are safe at any time", "statement": "getPrimalSolution, getDualSolution and getNumberOfDuals called on a validly constructed object before any run return PROBLEM_NOT_SOLVED (resp. a defined number) and write nothing uninitialised.", "quantifier": "all call histories", "why_tests_cant": "uninitialised members", "anchors": ["src/LCQProblem.cpp: getPrimalSolution", "src/LCQProblem.cpp: getDualSolution", "src/LCQProblem.cpp: getNumberOfDuals"]}
{"id": "C53", "title": "Switching between dense and sparse mode preserves the problem", "statement": "switchToSparseMode followed by switchToDenseMode restores exactly the loaded matrices; switching to the current mode changes nothing; a failed switch leaves the object usable in its old mode.", "quantifier": "all loaded problems", "why_tests_cant": "round trip over all matrices; failure atomicity", "anchors": ["src/LCQProblem.cpp: switchToSparseMode", "src/LCQProblem.cpp: switchToDenseMode"]}
{"id": "C54", "title": "Dense and sparse mode solve the problem identically", "statement": "In exact arithmetic and for symmetric Q, a run on densely loaded data and a run on the same data in sparse mode issue QP subproblems with the same linear terms and bounds, and given the same QP answers they return the same code, iterates and statistics.", "quantifier": "all problems, options, QP answers", "why_tests_cant": "relational property over whole runs", "anchors": ["src/LCQProblem.cpp: runSolver", "src/LCQProblem.cpp: setQk", "src/LCQProblem.cpp: updateQk", "src/Utilities.cpp: csc kernels"]}
{"id": "C55", "title": "Counters cannot overflow silently", "statement": "No iteration counter or iteration sum wraps around during a run.", "quantifier": "all option values accepted by setMaxIterations, all iteration counts reported by the QP solver", "why_tests_cant": "needs runs longer than any test", "anchors": ["src/LCQProblem.cpp: updateTotalIter", "src/OutputStatistics.cpp: updateIterTotal", "src/OutputStatistics.cpp: updateSubproblemIter"]}
{"id": "C56", "title": "The object's memory is owned and released exactly once", "statement": "Over any sequence of loads, runs and mode switches ending in destruction, every allocated block is freed exactly once.", "quantifier": "all call sequences", "why_tests_cant": "histories; leaks and double frees are invisible to functional tests", "anchors": ["src/LCQProblem.cpp: clear", "src/LCQProblem.cpp: loadLCQP", "src/LCQProblem.cpp: switchToSparseMode", "src/SubsolverQPOASES.cpp: clear"]}
{"id": "C57", "title": "QP solver results are classified correctly", "statement": "The qpOASES wrapper reports success exactly for return value 0; the OSQP wrapper reports success exactly if OSQP returned no error and status 'solved' or 'solved inaccurate', negates the duals to the qpOASES convention, and both report the iteration count of the call.", "quantifier": "all solver return codes and statuses", "why_tests_cant": "all integer codes", "anchors": ["src/SubsolverQPOASES.cpp: solve", "src/SubsolverOSQP.cpp: solve, getSolution"]}
{"id": "C58", "title": "A MATLAB call solves the problem the caller passed", "statement": "Calling LCQPow(Q,g,L,R,lbL,ubL,lbR,ubR,A,lbA,ubA,lb,ub[,params]) loads into the solver exactly the matrices and vectors of the call (rows and columns not mixed up, [] meaning absent).", "quantifier": "all sizes and contents", "why_tests_cant": "index arithmetic over all sizes, all combinations of absent arguments", "anchors": ["interfaces/matlab/LCQPow.cpp: mexFunction", "interfaces/matlab/LCQPow.cpp: LCQPDense", "interfaces/matlab/LCQPow.cpp: readVectors"]}
{"id": "C59", "title": "Every MATLAB parameter reaches the option of the same name", "statement": "A field of the params struct has the effect of calling the setter of the same name with that value, and no other; x0 and y0 are used as initial guesses.", "quantifier": "all params structs", "why_tests_cant": "all subsets of fields and all values", "anchors": ["interfaces/matlab/LCQPow.cpp: mexFunction, params_fieldnames"]}
{"id": "C60", "title": "The MATLAB interface never reads memory it should not", "statement": "For every list of arguments the call ends with an error message or with outputs made of the solver's results: it reads no memory beyond an argument's end and returns no uninitialised memory.", "quantifier": "all argument lists, all QP answers", "why_tests_cant": "all malformed calls and failing runs", "anchors": ["interfaces/matlab/LCQPow.cpp: mexFunction", "interfaces/matlab/LCQPow.cpp: checkDimensionAndTypeDouble"]}
{"id": "C61", "title": "Loading from files loads the arrays in the files", "statement": "loadLCQP called with file names has exactly the effect of loadLCQP called with the arrays the files contain; if a file cannot be read, the call returns UNABLE_TO_READ_FILE, says so, and loads nothing; a file with too few numbers is rejected.", "quantifier": "all problems and file contents", "why_tests_cant": "all sizes, all combinations of absent, short and malformed files", "anchors": ["src/LCQProblem.cpp: loadLCQP (file names)", "src/Utilities.cpp: readFromFile"]}
{"id": "C62", "title": "The Python interface adds nothing to the C++ one", "statement": "loadLCQP with sparse matrices from Python has exactly the effect of the C++ call with the same matrices and vectors (an empty array meaning absent); the Python getters return exactly the vectors the C++ getters write.", "quantifier": "all problems and objects", "why_tests_cant": "all sizes and combinations of absent vectors", "anchors": ["interfaces/python/lcqpow/LCQProblem.cpp: loadLCQP", "interfaces/python/lcqpow/LCQProblem.cpp: getPrimalSolution", "interfaces/python/lcqpow/LCQProblem.cpp: getDualSolution"]}
{"id": "C63", "title": "The penalty parameter is raised exactly by the documented rule", "statement": "In a run with stored steps the number of penalty updates, the recorded inner iteration counts and the pass at which the run stops are those obtained from the recorded complementarity and stationarity values by the rule: raise the penalty at a stationary point that is not complementary, and, if the dynamic strategy is on, when the complementarity value is not below eta times any of the last nDynamicPenalty values since the last update; a run succeeds exactly at the first pass that is both stationary and complementary. This holds for the first run of an object and for every later run.", "quantifier": "all problems, options, QP answers and numbers of passes", "why_tests_cant": "the rule depends on a sliding window over an unbounded run; later runs depend on the object's past", "anchors": ["src/LCQProblem.cpp: runSolver", "src/LCQProblem.cpp: leyfferCheckPositive", "src/LCQProblem.cpp: updatePenalty", "src/LCQProblem.cpp: initializeSolver"]}
{"id": "C64", "title": "What is printed is determined by the print level and the result", "statement": "A load prints nothing if it succeeds and exactly the message of its return value if it fails. A run prints, at the chosen level, one line per pass (or per first pass after a penalty update) whose columns are the recorded statistics, a header at every tenth iterate, and then the kind of solution or the message of its return value; at level NONE a successful run prints nothing; every failed run prints its message.", "quantifier": "all calls, objects, problems, options, QP answers", "why_tests_cant": "the text of every run and every failing call must be determined", "anchors": ["src/LCQProblem.cpp: printIteration", "src/LCQProblem.cpp: runSolver", "src/LCQProblem.cpp: loadLCQP", "src/MessageHandler.cpp: PrintMessage", "src/MessageHandler.cpp: PrintSolution"]}
{"id": "C65", "title": "The MATLAB struct of default options stands for the default options", "statement": "Passing the struct returned by LCQPow_options.m as params has the same effect as passing no params.", "quantifier": "all problems", "why_tests_cant": "no test passes the struct; its values must be compared with the defaults of the library for every option", "anchors": ["interfaces/matlab/LCQPow_options.m", "src/Options.cpp: Options::setToDefault", "interfaces/matlab/LCQPow.cpp: mexFunction"]}
{"id": "C66", "title": "Output options do not influence results", "statement": "The options printLevel and storeSteps only decide what is printed and recorded. Two uses of an object that differ only in these options, in any sequence of setOptions, loads, mode switches and runs, return the same values at every call, end with the same solutions, counters, status and exit flag, and pose the same QPs to the QP solver. Switching all output off never introduces undefined behaviour.", "quantifier": "all sequences of calls, all data, all option values, all answers of the QP solver and of rand()", "why_tests_cant": "it compares two executions, for every history of the object; a test compares single pairs of runs", "anchors": ["src/LCQProblem.cpp: LCQProblem::runSolver, printIteration, storeSteps, printHeader, perturbGradient", "include/LCQProblem.ipp"]}
{"id": "C67", "title": "Recorded step sizes and stationarity values are those of the passes", "statement": "With storeSteps on, the step size recorded for a pass is the largest absolute component of the step from the iterate before the pass (the initial guess for the first pass) to the solution of the QP of that pass. The recorded stationarity value is the largest absolute component of the gradient of the Lagrangian of the penalised problem at the iterate after the pass, with the multipliers returned for the QP and the current penalty parameter.", "quantifier": "all problems, options, runs, passes and QP answers (rational data, exact arithmetic)", "why_tests_cant": "the values depend on every answer of the QP solver; tests only look at the final iterate", "anchors": ["src/LCQProblem.cpp: LCQProblem::storeSteps, updateStep, updateStationarity, stationarityCheck", "src/Utilities.cpp: MaxAbs"]}
{"id": "C68", "title": "Scalar helpers", "statement": "getMax and getMin return one of their arguments, at least (at most) as large as both; isEqual holds exactly when the arguments differ by at most the tolerance; isZero holds exactly for magnitudes up to the documented 1e-25.", "quantifier": "all numbers; max and min for all doubles other than NaN and all exact numbers, isEqual and isZero for all rational numbers", "why_tests_cant": "statements about all numbers, including infinities and signed zeros", "anchors": ["src/Utilities.cpp: getMax, getMin, isEqual, isZero, getAbs"]}
{"id": "C69", "title": "Bounds set by index", "statement": "After the box bounds were set as a vector (or to their default), setting one bound by index (setLB, setUB, for derived classes) changes this bound and nothing else, and an index outside 0..nV-1 is reported and changes nothing.", "quantifier": "all objects, dimensions, bounds, indices and values", "why_tests_cant": "all dimensions and indices; members are protected and not exercised by the tests", "anchors": ["include/LCQProblem.ipp: LCQProblem::setLB, setUB"]}
{"id": "C70", "title": "Numbers of variables and solution vectors", "statement": "getNumberOfPrimals always returns the nV of construction; after a run getNumberOfDuals returns the number of duals of the QP solver selected for the latest run (nV+nC+2*nComp for qpOASES, nC+2*nComp for OSQP); getPrimalSolution and getDualSolution write exactly that many entries of the caller's array and nothing else.", "quantifier": "all dimensions, call histories and return values, QP solver answers and caller arrays", "why_tests_cant": "all call histories on one object, including refused runs and changes of the QP solver", "anchors": ["src/LCQProblem.cpp: initializeSolver, getPrimalSolution, getDualSolution, getNumberOfPrimals, getNumberOfDuals"]}
{"id": "C71", "title": "QP solver options passed from MATLAB", "statement": "A field of params.qpOASES_options or params.OSQP_options sets the option of the same name of that QP solver to its value and nothing else; options that are not given keep LCQPow's defaults; the caller is warned about every field that has no effect.", "quantifier": "all structs, values and library defaults", "why_tests_cant": "all structs, including wrong types and partial ones; the tests do not run MATLAB", "anchors": ["interfaces/matlab/LCQPow.cpp: hasOptionsValue, setupqpOASESOptions, setupOSQPOptions", "src/Options.cpp: setToDefault, setqpOASESOptions, setOSQPOptions"]}
{"id": "C72", "title": "A refused load changes nothing", "statement": "If loadLCQP returns an error, the object is as it was before the call: solutions, statistics, options and mode are the same, a message is printed, and the problem loaded before is still the one the next run solves.", "quantifier": "all objects with any past and all arguments of the call, dense, sparse and files", "why_tests_cant": "all combinations of missing and invalid arguments on objects in any state; the tests only check the return value", "anchors": ["src/LCQProblem.cpp: loadLCQP, setConstraints, setComplementarityBounds", "include/LCQProblem.ipp: setG, setInitialGuess"]}
{"id": "C73", "title": "The two sides of complementarity play the same role", "statement": "Exchanging L, lbL, ubL with R, lbR, ubR (and the two blocks of the dual guess) changes nothing but the order of the multipliers: same return value, statistics, status and primal solution, and the multipliers reported for L and R change places, provided the QP solver does not care about the order of constraints.", "quantifier": "all accepted problems of any size, all options, all three QP solvers, all answers of the QP library", "why_tests_cant": "the claim compares two runs over every problem and every answer of the QP library; tests compare single runs with known solutions", "anchors": ["src/LCQProblem.cpp: setConstraints, initializeSolver, determineStationarityType, transformDuals, getWeakComplementarities", "src/Utilities.cpp: MatrixSymmetrizationProduct"]}
{"id": "C74", "title": "The order of constraints and complementarity pairs does not matter", "statement": "Listing the linear constraints in another order, listing the complementarity pairs in another order and exchanging the sides of some pairs changes nothing but the order of the multipliers: same return value, statistics, status and primal solution, and every multiplier is reported at the new place of its constraint, provided the QP solver does not care about the order of constraints.", "quantifier": "all accepted problems of any size, all permutations, all options, all three QP solvers, all answers of the QP library", "why_tests_cant": "the claim compares two runs over every problem, every permutation and every answer of the QP library; tests compare single runs with known solutions", "anchors": ["src/LCQProblem.cpp: setConstraints, initializeSolver, determineStationarityType, transformDuals, getWeakComplementarities, updatePenalty", "src/Utilities.cpp: MatrixSymmetrizationProduct, TransponsedMatrixMultiplication, MatrixMultiplication"]}
{"id": "C75", "title": "The order of the variables does not matter", "statement": "Numbering the variables in another way, consistently in the objective, the constraint matrices, the bounds and the guesses, changes nothing but the order of the results: same return value, status and statistics, and the solution, the stored iterates and the box multipliers come out in the new order while the other multipliers stay the same, provided the QP solver does not care about the order of variables.", "quantifier": "all accepted problems of any size, all permutations, all options, all three QP solvers, all answers of the QP library", "why_tests_cant": "the claim compares two runs over every problem, every permutation and every answer of the QP library; tests compare single runs with known solutions", "anchors": ["src/LCQProblem.cpp: setConstraints, initializeSolver, setQk, updateQk, perturbGradient, stationarityCheck, getOptimalStepLength, storeSteps", "src/Utilities.cpp: MatrixSymmetrizationProduct, AffineLinearTransformation, QuadraticFormProduct, TransponsedMatrixMultiplication, MatrixMultiplication, MaxAbs"]}
{"id": "C76", "title": "Leaving out an optional argument means its documented default", "statement": "Passing NULL for an optional argument of loadLCQP has the same effect as passing its documented default in full: +infinity for upper bounds, -infinity for lbA and lb, zero for lbL, lbR and x0. The whole run is the same: return value, QPs handed to the library, statistics, status, solution and multipliers.", "quantifier": "all accepted problems of any size, every combination of arguments left out, all options, all three QP solvers, all answers of the QP library", "why_tests_cant": "2^9 combinations of omitted arguments times all data; a test compares two runs on one problem", "anchors": ["src/LCQProblem.cpp: loadLCQP, setConstraints, setComplementarityBounds, setLB, setUB, setInitialGuess, updateLinearization", "src/Subsolver.cpp", "include/LCQProblem.hpp:73-83,152-162"]}
{"id": "C77", "title": "An OutputStatistics object shows exactly what was recorded in it since the last reset", "statement": "After any sequence of calls of reset, updateIterTotal, updateIterOuter, updateSubproblemIter, updateRhoOpt, updateSolutionStatus, updateQPSolverExitFlag and updateTrackingVectors on a new OutputStatistics object, every getter shows exactly what was recorded since the last reset: counts are the sums of the non-negative increments, the penalty parameter, the status and the exit flag are the accepted values given last, and every list has one entry per recorded step, oldest first, the accumulated iterations being running sums. Negative counts and penalty parameters that are not positive are refused with their code and change nothing. The array getters deliver the same numbers as the vector getters, NULL for an empty list. Assignment shows the same. The Python methods show the values of the C++ getters of the same name.", "quantifier": "all call sequences of any length, all arguments, every arithmetic (sums of counts within int)", "why_tests_cant": "Tests make a few calls; the claim is about every sequence of calls.", "anchors": ["src/OutputStatistics.cpp:28-375", "include/OutputStatistics.hpp:40-226", "interfaces/python/lcqpow/OutputStatistics.cpp:15-31"]}
{"id": "C78", "title": "Raising maxIterations or maxPenaltyParameter does not change what a run does before it meets them", "statement": "If runSolver is called with higher values of maxIterations and maxPenaltyParameter and otherwise the same options and the same object, then a run that did not end at a raised limit is exactly the same run: same return value, same QP calls, same statistics, solution and printed text. A run that did end at a raised limit goes on: its QP calls, in order, and every list of recorded steps are the first part of those of the run with higher limits, and the counts are not smaller.", "quantifier": "all problems, all object states, dense and sparse, all three QP solvers with arbitrary answers, all limits, every arithmetic including doubles", "why_tests_cant": "Tests compare a few runs at a few limits; the claim compares every pair of runs.", "anchors": ["src/LCQProblem.cpp:444-560", "include/Options.hpp:30-330", "include/LCQProblem.ipp:161-164"]}
{"id": "C79", "title": "A run stops at the first step that meets both tolerances", "statement": "With storeSteps on, the statistics of a run hold one stationarity value and one complementarity value per step. A step has both values below stationarityTolerance and complementarityTolerance exactly when runSolver returned SUCCESSFUL_RETURN and the step is the last one. So a run never goes past a step that meets both tolerances, no run that ends with another return value has such a step, and a successful run has exactly one.", "quantifier": "all problems, all object states, dense and sparse, all three QP solvers with arbitrary answers, all options, every arithmetic including doubles", "why_tests_cant": "Tests look at the last step of a few runs; the claim is about every step of every run.", "anchors": ["src/LCQProblem.cpp:444-560", "src/LCQProblem.cpp:1366-1380", "src/OutputStatistics.cpp:131-160"]}
{"id": "C80", "title": "Without the dynamic penalty, a smaller complementarityTolerance only makes a run go on", "statement": "If nDynamicPenalty is zero and runSolver is called with a smaller complementarityTolerance and otherwise the same options and the same object, then a run that was not successful is exactly the same run. A successful run goes on: its QP calls, in order, and every list of recorded steps are the first part of those of the run with the smaller tolerance. So a run that is successful with the smaller tolerance is successful with the larger one. With nDynamicPenalty positive this is false: the tolerance also decides when the penalty parameter is raised early.", "quantifier": "all problems, all object states, dense and sparse, all three QP solvers with arbitrary answers, all tolerances, every arithmetic including doubles", "why_tests_cant": "Tests compare a few runs at a few tolerances; the claim compares every pair of runs.", "anchors": ["src/LCQProblem.cpp:444-560", "src/LCQProblem.cpp:1156-1158", "src/LCQProblem.cpp:1275-1313"]}
{"id": "C81", "title": "With nDynamicPenalty zero, etaDynamicPenalty has no effect", "statement": "If nDynamicPenalty is zero, runSolver gives the same return value, makes the same QP calls and leaves the same solution, statistics and printed text whatever the value of etaDynamicPenalty. With nDynamicPenalty positive the value does matter.", "quantifier": "all problems, all object states, dense and sparse, all three QP solvers with arbitrary answers, all values of etaDynamicPenalty, every arithmetic including doubles", "why_tests_cant": "Tests try one or two values of etaDynamicPenalty; the claim compares every pair of values.", "anchors": ["src/LCQProblem.cpp:1275-1313", "src/LCQProblem.cpp:444-560"]}
{"id": "C82", "title": "A run solves one QP per reported iteration", "statement": "The number of QPs that a run of runSolver passes to the QP solver equals the total number of iterations in the statistics if the run ended with success or at the iteration or penalty limit. If it ended because a QP failed, it is one more: the failed QP.", "quantifier": "all problems, all object states (first and later runs), dense and sparse, all three QP solvers with arbitrary answers, all options, every arithmetic including doubles", "why_tests_cant": "Tests count the QPs of a few runs, if at all; the claim is about every run.", "anchors": ["src/LCQProblem.cpp:444-560", "src/LCQProblem.cpp:1115-1150", "src/OutputStatistics.cpp:81-87"]}
{"id": "C83", "title": "The QPs of a run go to the chosen solver and differ in the gradient only", "statement": "Every QP that a run passes on goes to the QP solver chosen in the options at the time of the run, whatever solver the object used before. All QPs of a run have the same Hessian, constraint matrix, constraint bounds and box bounds; only the gradient differs. Exactly the first QP of a run is an initial solve; all others are hotstarts without a primal or dual guess.", "quantifier": "all problems, all object states (first and later runs), dense and sparse, all three QP solvers with arbitrary answers, all options, every arithmetic including doubles", "why_tests_cant": "Tests do not look at the calls to the QP solver; the claim is about every call of every run.", "anchors": ["src/LCQProblem.cpp:444-560", "src/LCQProblem.cpp:885-965", "src/LCQProblem.cpp:1115-1150", "src/Subsolver.cpp:94-110"]}
{"id": "C84", "title": "An nDynamicPenalty that is negative or larger than maxIterations switches the dynamic penalty off", "statement": "A run with nDynamicPenalty negative or larger than maxIterations, on an object without values left over from an earlier run, gives the same return value, the same solution, duals and statistics, the same QP calls, random draws and printed text as the run with nDynamicPenalty zero. The bound is sharp: nDynamicPenalty equal to maxIterations can change a run.", "quantifier": "all problems, all options, dense and sparse, all QP solvers with arbitrary answers, every arithmetic including doubles, all ints as nDynamicPenalty", "why_tests_cant": "A negative int becomes a huge size_t in the code; that no number of iterations can reach it is a claim about all runs.", "anchors": ["src/LCQProblem.cpp:1275-1313", "src/LCQProblem.cpp:1198-1215", "src/LCQProblem.cpp:444-560", "src/Options.cpp:190-193"]}
