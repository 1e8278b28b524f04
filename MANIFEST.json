{
 "claims": [
  {
   "property": "C01",
   "status": "proved",
   "theorems": [
    "C01_terminates"
   ],
   "note": "any arithmetic, any QP answers"
  },
  {
   "property": "C02",
   "status": "proved",
   "theorems": [
    "C02_success_tests"
   ],
   "note": "any arithmetic; the residual is the state's stationarity vector, tied to the user's data by C04"
  },
  {
   "property": "C03",
   "status": "proved",
   "theorems": [
    "C03_complementarity"
   ],
   "note": "exact arithmetic, dense and sparse, any rational QP answers"
  },
  {
   "property": "C04",
   "status": "partial",
   "theorems": [
    "C04_no_shift",
    "C04_partial",
    "C04_bounds_refuted"
   ],
   "note": "proved in full when lbL, lbR do not shift the penalty gradient; otherwise the exact deviation rho*g_phi is proved (the claim is false then)"
  },
  {
   "property": "C05",
   "status": "partial",
   "theorems": [
    "C05_stale_status_refuted",
    "C05_status_partial"
   ],
   "note": "runs that reach the QP solver; false for runs failing before (refuted)"
  },
  {
   "property": "C06",
   "status": "proved",
   "theorems": [
    "C06_iteration_limit"
   ],
   "note": ""
  },
  {
   "property": "C07",
   "status": "proved",
   "theorems": [
    "C07_penalty_law",
    "C07_penalty_law_any",
    "C07_qp_penalty"
   ],
   "note": "law and bounds in exact arithmetic; law also in any arithmetic"
  },
  {
   "property": "C08",
   "status": "partial",
   "theorems": [
    "C08_osqp_setup_refuted",
    "C08_qp_failure_partial"
   ],
   "note": "all failures the solver reports; OSQP setup failures make the code read an uninitialised value (refuted)"
  },
  {
   "property": "C09",
   "status": "partial",
   "theorems": [
    "C09_stale_count_refuted",
    "C09_iterations_partial"
   ],
   "note": "as C08"
  },
  {
   "property": "C10",
   "status": "proved",
   "theorems": [
    "C10_tracking",
    "C10_getters_null"
   ],
   "note": ""
  },
  {
   "property": "C11",
   "status": "proved",
   "theorems": [
    "C11_dynamic_rule",
    "C11_values_exist",
    "C11_dynamic_off"
   ],
   "note": "fresh object (empty history); stale history after a second run is part of C25/C26"
  },
  {
   "property": "C12",
   "status": "partial",
   "theorems": [
    "C12_partial",
    "C12_boundary_refuted"
   ],
   "note": "for the multipliers of the penalised problem; pairs of negative multipliers with product exactly tol excluded (false there)"
  },
  {
   "property": "C13",
   "status": "partial",
   "theorems": [
    "C13_refuted",
    "C13_bounds_refuted"
   ],
   "note": "see C12_partial; the claim itself is false"
  },
  {
   "property": "C14",
   "status": "proved",
   "theorems": [
    "C14_feasible"
   ],
   "note": "exact arithmetic; after a failed first QP the initial guess is returned"
  },
  {
   "property": "C15",
   "status": "proved",
   "theorems": [
    "C15_perturbation",
    "C15_gradient",
    "C15_no_perturbation"
   ],
   "note": "first half in exact arithmetic, second half in any arithmetic"
  },
  {
   "property": "C16",
   "status": "partial",
   "theorems": [
    "C16_passes_recorded",
    "C16_partial",
    "C16_bounds_refuted"
   ],
   "note": "before the first penalty update only if lbL, lbR do not shift the penalty gradient (false otherwise)"
  },
  {
   "property": "C17",
   "status": "partial",
   "theorems": [
    "C17_partial",
    "C17_bounds_refuted"
   ],
   "note": "as C16"
  },
  {
   "property": "C18",
   "status": "partial",
   "theorems": [
    "C18_partial",
    "C18_bounds_refuted"
   ],
   "note": "as C16; matrices and bounds are C19/C20"
  },
  {
   "property": "C19",
   "status": "proved",
   "theorems": [
    "C19_dense_system"
   ],
   "note": "any arithmetic, any QP answers"
  },
  {
   "property": "C20",
   "status": "proved",
   "theorems": [
    "C20_sparse_system",
    "C20_stacked_entries"
   ],
   "note": "any arithmetic; L'R + R'L must have a stored entry (otherwise loading fails, C22_sparse_zero_product)"
  },
  {
   "property": "C21",
   "status": "partial",
   "theorems": [
    "C21_dense_partial",
    "C21_dense_refuted",
    "C21_sparse_partial",
    "C21_sparse_refuted"
   ],
   "note": "proved for missing g (dense, sparse) and missing dense A with nC>0; refuted for Q, L, R (NULL dereference for every problem) and sparse A (accepted)"
  },
  {
   "property": "C22",
   "status": "proved",
   "theorems": [
    "C22_dense",
    "C22_sparse",
    "C22_f64",
    "C22_sparse_zero_product"
   ],
   "note": "dense, sparse; IEEE reading in C22_f64"
  },
  {
   "property": "C23",
   "status": "partial",
   "theorems": [
    "C23_refuted"
   ],
   "note": "false for every invalid dimension triple (uninitialised read); C23_refuted is universal"
  },
  {
   "property": "C24",
   "status": "partial",
   "theorems": [
    "C24_dense_refuted",
    "C24_sparse_refuted"
   ],
   "note": "false: every such run dereferences NULL (proved for all data)"
  },
  {
   "property": "C25",
   "status": "partial",
   "theorems": [
    "C25_bounds_refuted",
    "C25_history_refuted",
    "C25_partial",
    "C25_boxes",
    "C25_sparse_partial",
    "C25_sparse_boxes"
   ],
   "note": "False in general: lower complementarity bounds and the complementarity history of earlier uses survive a load (C25_bounds_refuted, C25_history_refuted). C25_partial and C25_sparse_partial: for every history of option changes, dense and sparse loads and dense runs, loading dense data (or sparse data, with sparse qpOASES) and running equals a fresh object's run, under conditions that exclude exactly these leftovers. C25_boxes and C25_sparse_boxes say which box bounds are left over. Missing: histories with sparse runs (C27), OSQP."
  },
  {
   "property": "C26",
   "status": "partial",
   "theorems": [
    "C26_data_dense",
    "C26_data_sparse",
    "C26_boxes_given",
    "C26_boxes_lost",
    "C26_refuted",
    "C26_partial",
    "C26_continues"
   ],
   "note": "False for box bounds, which the first run consumes (C26_refuted); C26_boxes_given, C26_boxes_lost: exactly when they are in force, for any past. C26_data_dense, C26_data_sparse: after a successful load of dense or sparse data into an object with any past (loads of all kinds, mode changes, runs), every QP of every later run has the Hessian, constraint matrix and constraint bounds of that data. C26_partial: the same with the box bounds given since the previous run, in histories of loads and dense runs. C26_continues: a second dense run is the run of a new object without box bounds started at the solution found. Missing: data loaded from files; a load that gives only one of lb and ub; C26_continues for sparse data (see C27)."
  },
  {
   "property": "C27",
   "status": "partial",
   "theorems": [
    "C27_never_again",
    "C27_refuted"
   ],
   "note": "false: a second sparse run writes out of bounds; for any history a later sparse run never raises the penalty (C27_never_again)"
  },
  {
   "property": "C28",
   "status": "partial",
   "theorems": [
    "C28_dense_guess_partial",
    "C28_sparse_guess_partial",
    "C28_osqp_refuted"
   ],
   "note": "qpOASES; false for OSQP"
  },
  {
   "property": "C29",
   "status": "partial",
   "theorems": [
    "C29_accepted_partial",
    "C29_box_rejected",
    "C29_qpoases_rejects",
    "C29_refuted"
   ],
   "note": "false after a qpOASES run: then every later OSQP run is rejected (C29_qpoases_rejects, any history); true for all histories without one (C29_accepted_partial)"
  },
  {
   "property": "C30",
   "status": "partial",
   "theorems": [
    "C30_dense_no_ub_partial"
   ],
   "note": "paired lbL/lbR (else C24), QP iteration counts and maxIterations small enough that the counters fit"
  },
  {
   "property": "C31",
   "status": "partial",
   "theorems": [
    "C31_sparse_no_ub_partial"
   ],
   "note": "as C30; OSQP: no box bounds, no dual guess, setup succeeds"
  },
  {
   "property": "C32",
   "status": "proved",
   "theorems": [
    "C32_mismatch"
   ],
   "note": ""
  },
  {
   "property": "C33",
   "status": "proved",
   "theorems": [
    "C33_matrix_product",
    "C33_transposed_product",
    "C33_add_transposed_product",
    "C33_affine",
    "C33_weighted_add",
    "C33_quadratic_form",
    "C33_dot_product",
    "C33_matrix_product_exact",
    "C33_transposed_product_exact",
    "C33_add_transposed_product_exact",
    "C33_affine_exact",
    "C33_quadratic_form_exact",
    "C33_dot_product_exact"
   ],
   "note": "any arithmetic (left-to-right sums) and exact"
  },
  {
   "property": "C34",
   "status": "proved",
   "theorems": [
    "C34_recorded",
    "C34_symmetrised_product"
   ],
   "note": "exact arithmetic"
  },
  {
   "property": "C35",
   "status": "proved",
   "theorems": [
    "C35_matrix_vector",
    "C35_transposed",
    "C35_add_transposed",
    "C35_quadratic_form",
    "C35_affine_symmetric",
    "C35_affine_unsymmetric_refuted"
   ],
   "note": "exact arithmetic; the affine kernel for symmetric matrices, as stated; refuted for unsymmetric ones"
  },
  {
   "property": "C36",
   "status": "proved",
   "theorems": [
    "C36_sparse_symmetrised_product",
    "C36_unsorted_refuted"
   ],
   "note": "sorted columns; unsorted columns give wrong results (refuted)"
  },
  {
   "property": "C37",
   "status": "partial",
   "theorems": [
    "C37_to_dense_partial",
    "C37_overflow_refuted"
   ],
   "note": "row indices whose product with n fits an int; otherwise signed overflow (refuted)"
  },
  {
   "property": "C38",
   "status": "partial",
   "theorems": [
    "C38_to_sparse",
    "C38_round_trip",
    "C38_nan_refuted"
   ],
   "note": "everything except NaN entries, which are lost (refuted)"
  },
  {
   "property": "C39",
   "status": "proved",
   "theorems": [
    "C39_merit_hessian"
   ],
   "note": "merit value; step length through C16_partial, stationarity through C67_stationarity_partial"
  },
  {
   "property": "C40",
   "status": "proved",
   "theorems": [
    "C40_upper_triangle"
   ],
   "note": ""
  },
  {
   "property": "C41",
   "status": "partial",
   "theorems": [
    "C41_max_abs_partial",
    "C41_nan_refuted",
    "C41_doubles_partial"
   ],
   "note": "vectors without NaN; refuted for NaN"
  },
  {
   "property": "C42",
   "status": "partial",
   "theorems": [
    "C42_effect",
    "C42_exact_partial",
    "C42_double_partial",
    "C42_defaults",
    "C42_refuted"
   ],
   "note": "effect of each call for any arithmetic; domain and acceptance for exact numbers and doubles other than NaN; refuted for NaN arguments; default values are accepted and unchanged by their setters"
  },
  {
   "property": "C43",
   "status": "partial",
   "theorems": [
    "C43_partial",
    "C43_independent_partial",
    "C43_refuted"
   ],
   "note": "every program with Options objects that uses live objects only; refuted for setOSQPOptions(getOSQPOptions()) of the same object"
  },
  {
   "property": "C44",
   "status": "partial",
   "theorems": [
    "C44_stale_refuted",
    "C44_fresh_statistics_partial"
   ],
   "note": "runs that pass initialisation"
  },
  {
   "property": "C45",
   "status": "partial",
   "theorems": [
    "C45_partial",
    "C45_refuted",
    "C45_int_refuted"
   ],
   "note": "enough numbers, non-numeric token, missing file (double); refuted for truncated files and for missing files of integers"
  },
  {
   "property": "C46",
   "status": "partial",
   "theorems": [
    "C46_partial",
    "C46_decimal_partial",
    "C46_refuted"
   ],
   "note": "up to half a unit of the sixth decimal in exact arithmetic, equality for multiples of 1e-6; refuted in general"
  },
  {
   "property": "C47",
   "status": "partial",
   "theorems": [
    "C47_partial",
    "C47_refuted",
    "C47_stored_refuted"
   ],
   "note": "calls that do not store steps; refuted if steps are stored"
  },
  {
   "property": "C48",
   "status": "proved",
   "theorems": [
    "C48"
   ],
   "note": "any arithmetic"
  },
  {
   "property": "C49",
   "status": "proved",
   "theorems": [
    "C49",
    "C49_symmetric"
   ],
   "note": "any arithmetic; Q arrives transposed, L, R, A as the caller means them"
  },
  {
   "property": "C50",
   "status": "partial",
   "theorems": [
    "C50_partial",
    "C50_refuted"
   ],
   "note": "all but six codes; refuted for these"
  },
  {
   "property": "C51",
   "status": "proved",
   "theorems": [
    "C51",
    "C51_solution"
   ],
   "note": "texts are also pairwise different"
  },
  {
   "property": "C52",
   "status": "partial",
   "theorems": [
    "C52_refuted",
    "C52_dense_partial",
    "C52_sparse_partial"
   ],
   "note": "false before the first run (universal); proved after a run: primal always, dual after success"
  },
  {
   "property": "C53",
   "status": "partial",
   "theorems": [
    "C53_idle",
    "C53_round_trip",
    "C53_loaded",
    "C53_formats",
    "C53_failure",
    "C53_nan_refuted"
   ],
   "note": "Idle switches, failed switches (no later run can tell) and round trips for any object and arithmetic when every entry is zero or compares with zero; every rational dense problem; both formats give the same object after a switch. A NaN or -0 entry is lost (C53_nan_refuted)."
  },
  {
   "property": "C54",
   "status": "partial",
   "theorems": [
    "C54_partial",
    "C54_osqp_partial"
   ],
   "note": "Dense against sparse qpOASES (C54_partial): exact arithmetic, rational QP answers, symmetric Q, no entries of C in (0,1e-25], lbL and lbR both given or both absent. Sparse qpOASES against OSQP (C54_osqp_partial): exact arithmetic, no box, no dual guess; the exit flag of the QP library is excepted. Missing: doubles, OSQP with a dual guess."
  },
  {
   "property": "C55",
   "status": "partial",
   "theorems": [
    "C55_refuted",
    "C55_limit_refuted",
    "C55_dense_partial",
    "C55_sparse_partial"
   ],
   "note": "proved when counts are small enough; false in general; limit INT_MAX is never reported"
  },
  {
   "property": "C56",
   "status": "partial",
   "theorems": [
    "C56_partial",
    "C56_safe_partial",
    "C56_run_keeps",
    "C56_refuted",
    "C56_safe_refuted",
    "C56_assign_refuted",
    "C56_copy_refuted",
    "C56_reload",
    "C56_rerun",
    "C56_sparse_qpoases",
    "C56_files",
    "C56_empty_product",
    "C56_failed_switch"
   ],
   "note": "Proved for an object that is loaded once and run at most once (not with sparse qpOASES), with any number of refused runs and successful mode switches. Absence of double frees and uses after free: for every history in which OSQP does not reject data after accepting earlier ones. The full property is false: C56_refuted, C56_safe_refuted, C56_assign_refuted, and for every copied object C56_copy_refuted; the leaks are characterised for all histories by C56_reload, C56_rerun, C56_sparse_qpoases, C56_files, C56_empty_product, C56_failed_switch."
  },
  {
   "property": "C57",
   "status": "partial",
   "theorems": [
    "C57_qpOASES",
    "C57_OSQP_partial",
    "C57_solution",
    "C57_inaccurate_refuted"
   ],
   "note": "qpOASES and dual signs proved; OSQP proved except statuses 3,4, which are wrongly accepted (refuted)"
  },
  {
   "property": "C58",
   "status": "partial",
   "theorems": [
    "C58_partial",
    "C58_forms",
    "C58_transposed",
    "C58_sparse"
   ],
   "note": "all four argument lists, with and without params, dense (symmetric Q; otherwise Q arrives transposed, C58_transposed) and sparse matrices; bound vectors are full arrays"
  },
  {
   "property": "C59",
   "status": "partial",
   "theorems": [
    "C59_partial",
    "C59_refuted",
    "C59_forms",
    "C59_sparse"
   ],
   "note": "all four argument lists, dense and sparse; refuted for a maxPenaltyParameter that is no integer; option structs of the QP solvers are C71"
  },
  {
   "property": "C60",
   "status": "partial",
   "theorems": [
    "C60_refuted",
    "C60_load_partial",
    "C60_call_partial",
    "C60_dual_refuted",
    "C60_dual_sparse_refuted",
    "C60_sparse_refuted"
   ],
   "note": "refuted (bounds of complementarities of the wrong size; dual output of failed runs; dual guess with OSQP, for every problem; sparse g with dense Q); C60_load_partial and C60_call_partial show that full matrices of any sizes outside these cases are read correctly or rejected"
  },
  {
   "property": "C61",
   "status": "partial",
   "theorems": [
    "C61_partial",
    "C61_unreadable",
    "C61_dual_refuted",
    "C61_short_refuted"
   ],
   "note": "Proved for files with enough numbers and without a dual guess, and for unreadable files. False with a file for y0 (always reads beyond the end of an array, C61_dual_refuted) and for short files (accepted, C61_short_refuted)."
  },
  {
   "property": "C62",
   "status": "proved",
   "theorems": [
    "C62_load",
    "C62_getters"
   ],
   "note": "All problems whose vectors have the right lengths; bounds on constraints only if there are constraints."
  },
  {
   "property": "C63",
   "status": "partial",
   "theorems": [
    "C63_first_run",
    "C63_any_run",
    "C63_rerun_refuted"
   ],
   "note": "Proved for the first run of an object (any history of loads, switches and option changes before it) and, relative to the values the object still holds, for any run. False for a later run read as a fresh one, even after loading again (C63_rerun_refuted): the values of the dynamic strategy are not cleared."
  },
  {
   "property": "C64",
   "status": "partial",
   "theorems": [
    "C64_load",
    "C64_load_sparse",
    "C64_load_files",
    "C64_run",
    "C64_refused",
    "C64_quiet",
    "C64_switch",
    "C64_silent_refuted"
   ],
   "note": "Proved for loads (dense, sparse, files), mode switches, refused runs and all runs that call the QP solver. False for runs that end at the iteration or penalty limit: they print no message (C64_silent_refuted). The layout of the text is abstracted."
  },
  {
   "property": "C65",
   "status": "partial",
   "theorems": [
    "C65_refuted",
    "C65_values_refuted",
    "C65_others_partial"
   ],
   "note": "refuted: the struct is rejected for every problem, and with corrected flags it stands for other tolerances and another print level; all other options agree with the defaults"
  },
  {
   "property": "C66",
   "status": "proved",
   "theorems": [
    "C66_output_options",
    "C66_silent"
   ],
   "note": "Any arithmetic, any sequence of calls. The comparison of two loud runs assumes both are free of undefined behaviour; for a silent run this follows from the loud one."
  },
  {
   "property": "C67",
   "status": "partial",
   "theorems": [
    "C67_step_size",
    "C67_stationarity_partial",
    "C67_recorded"
   ],
   "note": "Exact arithmetic. Stationarity values before the first penalty update only if lbL, lbR do not shift the gradient of the penalty."
  },
  {
   "property": "C68",
   "status": "proved",
   "theorems": [
    "C68_max_min",
    "C68_max_min_doubles",
    "C68_equal",
    "C68_zero"
   ],
   "note": "isEqual, isZero in exact arithmetic; getMax, getMin also for IEEE doubles."
  },
  {
   "property": "C69",
   "status": "proved",
   "theorems": [
    "C69_lower",
    "C69_upper",
    "C69_unset"
   ],
   "note": "As stated, for any arithmetic. Before bounds were set as a vector the call dereferences NULL (C69_unset)."
  },
  {
   "property": "C70",
   "status": "partial",
   "theorems": [
    "C70_primals",
    "C70_unset",
    "C70_duals",
    "C70_primal_solution",
    "C70_dual_solution_partial",
    "C70_refuted"
   ],
   "note": "Refuted for the dual solution when runs with OSQP and refused runs with qpOASES are mixed (reads outside the vector); the number of duals is uninitialised before the first run; an OSQP run refused for box bounds left by qpOASES keeps the old number."
  },
  {
   "property": "C71",
   "status": "partial",
   "theorems": [
    "C71_qpoases",
    "C71_osqp",
    "C71_absent",
    "C71_partial",
    "C71_defaults_refuted",
    "C71_flag_refuted",
    "C71_limit_refuted"
   ],
   "note": "Proved for numeric scalars: values, frame and warnings. Refuted: options not given fall back to the library's defaults, not LCQPow's (C71_defaults_refuted); logical values are read as doubles (C71_flag_refuted); maxIter and maxCpuTime of qpOASES are ignored silently (C71_limit_refuted)."
  },
  {
   "property": "C72",
   "status": "partial",
   "theorems": [
    "C72_dense_partial",
    "C72_sparse_partial",
    "C72_files_partial",
    "C72_recover_partial",
    "C72_recover_sparse_partial",
    "C72_mixture_refuted",
    "C72_unusable_refuted"
   ],
   "note": "Proved: solutions, sizes, statistics, options and mode are unchanged and exactly one message is printed (dense, sparse, files); a valid load afterwards gives the object it would have given without the refused call, if bounds given by that call are given again. Refuted for the problem data: the next run solves a mixture of both problems (C72_mixture_refuted) or reads uninitialised memory (C72_unusable_refuted)."
  },
  {
   "property": "C73",
   "status": "partial",
   "theorems": [
    "C73_doubles_refuted",
    "C73_dense_partial",
    "C73_sparse_partial",
    "C73_nan_refuted"
   ],
   "note": "Proved for qpOASES dense, qpOASES sparse and OSQP in exact arithmetic, for accepted problems with lower complementarity bounds for both sides or none, if no multiplier delivered by the library is NaN. C73_nan_refuted: with a NaN multiplier the run succeeds and the reported status depends on the side. False in doubles, where sums in another order round differently (C73_doubles_refuted)."
  },
  {
   "property": "C74",
   "status": "partial",
   "theorems": [
    "C74_dense_partial",
    "C74_sparse_partial",
    "C74_doubles_refuted"
   ],
   "note": "Proved for qpOASES dense, qpOASES sparse and OSQP in exact arithmetic, for accepted problems with lower complementarity bounds for both sides or none; if sides are exchanged, no multiplier delivered by the library may be NaN (C73_nan_refuted). Sparse problems must store the same entries. False in doubles, where sums in another order round differently (C74_doubles_refuted)."
  },
  {
   "property": "C75",
   "status": "partial",
   "theorems": [
    "C75_dense_partial",
    "C75_sparse_partial",
    "C75_doubles_refuted"
   ],
   "note": "Proved for qpOASES dense, qpOASES sparse and OSQP in exact arithmetic, for accepted problems with lower complementarity bounds for both sides or none. Sparse problems must store the same entries, and with OSQP the Hessian must be stored with both triangles. With random perturbations the draws of a step are permuted, too. Missing: doubles, where it is false (C75_doubles_refuted)."
  },
  {
   "property": "C76",
   "status": "partial",
   "theorems": [
    "C76_dense_partial",
    "C76_sparse_partial",
    "C76_lower_partial",
    "C76_lower_refuted",
    "C76_osqp_refuted"
   ],
   "note": "Bounds other than lbL, lbR and the initial guess: every arithmetic, doubles included, all three modes. lbL and lbR both left out or both zero: exact arithmetic and rational answers. False if exactly one of lbL, lbR is left out (NULL dereference, also C24_dense_refuted and C24_sparse_refuted for all data) and, with OSQP, for infinite boxes that are written out. Text output is not compared; multipliers are compared after success."
  },
  {
   "property": "C77",
   "status": "proved",
   "theorems": [
    "C77_history",
    "C77_defined",
    "C77_refused",
    "C77_assign",
    "C77_forms",
    "C77_python"
   ],
   "note": "History by induction over the call sequence; no undefined behaviour if the counts stay within int. Copying into Python objects by pybind11 is not modelled."
  },
  {
   "property": "C78",
   "status": "proved",
   "theorems": [
    "C78_same",
    "C78_goes_on",
    "C78_exact",
    "C78_doubles"
   ],
   "note": "The QP library is a function of the calls made so far. Undefined behaviour of the longer run after the shorter one ended is not excluded here (C19-C21)."
  },
  {
   "property": "C79",
   "status": "proved",
   "theorems": [
    "C79_first"
   ],
   "note": "Runs that fail before the first QP is solved are left out (hypothesis started): they keep the statistics of the run before."
  },
  {
   "property": "C80",
   "status": "proved",
   "theorems": [
    "C80_same",
    "C80_goes_on",
    "C80_success",
    "C80_exact",
    "C80_doubles",
    "C80_dynamic_refuted"
   ],
   "note": "C80_dynamic_refuted: with nDynamicPenalty = 1 two runs of the example differ from the third step on, although neither met its tolerance."
  },
  {
   "property": "C81",
   "status": "proved",
   "theorems": [
    "C81_eta_off",
    "C81_eta_on"
   ],
   "note": "Equality of whole runs, undefined behaviour included. C81_eta_on shows that the hypothesis is needed."
  },
  {
   "property": "C82",
   "status": "proved",
   "theorems": [
    "C82_one_qp_per_iteration"
   ],
   "note": "Runs that fail before the first QP is solved are left out (hypothesis started)."
  },
  {
   "property": "C83",
   "status": "proved",
   "theorems": [
    "C83_series"
   ],
   "note": "Runs that fail before the first QP is solved are left out (hypothesis started)."
  },
  {
   "property": "C84",
   "status": "proved",
   "theorems": [
    "C84_far",
    "C84_bound_sharp"
   ],
   "note": "The run with the given nDynamicPenalty has to be free of undefined behaviour. C84_bound_sharp: with nDynamicPenalty = maxIterations = 2 the example run makes a penalty update that it does not make with zero."
  }
 ]
}