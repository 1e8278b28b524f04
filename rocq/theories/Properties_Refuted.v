(** * Properties_Refuted: properties that the code does not have, each with a concrete history of API calls as witness.

    The witnesses are in ExamplesRefuted.v and ExamplesHistory.v: a problem in two variables with one complementarity pair.  [pr_solve] is
    construct, set options, load, run (SpecSolve.v); [pr_load] loads a problem into an existing object (SpecHistory.v). *)
From Coq Require Import QArith Qcanon.
From Verif Require Import Base Arith Codes Utilities Options Stats FileIO Subsolver State LCQProblem Loops SpecSparse SpecMath SpecLoad SpecExact SpecRun SpecTrace SpecSolve SpecHistory SpecApi
  Examples ExamplesKernels ExamplesExact ExamplesHistory RefutedFacts.
Open Scope Z_scope.

(** C04 is false with lower complementarity bounds: the returned pair violates stationarity by more than 1. *)
Theorem C04_bounds_refuted : exists pr opt orc rand o r0 fac tol x y,
  admissible pr opt /\ pr_solve pr opt orc rand = Ok (SUCCESSFUL_RETURN, o) /\ rational_run pr opt orc o r0 fac /\
  o_stationarityTolerance opt = Fin tol /\ (tol < 1)%Qc /\ returns_primal o x /\ returns_dual o y /\
  (e_lagrangian (pr_data pr) (box_duals pr opt) x y 0 < - (1))%Qc.
Proof. exact f_C04_bounds_refuted. Qed.
Print Assumptions C04_bounds_refuted.

(** C12 is false at the boundary: both multipliers of the only pair are -1/2 and the tolerance is their product 1/4; every product is above
    -tol, but W is reported instead of C. *)
Theorem C12_boundary_refuted : exists pr opt orc rand o r0 fac tol x y,
  admissible pr opt /\ pr_solve pr opt orc rand = Ok (SUCCESSFUL_RETURN, o) /\ rational_run pr opt orc o r0 fac /\
  o_complementarityTolerance opt = Fin tol /\ returns_primal o x /\ returns_dual o y /\
  st_status (getOutputStatistics o) = W_STATIONARY_SOLUTION /\
  ~ stationarity_type tol (e_nComp (pr_data pr)) (near_pair pr tol x) (mult_L pr opt y) (mult_R pr opt y) W_STATIONARY_SOLUTION.
Proof. exact f_C12_boundary_refuted. Qed.
Print Assumptions C12_boundary_refuted.

(** C13 is false: the returned multiplier of the pair is -1/4, but S-stationarity is reported. *)
Theorem C13_refuted : exists pr opt orc rand o r0 fac tol x y,
  admissible pr opt /\ pr_solve pr opt orc rand = Ok (SUCCESSFUL_RETURN, o) /\ rational_run pr opt orc o r0 fac /\
  o_complementarityTolerance opt = Fin tol /\ no_shift (pr_data pr) /\ returns_primal o x /\ returns_dual o y /\
  st_status (getOutputStatistics o) = S_STATIONARY_SOLUTION /\
  ~ stationarity_type tol (e_nComp (pr_data pr)) (near_pair pr tol x) (mult_L pr opt y) (mult_R pr opt y) S_STATIONARY_SOLUTION.
Proof. exact f_C13_refuted. Qed.
Print Assumptions C13_refuted.

(** C13 is false with lower bounds: at x = lbL = lbR = 1 both returned multipliers are negative, but S-stationarity is reported. *)
Theorem C13_bounds_refuted : exists pr opt orc rand o r0 fac tol x y,
  admissible pr opt /\ pr_solve pr opt orc rand = Ok (SUCCESSFUL_RETURN, o) /\ rational_run pr opt orc o r0 fac /\
  o_complementarityTolerance opt = Fin tol /\ returns_primal o x /\ returns_dual o y /\
  st_status (getOutputStatistics o) = S_STATIONARY_SOLUTION /\ near_pair pr 0 x 0 /\ (mult_L pr opt y 0 < - (1))%Qc /\ (mult_R pr opt y 0 < - (1))%Qc /\
  ~ stationarity_type tol (e_nComp (pr_data pr)) (near_pair pr tol x) (mult_L pr opt y) (mult_R pr opt y) S_STATIONARY_SOLUTION.
Proof. exact f_C13_bounds_refuted. Qed.
Print Assumptions C13_bounds_refuted.

(** C16 is false with lower bounds: before the first penalty update a step that ends at x' decreases the penalised objective less than
    the full step, although the direction is a descent direction. *)
Theorem C16_bounds_refuted : exists pr opt orc rand r o r0 fac j x x' z al c,
  admissible pr opt /\ pr_solve pr opt orc rand = Ok (r, o) /\ rational_run pr opt orc o r0 fac /\ o_storeSteps opt = true /\ o_perturbStep opt = false /\
  e_symmetric (pr_data pr) /\ st_rhoOpt (getOutputStatistics o) = Fin r0 /\ st_iterOuter (getOutputStatistics o) = 0 /\
  recorded_pass pr orc o j x x' z al c /\
  (qsum (e_nV (pr_data pr)) (fun i => (qat z i - qat x i) * e_pengrad (pr_data pr) r0 x i) < 0)%Qc /\
  (e_pen (pr_data pr) r0 (on_line (e_nV (pr_data pr)) x x z 1) < e_pen (pr_data pr) r0 x')%Qc.
Proof. exact f_C16_bounds_refuted. Qed.
Print Assumptions C16_bounds_refuted.

(** C17 is false with lower bounds: the penalised objective increases in a pass without penalty update. *)
Theorem C17_bounds_refuted : exists pr opt orc rand r o r0 fac j x x' z al c,
  admissible pr opt /\ pr_solve pr opt orc rand = Ok (r, o) /\ rational_run pr opt orc o r0 fac /\ o_storeSteps opt = true /\ o_perturbStep opt = false /\
  e_symmetric (pr_data pr) /\ pos_def (pr_data pr) /\ feasible_answers pr orc o /\ optimal_answers pr orc o /\
  st_rhoOpt (getOutputStatistics o) = Fin r0 /\ st_iterOuter (getOutputStatistics o) = 0 /\
  recorded_pass pr orc o j x x' z al c /\ (e_pen (pr_data pr) r0 x < e_pen (pr_data pr) r0 x')%Qc.
Proof. exact f_C17_bounds_refuted. Qed.
Print Assumptions C17_bounds_refuted.

(** C18 is false with lower bounds: before the first penalty update a QP has another linear term than g + rho (C x + g_phi), whatever rho. *)
Theorem C18_bounds_refuted : exists pr opt orc rand r o r0 fac j x x' z al c,
  admissible pr opt /\ pr_solve pr opt orc rand = Ok (r, o) /\ rational_run pr opt orc o r0 fac /\ o_storeSteps opt = true /\ o_perturbStep opt = false /\
  recorded_pass pr orc o j x x' z al c /\ forall rho, qc_g c <> penalised_term (pr_data pr) rho x.
Proof. exact f_C18_bounds_refuted. Qed.
Print Assumptions C18_bounds_refuted.

(** C05 is false for a run that fails before the first QP: after a solved problem, a run with the wrong QP solver returns
    DENSE_SPARSE_MISSMATCH while getters and statistics still report S-stationarity. *)
Theorem C05_stale_status_refuted : exists pr opt opt' orc rand o o',
  admissible pr opt /\ pr_solve pr opt orc rand = Ok (SUCCESSFUL_RETURN, o) /\
  runSolver orc rand (setOptions opt' o) = Ok (DENSE_SPARSE_MISSMATCH, o') /\
  getPrimalSolution None o' = Ok (S_STATIONARY_SOLUTION, None) /\ getDualSolution None o' = Ok (S_STATIONARY_SOLUTION, None) /\
  st_status (getOutputStatistics o') = S_STATIONARY_SOLUTION.
Proof. exact f_C05_stale_status_refuted. Qed.
Print Assumptions C05_stale_status_refuted.

(** C44 is false for such a run: the statistics still count the iterations of the previous run. *)
Theorem C44_stale_refuted : exists pr opt opt' orc rand o o',
  admissible pr opt /\ pr_solve pr opt orc rand = Ok (SUCCESSFUL_RETURN, o) /\
  runSolver orc rand (setOptions opt' o) = Ok (DENSE_SPARSE_MISSMATCH, o') /\ s_calls (it o') = s_calls (it o) /\
  0 < st_iterTotal (getOutputStatistics o').
Proof. exact f_C44_stale_refuted. Qed.
Print Assumptions C44_stale_refuted.

(** C08 is false if OSQP cannot be set up: the exit flag is read uninitialised. *)
Theorem C08_osqp_setup_refuted : exists pr opt orc rand, admissible pr opt /\ pr_solve pr opt orc rand = UB Uninit /\
  forall h, q_work (orc h) = false.
Proof. exact f_C08_osqp_setup_refuted. Qed.
Print Assumptions C08_osqp_setup_refuted.

(** C09 (and C08) are false if OSQP cannot be set up in a later run: the iteration count and the exit flag of the last QP of the previous
    run are reported, although OSQP was not run. *)
Theorem C09_stale_count_refuted : exists pr opt orc1 orc2 rand o o2 o3 c,
  admissible pr opt /\ pr_solve pr opt orc1 rand = Ok (SUCCESSFUL_RETURN, o) /\ pr_load pr o = Ok (SUCCESSFUL_RETURN, o2) /\
  runSolver orc2 rand o2 = Ok (OSQP_WORKSPACE_NOT_SET_UP, o3) /\ s_calls (it o3) = c :: s_calls (it o) /\
  qp_error c (orc2 (c :: s_calls (it o))) = Some OSQP_WORKSPACE_NOT_SET_UP /\
  st_subproblemIter (getOutputStatistics o3) = 1 /\ st_exit_flag (getOutputStatistics o3) = 1.
Proof. exact f_C09_stale_count_refuted. Qed.
Print Assumptions C09_stale_count_refuted.

(** C28 is false for OSQP: with a dual guess the code copies bytes instead of doubles and reads uninitialised memory. *)
Theorem C28_osqp_refuted : exists u opt orc rand, wf_sparse (to_sparse u) /\ o_qpSolver opt = OSQP_SPARSE /\ qv_lb (qs_v u) = None /\ qv_ub (qs_v u) = None /\ qv_y0 (qs_v u) <> None /\
  solve_sparse (to_sparse u) opt orc rand = UB Uninit.
Proof. exact f_C28_osqp_refuted. Qed.
Print Assumptions C28_osqp_refuted.

(** C25 is false: after a problem with lbL, lbR the same object loaded with a problem without them takes 4 iterations instead of 36. *)
Theorem C25_bounds_refuted : exists pr pr' opt orc rand o o1 o2 o3,
  admissible pr opt /\ admissible pr' opt /\ stateless orc /\ pr_solve pr opt orc rand = Ok (SUCCESSFUL_RETURN, o) /\
  pr_solve pr' opt orc rand = Ok (SUCCESSFUL_RETURN, o1) /\
  pr_load pr' o = Ok (SUCCESSFUL_RETURN, o2) /\ runSolver orc rand o2 = Ok (SUCCESSFUL_RETURN, o3) /\
  st_iterTotal (getOutputStatistics o1) = 36 /\ st_iterTotal (getOutputStatistics o3) = 4.
Proof. exact f_C25_bounds_refuted. Qed.
Print Assumptions C25_bounds_refuted.

(** C25 is false even for the very same problem: the complementarity history of the first run is kept, and the second run takes 5 iterations
    instead of 36. *)
Theorem C25_history_refuted : exists pr opt orc rand o o2 o3,
  admissible pr opt /\ stateless orc /\ pr_solve pr opt orc rand = Ok (SUCCESSFUL_RETURN, o) /\
  pr_load pr o = Ok (SUCCESSFUL_RETURN, o2) /\ runSolver orc rand o2 = Ok (SUCCESSFUL_RETURN, o3) /\
  st_iterTotal (getOutputStatistics o) = 36 /\ st_iterTotal (getOutputStatistics o3) = 5.
Proof. exact f_C25_history_refuted. Qed.
Print Assumptions C25_history_refuted.

(** C26 is false: the second run passes infinite box bounds to the QP solver. *)
Theorem C26_refuted : exists pr opt orc rand o o2,
  admissible pr opt /\ pr_solve pr opt orc rand = Ok (SUCCESSFUL_RETURN, o) /\ runSolver orc rand o = Ok (SUCCESSFUL_RETURN, o2) /\
  (exists c r, s_calls (it o) = c :: r /\ qc_lb c = Some (fz [0; 0]) /\ qc_ub c = Some (fz [1; 3])) /\
  exists c r, s_calls (it o2) = c :: r /\ qc_lb c = Some [NInf; NInf] /\ qc_ub c = Some [PInf; PInf].
Proof. exact f_C26_refuted. Qed.
Print Assumptions C26_refuted.

(** C27 is false: with qpOASES and with OSQP a second sparse run writes out of bounds. *)
Theorem C27_refuted : exists pr, forall opt, (opt = o_sparse \/ opt = o_osqp) ->
  admissible pr opt /\ exists orc rand o, pr_solve pr opt orc rand = Ok (SUCCESSFUL_RETURN, o) /\ runSolver orc rand o = UB OutOfBounds.
Proof. exact f_C27_refuted. Qed.
Print Assumptions C27_refuted.

(** C29 is false: lb and ub are never passed, but after a run with qpOASES every run with OSQP is rejected, also after loading again. *)
Theorem C29_refuted : exists pr opt opt' orc orc' rand o o2 o3,
  admissible pr opt /\ admissible pr opt' /\ o_qpSolver opt' = OSQP_SPARSE /\ qv_lb (pr_vec pr) = None /\ qv_ub (pr_vec pr) = None /\
  pr_solve pr opt orc rand = Ok (SUCCESSFUL_RETURN, o) /\ pr_load pr o = Ok (SUCCESSFUL_RETURN, o2) /\
  runSolver orc' rand (setOptions opt' o2) = Ok (INVALID_OSQP_BOX_CONSTRAINTS, o3).
Proof. exact f_C29_refuted. Qed.
Print Assumptions C29_refuted.
