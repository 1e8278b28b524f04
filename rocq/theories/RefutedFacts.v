(** * RefutedFacts: proofs of the refutations (no LCQPow code). *)
From Coq Require Import QArith Qcanon.
From Verif Require Import Base Arith Codes Utilities Options Stats FileIO Subsolver State LCQProblem Loops SpecSparse SpecMath SpecLoad SpecExact SpecRun SpecTrace SpecSolve SpecHistory SpecApi
  PenaltyExact Examples ExamplesKernels ExamplesExact ExamplesExact2 ExamplesRefuted ExamplesHistory.
Open Scope Z_scope.

(** The sparse problem with a dual guess.  No LCQPow code. *)
Definition exh_y_u : qsparse := match exh_y with PSparse u => u | PDense _ => mkQsparse (mkQvec 0 0 0 [] None None None None None None None None None None) [] [] [] None end.

Lemma f_C04_bounds_refuted : exists pr opt orc rand o r0 fac tol x y,
  admissible pr opt /\ pr_solve pr opt orc rand = Ok (SUCCESSFUL_RETURN, o) /\ rational_run pr opt orc o r0 fac /\
  o_stationarityTolerance opt = Fin tol /\ (tol < 1)%Qc /\ returns_primal o x /\ returns_dual o y /\
  (e_lagrangian (pr_data pr) (box_duals pr opt) x y 0 < - (1))%Qc.
Proof.
  exists exb_pr, (ex_options QPOASES_DENSE), exb_orc, no_rand, exb_done, 1%Qc, (1 + 1)%Qc, exq_stol, (got_x exb_done), (got_y exb_done).
  destruct exb_run as (A & B & C). split; [exact A|]. split; [exact B|]. split; [exact C|]. split; [apply (exq_tols QPOASES_DENSE)|].
  split; [vm_compute; reflexivity|]. split; [exact exb_primal|]. split; [exact exb_dual|exact exb_lagrangian].
Qed.
Lemma f_C12_boundary_refuted : exists pr opt orc rand o r0 fac tol x y,
  admissible pr opt /\ pr_solve pr opt orc rand = Ok (SUCCESSFUL_RETURN, o) /\ rational_run pr opt orc o r0 fac /\
  o_complementarityTolerance opt = Fin tol /\ returns_primal o x /\ returns_dual o y /\
  st_status (getOutputStatistics o) = W_STATIONARY_SOLUTION /\
  ~ stationarity_type tol (e_nComp (pr_data pr)) (near_pair pr tol x) (mult_L pr opt y) (mult_R pr opt y) W_STATIONARY_SOLUTION.
Proof.
  exists exe_pr, (exr_opt exe_tol), exe_orc, no_rand, exe_done, 1%Qc, (1 + 1)%Qc, exe_tol, (got_x exe_done), (got_y exe_done).
  destruct exe_run as (A & B & C). split; [exact A|]. split; [exact B|]. split; [exact C|]. split; [vm_compute; reflexivity|].
  split; [exact exe_primal|]. split; [exact exe_dual|]. split; [vm_compute; reflexivity|].
  intros (_ & _ & _ & (D & _)). apply (D eq_refl). intros i Hi _. change (0 <= i < 1) in Hi. replace i with 0 by lia. vm_compute. reflexivity.
Qed.
Lemma f_C13_refuted : exists pr opt orc rand o r0 fac tol x y,
  admissible pr opt /\ pr_solve pr opt orc rand = Ok (SUCCESSFUL_RETURN, o) /\ rational_run pr opt orc o r0 fac /\
  o_complementarityTolerance opt = Fin tol /\ no_shift (pr_data pr) /\ returns_primal o x /\ returns_dual o y /\
  st_status (getOutputStatistics o) = S_STATIONARY_SOLUTION /\
  ~ stationarity_type tol (e_nComp (pr_data pr)) (near_pair pr tol x) (mult_L pr opt y) (mult_R pr opt y) S_STATIONARY_SOLUTION.
Proof.
  exists exf_pr, (exr_opt exe_tol), exf_orc, no_rand, exf_done, 1%Qc, (1 + 1)%Qc, exe_tol, (got_x exf_done), (got_y exf_done).
  destruct exf_run as (A & B & C). split; [exact A|]. split; [exact B|]. split; [exact C|]. split; [vm_compute; reflexivity|].
  split; [intros i Hi; change (0 <= i < 2) in Hi; apply two_cases in Hi; apply Qc_is_canon; destruct Hi as [-> | ->]; reflexivity|].
  split; [exact exf_primal|]. split; [exact exf_dual|]. split; [vm_compute; reflexivity|].
  intros ((D & _) & _). destruct (D eq_refl 0) as (G & _); [split; reflexivity|split; vm_compute; discriminate|]. vm_compute in G. apply G. reflexivity.
Qed.
Lemma f_C13_bounds_refuted : exists pr opt orc rand o r0 fac tol x y,
  admissible pr opt /\ pr_solve pr opt orc rand = Ok (SUCCESSFUL_RETURN, o) /\ rational_run pr opt orc o r0 fac /\
  o_complementarityTolerance opt = Fin tol /\ returns_primal o x /\ returns_dual o y /\
  st_status (getOutputStatistics o) = S_STATIONARY_SOLUTION /\ near_pair pr 0 x 0 /\ (mult_L pr opt y 0 < - (1))%Qc /\ (mult_R pr opt y 0 < - (1))%Qc /\
  ~ stationarity_type tol (e_nComp (pr_data pr)) (near_pair pr tol x) (mult_L pr opt y) (mult_R pr opt y) S_STATIONARY_SOLUTION.
Proof.
  exists exg_pr, (ex_options QPOASES_DENSE), exg_orc, no_rand, exg_done, 1%Qc, (1 + 1)%Qc, exq_ctol, (got_x exg_done), (got_y exg_done).
  destruct exg_run as (A & B & C). split; [exact A|]. split; [exact B|]. split; [exact C|]. split; [apply (exq_tols QPOASES_DENSE)|].
  split; [exact exg_primal|]. split; [exact exg_dual|]. split; [vm_compute; reflexivity|]. split; [split; vm_compute; discriminate|].
  split; [vm_compute; reflexivity|]. split; [vm_compute; reflexivity|].
  intros ((D & _) & _). destruct (D eq_refl 0) as (G & _); [split; reflexivity|split; vm_compute; discriminate|]. vm_compute in G. apply G. reflexivity.
Qed.
Lemma f_C16_bounds_refuted : exists pr opt orc rand r o r0 fac j x x' z al c,
  admissible pr opt /\ pr_solve pr opt orc rand = Ok (r, o) /\ rational_run pr opt orc o r0 fac /\ o_storeSteps opt = true /\ o_perturbStep opt = false /\
  e_symmetric (pr_data pr) /\ st_rhoOpt (getOutputStatistics o) = Fin r0 /\ st_iterOuter (getOutputStatistics o) = 0 /\
  recorded_pass pr orc o j x x' z al c /\
  (qsum (e_nV (pr_data pr)) (fun i => (qat z i - qat x i) * e_pengrad (pr_data pr) r0 x i) < 0)%Qc /\
  (e_pen (pr_data pr) r0 (on_line (e_nV (pr_data pr)) x x z 1) < e_pen (pr_data pr) r0 x')%Qc.
Proof.
  exists exb_pr, exc_opt, exb_orc, no_rand, MAX_ITERATIONS_REACHED, exc_done, 1%Qc, (1 + 1)%Qc, 0%nat, (got_step exc_done 0), (got_step exc_done 1), (got_z exb_orc exc_done 1), (got_len exc_done 1), (fst (got_call exb_orc exc_done 1)).
  destruct exc_run as (A & B & C). split; [exact A|]. split; [exact B|]. split; [exact C|]. split; [reflexivity|]. split; [reflexivity|]. split; [apply exr_symmetric|].
  split; [vm_compute; reflexivity|]. split; [vm_compute; reflexivity|]. split; [exact exc_pass|]. split; [exact exb_slope|exact exb_not_min].
Qed.
Lemma f_C17_bounds_refuted : exists pr opt orc rand r o r0 fac j x x' z al c,
  admissible pr opt /\ pr_solve pr opt orc rand = Ok (r, o) /\ rational_run pr opt orc o r0 fac /\ o_storeSteps opt = true /\ o_perturbStep opt = false /\
  e_symmetric (pr_data pr) /\ pos_def (pr_data pr) /\ feasible_answers pr orc o /\ optimal_answers pr orc o /\
  st_rhoOpt (getOutputStatistics o) = Fin r0 /\ st_iterOuter (getOutputStatistics o) = 0 /\
  recorded_pass pr orc o j x x' z al c /\ (e_pen (pr_data pr) r0 x < e_pen (pr_data pr) r0 x')%Qc.
Proof.
  exists exd_pr, exc_opt, exd_orc, no_rand, MAX_ITERATIONS_REACHED, exd_done, 1%Qc, (1 + 1)%Qc, 0%nat, (got_step exd_done 0), (got_step exd_done 1), (got_z exd_orc exd_done 1), (got_len exd_done 1), (fst (got_call exd_orc exd_done 1)).
  destruct exd_run as (A & B & C). split; [exact A|]. split; [exact B|]. split; [exact C|]. split; [reflexivity|]. split; [reflexivity|]. split; [apply exr_symmetric|]. split; [apply exr_pos_def|].
  split; [apply exd_answers|]. split; [apply exd_answers|].
  split; [vm_compute; reflexivity|]. split; [vm_compute; reflexivity|]. split; [exact exd_pass|exact exd_increases].
Qed.
Lemma f_C18_bounds_refuted : exists pr opt orc rand r o r0 fac j x x' z al c,
  admissible pr opt /\ pr_solve pr opt orc rand = Ok (r, o) /\ rational_run pr opt orc o r0 fac /\ o_storeSteps opt = true /\ o_perturbStep opt = false /\
  recorded_pass pr orc o j x x' z al c /\ forall rho, qc_g c <> penalised_term (pr_data pr) rho x.
Proof.
  exists exb_pr, exc_opt, exb_orc, no_rand, MAX_ITERATIONS_REACHED, exc_done, 1%Qc, (1 + 1)%Qc, 0%nat, (got_step exc_done 0), (got_step exc_done 1), (got_z exb_orc exc_done 1), (got_len exc_done 1), (fst (got_call exb_orc exc_done 1)).
  destruct exc_run as (A & B & C). split; [exact A|]. split; [exact B|]. split; [exact C|]. split; [reflexivity|]. split; [reflexivity|]. split; [exact exc_pass|exact exb_term].
Qed.
Lemma f_C05_stale_status_refuted : exists pr opt opt' orc rand o o',
  admissible pr opt /\ pr_solve pr opt orc rand = Ok (SUCCESSFUL_RETURN, o) /\
  runSolver orc rand (setOptions opt' o) = Ok (DENSE_SPARSE_MISSMATCH, o') /\
  getPrimalSolution None o' = Ok (S_STATIONARY_SOLUTION, None) /\ getDualSolution None o' = Ok (S_STATIONARY_SOLUTION, None) /\
  st_status (getOutputStatistics o') = S_STATIONARY_SOLUTION.
Proof.
  exists exh_d, o_dense, o_sparse, ex_oracle, no_rand, exh_d1. destruct exh_stale_status as (o2 & A & B & C & D & _).
  exists o2. split; [exact exh_d_ok|]. split; [exact exh_d1_run|]. auto.
Qed.
Lemma f_C44_stale_refuted : exists pr opt opt' orc rand o o',
  admissible pr opt /\ pr_solve pr opt orc rand = Ok (SUCCESSFUL_RETURN, o) /\
  runSolver orc rand (setOptions opt' o) = Ok (DENSE_SPARSE_MISSMATCH, o') /\ s_calls (it o') = s_calls (it o) /\
  0 < st_iterTotal (getOutputStatistics o').
Proof.
  exists exh_d, o_dense, o_sparse, ex_oracle, no_rand, exh_d1, (obj (runSolver ex_oracle no_rand (setOptions o_sparse exh_d1))).
  split; [exact exh_d_ok|]. split; [exact exh_d1_run|]. split; [vm_compute; reflexivity|]. split; vm_compute; reflexivity.
Qed.
Lemma f_C08_osqp_setup_refuted : exists pr opt orc rand, admissible pr opt /\ pr_solve pr opt orc rand = UB Uninit /\
  forall h, q_work (orc h) = false.
Proof.
  exists exh_s, o_osqp, exh_nowork, no_rand. split; [apply exh_s_ok; discriminate|]. split; [exact exh_setup_ub|]. reflexivity.
Qed.
Lemma f_C09_stale_count_refuted : exists pr opt orc1 orc2 rand o o2 o3 c,
  admissible pr opt /\ pr_solve pr opt orc1 rand = Ok (SUCCESSFUL_RETURN, o) /\ pr_load pr o = Ok (SUCCESSFUL_RETURN, o2) /\
  runSolver orc2 rand o2 = Ok (OSQP_WORKSPACE_NOT_SET_UP, o3) /\ s_calls (it o3) = c :: s_calls (it o) /\
  qp_error c (orc2 (c :: s_calls (it o))) = Some OSQP_WORKSPACE_NOT_SET_UP /\
  st_subproblemIter (getOutputStatistics o3) = 1 /\ st_exit_flag (getOutputStatistics o3) = 1.
Proof.
  destruct exh_stale_count as (o2 & o3 & c & A). exists exh_s, o_osqp, ex_oracle_osqp, (exh_late 36), no_rand, exh_o1, o2, o3, c.
  split; [apply exh_s_ok; discriminate|]. split; [exact exh_o1_run|exact A].
Qed.
Lemma f_C28_osqp_refuted : exists u opt orc rand, wf_sparse (to_sparse u) /\ o_qpSolver opt = OSQP_SPARSE /\ qv_lb (qs_v u) = None /\ qv_ub (qs_v u) = None /\ qv_y0 (qs_v u) <> None /\
  solve_sparse (to_sparse u) opt orc rand = UB Uninit.
Proof.
  exists exh_y_u, o_osqp, ex_oracle_osqp, no_rand. split; [apply (exh_s_wf (Some (zq [0; 0; 0; 0])) eq_refl)|]. split; [reflexivity|]. split; [reflexivity|]. split; [reflexivity|]. split; [discriminate|exact exh_guess_ub].
Qed.
Lemma f_C25_bounds_refuted : exists pr pr' opt orc rand o o1 o2 o3,
  admissible pr opt /\ admissible pr' opt /\ stateless orc /\ pr_solve pr opt orc rand = Ok (SUCCESSFUL_RETURN, o) /\
  pr_solve pr' opt orc rand = Ok (SUCCESSFUL_RETURN, o1) /\
  pr_load pr' o = Ok (SUCCESSFUL_RETURN, o2) /\ runSolver orc rand o2 = Ok (SUCCESSFUL_RETURN, o3) /\
  st_iterTotal (getOutputStatistics o1) = 36 /\ st_iterTotal (getOutputStatistics o3) = 4.
Proof.
  destruct exh_reload_bounds as (o2 & o3 & A & B & C & D). exists exh_b, exh_u, o_dense, ex_oracle, no_rand, exh_b1, exh_u1, o2, o3.
  split; [exact exh_b_ok|]. split; [exact exh_u_ok|]. split; [intros c h h'; reflexivity|]. split; [exact exh_b1_run|]. split; [exact exh_u1_run|]. auto.
Qed.
Lemma f_C25_history_refuted : exists pr opt orc rand o o2 o3,
  admissible pr opt /\ stateless orc /\ pr_solve pr opt orc rand = Ok (SUCCESSFUL_RETURN, o) /\
  pr_load pr o = Ok (SUCCESSFUL_RETURN, o2) /\ runSolver orc rand o2 = Ok (SUCCESSFUL_RETURN, o3) /\
  st_iterTotal (getOutputStatistics o) = 36 /\ st_iterTotal (getOutputStatistics o3) = 5.
Proof.
  destruct exh_reload_same as (o2 & o3 & A & B & C & D). exists exh_u, o_dense, ex_oracle, no_rand, exh_u1, o2, o3.
  split; [exact exh_u_ok|]. split; [intros c h h'; reflexivity|]. split; [exact exh_u1_run|]. auto.
Qed.
Lemma f_C26_refuted : exists pr opt orc rand o o2,
  admissible pr opt /\ pr_solve pr opt orc rand = Ok (SUCCESSFUL_RETURN, o) /\ runSolver orc rand o = Ok (SUCCESSFUL_RETURN, o2) /\
  (exists c r, s_calls (it o) = c :: r /\ qc_lb c = Some (fz [0; 0]) /\ qc_ub c = Some (fz [1; 3])) /\
  exists c r, s_calls (it o2) = c :: r /\ qc_lb c = Some [NInf; NInf] /\ qc_ub c = Some [PInf; PInf].
Proof.
  destruct exh_box_lost as (o2 & A). exists exh_d, o_dense, ex_oracle, no_rand, exh_d1, o2. split; [exact exh_d_ok|]. split; [exact exh_d1_run|exact A].
Qed.
Lemma f_C27_refuted : exists pr, forall opt, (opt = o_sparse \/ opt = o_osqp) ->
  admissible pr opt /\ exists orc rand o, pr_solve pr opt orc rand = Ok (SUCCESSFUL_RETURN, o) /\ runSolver orc rand o = UB OutOfBounds.
Proof.
  exists exh_s. intros opt [-> | ->]; (split; [apply exh_s_ok; discriminate|]).
  - exists ex_oracle, no_rand, exh_s1. split; [exact exh_s1_run|apply exh_sparse_again].
  - exists ex_oracle_osqp, no_rand, exh_o1. split; [exact exh_o1_run|apply exh_sparse_again].
Qed.
Lemma f_C29_refuted : exists pr opt opt' orc orc' rand o o2 o3,
  admissible pr opt /\ admissible pr opt' /\ o_qpSolver opt' = OSQP_SPARSE /\ qv_lb (pr_vec pr) = None /\ qv_ub (pr_vec pr) = None /\
  pr_solve pr opt orc rand = Ok (SUCCESSFUL_RETURN, o) /\ pr_load pr o = Ok (SUCCESSFUL_RETURN, o2) /\
  runSolver orc' rand (setOptions opt' o2) = Ok (INVALID_OSQP_BOX_CONSTRAINTS, o3).
Proof.
  destruct exh_osqp_after as (o2 & o3 & A & B). exists exh_s, o_sparse, o_osqp, ex_oracle, ex_oracle_osqp, no_rand, exh_s1, o2, o3.
  split; [apply exh_s_ok; discriminate|]. split; [apply exh_s_ok; discriminate|]. split; [reflexivity|]. split; [reflexivity|]. split; [reflexivity|]. split; [exact exh_s1_run|]. auto.
Qed.
