(** * Properties_Api: calls with missing data, calls at the wrong time, counters, and the QP wrappers.

    [load_dense_part k u o], [load_sparse_part k u o]: loadLCQP with the data of [u], of which only the matrices and vectors marked in [k] are
    passed and the others are NULL; [gives_primal], [gives_dual]: what the getters deliver (SpecApi.v). *)
From Coq Require Import QArith Qcanon.
From Verif Require Import Base Arith Codes Utilities Options Stats FileIO Subsolver State LCQProblem Loops SpecSparse SpecMath SpecLoad SpecExact SpecRun SpecApi
  LoadSparse StartSparse NoUB Examples ExamplesKernels ExamplesExact StartDense ApiFacts ApiFacts2 ApiProps.
Open Scope Z_scope.

(** C21, dense, for a missing g, and for a missing A with nC > 0; missing: Q, L, R, for which it is false (below). *)
Theorem C21_dense_partial : forall T (A : Arith T) (u : udense T) opt o k, wf_dense u -> new_object (ud_v u) opt = Ok o -> pa_Q k = true ->
  (pa_g k = false -> exists o', load_dense_part k u o = Ok (INVALID_OBJECTIVE_LINEAR_TERM, o')) /\
  (pa_g k = true -> pa_A k = false -> 0 < u_nC (ud_v u) -> exists o', load_dense_part k u o = Ok (INVALID_CONSTRAINT_MATRIX, o')).
Proof. exact @p_C21_dense. Qed.
Print Assumptions C21_dense_partial.
Example C21_dense_example : wf_dense (to_dense (exq_d false)) /\ 0 < u_nC (ud_v (to_dense (exq_d false))) /\
  exists o, new_object (ud_v (to_dense (exq_d false))) (ex_options QPOASES_DENSE) = Ok o.
Proof. split; [apply exq_wf_d|]. split; [reflexivity|]. eexists. apply new_object_ok, exq_wf_vec. Qed.

(** C21 is false for dense data: without Q the NULL pointer is always dereferenced, and likewise without L or R. *)
Theorem C21_dense_refuted : forall T (A : Arith T) (u : udense T) opt o k, wf_dense u -> new_object (ud_v u) opt = Ok o ->
  (pa_Q k = false -> load_dense_part k u o = UB NullDeref) /\
  (pa_Q k = true -> pa_g k = true -> pa_A k = true \/ u_nC (ud_v u) = 0 -> pa_L k = false \/ pa_R k = false -> load_dense_part k u o = UB NullDeref).
Proof. exact @p_C21_dense_ub. Qed.
Print Assumptions C21_dense_refuted.

(** C21, sparse, for a missing g; missing: Q, L, R, A, for which it is false (below). *)
Theorem C21_sparse_partial : forall T (A : Arith T) (u : usparse T) opt o k, wf_sparse u -> new_object (us_v u) opt = Ok o -> pa_Q k = true -> pa_g k = false ->
  exists o', load_sparse_part k u o = Ok (INVALID_OBJECTIVE_LINEAR_TERM, o').
Proof. exact @p_C21_sparse. Qed.
Print Assumptions C21_sparse_partial.
Example C21_sparse_example : wf_sparse (to_sparse (exq_s false)) /\ fin_lower (us_v (to_sparse (exq_s false))) /\ concat (us_C (to_sparse (exq_s false))) <> [] /\
  exists o, new_object (us_v (to_sparse (exq_s false))) (ex_options QPOASES_SPARSE) = Ok o.
Proof. split; [apply exq_wf_s|]. split; [apply exq_fin_lower|]. split; [apply exq_C|]. eexists. apply new_object_ok, exq_wf_vec. Qed.

(** C21 is false for sparse data: a missing Q, L or R is always dereferenced, and a missing A is accepted whatever nC. *)
Theorem C21_sparse_refuted : forall T (A : Arith T) (u : usparse T) opt o k, wf_sparse u -> new_object (us_v u) opt = Ok o ->
  (pa_Q k = false -> load_sparse_part k u o = UB NullDeref) /\
  (pa_Q k = true -> pa_g k = true -> pa_L k = false \/ pa_R k = false -> load_sparse_part k u o = UB NullDeref) /\
  (pa_Q k = true -> pa_g k = true -> pa_L k = true -> pa_R k = true -> pa_A k = false -> fin_lower (us_v u) -> concat (us_C u) <> [] ->
     exists o', load_sparse_part k u o = Ok (SUCCESSFUL_RETURN, o')).
Proof. exact @p_C21_sparse_ub. Qed.
Print Assumptions C21_sparse_refuted.

(** C23 is false: with invalid dimensions every loadLCQP and runSolver reads an uninitialised number of variables. *)
Theorem C23_refuted : forall T (A : Arith T) nV nC nComp opt (o : lcqp T), bad_dims nV nC nComp -> LCQProblem_ctor nV nC nComp = Ok o ->
  forall o', o' = o \/ o' = setOptions opt o ->
  (forall Q g L R lbL ubL lbR ubR A lbA ubA lb ub x0 y0, loadLCQP Q g L R lbL ubL lbR ubR A lbA ubA lb ub x0 y0 o' = UB Uninit) /\
  (forall Q g L R lbL ubL lbR ubR A lbA ubA lb ub x0 y0, loadLCQP_csc Q g L R lbL ubL lbR ubR A lbA ubA lb ub x0 y0 o' = UB Uninit) /\
  (forall Q g L R lbL ubL lbR ubR A lbA ubA lb ub x0 y0, loadLCQP_files Q g L R lbL ubL lbR ubR A lbA ubA lb ub x0 y0 o' = UB Uninit) /\
  (forall orc rand, runSolver orc rand o' = UB Uninit).
Proof. exact @p_C23. Qed.
Print Assumptions C23_refuted.
Example C23_example : bad_dims 0 1 1 /\ bad_dims 2 (-1) 1 /\ exists o, @LCQProblem_ctor xq _ 0 1 1 = Ok o.
Proof. split; [left; lia|]. split; [right; right; lia|]. eexists. reflexivity. Qed.

(** C52 is false before the first run: all three getters read uninitialised members. *)
Theorem C52_refuted : forall T (A : Arith T) nV nC nComp (o : lcqp T), LCQProblem_ctor nV nC nComp = Ok o ->
  (forall buf, getPrimalSolution buf o = UB Uninit) /\ (forall buf, getDualSolution buf o = UB Uninit) /\ getNumberOfDuals o = UB Uninit.
Proof. exact @ctor_getters. Qed.
Print Assumptions C52_refuted.
Example C52_ctor_example : exists o, @LCQProblem_ctor xq _ 2 1 1 = Ok o.
Proof. eexists. reflexivity. Qed.

(** C52 after a run on a new object: the getters deliver initialised vectors of the right length; missing: the dual getter after a failed run. *)
Theorem C52_dense_partial : forall T (A : Arith T) u opt orc rand r (o : lcqp T), wf_dense u -> paired (ud_v u) -> fin_lower (ud_v u) -> o_qpSolver opt = QPOASES_DENSE ->
  solve_dense u opt orc rand = Ok (r, o) ->
  (exists x, gives_primal o (u_nV (ud_v u)) x) /\ (r = SUCCESSFUL_RETURN -> exists y, len y = u_nV (ud_v u) + u_nA (ud_v u) /\ gives_dual o y).
Proof. exact @dense_getters. Qed.
Print Assumptions C52_dense_partial.
Theorem C52_sparse_partial : forall T (A : Arith T) u opt orc rand r (o : lcqp T), wf_sparse u -> paired (us_v u) -> fin_lower (us_v u) -> concat (us_C u) <> [] ->
  o_qpSolver opt <> QPOASES_DENSE -> osqp_ok (us_v u) opt -> solve_sparse u opt orc rand = Ok (r, o) ->
  (exists x, gives_primal o (u_nV (us_v u)) x) /\
  (r = SUCCESSFUL_RETURN -> exists y, len y = (if match o_qpSolver opt with OSQP_SPARSE => true | _ => false end then 0 else u_nV (us_v u)) + u_nA (us_v u) /\ gives_dual o y).
Proof. exact @sparse_getters. Qed.
Print Assumptions C52_sparse_partial.
Example C52_example : forall b, (wf_dense (to_dense (exq_d b)) /\ wf_sparse (to_sparse (exq_s b)) /\ paired (to_vec (exq_v b)) /\ fin_lower (to_vec (exq_v b))) /\
  (exists o, exq_run b QPOASES_DENSE = Ok (SUCCESSFUL_RETURN, o)) /\ exists o, exq_run b OSQP_SPARSE = Ok (SUCCESSFUL_RETURN, o).
Proof.
  intros b. split; [split; [apply exq_wf_d|split; [apply exq_wf_s|split; [apply exq_paired|apply exq_fin_lower]]]|].
  split; [exists (exq_done b QPOASES_DENSE)|exists (exq_done b OSQP_SPARSE)]; apply exq_runs.
Qed.

(** C55 is false: a QP solver that reports INT_MAX iterations per call makes the sum overflow, which is undefined behaviour. *)
Theorem C55_refuted : exists u opt orc rand, wf_dense u /\ paired (ud_v u) /\ o_qpSolver opt = QPOASES_DENSE /\
  (forall h, 0 <= q_iter (orc h) <= INT_MAX) /\ @solve_dense xq _ u opt orc rand = UB IntOverflow.
Proof. exact p_C55_refuted. Qed.
Print Assumptions C55_refuted.
(** The iteration limit INT_MAX, which setMaxIterations accepts, is never reported as reached: the counter would have to pass it. *)
Theorem C55_limit_refuted : forall T (A : Arith T) orc rand (o : lcqp T) r o', INT_MAX <= o_maxIterations (d_options (pd o)) ->
  runSolver orc rand o = Ok (r, o') -> r <> MAX_ITERATIONS_REACHED.
Proof. exact @limit_unreachable. Qed.
Print Assumptions C55_limit_refuted.
Example C55_limit_example : INT_MAX <= o_maxIterations (d_options (pd exa_nolimit)) /\
  exists o, runSolver (ex_orc QPOASES_DENSE) no_rand exa_nolimit = Ok (SUCCESSFUL_RETURN, o).
Proof. exact exa_nolimit_ok. Qed.
(** C55 for iteration counts in [0, B] and limits with B * (maxIterations + 2) and 2 * (maxIterations + 1) in the range of int. *)
Theorem C55_dense_partial : forall T (A : Arith T) (u : udense T) opt orc rand B,
  wf_dense u -> paired (ud_v u) -> o_qpSolver opt = QPOASES_DENSE -> small_counts opt orc B -> solve_dense u opt orc rand <> UB IntOverflow.
Proof. exact @p_C55_dense. Qed.
Print Assumptions C55_dense_partial.
Theorem C55_sparse_partial : forall T (A : Arith T) (u : usparse T) opt orc rand B,
  wf_sparse u -> paired (us_v u) -> o_qpSolver opt <> QPOASES_DENSE -> osqp_ok (us_v u) opt -> setup_works opt orc -> small_counts opt orc B ->
  solve_sparse u opt orc rand <> UB IntOverflow.
Proof. exact @p_C55_sparse. Qed.
Print Assumptions C55_sparse_partial.
Example C55_example : forall b qs, wf_dense (to_dense (exq_d b)) /\ wf_sparse (to_sparse (exq_s b)) /\ paired (to_vec (exq_v b)) /\ osqp_ok (to_vec (exq_v b)) (ex_options qs) /\
  setup_works (ex_options qs) (exq_orc qs) /\ small_counts (ex_options qs) (exq_orc qs) 1.
Proof. intros b qs. split; [apply exq_wf_d|split; [apply exq_wf_s|split; [apply exq_paired|split; [apply exq_osqp|split; [apply exq_setup|apply exq_counts]]]]]. Qed.

(** C57, qpOASES: one call of the library is made, success is reported exactly if it returned 0, and its iteration count and return value are
    reported. *)
Theorem C57_qpOASES : forall T orc s calls work ini (g lbA ubA x0 y0 lb ub : ptr T) res, uses_qpOASES (sub_qpSolver s) ->
  sub_solve orc s calls work ini g lbA ubA x0 y0 lb ub = Ok res ->
  exists c, sr_calls res = c :: calls /\ let a := orc (c :: calls) in
    sr_raw res = Some a /\ (sr_ret res = SUCCESSFUL_RETURN <-> q_ret a = 0) /\ sr_iter res = Some (q_iter a) /\ sr_flag res = Some (q_ret a).
Proof. exact @qpOASES_result. Qed.
Print Assumptions C57_qpOASES.
(** C57, OSQP, whenever osqp_solve was called and its status is not one of the "infeasible inaccurate" ones 3, 4. *)
Theorem C57_OSQP_partial : forall T orc s calls work ini (g lbA ubA x0 y0 lb ub : ptr T) res a, sub_qpSolver s = OSQP_SPARSE ->
  sub_solve orc s calls work ini g lbA ubA x0 y0 lb ub = Ok res -> sr_raw res = Some a -> q_status a <= 2 ->
  (exists c, sr_calls res = c :: calls /\ a = orc (c :: calls)) /\
  (sr_ret res = SUCCESSFUL_RETURN <-> q_ret a = 0 /\ osqp_solved (q_status a)) /\ sr_iter res = Some (q_iter a) /\ sr_flag res = Some (q_status a).
Proof. exact @OSQP_result_known. Qed.
Print Assumptions C57_OSQP_partial.
(** C57, solutions: the primal is copied, the duals are copied from qpOASES and negated from OSQP. *)
Theorem C57_solution : forall T (A : Arith T) s a (x y : list T), 0 <= sub_nV s -> 0 <= sub_nC s -> len x = sub_nV s ->
  (uses_qpOASES (sub_qpSolver s) -> len y = sub_nV s + sub_nC s ->
     sub_getSolution s a (Some (lift x)) (Some (lift y)) = Ok (Some (lift (tab (sub_nV s) (q_x a))), Some (lift (tab (sub_nV s + sub_nC s) (q_y a))))) /\
  (sub_qpSolver s = OSQP_SPARSE -> len y = sub_nC s ->
     sub_getSolution s a (Some (lift x)) (Some (lift y)) = Ok (Some (lift (tab (sub_nV s) (q_x a))), Some (lift (tab (sub_nC s) (fun i => (- q_y a i)%num))))).
Proof. exact @solution_copied. Qed.
Print Assumptions C57_solution.
(** C57 is false for OSQP: status 3 (primal infeasible, inaccurate) is reported as success. *)
Theorem C57_inaccurate_refuted : exists orc (s : subsolver xq) calls g lbA ubA res, sub_qpSolver s = OSQP_SPARSE /\
  sub_solve orc s calls false true g lbA ubA None None None None = Ok res /\
  sr_ret res = SUCCESSFUL_RETURN /\ forall h, ~ osqp_solved (q_status (orc h)).
Proof. exact p_C57_refuted. Qed.
Print Assumptions C57_inaccurate_refuted.
Example C57_example : exa_view (exa_call QPOASES_DENSE (exa_orc 0 7 0)) = Some (SUCCESSFUL_RETURN, Some 7, Some 0) /\
  exa_view (exa_call QPOASES_SPARSE (exa_orc 64 7 0)) = Some (SUBPROBLEM_SOLVER_ERROR, Some 7, Some 64) /\
  exa_view (exa_call OSQP_SPARSE (exa_orc 0 7 1)) = Some (SUCCESSFUL_RETURN, Some 7, Some 1) /\
  exa_view (exa_call OSQP_SPARSE (exa_orc 0 7 (-3))) = Some (SUBPROBLEM_SOLVER_ERROR, Some 7, Some (-3)).
Proof. exact exa_views. Qed.
Example C57_raw_example : exists r, exa_call OSQP_SPARSE (exa_orc 0 7 1) = Ok r /\ exists a, sr_raw r = Some a /\ q_status a <= 2.
Proof. exact exa_raw. Qed.
