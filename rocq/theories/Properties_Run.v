(** * Properties_Run: theorems about whole runs of the solver.

    Every theorem holds for every arithmetic unless it mentions [xq] (exact arithmetic). *)
From Coq Require Import QArith Qcanon.
From Verif Require Import Base Arith Codes Utilities Options Stats FileIO Subsolver State LCQProblem Loops SpecRun Spec RunFacts RunProps PenaltyExact Examples ExamplesRun RunTheorems.
Open Scope Z_scope.

(** C01: the run ends, with at most maxIterations + 1 loop passes ([fuel] bounds the passes) and as many QP solves. *)
Theorem C01_terminates : forall T (A : Arith T) (orc : oracle T) (rand : nat -> Z) (o : lcqp T),
  runSolver orc rand o <> UB OutOfFuel /\
  (forall fuel, (Z.to_nat (o_maxIterations (d_options (pd o))) + 1 <= fuel)%nat ->
     runSolver_fuel fuel orc rand o = runSolver orc rand o) /\
  (forall r o', runSolver orc rand o = Ok (r, o') ->
     exists new, s_calls (it o') = new ++ s_calls (it o) /\ len new <= Z.max 0 (o_maxIterations (d_options (pd o))) + 1).
Proof. exact @thm_terminates. Qed.
Print Assumptions C01_terminates.
Example C01_example : runSolver ex_oracle no_rand ex_short = Ok (MAX_ITERATIONS_REACHED, ex_done ex_oracle ex_short).
Proof. exact ex_short_run. Qed.

(** C02: on success both tolerance tests hold for the final state, and they are the last recorded values. *)
Theorem C02_success_tests : forall T (A : Arith T) fuel (orc : oracle T) rand (o o' : lcqp T),
  runSolver_fuel fuel orc rand o = Ok (SUCCESSFUL_RETURN, o') ->
  exists nV statk m phi,
    d_nV (pd o') = Some nV /\ s_statk (it o') = Some statk /\
    MaxAbs statk nV = Ok m /\ a_lt m (o_stationarityTolerance (d_options (pd o))) = true /\
    getPhi (pd o') (it o') = Ok phi /\ a_lt phi (o_complementarityTolerance (d_options (pd o))) = true /\
    (o_storeSteps (d_options (pd o)) = true ->
       exists P M, st_phiVals (getOutputStatistics o') = P ++ [phi] /\ st_statVals (getOutputStatistics o') = M ++ [m]).
Proof. exact @run_success_values. Qed.
Print Assumptions C02_success_tests.
Example C02_example : runSolver (ex_orc QPOASES_DENSE) no_rand (ex_o QPOASES_DENSE) = Ok (SUCCESSFUL_RETURN, ex_done (ex_orc QPOASES_DENSE) (ex_o QPOASES_DENSE)).
Proof. exact (ex_runs QPOASES_DENSE). Qed.

(** C05, for runs that reach the QP solver.  Missing: runs that fail before the first QP keep the previous status, see
    [C05_stale_status_refuted]. *)
Theorem C05_status_partial : forall T (A : Arith T) (orc : oracle T) rand (o : lcqp T) r o',
  runSolver orc rand o = Ok (r, o') -> started o o' ->
  exists a, (a = PROBLEM_NOT_SOLVED <-> r <> SUCCESSFUL_RETURN) /\
    st_status (getOutputStatistics o') = a /\
    (forall buf b out, getPrimalSolution buf o' = Ok (b, out) -> b = a) /\
    (forall buf b out, getDualSolution buf o' = Ok (b, out) -> b = a) /\
    getPrimalSolution None o' = Ok (a, None) /\ getDualSolution None o' = Ok (a, None).
Proof. exact @thm_status. Qed.
Print Assumptions C05_status_partial.
Example C05_example : runSolver (failing 2 ex_oracle) no_rand (ex_o QPOASES_DENSE) = Ok (SUBPROBLEM_SOLVER_ERROR, ex_done (failing 2 ex_oracle) (ex_o QPOASES_DENSE)) /\
  started (ex_o QPOASES_DENSE) (ex_done (failing 2 ex_oracle) (ex_o QPOASES_DENSE)).
Proof. split; [exact ex_fails|exact ex_fails_started]. Qed.

(** C06 *)
Theorem C06_iteration_limit : forall T (A : Arith T) (orc : oracle T) rand (o : lcqp T) r o',
  runSolver orc rand o = Ok (r, o') -> 0 <= o_maxIterations (d_options (pd o)) ->
  (started o o' ->
     0 <= st_iterTotal (getOutputStatistics o') <= o_maxIterations (d_options (pd o)) + 1 /\
     (r = MAX_ITERATIONS_REACHED <->
        r <> SUCCESSFUL_RETURN /\ st_iterTotal (getOutputStatistics o') = o_maxIterations (d_options (pd o)) + 1)) /\
  (~ started o o' -> r <> MAX_ITERATIONS_REACHED /\ getOutputStatistics o' = getOutputStatistics o).
Proof. exact @thm_maxit. Qed.
Print Assumptions C06_iteration_limit.
Example C06_example : runSolver ex_oracle no_rand ex_short = Ok (MAX_ITERATIONS_REACHED, ex_done ex_oracle ex_short) /\
  started ex_short (ex_done ex_oracle ex_short) /\ 0 <= o_maxIterations (d_options (pd ex_short)).
Proof. split; [exact ex_short_run|split; [exact ex_short_started|vm_compute; discriminate]]. Qed.

(** C07: the geometric penalty law (exact arithmetic) *)
Theorem C07_penalty_law : forall fuel orc rand (o : lcqp xq) r o' r0 f,
  runSolver_fuel fuel orc rand o = Ok (r, o') -> started o o' ->
  o_initialPenaltyParameter (d_options (pd o)) = Fin r0 -> o_penaltyUpdateFactor (d_options (pd o)) = Fin f ->
  (0 < r0)%Qc -> (1 < f)%Qc -> 0 < st_iterTotal (getOutputStatistics o') ->
  exists k : nat, st_iterOuter (getOutputStatistics o') = Z.of_nat k /\
    st_rhoOpt (getOutputStatistics o') = Fin (r0 * f ^ k)%Qc /\
    forall m, o_maxPenaltyParameter (d_options (pd o)) = Fin m ->
      (r = MAX_PENALTY_REACHED -> (m < r0 * f ^ k)%Qc) /\ (r0 * f ^ k <= Qcmax r0 m * (f * f))%Qc.
Proof. exact run_penalty_exact. Qed.
Print Assumptions C07_penalty_law.
Example C07_example : runSolver ex_oracle no_rand ex_lowpen = Ok (MAX_PENALTY_REACHED, ex_done ex_oracle ex_lowpen) /\
  started ex_lowpen (ex_done ex_oracle ex_lowpen) /\
  o_initialPenaltyParameter (d_options (pd ex_lowpen)) = Fin 1 /\ o_penaltyUpdateFactor (d_options (pd ex_lowpen)) = Fin (Q2Qc (2 # 1)) /\
  0 < st_iterTotal (getOutputStatistics (ex_done ex_oracle ex_lowpen)).
Proof. split; [exact ex_lowpen_run|split; [exact ex_lowpen_started|]]. repeat split; vm_compute; reflexivity. Qed.

(** C07: the same law in any arithmetic whose penalty sequence stays positive *)
Theorem C07_penalty_law_any : forall T (A : Arith T) fuel (orc : oracle T) rand (o : lcqp T) r o',
  runSolver_fuel fuel orc rand o = Ok (r, o') -> started o o' ->
  (forall k, a_le (rho_seq o k) a_zero = false) -> 0 < st_iterTotal (getOutputStatistics o') ->
  0 <= st_iterOuter (getOutputStatistics o') /\
  st_rhoOpt (getOutputStatistics o') = rho_seq o (Z.to_nat (st_iterOuter (getOutputStatistics o'))) /\
  (r = MAX_PENALTY_REACHED -> a_lt (o_maxPenaltyParameter (d_options (pd o))) (st_rhoOpt (getOutputStatistics o')) = true) /\
  (exists m, (m = o_initialPenaltyParameter (d_options (pd o)) \/ a_lt (o_maxPenaltyParameter (d_options (pd o))) m = false) /\
     two_more o m (st_rhoOpt (getOutputStatistics o'))).
Proof. exact @run_penalty. Qed.
Print Assumptions C07_penalty_law_any.

(** C07: a QP after the first is solved only with a penalty not above the maximum *)
Theorem C07_qp_penalty : forall T (A : Arith T) (orc : oracle T) rand (d : pdata T) s s' e,
  pass orc rand d s = Ok (s', e) -> s_calls s' <> s_calls s ->
  a_lt (o_maxPenaltyParameter (d_options d)) (s_rho s') = false.
Proof. exact @pass_qp_rho. Qed.
Print Assumptions C07_qp_penalty.

(** C08, for failures that the QP solver reports.  Missing: an OSQP setup failure, see [C08_osqp_setup_refuted]. *)
Theorem C08_qp_failure_partial : forall T (A : Arith T) fuel (orc : oracle T) rand (o : lcqp T) r o',
  runSolver_fuel fuel orc rand o = Ok (r, o') -> started o o' ->
  exists new c a rest,
    s_calls (it o') = new ++ s_calls (it o) /\ answers orc new (s_calls (it o)) = (c, a) :: rest /\
    Forall (fun p => qp_error (fst p) (snd p) = None) rest /\
    match qp_error c a with
    | Some e => r = e /\ r <> SUCCESSFUL_RETURN /\ st_status (getOutputStatistics o') = PROBLEM_NOT_SOLVED /\
                (qp_reported c a -> st_exit_flag (getOutputStatistics o') = qp_flag c a)
    | None => In r [SUCCESSFUL_RETURN; MAX_ITERATIONS_REACHED; MAX_PENALTY_REACHED]
    end.
Proof. exact @run_qp_failure. Qed.
Print Assumptions C08_qp_failure_partial.
Example C08_example : runSolver (failing 2 ex_oracle) no_rand (ex_o QPOASES_DENSE) = Ok (SUBPROBLEM_SOLVER_ERROR, ex_done (failing 2 ex_oracle) (ex_o QPOASES_DENSE)) /\
  started (ex_o QPOASES_DENSE) (ex_done (failing 2 ex_oracle) (ex_o QPOASES_DENSE)) /\
  st_exit_flag (getOutputStatistics (ex_done (failing 2 ex_oracle) (ex_o QPOASES_DENSE))) = 7.
Proof. split; [exact ex_fails|split; [exact ex_fails_started|vm_compute; reflexivity]]. Qed.

(** C09, for runs whose last QP reports its iterations.  Missing: an OSQP setup failure, see [C09_stale_count_refuted]. *)
Theorem C09_iterations_partial : forall T (A : Arith T) fuel (orc : oracle T) rand (o : lcqp T) r o',
  runSolver_fuel fuel orc rand o = Ok (r, o') -> started o o' ->
  exists new c a rest,
    s_calls (it o') = new ++ s_calls (it o) /\ answers orc new (s_calls (it o)) = (c, a) :: rest /\
    (qp_reported c a -> st_subproblemIter (getOutputStatistics o') = sum_iters (answers orc new (s_calls (it o)))).
Proof. exact @run_qp_iters. Qed.
Print Assumptions C09_iterations_partial.
Example C09_example : st_subproblemIter (getOutputStatistics (ex_done (failing 2 ex_oracle) (ex_o QPOASES_DENSE))) = 1 + 3 /\
  length (s_calls (it (ex_done (failing 2 ex_oracle) (ex_o QPOASES_DENSE)))) = 2%nat.
Proof. split; vm_compute; reflexivity. Qed.

(** C10 *)
Theorem C10_tracking : forall T (A : Arith T) (orc : oracle T) rand (o : lcqp T) r o',
  runSolver orc rand o = Ok (r, o') -> started o o' ->
  let st := getOutputStatistics o' in
  (o_storeSteps (d_options (pd o)) = true ->
     tracked st (st_iterTotal st) /\
     (0 < st_iterTotal st -> exists X x nV, st_xSteps st = X ++ [x] /\ getNumberOfPrimals o' = Ok nV /\ len x = Z.max 0 nV /\
        forall buf a out, getPrimalSolution (Some buf) o' = Ok (a, Some out) ->
          forall i, 0 <= i < nV -> rd out i = Ok (at_ a_zero x i))) /\
  (o_storeSteps (d_options (pd o)) = false -> untracked st).
Proof. exact @thm_tracking. Qed.
Print Assumptions C10_tracking.
Theorem C10_getters_null : forall T (st : stats T), untracked st ->
  vec_getter (st_xSteps st) = None /\ vec_getter (st_innerIters st) = None /\ vec_getter (st_subproblemIters st) = None /\
  vec_getter (st_accuSubproblemIters st) = None /\ vec_getter (st_stepLength st) = None /\ vec_getter (st_stepSize st) = None /\
  vec_getter (st_statVals st) = None /\ vec_getter (st_objVals st) = None /\ vec_getter (st_phiVals st) = None /\
  vec_getter (st_meritVals st) = None.
Proof. exact @thm_getters_null. Qed.
Print Assumptions C10_getters_null.
Example C10_example : started (ex_o OSQP_SPARSE) (ex_done (ex_orc OSQP_SPARSE) (ex_o OSQP_SPARSE)) /\
  o_storeSteps (d_options (pd (ex_o OSQP_SPARSE))) = true /\
  0 < st_iterTotal (getOutputStatistics (ex_done (ex_orc OSQP_SPARSE) (ex_o OSQP_SPARSE))).
Proof. split; [exact (ex_started OSQP_SPARSE)|]. split; vm_compute; reflexivity. Qed.

(** C11: the dynamic penalty rule.  [pass_head] is the part of a pass before the convergence test; [vs] are the
    complementarity values of the passes since the last penalty update; [v] is the current one. *)
Theorem C11_dynamic_rule : forall T (A : Arith T) (orc : oracle T) rand (o : lcqp T) d s vs s1 sx v n,
  s_complHistory (it o) = [] -> o_nDynamicPenalty (d_options d) = n -> 0 < n <= INT_MAX ->
  since orc rand o d s vs -> pass_head d s = Ok s1 -> updateStep d s = Ok sx -> getPhi d sx = Ok v ->
  (s_outerIter s1 = s_outerIter s + 1 <->
     n <= len vs /\ a_lt v (o_complementarityTolerance (d_options d)) = false /\
     Forall (fun w => a_lt v (o_etaDynamicPenalty (d_options d) * w)%num = false) (last_n n vs)) /\
  (s_outerIter s1 = s_outerIter s + 1 \/ s_outerIter s1 = s_outerIter s).
Proof. exact @dynamic_rule. Qed.
Print Assumptions C11_dynamic_rule.
(** Every pass of a run has such a list *)
Theorem C11_values_exist : forall T (A : Arith T) (orc : oracle T) rand (o : lcqp T) d s,
  pass_start orc rand o d s -> 0 < o_nDynamicPenalty (d_options d) <= INT_MAX -> exists vs, since orc rand o d s vs.
Proof. exact @since_start. Qed.
Print Assumptions C11_values_exist.
(** Switched off for n <= 0 *)
Theorem C11_dynamic_off : forall T (A : Arith T) (orc : oracle T) rand (o : lcqp T) d s s1,
  INT_MIN <= o_nDynamicPenalty (d_options (pd o)) <= 0 -> s_complHistory (it o) = [] ->
  pass_start orc rand o d s -> pass_head d s = Ok s1 -> s_outerIter s1 = s_outerIter s.
Proof. exact @thm_dynamic_off. Qed.
Print Assumptions C11_dynamic_off.
Example C11_example : pass_start ex_oracle no_rand (ex_o QPOASES_DENSE) ex_d (ex_state 5) /\
  s_complHistory (it (ex_o QPOASES_DENSE)) = [] /\ o_nDynamicPenalty (d_options ex_d) = 3 /\
  since ex_oracle no_rand (ex_o QPOASES_DENSE) ex_d (ex_state 5) (tab 5 ex_phi).
Proof. split; [exact (ex_state_start 5 eq_refl)|split; [|split]]; [vm_compute; reflexivity..|]. exact ex_since. Qed.

(** C15, second half: without perturbation the outcome does not depend on the random stream *)
Theorem C15_no_perturbation : forall T (A : Arith T) (orc : oracle T) rand1 rand2 (o : lcqp T),
  o_perturbStep (d_options (pd o)) = false -> runSolver orc rand1 o = runSolver orc rand2 o.
Proof. exact @run_rand. Qed.
Print Assumptions C15_no_perturbation.
Example C15_example : o_perturbStep (d_options (pd (ex_o OSQP_SPARSE))) = false.
Proof. vm_compute. reflexivity. Qed.

(** C32 *)
Theorem C32_mismatch : forall T (A : Arith T) fuel (orc : oracle T) rand (o : lcqp T) r o',
  runSolver_fuel fuel orc rand o = Ok (r, o') ->
  (r = DENSE_SPARSE_MISSMATCH <-> mismatch o) /\ (mismatch o -> s_calls (it o') = s_calls (it o)).
Proof. exact @run_mismatch. Qed.
Print Assumptions C32_mismatch.
Example C32_example : runSolver ex_oracle no_rand ex_again = Ok (DENSE_SPARSE_MISSMATCH, ex_done ex_oracle ex_again) /\ mismatch ex_again.
Proof. split; [exact ex_again_run|vm_compute; reflexivity]. Qed.

(** C44: a run that passes initialisation does not depend on the statistics the object held before.  Missing: a run that
    fails earlier keeps them, see [C05_stale_status_refuted]. *)
Theorem C44_fresh_statistics_partial : forall T (A : Arith T) (orc : oracle T) rand st (o o1 : lcqp T),
  initializeSolver o = Ok (SUCCESSFUL_RETURN, o1) -> runSolver orc rand (with_stats st o) = runSolver orc rand o.
Proof. exact @run_with_stats. Qed.
Print Assumptions C44_fresh_statistics_partial.
Example C44_example : exists o1, initializeSolver (ex_done (ex_orc QPOASES_DENSE) (ex_o QPOASES_DENSE)) = Ok (SUCCESSFUL_RETURN, o1).
Proof. eexists. vm_compute. reflexivity. Qed.
