(** * Properties_Dim: numbers of variables and solution vectors over any history of calls on one object. *)
From Verif Require Import Base Arith Codes Utilities Options Stats FileIO Subsolver State LCQProblem SpecRun SpecLife SpecUse SpecDim SpecMath Loops Examples ExamplesLife DimFacts ExamplesDim.

(** C70, primals: getNumberOfPrimals gives the nV of the constructor, whatever calls were made and whatever they returned. *)
Theorem C70_primals : forall {T : Type} `{Arith T} (orc : oracle T) rand n m k h (o o' : lcqp T),
  0 < n -> 0 <= m -> 0 < k -> LCQProblem_ctor n m k = Ok o -> used orc rand h o o' -> getNumberOfPrimals o' = Ok n.
Proof. exact @p_C70_primals. Qed.
Print Assumptions C70_primals.
Example C70_primals_example : LCQProblem_ctor 2 0 1 = Ok exl_o /\ used exl_orc no_rand exd_mixed exl_o (exl_after exd_mixed).
Proof. exact (conj exl_new (proj1 exd_mixed_fails)). Qed.

(** C70, duals, before any run: getNumberOfDuals reads an uninitialised member (so the first clause of C70 needs a run). *)
Theorem C70_unset : forall {T : Type} `{Arith T} (orc : oracle T) rand n m k h (o o' : lcqp T),
  0 < n -> 0 <= m -> 0 < k -> LCQProblem_ctor n m k = Ok o -> used orc rand h o o' -> no_run h -> getNumberOfDuals o' = UB Uninit.
Proof. exact @p_C70_no_run. Qed.
Print Assumptions C70_unset.
Example C70_unset_example : LCQProblem_ctor 2 0 1 = Ok exl_o /\ used exl_orc no_rand exd_idle exl_o (exl_after exd_idle) /\ no_run exd_idle.
Proof. exact (conj exl_new exd_idle_used). Qed.

(** C70, duals, after a run: the QP solver selected at the latest run decides, even if that run was refused: nV + nC + 2*nComp for qpOASES,
    nC + 2*nComp for OSQP.  An OSQP run rejected for the box bounds that an earlier qpOASES run left behind changes nothing. *)
Theorem C70_duals : forall {T : Type} `{Arith T} (orc : oracle T) rand n m k h1 r h2 (o o' : lcqp T),
  0 < n -> 0 <= m -> 0 < k -> LCQProblem_ctor n m k = Ok o -> used orc rand (h1 ++ (KRun, r) :: h2) o o' -> no_run h2 ->
  (selected h1 <> OSQP_SPARSE -> getNumberOfDuals o' = Ok (n + m + 2 * k)) /\
  (selected h1 = OSQP_SPARSE -> r <> INVALID_OSQP_BOX_CONSTRAINTS \/ ~ ran_qpoases h1 -> getNumberOfDuals o' = Ok (m + 2 * k)) /\
  (selected h1 = OSQP_SPARSE -> started_qpoases h1 -> exists o1, used orc rand h1 o o1 /\ getNumberOfDuals o' = getNumberOfDuals o1).
Proof. exact @p_C70_duals. Qed.
Print Assumptions C70_duals.
Example C70_duals_example : LCQProblem_ctor 2 0 1 = Ok exl_o /\
  (used exl_orc no_rand exd_qp exl_o (exl_after exd_qp) /\
   exd_qp = [(KOptions (ex_options QPOASES_DENSE), SUCCESSFUL_RETURN); (exl_load None, SUCCESSFUL_RETURN); (KRun, SUCCESSFUL_RETURN); (KToSparse, SUCCESSFUL_RETURN)] ++
     (KRun, DENSE_SPARSE_MISSMATCH) :: [(exl_load (zvec [0;0]), SUCCESSFUL_RETURN)]) /\
  (used exl_orc no_rand exd_osqp exl_o (exl_after exd_osqp) /\ exd_osqp = exl_free ++ (KRun, SUCCESSFUL_RETURN) :: [(KToDense, SUCCESSFUL_RETURN)] /\ selected exl_free = OSQP_SPARSE) /\
  (used exl_orc no_rand (exl_qpoases ++ [(KRun, INVALID_OSQP_BOX_CONSTRAINTS)]) exl_o (exl_after exd_both) /\ started_qpoases exl_qpoases).
Proof. exact (conj exl_new (conj exd_qp_used (conj exd_osqp_used (conj exd_both_used exl_qpoases_started)))). Qed.

(** C70, primal solution: after any calls, getPrimalSolution either leaves the caller's array alone, or writes a fixed vector into its first nV
    entries and nothing else (an array with fewer entries is overrun), or reads something uninitialised.  It never leaves its own vector. *)
Theorem C70_primal_solution : forall {T : Type} `{Arith T} (orc : oracle T) rand n m k h (o o' : lcqp T),
  0 < n -> 0 <= m -> 0 < k -> LCQProblem_ctor n m k = Ok o -> used orc rand h o o' -> delivers (fun b => getPrimalSolution (Some b) o') n.
Proof. exact @p_C70_primal. Qed.
Print Assumptions C70_primal_solution.
Example C70_primal_solution_example : LCQProblem_ctor 2 0 1 = Ok exl_o /\ used exl_orc no_rand exd_qp exl_o (exl_after exd_qp).
Proof. exact (conj exl_new (proj1 exd_qp_used)). Qed.

(** C70, dual solution: the same for getDualSolution with the number of duals, if all runs used qpOASES or all runs used OSQP.
    Missing: histories that mix them, see [C70_refuted]. *)
Theorem C70_dual_solution_partial : forall {T : Type} `{Arith T} (orc : oracle T) rand n m k (osqp : bool) h (o o' : lcqp T),
  0 < n -> 0 <= m -> 0 < k -> LCQProblem_ctor n m k = Ok o -> used orc rand h o o' -> runs_with osqp h ->
  delivers (fun y => getDualSolution (Some y) o') (if osqp then m + 2 * k else n + m + 2 * k).
Proof. exact @p_C70_dual. Qed.
Print Assumptions C70_dual_solution_partial.
Example C70_dual_solution_example : LCQProblem_ctor 2 0 1 = Ok exl_o /\ (used exl_orc no_rand exd_qp exl_o (exl_after exd_qp) /\ runs_with false exd_qp) /\
  (used exl_orc no_rand exd_osqp exl_o (exl_after exd_osqp) /\ runs_with true exd_osqp).
Proof. exact (conj exl_new (conj (conj (proj1 exd_qp_used) exd_qp_runs) (conj (proj1 exd_osqp_used) exd_osqp_runs))). Qed.

(** C70 is false for the dual solution in general: after a successful run with OSQP and a refused run with qpOASES, getNumberOfDuals counts the duals of
    qpOASES while the vector still has the size used with OSQP, and getDualSolution reads outside it although the caller's array is large enough. *)
Theorem C70_refuted : exists (orc : oracle xq) rand h o o', LCQProblem_ctor 2 0 1 = Ok o /\ used orc rand h o o' /\ getNumberOfDuals o' = Ok 4 /\
  getDualSolution (Some (repeat None 4)) o' = UB OutOfBounds.
Proof. exact (ex_intro _ exl_orc (ex_intro _ no_rand (ex_intro _ exd_mixed (ex_intro _ exl_o (ex_intro _ (exl_after exd_mixed) (conj exl_new exd_mixed_fails)))))). Qed.
Print Assumptions C70_refuted.
