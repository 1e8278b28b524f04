(** * Properties_Solvers: sparse qpOASES and OSQP. *)
From Coq Require Import QArith Qcanon.
From Verif Require Import Base Arith Codes Utilities Options Stats FileIO Subsolver State LCQProblem Loops SpecSparse SpecLoad SpecExact SpecRun SpecSolve SpecModes SpecSolvers CscMerge LoadSparse StartSparse ExactRun
  Exact SolversFacts Examples ExamplesExact ExamplesExact2 ExamplesSolvers.
Open Scope Z_scope.

(** ** C54: a run with sparse qpOASES and a run with OSQP on the same problem

    Exact arithmetic, sparse data without box constraints (a run with OSQP refuses them) and without dual guess (most of it would
    not be copied for OSQP: memcpy gets the number of entries, not of bytes), any options.  If the two libraries solve the QPs alike (each in its own sign and storage convention), then the runs return the
    same code, status, statistics (except for the library's own exit flag) and point; the multipliers are the same, OSQP without
    the leading zero box multipliers.

    Partial: as C54_partial it fixes the way data are loaded (here sparse), and needs a C with at least one entry and lbL and lbR
    both given or both absent. *)
Theorem C54_osqp_partial : forall (u : usparse xq) opt orc orc' rand,
  wf_sparse u -> paired (us_v u) -> fin_lower (us_v u) -> concat (us_C u) <> [] ->
  u_lb (us_v u) = None -> u_ub (us_v u) = None -> u_y0 (us_v u) = None ->
  same_solutions (u_nV (us_v u)) (u_nC (us_v u) + 2 * u_nComp (us_v u)) orc orc' ->
  boxless_runs (u_nV (us_v u)) (u_nC (us_v u) + 2 * u_nComp (us_v u))
    (solve_sparse u (with_solver QPOASES_SPARSE opt) orc rand) (solve_sparse u (with_solver OSQP_SPARSE opt) orc' rand).
Proof. exact p_C54_osqp. Qed.
Print Assumptions C54_osqp_partial.
(** Both runs succeed. *)
Example C54_osqp_example : forall b, let u := to_sparse (exq_s b) in let opt := ex_options QPOASES_DENSE in
  wf_sparse u /\ paired (us_v u) /\ fin_lower (us_v u) /\ concat (us_C u) <> [] /\ u_lb (us_v u) = None /\ u_ub (us_v u) = None /\ u_y0 (us_v u) = None /\
  u_nV (us_v u) = 2 /\ u_nC (us_v u) + 2 * u_nComp (us_v u) = 3 /\ same_solutions 2 3 (exq_orc QPOASES_SPARSE) (exq_orc OSQP_SPARSE) /\
  solve_sparse u (with_solver QPOASES_SPARSE opt) (exq_orc QPOASES_SPARSE) no_rand = Ok (SUCCESSFUL_RETURN, exq_done b QPOASES_SPARSE) /\
  solve_sparse u (with_solver OSQP_SPARSE opt) (exq_orc OSQP_SPARSE) no_rand = Ok (SUCCESSFUL_RETURN, exq_done b OSQP_SPARSE).
Proof.
  intros b u opt. split; [apply exq_wf_s|]. split; [apply exq_paired|]. split; [apply fin_lower_q|]. split; [destruct b; vm_compute; discriminate|].
  split; [destruct b; reflexivity|]. split; [destruct b; reflexivity|]. split; [destruct b; reflexivity|]. split; [destruct b; reflexivity|]. split; [destruct b; reflexivity|].
  split; [exact exq_boxless|]. split; [exact (exq_solves b QPOASES_SPARSE)|exact (exq_solves b OSQP_SPARSE)].
Qed.
