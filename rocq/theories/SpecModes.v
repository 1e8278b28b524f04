(** * SpecModes: comparing a problem in dense and in sparse form (specification, no LCQPow code). *)
From Coq Require Import QArith Qcanon.
From Verif Require Import Base Arith Codes Utilities Options Stats FileIO Subsolver State LCQProblem Loops SpecSparse SpecMath SpecLoad SpecExact SpecRun SpecTrace SpecSolve StartSparse.
Open Scope Z_scope.

(** The same options with another QP solver.  No LCQPow code. *)
Definition with_solver {T} (s : QPSolver) (o : options T) : options T :=
  mkOptions (o_stationarityTolerance o) (o_complementarityTolerance o) (o_initialPenaltyParameter o) (o_penaltyUpdateFactor o)
    (o_solveZeroPenaltyFirst o) (o_perturbStep o) (o_maxIterations o) (o_maxPenaltyParameter o) (o_nDynamicPenalty o)
    (o_etaDynamicPenalty o) (o_printLevel o) (o_storeSteps o) s.

(** The same vectors and the same matrix entries.  No LCQPow code. *)
Definition same_problem (d : qdense) (s : qsparse) : Prop :=
  qd_v d = qs_v s /\
  (forall i j, 0 <= i < qv_nV (qd_v d) -> 0 <= j < qv_nV (qd_v d) -> e_Q (dense_data d) i j = e_Q (sparse_data s) i j) /\
  (forall i j, 0 <= i < qv_nComp (qd_v d) -> 0 <= j < qv_nV (qd_v d) -> e_L (dense_data d) i j = e_L (sparse_data s) i j) /\
  (forall i j, 0 <= i < qv_nComp (qd_v d) -> 0 <= j < qv_nV (qd_v d) -> e_R (dense_data d) i j = e_R (sparse_data s) i j) /\
  (forall i j, 0 <= i < qv_nC (qd_v d) -> 0 <= j < qv_nV (qd_v d) -> e_A (dense_data d) i j = e_A (sparse_data s) i j).

(** A matrix handed to the QP library is the [m] by [n] matrix [M].  No LCQPow code. *)
Definition mat_is (m n : Z) (M : Z -> Z -> Qc) (a : qp_mat xq) : Prop :=
  match a with
  | MDense l => exists q, l = fins q /\ len q = m * n /\ forall i j, 0 <= i < m -> 0 <= j < n -> qent q n i j = M i j
  | MSparse _ _ _ _ _ => exists cols, a = csc_mat m n (fincols cols) /\ len cols = n /\ forall i j, 0 <= i < m -> 0 <= j < n -> qentry cols i j = M i j
  end.
(** Two QPs with [n] variables and [m] constraints that differ at most in how their matrices are stored.  No LCQPow code. *)
Definition same_qp (n m : Z) (c d : qp_call xq) : Prop :=
  (exists H, mat_is n n H (qc_H c) /\ mat_is n n H (qc_H d)) /\
  (exists A, mat_is m n A (qc_A c) /\ mat_is m n A (qc_A d)) /\
  qc_initial c = qc_initial d /\ qc_g c = qc_g d /\ qc_lbA c = qc_lbA d /\ qc_ubA c = qc_ubA d /\
  qc_lb c = qc_lb d /\ qc_ub c = qc_ub d /\ qc_x0 c = qc_x0 d /\ qc_y0 c = qc_y0 d.
(** QP libraries whose answers do not depend on how matrices are stored.  No LCQPow code. *)
Definition same_answers (n m : Z) (orc orc' : oracle xq) : Prop :=
  forall h h', Forall2 (same_qp n m) h h' -> orc h = orc' h'.

(** Two runs nobody can tell apart: same code, same statistics and printed text, same QPs, same results from the getters (or
    the same undefined behaviour).  No LCQPow code. *)
Definition same_outcome {T} (a b : res (ReturnValue * lcqp T)) : Prop :=
  match a, b with
  | Ok (r, o), Ok (r', o') => r = r' /\ getOutputStatistics o = getOutputStatistics o' /\ s_log (it o) = s_log (it o') /\ s_calls (it o) = s_calls (it o') /\
      (forall buf, getPrimalSolution buf o = getPrimalSolution buf o') /\ (forall buf, getDualSolution buf o = getDualSolution buf o') /\
      getNumberOfPrimals o = getNumberOfPrimals o' /\ getNumberOfDuals o = getNumberOfDuals o'
  | UB u, UB u' => u = u'
  | _, _ => False
  end.

(** Columns without stored zeros.  No LCQPow code. *)
Definition no_zeros (cols : list (list (Z * Qc))) : Prop := forall c e, In c cols -> In e c -> snd e <> 0%Qc.
(** No stored zeros in Q, L, R and A.  No LCQPow code. *)
Definition stores_no_zeros (s : qsparse) : Prop :=
  no_zeros (qs_Q s) /\ no_zeros (qs_L s) /\ no_zeros (qs_R s) /\ match qs_A s with Some c => no_zeros c | None => True end.
