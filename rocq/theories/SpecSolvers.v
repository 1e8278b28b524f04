(** * SpecSolvers: sparse qpOASES and OSQP side by side (specification, no LCQPow code). *)
From Verif Require Import Base Arith Codes Utilities Options Stats FileIO Subsolver State LCQProblem Loops CscBuild SpecSparse SpecLoad StartSparse.
Open Scope Z_scope.

Section Solvers.
Context {T : Type} `{Arith T}.

(** [c] for qpOASES and [d] for OSQP are the same QP with [n] variables: OSQP gets the upper triangle of the Hessian and no box,
    qpOASES an infinite box.  No LCQPow code. *)
Record boxless_qp (n : Z) (c d : qp_call T) : Prop := mkBoxless {
  bq_solver : qc_solver c = QPOASES_SPARSE /\ qc_solver d = OSQP_SPARSE; bq_initial : qc_initial d = qc_initial c;
  bq_H : exists cols, qc_H c = csc_mat n n cols /\ qc_H d = csc_mat n n (upper_cols cols n);
  bq_A : qc_A d = qc_A c; bq_g : qc_g d = qc_g c; bq_lbA : qc_lbA d = qc_lbA c; bq_ubA : qc_ubA d = qc_ubA c;
  bq_box : qc_lb c = Some (tab n (fun _ => a_ninf)) /\ qc_ub c = Some (tab n (fun _ => a_pinf)) /\ qc_lb d = None /\ qc_ub d = None;
  bq_x0 : qc_x0 d = qc_x0 c; bq_y0 : qc_y0 c = None /\ qc_y0 d = None }.
(** The same answer in the conventions of the two libraries: both succeed or both fail, same iteration count and point, no box
    multipliers (qpOASES: zero), multipliers of [k] constraints with opposite signs.  No LCQPow code. *)
Record boxless_answer (n k : Z) (a a' : qp_raw T) : Prop := mkBoxlessAns {
  ba_ret : q_ret a = 0 <-> q_ret a' = 0 /\ 0 < q_status a';
  ba_iter : q_iter a' = q_iter a; ba_work : q_work a' = true; ba_wsx : q_wsx_fails a' = false;
  ba_x : forall i, 0 <= i < n -> q_x a' i = q_x a i;
  ba_box : forall i, 0 <= i < n -> q_y a i = a_zero;
  ba_y : forall i, 0 <= i < k -> q_y a' i = (- q_y a (n + i))%num }.
(** [orc'] (OSQP) solves the QPs as [orc] (qpOASES) does.  No LCQPow code. *)
Definition same_solutions (n k : Z) (orc orc' : oracle T) : Prop :=
  forall h h', Forall2 (boxless_qp n) h h' -> boxless_answer n k (orc h) (orc' h').

(** Two runs with the same outcome: same undefined behaviour, or same code, same status and point, statistics equal except for the
    exit flag of the QP library, corresponding QPs, and after success the multipliers of OSQP are those of qpOASES without the box
    multipliers, which are zero.  No LCQPow code. *)
Definition boxless_runs (n k : Z) (r1 r2 : res (ReturnValue * lcqp T)) : Prop :=
  match r1, r2 with
  | Ok (r, o), Ok (r', o') =>
      r' = r /\ (exists f, getOutputStatistics o' = updateQPSolverExitFlag f (getOutputStatistics o)) /\
      (forall buf, getPrimalSolution buf o' = getPrimalSolution buf o) /\
      Forall2 (boxless_qp n) (s_calls (it o)) (s_calls (it o')) /\
      (r = SUCCESSFUL_RETURN -> exists s y, len y = k /\
         (forall buf : arr T, len buf = n + k -> getDualSolution (Some buf) o = Ok (s, Some (lift (tab n (fun _ => a_zero) ++ y)))) /\
         (forall buf : arr T, len buf = k -> getDualSolution (Some buf) o' = Ok (s, Some (lift y))))
  | UB u, UB u' => u = u'
  | _, _ => False
  end.
End Solvers.
