(** * SpecRun: vocabulary for statements about whole runs (specification, not LCQPow code). *)
From Verif Require Import Base Arith Codes Subsolver.

Section SpecRun.
Context {T : Type}.

(** The QP solver's answer to each call of a run, newest first; [old] are the calls before the run. *)
Fixpoint answers (orc : oracle T) (new old : list (qp_call T)) : list (qp_call T * qp_raw T) :=
  match new with
  | [] => []
  | c :: r => (c, orc (c :: r ++ old)) :: answers orc r old
  end.

(** An optional argument was passed. No LCQPow code. *)
Definition given {A} (x : option A) : bool := match x with Some _ => true | None => false end.

(** An OSQP call that fails before osqp_solve is reached *)
Definition osqp_setup_error (c : qp_call T) (a : qp_raw T) : option ReturnValue :=
  if qc_initial c && given (qc_x0 c) && q_wsx_fails a then Some OSQP_INITIAL_PRIMAL_GUESS_FAILED else
  if qc_initial c && given (qc_y0 c) && q_wsy_fails a then Some OSQP_INITIAL_DUAL_GUESS_FAILED else
  if qc_initial c && negb (q_work a) then Some OSQP_WORKSPACE_NOT_SET_UP else None.

(** The error a QP solver's answer stands for; [None]: the QP was solved. *)
Definition qp_error (c : qp_call T) (a : qp_raw T) : option ReturnValue :=
  match qc_solver c with
  | OSQP_SPARSE =>
      match osqp_setup_error c a with
      | Some e => Some e
      | None => if (q_ret a =? 0) && (0 <? q_status a) then None else Some SUBPROBLEM_SOLVER_ERROR
      end
  | _ => if q_ret a =? 0 then None else Some SUBPROBLEM_SOLVER_ERROR
  end.

(** The exit flag a QP solver's answer carries *)
Definition qp_flag (c : qp_call T) (a : qp_raw T) : Z :=
  match qc_solver c with OSQP_SPARSE => q_status a | _ => q_ret a end.

(** The solver did not stop in OSQP's setup, i.e. it reported an iteration count and an exit flag *)
Definition qp_reported (c : qp_call T) (a : qp_raw T) : Prop :=
  qc_solver c = OSQP_SPARSE -> osqp_setup_error c a = None.

(** Sum of the reported iteration counts (negative counts are ignored) *)
Definition sum_iters (l : list (qp_call T * qp_raw T)) : Z :=
  fold_right (fun p s => Z.max 0 (q_iter (snd p)) + s) 0 l.

End SpecRun.
