(** * SpecApi: calls with missing data and calls at the wrong time (specification, not LCQPow code). *)
From Verif Require Import Base Arith Codes Utilities Options Stats FileIO Subsolver State LCQProblem Loops SpecSparse SpecLoad.

(** Which of the mandatory arguments Q, g, L, R, A are passed; the others are NULL.  No LCQPow code. *)
Record passed : Type := mkPassed { pa_Q : bool; pa_g : bool; pa_L : bool; pa_R : bool; pa_A : bool }.

Section SpecApi.
Context {T : Type} `{Arith T}.

(** The argument, or NULL.  No LCQPow code. *)
Definition arg {X} (given : bool) (x : X) : option X := if given then Some x else None.
(** [loadLCQP] with dense data of which only [k] is passed.  No LCQPow code. *)
Definition load_dense_part (k : passed) (u : udense T) (o : lcqp T) : res (ReturnValue * lcqp T) :=
  let v := ud_v u in
  loadLCQP (arg (pa_Q k) (lift (ud_Q u))) (arg (pa_g k) (lift (u_g v))) (arg (pa_L k) (lift (ud_L u))) (arg (pa_R k) (lift (ud_R u)))
    (ptr_of (u_lbL v)) (ptr_of (u_ubL v)) (ptr_of (u_lbR v)) (ptr_of (u_ubR v))
    (arg (pa_A k) (lift (ud_A u))) (ptr_of (u_lbA v)) (ptr_of (u_ubA v))
    (ptr_of (u_lb v)) (ptr_of (u_ub v)) (ptr_of (u_x0 v)) (ptr_of (u_y0 v)) o.
(** [loadLCQP] with sparse data of which only [k] is passed.  No LCQPow code. *)
Definition load_sparse_part (k : passed) (u : usparse T) (o : lcqp T) : res (ReturnValue * lcqp T) :=
  let v := us_v u in
  loadLCQP_csc (arg (pa_Q k) (csc_of (u_nV v) (u_nV v) (us_Q u))) (arg (pa_g k) (lift (u_g v)))
    (arg (pa_L k) (csc_of (u_nComp v) (u_nV v) (us_L u))) (arg (pa_R k) (csc_of (u_nComp v) (u_nV v) (us_R u)))
    (ptr_of (u_lbL v)) (ptr_of (u_ubL v)) (ptr_of (u_lbR v)) (ptr_of (u_ubR v))
    (arg (pa_A k) (csc_of (u_nC v) (u_nV v) (us_Acols u))) (ptr_of (u_lbA v)) (ptr_of (u_ubA v))
    (ptr_of (u_lb v)) (ptr_of (u_ub v)) (ptr_of (u_x0 v)) (ptr_of (u_y0 v)) o.

(** Dimensions the constructor rejects.  No LCQPow code. *)
Definition bad_dims (nV nC nComp : Z) : Prop := nV <= 0 \/ nComp <= 0 \/ nC < 0.

(** getPrimalSolution delivers the vector [x] of [n] entries and a status.  No LCQPow code. *)
Definition gives_primal (o : lcqp T) (n : Z) (x : list T) : Prop :=
  len x = n /\ exists a, forall buf, len buf = n -> getPrimalSolution (Some buf) o = Ok (a, Some (lift x)).
(** getDualSolution delivers the vector [y] of as many entries as getNumberOfDuals says, and a status.  No LCQPow code. *)
Definition gives_dual (o : lcqp T) (y : list T) : Prop :=
  getNumberOfDuals o = Ok (len y) /\ exists a, forall buf, len buf = len y -> getDualSolution (Some buf) o = Ok (a, Some (lift y)).
End SpecApi.

(** OSQP's status values for a solved problem (OSQP_SOLVED, OSQP_SOLVED_INACCURATE; 3 and 4 are "primal/dual infeasible
    inaccurate", everything else that is not negative is not a solver status).  No LCQPow code. *)
Definition osqp_solved (status : Z) : Prop := status = 1 \/ status = 2.
(** The solver is one of the two qpOASES variants.  No LCQPow code. *)
Definition uses_qpOASES (qs : QPSolver) : Prop := qs <> OSQP_SPARSE.
