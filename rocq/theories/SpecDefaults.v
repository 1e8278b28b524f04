(** * SpecDefaults: leaving out optional arguments (specification, no LCQPow code). *)
From Coq Require Import QArith Qcanon.
From Verif Require Import Base Arith Codes Utilities Options Stats FileIO Subsolver State LCQProblem Loops SpecSparse SpecMath SpecLoad SpecExact SpecRun SpecSolve.
Open Scope Z_scope.

Section Defaults.
Context {T : Type} `{Arith T}.

(** Entry [i] of an argument; [d] is the documented meaning of a NULL pointer.  No LCQPow code. *)
Definition value_of (d : T) (l : option (list T)) (i : Z) : T := match l with Some l => at_ a_zero l i | None => d end.
(** Two arguments with [n] entries that mean the same, one of them possibly NULL.  No LCQPow code. *)
Definition same_value (n : Z) (d : T) (l l' : option (list T)) : Prop := forall i, 0 <= i < n -> value_of d l' i = value_of d l i.
(** Arguments that mean the same by the documentation: missing bounds are infinite, except for the lower complementarity bounds,
    which are zero; a missing initial guess is zero.  No LCQPow code. *)
Record same_meaning (v v' : uvec T) : Prop := mkSameMeaning {
  sm_nV : u_nV v' = u_nV v; sm_nC : u_nC v' = u_nC v; sm_nComp : u_nComp v' = u_nComp v; sm_g : u_g v' = u_g v; sm_y0 : u_y0 v' = u_y0 v;
  sm_lbL : same_value (u_nComp v) a_zero (u_lbL v) (u_lbL v'); sm_ubL : same_value (u_nComp v) a_pinf (u_ubL v) (u_ubL v');
  sm_lbR : same_value (u_nComp v) a_zero (u_lbR v) (u_lbR v'); sm_ubR : same_value (u_nComp v) a_pinf (u_ubR v) (u_ubR v');
  sm_lbA : same_value (u_nC v) a_ninf (u_lbA v) (u_lbA v'); sm_ubA : same_value (u_nC v) a_pinf (u_ubA v) (u_ubA v');
  sm_lb : same_value (u_nV v) a_ninf (u_lb v) (u_lb v'); sm_ub : same_value (u_nV v) a_pinf (u_ub v) (u_ub v');
  sm_x0 : same_value (u_nV v) a_zero (u_x0 v) (u_x0 v') }.

(** The same matrices with other vectors.  No LCQPow code. *)
Definition dense_with (v : uvec T) (u : udense T) : udense T := mkUdense v (ud_Q u) (ud_L u) (ud_R u) (ud_A u).
(** The same matrices with other vectors, sparse.  No LCQPow code. *)
Definition sparse_with (v : uvec T) (u : usparse T) : usparse T := mkUsparse v (us_Q u) (us_L u) (us_R u) (us_A u).

(** Two finished runs with return value [r] show the same: statistics, QPs, point and status, and after success the multipliers.  No LCQPow code. *)
Definition same_results (r : ReturnValue) (o o' : lcqp T) : Prop :=
  getOutputStatistics o' = getOutputStatistics o /\ s_calls (it o') = s_calls (it o) /\
  (forall buf, getPrimalSolution buf o' = getPrimalSolution buf o) /\ getNumberOfDuals o' = getNumberOfDuals o /\
  (r = SUCCESSFUL_RETURN -> forall buf, getDualSolution buf o' = getDualSolution buf o).
(** Two runs that end alike: the same undefined behaviour or the same code and results.  No LCQPow code. *)
Definition equal_runs (a b : res (ReturnValue * lcqp T)) : Prop :=
  match a, b with Ok (r, o), Ok (r', o') => r' = r /\ same_results r o o' | UB e, UB e' => e' = e | _, _ => False end.
End Defaults.

(** The same matrices with other vectors, rational data.  No LCQPow code. *)
Definition with_vec (v : qvec) (p : problem) : problem :=
  match p with
  | PDense u => PDense (mkQdense v (qd_Q u) (qd_L u) (qd_R u) (qd_A u))
  | PSparse u => PSparse (mkQsparse v (qs_Q u) (qs_L u) (qs_R u) (qs_A u))
  end.
