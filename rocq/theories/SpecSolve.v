(** * SpecSolve: solving an LCQP with rational data through the API, in dense or sparse form (no LCQPow code). *)
From Coq Require Import QArith Qcanon.
From Verif Require Import Base Arith Codes Utilities Options Stats FileIO Subsolver State LCQProblem Loops SpecSparse SpecMath SpecLoad SpecExact SpecRun SpecTrace.
Open Scope Z_scope.

(** A problem in one of the two input formats.  No LCQPow code. *)
Inductive problem : Type := PDense (u : qdense) | PSparse (u : qsparse).
(** Its vectors.  No LCQPow code. *)
Definition pr_vec (p : problem) : qvec := match p with PDense u => qd_v u | PSparse u => qs_v u end.
(** The mathematical problem.  No LCQPow code. *)
Definition pr_data (p : problem) : qdata := match p with PDense u => dense_data u | PSparse u => sparse_data u end.
(** Construct an object, set the options, load the problem and run the solver.  No LCQPow code. *)
Definition pr_solve (p : problem) (opt : options xq) (orc : oracle xq) (rand : nat -> Z) : res (ReturnValue * lcqp xq) :=
  match p with PDense u => solve_dense (to_dense u) opt orc rand | PSparse u => solve_sparse (to_sparse u) opt orc rand end.
(** The initial guess: x0 or zero.  No LCQPow code. *)
Definition pr_x0 (p : problem) : list Qc :=
  match qv_x0 (pr_vec p) with Some x => x | None => tab (e_nV (pr_data p)) (fun _ => 0%Qc) end.
(** Number of box multipliers: OSQP has none.  No LCQPow code. *)
Definition box_duals (p : problem) (opt : options xq) : Z := match o_qpSolver opt with OSQP_SPARSE => 0 | _ => e_nV (pr_data p) end.

(** Correctly sized data and a QP solver for its format; lbL and lbR are given both or not at all; in sparse form Q is
    symmetric and L'R + R'L has some nonzero entry but none of absolute value at most 1e-25; OSQP has no box constraints
    and no dual guess.  No LCQPow code. *)
Definition admissible (p : problem) (opt : options xq) : Prop :=
  paired (to_vec (pr_vec p)) /\
  match p with
  | PDense u => wf_dense (to_dense u) /\ o_qpSolver opt = QPOASES_DENSE
  | PSparse u => wf_sparse (to_sparse u) /\ o_qpSolver opt <> QPOASES_DENSE /\ osqp_ok (to_vec (qs_v u)) opt /\
      e_symmetric (sparse_data u) /\ no_tiny (sparse_data u) /\
      exists i j, 0 <= i < qv_nV (qs_v u) /\ 0 <= j < qv_nV (qs_v u) /\ e_C (sparse_data u) i j <> 0%Qc
  end.
(** Rational penalty parameters, and rational answers to all QPs of the run that ended in [o].  No LCQPow code. *)
Definition rational_run (p : problem) (opt : options xq) (orc : oracle xq) (o : lcqp xq) (r0 fac : Qc) : Prop :=
  finite_penalty opt r0 fac /\
  Forall (fun ca => finite_answer (e_nV (pr_data p)) (box_duals p opt + e_nA (pr_data p)) (snd ca)) (answers orc (s_calls (it o)) []).

(** getPrimalSolution delivers [x].  No LCQPow code. *)
Definition returns_primal (o : lcqp xq) (x : list Qc) : Prop :=
  forall buf, len buf = len x -> exists st, getPrimalSolution (Some buf) o = Ok (st, Some (lift (fins x))).
(** getDualSolution delivers [y].  No LCQPow code. *)
Definition returns_dual (o : lcqp xq) (y : list Qc) : Prop :=
  getNumberOfDuals o = Ok (len y) /\
  forall buf, len buf = len y -> exists st, getDualSolution (Some buf) o = Ok (st, Some (lift (fins y))).

(** [l <= q <= u] for a rational [q].  No LCQPow code. *)
Definition between (l : xq) (q : Qc) (u : xq) : Prop := a_le l (Fin q) = true /\ a_le (Fin q) u = true.
(** [x] satisfies lbA <= Ax <= ubA, lbL <= Lx <= ubL, lbR <= Rx <= ubR and lb <= x <= ub with the documented defaults.  No LCQPow code. *)
Definition feasible (p : problem) (x : list Qc) : Prop :=
  let e := pr_data p in let v := pr_vec p in
  let at_or (l : option (list xq)) d i := match l with Some l => at_ (Fin 0) l i | None => d end in
  (forall i, 0 <= i < e_nC e -> between (at_or (qv_lbA v) NInf i) (mv (e_A e) (e_nV e) x i) (at_or (qv_ubA v) PInf i)) /\
  (forall i, 0 <= i < e_nComp e -> between (Fin (lo (qv_lbL v) i)) (mv (e_L e) (e_nV e) x i) (at_or (qv_ubL v) PInf i)) /\
  (forall i, 0 <= i < e_nComp e -> between (Fin (lo (qv_lbR v) i)) (mv (e_R e) (e_nV e) x i) (at_or (qv_ubR v) PInf i)) /\
  (forall i, 0 <= i < e_nV e -> between (at_or (qv_lb v) NInf i) (qat x i) (at_or (qv_ub v) PInf i)).
(** The primal part of an answer.  No LCQPow code. *)
Definition primal_answer (n : Z) (a : qp_raw xq) (z : list Qc) : Prop := len z = n /\ forall i, 0 <= i < n -> q_x a i = Fin (qat z i).
(** Objective of a QP: z'Qz/2 + g'z.  No LCQPow code. *)
Definition qp_value (e : qdata) (g z : list Qc) : Qc := (qform (e_Q e) (e_nV e) z * qhalf + qdot (e_nV e) g z)%Qc.
(** The QP library returns feasible points.  No LCQPow code. *)
Definition feasible_answers (p : problem) (orc : oracle xq) (o : lcqp xq) : Prop :=
  forall c a z, In (c, a) (answers orc (s_calls (it o)) []) -> qp_error c a = None -> primal_answer (e_nV (pr_data p)) a z -> feasible p z.
(** The QP library returns minimisers.  No LCQPow code. *)
Definition optimal_answers (p : problem) (orc : oracle xq) (o : lcqp xq) : Prop :=
  forall c a z g z', In (c, a) (answers orc (s_calls (it o)) []) -> qp_error c a = None -> primal_answer (e_nV (pr_data p)) a z ->
    qc_g c = fins g -> len z' = e_nV (pr_data p) -> feasible p z' -> (qp_value (pr_data p) g z <= qp_value (pr_data p) g z')%Qc.

(** The penalised objective f(x) + rho phi(x).  No LCQPow code. *)
Definition e_pen (e : qdata) (rho : Qc) (x : list Qc) : Qc := (e_obj e x + rho * e_phi e x)%Qc.
(** Its gradient for symmetric Q: (Q + rho C) x + g + rho g_phi.  No LCQPow code. *)
Definition e_pengrad (e : qdata) (rho : Qc) (x : list Qc) (i : Z) : Qc :=
  (mv (e_H e rho) (e_nV e) x i + qat (e_g e) i + rho * e_gphi e i)%Qc.
(** Lower bounds lbL, lbR that do not enter the gradient of phi, e.g. none at all.  No LCQPow code. *)
Definition no_shift (e : qdata) : Prop := forall i, 0 <= i < e_nV e -> e_gphi e i = 0%Qc.
(** Positive definite Q.  No LCQPow code. *)
Definition pos_def (e : qdata) : Prop := forall x, len x = e_nV e -> (exists i, 0 <= i < e_nV e /\ qat x i <> 0%Qc) -> (0 < qform (e_Q e) (e_nV e) x)%Qc.

(** S-, M-, C- and W-stationarity for the pairs [i < m] with [biactive i] and multipliers [a i], [b i]; products are compared
    up to [tol].  No LCQPow code. *)
Definition stationarity_type (tol : Qc) (m : Z) (biactive : Z -> Prop) (a b : Z -> Qc) (s : AlgorithmStatus) : Prop :=
  let all (P : Qc -> Qc -> Prop) := forall i, 0 <= i < m -> biactive i -> P (a i) (b i) in
  let sS := all (fun a b => 0 <= a /\ 0 <= b)%Qc in
  let sM := all (fun a b => (0 < a /\ 0 < b) \/ (- tol < a * b /\ a * b < tol))%Qc in
  let sC := all (fun a b => - tol < a * b)%Qc in
  (s = S_STATIONARY_SOLUTION <-> sS) /\ (s = M_STATIONARY_SOLUTION <-> ~ sS /\ sM) /\
  (s = C_STATIONARY_SOLUTION <-> ~ sS /\ ~ sM /\ sC) /\ (s = W_STATIONARY_SOLUTION <-> ~ sC).
(** Pairs with (Lx)_i <= tol and (Rx)_i <= tol.  No LCQPow code. *)
Definition small_pair (e : qdata) (tol : Qc) (x : list Qc) (i : Z) : Prop :=
  (mv (e_L e) (e_nV e) x i <= tol /\ mv (e_R e) (e_nV e) x i <= tol)%Qc.

(** Pass [S j] of the run, as recorded with storeSteps: it leads from [x] to [x'] with step length [al]; the QP library was
    asked [c] and answered [a], a success with primal part [z].  No LCQPow code. *)
Record recorded_pass (pr : problem) (orc : oracle xq) (o : lcqp xq) (j : nat) (x x' z : list Qc) (al : Qc) (c : qp_call xq) : Prop := {
  rp_from : nth_error (st_xSteps (getOutputStatistics o)) j = Some (fins x);
  rp_to : nth_error (st_xSteps (getOutputStatistics o)) (S j) = Some (fins x');
  rp_len : nth_error (st_stepLength (getOutputStatistics o)) (S j) = Some (Fin al);
  rp_answer : exists a, nth_error (rev (answers orc (s_calls (it o)) [])) (S j) = Some (c, a) /\ qp_error c a = None /\
    primal_answer (e_nV (pr_data pr)) a z }.
(** [b + t (z - x)].  No LCQPow code. *)
Definition on_line (n : Z) (b x z : list Qc) (t : Qc) : list Qc := tab n (fun i => qat b i + t * (qat z i - qat x i))%Qc.
(** Linear term g + rho (C x + g_phi) of a QP.  No LCQPow code. *)
Definition penalised_term (e : qdata) (rho : Qc) (x : list Qc) : list xq :=
  fins (tab (e_nV e) (fun i => qat (e_g e) i + rho * (mv (e_C e) (e_nV e) x i + e_gphi e i))%Qc).
(** [y] are the dual values of the answer [a]; OSQP's have the opposite sign.  No LCQPow code. *)
Definition dual_answer (solver : QPSolver) (m : Z) (a : qp_raw xq) (y : list Qc) : Prop :=
  len y = m /\ forall i, 0 <= i < m -> q_y a i = Fin (match solver with OSQP_SPARSE => - qat y i | _ => qat y i end)%Qc.
(** [v] is the largest absolute value of [f 0], ..., [f (n-1)].  No LCQPow code. *)
Definition max_norm (n : Z) (f : Z -> Qc) (v : Qc) : Prop :=
  (forall i, 0 <= i < n -> (- v <= f i <= v)%Qc) /\ (v = 0%Qc \/ exists i, 0 <= i < n /\ (v = f i \/ v = - f i)%Qc).
