(** * SpecReuse: objects with a past, and what it means that two runs cannot be told apart *)
From Verif Require Import Base Arith Codes Utilities Options Stats FileIO Subsolver State LCQProblem SpecLoad.

Section SpecReuse.
Context {T : Type} `{Arith T}.

(** One call in the life of an object: new options, a successful load of dense or sparse data, a run (with the options in force).  No LCQPow code. *)
Inductive use : Type :=
| UOptions (opt : options T)
| ULoad (u : udense T)
| USparse (u : usparse T)
| URun (opt : options T).

(** Whether the data loaded last is sparse.  No LCQPow code. *)
Fixpoint sparse_now (h : list use) : bool :=
  match h with
  | [] => false
  | ULoad _ :: _ => false
  | USparse _ :: _ => true
  | _ :: h => sparse_now h
  end.

(** [used n m k h o]: the object [o] constructed for sizes [n], [m], [k] has seen the calls [h] (latest first); it was only run with
    dense data.  No LCQPow code. *)
Inductive used (n m k : Z) : list use -> lcqp T -> Prop :=
| used_new o : LCQProblem_ctor n m k = Ok o -> used n m k [] o
| used_options h o opt : used n m k h o -> used n m k (UOptions opt :: h) (setOptions opt o)
| used_load h o u o' : used n m k h o -> wf_dense u -> u_nV (ud_v u) = n -> u_nC (ud_v u) = m -> u_nComp (ud_v u) = k ->
    load_dense u o = Ok (SUCCESSFUL_RETURN, o') -> used n m k (ULoad u :: h) o'
| used_sparse h o u o' : used n m k h o -> wf_sparse u -> u_nV (us_v u) = n -> u_nC (us_v u) = m -> u_nComp (us_v u) = k ->
    load_sparse u o = Ok (SUCCESSFUL_RETURN, o') -> used n m k (USparse u :: h) o'
| used_run h o orc rand r o' : used n m k h o -> sparse_now h = false -> runSolver orc rand o = Ok (r, o') -> used n m k (URun (d_options (pd o)) :: h) o'.

(** The dense problem loaded last, unless sparse data were loaded since.  No LCQPow code. *)
Fixpoint last_load (h : list use) : option (udense T) :=
  match h with
  | [] => None
  | ULoad u :: _ => Some u
  | USparse _ :: _ => None
  | _ :: h => last_load h
  end.
(** The calls since the last run with the dense QP solver.  No LCQPow code. *)
Fixpoint since_run (h : list use) : list use :=
  match h with
  | [] => []
  | URun opt :: h => match o_qpSolver opt with QPOASES_DENSE => [] | _ => URun opt :: since_run h end
  | c :: h => c :: since_run h
  end.

(** The vector given by the latest load that gave one.  No LCQPow code. *)
Fixpoint latest (f : uvec T -> option (list T)) (h : list use) : option (list T) :=
  match h with
  | [] => None
  | ULoad u :: h => match f (ud_v u) with Some l => Some l | None => latest f h end
  | USparse u :: h => match f (us_v u) with Some l => Some l | None => latest f h end
  | _ :: h => latest f h
  end.

(** The vector given by a call, if it is a load that gives one.  No LCQPow code. *)
Definition given (f : uvec T -> option (list T)) (c : use) : option (list T) :=
  match c with ULoad u => f (ud_v u) | USparse u => f (us_v u) | _ => None end.
(** A vector is given now or was not given by any of the loads [h].  No LCQPow code. *)
Definition renewed (f : uvec T -> option (list T)) (v : uvec T) (h : list use) : Prop :=
  f v <> None \/ forall c, In c h -> given f c = None.

(** Two runs cannot be told apart: same return value, solutions, statistics; the first made the QP calls of the second after the
    calls [c0].  No LCQPow code. *)
Definition alike (c0 : list (qp_call T)) (a b : res (ReturnValue * lcqp T)) : Prop :=
  match a, b with
  | Ok (r, oa), Ok (r', ob) =>
      r = r' /\ (forall buf, getPrimalSolution buf oa = getPrimalSolution buf ob) /\
      getOutputStatistics oa = getOutputStatistics ob /\ s_calls (it oa) = s_calls (it ob) ++ c0 /\
      (r = SUCCESSFUL_RETURN -> getNumberOfDuals oa = getNumberOfDuals ob /\ forall buf, getDualSolution buf oa = getDualSolution buf ob)
  | UB x, UB y => x = y
  | _, _ => False
  end.

(** Load and, if that succeeds, run.  No LCQPow code. *)
Definition load_run (u : udense T) (orc : oracle T) (rand : nat -> Z) (o : lcqp T) : res (ReturnValue * lcqp T) :=
  let! '(r, o) := load_dense u o in
  if is_success r then runSolver orc rand o else Ok (r, o).

(** The same with sparse data.  No LCQPow code. *)
Definition load_run_sparse (u : usparse T) (orc : oracle T) (rand : nat -> Z) (o : lcqp T) : res (ReturnValue * lcqp T) :=
  let! '(r, o) := load_sparse u o in
  if is_success r then runSolver orc rand o else Ok (r, o).

(** The QP solver as it answers after the calls [c0].  No LCQPow code. *)
Definition after_calls (c0 : list (qp_call T)) (orc : oracle T) : oracle T := fun c => orc (c ++ c0).
(** The random numbers after [r0] draws.  No LCQPow code. *)
Definition after_draws (r0 : nat) (rand : nat -> Z) : nat -> Z := fun i => rand (i + r0)%nat.

(** The vectors [v] with the box bounds left over from the calls [h].  No LCQPow code. *)
Definition boxes_of (h : list use) (v : uvec T) : uvec T :=
  let own (f : uvec T -> option (list T)) := match f v with Some l => Some l | None => latest f (since_run h) end in
  mkUvec (u_nV v) (u_nC v) (u_nComp v) (u_g v) (u_lbL v) (u_ubL v) (u_lbR v) (u_ubR v) (u_lbA v) (u_ubA v) (own u_lb) (own u_ub) (u_x0 v) (u_y0 v).
(** The problem [u] with the box bounds left over from the calls [h].  No LCQPow code. *)
Definition with_boxes (h : list use) (u : udense T) : udense T := mkUdense (boxes_of h (ud_v u)) (ud_Q u) (ud_L u) (ud_R u) (ud_A u).
(** The same for sparse data.  No LCQPow code. *)
Definition with_boxes_sparse (h : list use) (u : usparse T) : usparse T := mkUsparse (boxes_of h (us_v u)) (us_Q u) (us_L u) (us_R u) (us_A u).

(** A QP with the Hessian and the constraints of [u] and the box bounds [lb], [ub].  No LCQPow code. *)
Definition qp_of (u : udense T) (lb ub : option (list T)) (c : qp_call T) : Prop :=
  let v := ud_v u in
  qc_solver c = QPOASES_DENSE /\ qc_H c = MDense (ud_Q u) /\ qc_A c = MDense (ud_A u ++ ud_L u ++ ud_R u) /\
  qc_lbA c = u_lower v /\ qc_ubA c = u_upper v /\
  qc_lb c = Some (bnd (u_nV v) lb a_ninf) /\ qc_ub c = Some (bnd (u_nV v) ub a_pinf).

(** The problem [u] without box bounds and with another initial guess.  No LCQPow code. *)
Definition continued (u : udense T) (x y : list T) : udense T :=
  let v := ud_v u in
  mkUdense (mkUvec (u_nV v) (u_nC v) (u_nComp v) (u_g v) (u_lbL v) (u_ubL v) (u_lbR v) (u_ubR v) (u_lbA v) (u_ubA v) None None (Some x) (Some y))
    (ud_Q u) (ud_L u) (ud_R u) (ud_A u).

End SpecReuse.
Arguments use T : clear implicits.
