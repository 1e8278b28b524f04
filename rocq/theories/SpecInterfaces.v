(** * SpecInterfaces: what files, the MATLAB and the Python interface are expected to do (specification, not LCQPow code). *)
From Coq Require Import String.
From Verif Require Import Base Arith Codes Utilities Options Stats FileIO Subsolver State LCQProblem Loops SpecSparse SpecLoad Messages Matlab Python.
Local Open Scope string_scope.
Local Open Scope list_scope.
Local Open Scope Z_scope.

Section SpecInterfaces.
Context {T : Type} `{Arith T}.

(** The entries of an m x n matrix row by row.  No LCQPow code. *)
Definition row_major (m n : Z) (M : Z -> Z -> T) : list T := tab (m * n) (fun k => M (k / n) (k mod n)).
(** The entries of an m x n matrix column by column.  No LCQPow code. *)
Definition col_major (m n : Z) (M : Z -> Z -> T) : list T := tab (m * n) (fun k => M (k mod m) (k / m)).
(** The transposed matrix.  No LCQPow code. *)
Definition transp (M : Z -> Z -> T) : Z -> Z -> T := fun i j => M j i.

(** A problem with its matrices as functions.  No LCQPow code. *)
Record umat : Type := mkUmat { um_v : uvec T; um_Q : Z -> Z -> T; um_L : Z -> Z -> T; um_R : Z -> Z -> T; um_A : Z -> Z -> T }.
(** The same problem as the C++ interface expects it: rows one after the other.  No LCQPow code. *)
Definition rows_of (u : umat) : udense T :=
  let v := um_v u in
  mkUdense v (row_major (u_nV v) (u_nV v) (um_Q u)) (row_major (u_nComp v) (u_nV v) (um_L u)) (row_major (u_nComp v) (u_nV v) (um_R u))
    (row_major (u_nC v) (u_nV v) (um_A u)).
(** The Hessian is symmetric.  No LCQPow code. *)
Definition symmetric (u : umat) : Prop := forall i j, um_Q u i j = um_Q u j i.
(** Bounds of constraints are given only if there are constraints.  No LCQPow code. *)
Definition cons_args (v : uvec T) : Prop := u_nC v = 0 -> u_lbA v = None /\ u_ubA v = None.

(** ** Python *)
(** An optional vector: an empty array stands for an absent one.  No LCQPow code. *)
Definition py_vec (l : option (list T)) : list T := match l with Some l => l | None => [] end.
(** The call as in the shipped examples: matrices L, R and A are passed transposed, and none for A if there are no constraints.  No LCQPow code. *)
Definition py_load (u : umat) (o : lcqp T) : res (ReturnValue * lcqp T) :=
  let v := um_v u in
  py_loadLCQP (mkMatrixXd (u_nV v) (u_nV v) (col_major (u_nV v) (u_nV v) (um_Q u))) (u_g v)
    (mkMatrixXd (u_nV v) (u_nComp v) (col_major (u_nV v) (u_nComp v) (transp (um_L u))))
    (mkMatrixXd (u_nV v) (u_nComp v) (col_major (u_nV v) (u_nComp v) (transp (um_R u))))
    (py_vec (u_lbL v)) (py_vec (u_ubL v)) (py_vec (u_lbR v)) (py_vec (u_ubR v))
    (mkMatrixXd (if u_nC v =? 0 then 0 else u_nV v) (u_nC v) (col_major (u_nV v) (u_nC v) (transp (um_A u))))
    (py_vec (u_lbA v)) (py_vec (u_ubA v)) (py_vec (u_lb v)) (py_vec (u_ub v)) (py_vec (u_x0 v)) (py_vec (u_y0 v)) o.

(** ** MATLAB *)
(** An m x n matrix.  No LCQPow code. *)
Definition ml_mat (m n : Z) (M : Z -> Z -> T) : mxArray T := MxDense m n (col_major m n M).
(** An optional column vector: [] stands for an absent one.  No LCQPow code. *)
Definition ml_vec (n : Z) (l : option (list T)) : mxArray T := match l with Some l => MxDense n 1 l | None => MxDense 0 0 [] end.
(** The thirteen arguments Q, g, L, R, lbL, ubL, lbR, ubR, A, lbA, ubA, lb, ub.  No LCQPow code. *)
Definition ml_args (u : umat) : list (mxArray T) :=
  let v := um_v u in
  [ ml_mat (u_nV v) (u_nV v) (um_Q u); ml_vec (u_nV v) (Some (u_g v)); ml_mat (u_nComp v) (u_nV v) (um_L u); ml_mat (u_nComp v) (u_nV v) (um_R u);
    ml_vec (u_nComp v) (u_lbL v); ml_vec (u_nComp v) (u_ubL v); ml_vec (u_nComp v) (u_lbR v); ml_vec (u_nComp v) (u_ubR v);
    (if u_nC v =? 0 then MxDense 0 0 [] else ml_mat (u_nC v) (u_nV v) (um_A u)); ml_vec (u_nC v) (u_lbA v); ml_vec (u_nC v) (u_ubA v);
    ml_vec (u_nV v) (u_lb v); ml_vec (u_nV v) (u_ub v) ].
(** Return value of the loading functions of the MEX file.  No LCQPow code. *)
Definition ml_code (r : ReturnValue) : Z := if is_success r then 0 else 1.

(** What the field with a given name of the statistics struct should hold.  No LCQPow code. *)
Definition stat_meaning (ret : ReturnValue) (elapsed : T) (st : stats T) : list (string * stat_value T) :=
  [ ("iters_total", SInt (st_iterTotal st)); ("iters_outer", SInt (st_iterOuter st)); ("iters_subproblem", SInt (st_subproblemIter st)); ("rho_opt", SNum (st_rhoOpt st));
    ("elapsed_time", SNum elapsed); ("exit_flag", SInt (rv_code ret)); ("solution_type", SInt (status_code (st_status st))); ("qp_exit_flag", SInt (st_exit_flag st)) ].
(** The same for the fields that exist if steps are stored.  No LCQPow code. *)
Definition stored_meaning (st : stats T) : list (string * stat_value T) :=
  [ ("innerIters", SInts (st_innerIters st)); ("xSteps", SNums (concat (st_xSteps st))); ("accumulatedSubproblemIters", SInts (st_accuSubproblemIters st));
    ("stepLength", SNums (st_stepLength st)); ("stepSize", SNums (st_stepSize st)); ("statVals", SNums (st_statVals st)); ("objVals", SNums (st_objVals st));
    ("phiVals", SNums (st_phiVals st)); ("meritVals", SNums (st_meritVals st)); ("subproblemIters", SInts (st_subproblemIters st)) ].
(** All vectors of the statistics have one entry per iteration.  No LCQPow code. *)
Definition tracked (nV : Z) (st : stats T) : Prop :=
  let n := st_iterTotal st in
  len (st_xSteps st) = n /\ (forall x, In x (st_xSteps st) -> len x = nV) /\ len (st_innerIters st) = n /\ len (st_subproblemIters st) = n /\
  len (st_accuSubproblemIters st) = n /\ len (st_stepLength st) = n /\ len (st_stepSize st) = n /\ len (st_statVals st) = n /\ len (st_objVals st) = n /\
  len (st_phiVals st) = n /\ len (st_meritVals st) = n.
End SpecInterfaces.
Arguments umat T : clear implicits.

(** ** MATLAB parameters *)
From Verif Require Import SpecOptions.
Section SpecParams.
Context {T : Type} `{Arith T}.
(** The value of a scalar field.  No LCQPow code. *)
Definition scalar (f : option (mxArray T)) : option T := match f with Some (MxDense 1 1 [v]) => Some v | _ => None end.
(** The value of a logical field.  No LCQPow code. *)
Definition flag (f : option (mxArray T)) : option bool := match f with Some (MxLogical 1 1 b) => Some b | _ => None end.
(** The calls of setters a user expects from a struct of parameters: the setter of the same name with the given value ([dtoi]: as an integer).
    No LCQPow code. *)
Definition param_calls (dtoi : T -> res Z) (s : list (string * mxArray T)) : list (setter T) :=
  let num name (k : T -> setter T) := match scalar (lookup name s) with Some v => [k v] | None => [] end in
  let int name (k : Z -> setter T) := match scalar (lookup name s) with Some v => match dtoi v with Ok i => [k i] | UB _ => [] end | None => [] end in
  let lgl name (k : bool -> setter T) := match flag (lookup name s) with Some b => [k b] | None => [] end in
  num "stationarityTolerance"%string SStat ++ num "complementarityTolerance"%string SCompl ++ num "initialPenaltyParameter"%string SRho0 ++
  num "penaltyUpdateFactor"%string SBeta ++ lgl "solveZeroPenaltyFirst"%string SZeroFirst ++ int "maxIterations"%string SMaxIter ++
  num "maxPenaltyParameter"%string SMaxRho ++ int "nDynamicPenalty"%string SNDyn ++ num "etaDynamicPenalty"%string SEta ++
  int "printLevel"%string SPrint ++ lgl "storeSteps"%string SStore ++ int "qpSolver"%string SSolver ++ lgl "perturbStep"%string SPerturb.
(** The largest penalty parameter is not given, or it is an integer.  No LCQPow code. *)
Definition whole_max_penalty (dtoi : T -> res Z) (itod : Z -> T) (s : list (string * mxArray T)) : Prop :=
  forall v, scalar (lookup "maxPenaltyParameter"%string s) = Some v -> exists i, dtoi v = Ok i /\ itod i = v.
(** The double values mean: an m x n matrix has m n entries.  No LCQPow code. *)
Definition wf_mx (a : mxArray T) : Prop := match a with MxDense m n l => len l = m * n | _ => True end.
(** No field that should be a full matrix is a sparse one.  No LCQPow code. *)
Definition full_fields (s : list (string * mxArray T)) : Prop := forall n a, lookup n s = Some a -> mxIsSparse a = false /\ wf_mx a.
End SpecParams.
