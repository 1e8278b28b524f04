(** * SpecMatlab: the ways to call the MATLAB interface (specification, not LCQPow code). *)
From Coq Require Import String.
From Verif Require Import Base Arith Codes Utilities Options Stats FileIO Subsolver State LCQProblem Loops SpecSparse SpecLoad SpecOptions Matlab Python SpecInterfaces.
Local Open Scope list_scope.
Local Open Scope Z_scope.

Section SpecMatlab.
Context {T : Type} `{Arith T}.

(** The four argument lists of the documentation: without bounds and constraints; with lb, ub; with A, lbA, ubA; with A, lbA, ubA, lb, ub.
    No LCQPow code. *)
Inductive ml_form : Type := FPlain | FBox | FCons | FBoth.
(** An empty array.  No LCQPow code. *)
Definition ml_none (a : mxArray T) : Prop := exists m n, a = MxDense m n [] /\ (m = 0 \/ n = 0).
(** An optional column vector: any empty array stands for an absent one.  No LCQPow code. *)
Definition ml_opt (n : Z) (l : option (list T)) (a : mxArray T) : Prop := match l with Some l => a = MxDense n 1 l | None => ml_none a end.
(** The arguments of a form, given what the matrices are.  No LCQPow code. *)
Definition ml_form_args (f : ml_form) (v : uvec T) (pQ pL pR pA : mxArray T -> Prop) : list (mxArray T -> Prop) :=
  let nV := u_nV v in let nC := u_nC v in let nComp := u_nComp v in
  let pA a := if nC =? 0 then ml_none a else pA a in
  [ pQ; ml_opt nV (Some (u_g v)); pL; pR; ml_opt nComp (u_lbL v); ml_opt nComp (u_ubL v); ml_opt nComp (u_lbR v); ml_opt nComp (u_ubR v) ] ++
  match f with
  | FPlain => []
  | FBox => [ ml_opt nV (u_lb v); ml_opt nV (u_ub v) ]
  | FCons => [ pA; ml_opt nC (u_lbA v); ml_opt nC (u_ubA v) ]
  | FBoth => [ pA; ml_opt nC (u_lbA v); ml_opt nC (u_ubA v); ml_opt nV (u_lb v); ml_opt nV (u_ub v) ]
  end.
(** What a form does not mention is absent.  No LCQPow code. *)
Definition ml_form_fits (f : ml_form) (v : uvec T) : Prop :=
  cons_args v /\ match f with FPlain | FBox => u_nC v = 0 | _ => True end /\ match f with FPlain | FCons => u_lb v = None /\ u_ub v = None | _ => True end.
(** The arguments are those of a dense problem.  No LCQPow code. *)
Definition ml_dense_call (f : ml_form) (u : umat T) (args : list (mxArray T)) : Prop :=
  let v := um_v u in
  ml_form_fits f v /\
  Forall2 (fun p a => p a) (ml_form_args f v (eq (ml_mat (u_nV v) (u_nV v) (um_Q u))) (eq (ml_mat (u_nComp v) (u_nV v) (um_L u)))
    (eq (ml_mat (u_nComp v) (u_nV v) (um_R u))) (eq (ml_mat (u_nC v) (u_nV v) (um_A u)))) args.
(** The same problem with the transposed Hessian.  No LCQPow code. *)
Definition flip_Q (u : umat T) : umat T := mkUmat (um_v u) (transp (um_Q u)) (um_L u) (um_R u) (um_A u).
(** A sparse matrix with given columns.  No LCQPow code. *)
Definition ml_csc (m n : Z) (cols : list (list (Z * T))) : mxArray T :=
  MxSparse m n (map snd (concat cols)) (map fst (concat cols)) (tab (n + 1) (off cols)).
(** The arguments are those of a sparse problem; A is given exactly if there are constraints.  No LCQPow code. *)
Definition ml_sparse_call (f : ml_form) (u : usparse T) (args : list (mxArray T)) : Prop :=
  let v := us_v u in
  ml_form_fits f v /\ (u_nC v = 0 <-> us_A u = None) /\
  Forall2 (fun p a => p a) (ml_form_args f v (eq (ml_csc (u_nV v) (u_nV v) (us_Q u))) (eq (ml_csc (u_nComp v) (u_nV v) (us_L u)))
    (eq (ml_csc (u_nComp v) (u_nV v) (us_R u))) (fun a => exists c, us_A u = Some c /\ a = ml_csc (u_nC v) (u_nV v) c)) args.
(** The trailing argument: none, or a struct whose fields are full arrays with the initial guesses of the problem.  No LCQPow code. *)
Definition ml_guesses (v : uvec T) (s : list (string * mxArray T)) : Prop :=
  full_fields s /\ lookup "x0" s = option_map (fun l => MxDense (u_nV v) 1 l) (u_x0 v) /\ lookup "y0" s = option_map (fun l => MxDense (len l) 1 l) (u_y0 v).

(** A full matrix of doubles.  No LCQPow code. *)
Definition ml_full (a : mxArray T) : Prop := exists m n l, a = MxDense m n l /\ 0 <= m /\ 0 <= n /\ len l = m * n.
(** The [i]-th argument; an empty array if there are not so many.  No LCQPow code. *)
Definition ml_arg (args : list (mxArray T)) (i : nat) : mxArray T := nth i args (MxDense 0 0 []).
(** The bounds of complementarities, which are not checked by the interface, are absent or have one entry per pair (row of L).  No LCQPow code. *)
Definition ml_pair_bounds (args : list (mxArray T)) : Prop :=
  forall i, (4 <= i <= 7)%nat -> mxIsEmpty (ml_arg args i) = true \/ (mxGetM (ml_arg args i) = mxGetM (ml_arg args 2) /\ mxGetN (ml_arg args i) = 1).
(** The numbers of entries of all matrices are machine integers.  No LCQPow code. *)
Definition ml_small (args : list (mxArray T)) : Prop :=
  let nV := mxGetM (ml_arg args 0) in let nComp := mxGetM (ml_arg args 2) in let nC := mxGetM (ml_arg args 8) in
  nV + nC + 2 * nComp <= INT_MAX /\ nV * nV <= INT_MAX /\ (nC + 2 * nComp) * nV <= INT_MAX.
(** Parameters that can be read: the ones converted to int fit, and there is no dual guess if OSQP (number 2) is chosen.  No LCQPow code. *)
Definition ml_safe_params (dtoi : T -> res Z) (s : list (string * mxArray T)) : Prop :=
  full_fields s /\
  (forall name v, In name ["maxIterations"; "maxPenaltyParameter"; "nDynamicPenalty"; "printLevel"; "qpSolver"]%string -> scalar (lookup name s) = Some v -> exists i, dtoi v = Ok i) /\
  (lookup "y0" s = None \/ forall v, scalar (lookup "qpSolver" s) = Some v -> dtoi v <> Ok 2).
(** The trailing argument of a call: none, or such parameters.  No LCQPow code. *)
Definition ml_extra (dtoi : T -> res Z) (extra : list (mxArray T)) : Prop := extra = [] \/ exists s, extra = [MxStruct s] /\ ml_safe_params dtoi s.
End SpecMatlab.
