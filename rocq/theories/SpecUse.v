(** * SpecUse: what a history of calls has established (specification, not LCQPow code). *)
From Verif Require Import Base Arith Codes Utilities Options Stats FileIO Subsolver State LCQProblem SpecLife.

Section Use.
Context {T : Type} `{Arith T}.

(** Calls with the values they returned.  No LCQPow code. *)
Definition history : Type := list (call T * ReturnValue).
(** Making the calls of [h] on [o] returns the values in [h] and leads to [o'].  No LCQPow code. *)
Definition used (orc : oracle T) (rand : nat -> Z) (h : history) (o o' : lcqp T) : Prop :=
  perform_all orc rand (map fst h) o = Ok (map snd h, o').

(** The QP solver selected after the calls, if it was [q] before.  No LCQPow code. *)
Definition select (q : QPSolver) (e : call T * ReturnValue) : QPSolver :=
  match fst e with KOptions opt => o_qpSolver opt | _ => q end.
(** The QP solver selected after a history of a new object.  No LCQPow code. *)
Definition selected (h : history) : QPSolver := fold_left select h (o_qpSolver (setToDefault (T := T))).

(** Whether the data is stored sparsely after the call, if it was [m] before: the last successful load or switch decides.  No LCQPow code. *)
Definition store (m : bool) (e : call T * ReturnValue) : bool :=
  match e with
  | (KLoad _ _ _ _ _ _ _ _ _ _ _ _ _ _ _, SUCCESSFUL_RETURN) | (KLoadFiles _ _ _ _ _ _ _ _ _ _ _ _ _ _ _, SUCCESSFUL_RETURN)
  | (KToDense, SUCCESSFUL_RETURN) => false
  | (KLoadSparse _ _ _ _ _ _ _ _ _ _ _ _ _ _ _, SUCCESSFUL_RETURN) | (KToSparse, SUCCESSFUL_RETURN) => true
  | _ => m
  end.
(** Whether the data is stored sparsely after a history of a new object.  No LCQPow code. *)
Definition sparsely (h : history) : bool := fold_left store h false.

(** The call passes lb or ub.  No LCQPow code. *)
Definition gives_box (c : call T) : Prop :=
  match c with
  | KLoad _ _ _ _ _ _ _ _ _ _ _ lb ub _ _ | KLoadSparse _ _ _ _ _ _ _ _ _ _ _ lb ub _ _ => lb <> None \/ ub <> None
  | KLoadFiles _ _ _ _ _ _ _ _ _ _ _ lb ub _ _ => lb <> None \/ ub <> None
  | _ => False
  end.
(** Some call of the history runs qpOASES.  No LCQPow code. *)
Definition ran_qpoases (h : history) : Prop := exists h1 r h2, h = h1 ++ (KRun, r) :: h2 /\ selected h1 <> OSQP_SPARSE.
(** Some call of the history runs qpOASES and is not refused because of the storage mode or because the object has no data.  No LCQPow code. *)
Definition started_qpoases (h : history) : Prop := exists h1 r h2, h = h1 ++ (KRun, r) :: h2 /\ selected h1 <> OSQP_SPARSE /\
  r <> DENSE_SPARSE_MISSMATCH /\ r <> LCQPOBJECT_NOT_SETUP.

(** The matrix L of a sparse load has [nV] columns.  No LCQPow code. *)
Definition fits (nV : Z) (c : call T) : Prop :=
  match c with KLoadSparse _ _ (Some L) _ _ _ _ _ _ _ _ _ _ _ _ => c_n L = nV | _ => True end.

End Use.
Arguments history T : clear implicits.
