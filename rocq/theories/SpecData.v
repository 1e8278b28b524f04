(** * SpecData: the matrices and constraint bounds of a problem as the QP solver should get them (specification, not LCQPow code). *)
From Verif Require Import Base Arith Codes Utilities Options Stats FileIO Subsolver State LCQProblem Loops SpecSparse SpecLoad SpecLife SpecUse.

Section Data.
Context {T : Type} `{Arith T}.

(** Calls that load no data and do not change the storage mode.  No LCQPow code. *)
Definition keeps_problem (c : call T) : Prop := match c with KOptions _ | KRun => True | _ => False end.

(** A matrix given by its columns, in compressed form with [m] rows: number of entries before each column, row numbers, values.  No LCQPow code. *)
Definition compressed (m : Z) (cols : list (list (Z * T))) : qp_mat T :=
  MSparse m (len cols) (map (fun j => len (concat (firstn j cols))) (seq 0 (S (length cols)))) (map fst (concat cols)) (map snd (concat cols)).
(** The entries of the columns on and above the diagonal, if the first column has number [j].  No LCQPow code. *)
Fixpoint on_and_above (j : Z) (cols : list (list (Z * T))) : list (list (Z * T)) :=
  match cols with
  | [] => []
  | c :: cols => filter (fun e => fst e <=? j) c :: on_and_above (j + 1) cols
  end.
(** The columns of two matrices with [k] and any number of rows, the second below the first.  No LCQPow code. *)
Fixpoint below (k : Z) (up down : list (list (Z * T))) : list (list (Z * T)) :=
  match up, down with
  | c :: up, e :: down => (c ++ map (fun x => (k + fst x, snd x)) e) :: below k up down
  | _, _ => []
  end.

(** The QP has the Hessian Q, the constraint matrix A over L over R and the bounds of the dense problem [u].  No LCQPow code. *)
Definition dense_qp (u : udense T) (c : qp_call T) : Prop :=
  qc_solver c = QPOASES_DENSE /\ qc_H c = MDense (ud_Q u) /\ qc_A c = MDense (ud_A u ++ ud_L u ++ ud_R u) /\
  qc_lbA c = u_lower (ud_v u) /\ qc_ubA c = u_upper (ud_v u).
(** The same for sparse data; OSQP gets the upper triangle of Q.  No LCQPow code. *)
Definition sparse_qp (u : usparse T) (c : qp_call T) : Prop :=
  let v := us_v u in
  match qc_solver c with
  | QPOASES_DENSE => False
  | QPOASES_SPARSE => qc_H c = compressed (u_nV v) (us_Q u)
  | OSQP_SPARSE => qc_H c = compressed (u_nV v) (on_and_above 0 (us_Q u))
  end /\
  qc_A c = compressed (u_nC v + 2 * u_nComp v) (below (u_nC v) (us_Acols u) (below (u_nComp v) (us_L u) (us_R u))) /\
  qc_lbA c = u_lower v /\ qc_ubA c = u_upper v.
(** The QP has box bounds [lb], [ub], infinite where not given; none at all with OSQP.  No LCQPow code. *)
Definition box_qp (nV : Z) (lb ub : option (list T)) (c : qp_call T) : Prop :=
  match qc_solver c with
  | OSQP_SPARSE => qc_lb c = None /\ qc_ub c = None
  | _ => qc_lb c = Some (bnd nV lb a_ninf) /\ qc_ub c = Some (bnd nV ub a_pinf)
  end.

End Data.
