(** * OwnCopy: copying an LCQProblem object.

    The class declares no copy constructor (include/LCQProblem.hpp:44-64), so the implicit one copies every pointer and calls the copy
    constructor of the member subsolver.  Continues OwnProblem.v. *)
From Coq Require Import List Bool Arith.
From Verif Require Import Base OwnProblem.
Import ListNotations.
Local Open Scope cmd_scope.

(** [Subsolver::Subsolver(const Subsolver&)] with [Subsolver::copy], src/Subsolver.cpp:69-72 and 125-137: a local copy [Tmp2] of the
    selected solver is made and assigned to the new object's member (here [Tmp1]), then destroyed.  [q] is the solver of the copied
    object, [accepted] whether OSQP accepts the data again. *)
Definition sub_copy (q : qps) (accepted : bool) : cmd :=
  by_solver q
    (q_copy false Sub Tmp2 ;; q_copy false Tmp2 Tmp1 ;; q_dtor Tmp2)
    (q_copy true Sub Tmp2 ;; q_copy true Tmp2 Tmp1 ;; q_dtor Tmp2)
    (o_copy accepted Sub Tmp2 ;; o_copy accepted Tmp2 Tmp1 ;; o_dtor Tmp2)
    Skip.

(** The pointers of the new object [Tmp1] are those of the old one.  Implicit copy constructor, include/LCQProblem.hpp:44-64 *)
Definition copy_ptrs (s : mst) : mst :=
  mkMst (blk s) (fun k => match k with (Tmp1, f) => if in_dec fld_eq_dec f clear_flds then mem s (Prob, f) else mem s k | _ => mem s k end) (sp s).

(** [{ LCQProblem p(nV, nC, nComp); ...calls on p...; LCQProblem q(p); }]: both objects are destroyed at the end of the block, the copy
    first.  src/LCQProblem.cpp:43-83 *)
Definition copied (d : dims) (l : list mop) (q : qps) (accepted : bool) : res (list bool * mst) :=
  let! '(_, s) := exec (c_ctor d) mst0 in
  let! '(oks, s) := calls d l s in
  let! '(_, s) := exec (sub_copy q accepted) (copy_ptrs s) in
  let! '(_, s) := exec (each Del Tmp1 clear_flds) s in
  let! '(_, s) := exec (sub_dtor Tmp1) s in
  let! '(_, s) := exec c_dtor s in Ok (oks, s).
