(** * SpecHistory: several calls on one object (specification, not LCQPow code). *)
From Coq Require Import QArith Qcanon.
From Verif Require Import Base Arith Codes Utilities Options Stats FileIO Subsolver State LCQProblem Loops SpecSparse SpecMath SpecLoad SpecExact SpecRun SpecTrace SpecSolve.
Open Scope Z_scope.

(** Load a problem into an existing object.  No LCQPow code. *)
Definition pr_load (p : problem) (o : lcqp xq) : res (ReturnValue * lcqp xq) :=
  match p with PDense u => load_dense (to_dense u) o | PSparse u => load_sparse (to_sparse u) o end.
(** A QP library whose answer depends on the QP only, not on earlier ones.  No LCQPow code. *)
Definition stateless {T} (orc : oracle T) : Prop := forall c h h', orc (c :: h) = orc (c :: h').
(** Pairs with Lx - lbL <= tol and Rx - lbR <= tol.  No LCQPow code. *)
Definition near_pair (p : problem) (tol : Qc) (x : list Qc) (i : Z) : Prop :=
  let e := pr_data p in
  (mv (e_L e) (e_nV e) x i - lo (qv_lbL (pr_vec p)) i <= tol /\ mv (e_R e) (e_nV e) x i - lo (qv_lbR (pr_vec p)) i <= tol)%Qc.
(** Multiplier of the [i]-th row of L and of R in the returned vector [y].  No LCQPow code. *)
Definition mult_L (p : problem) (opt : options xq) (y : list Qc) (i : Z) : Qc := qat y (box_duals p opt + e_nC (pr_data p) + i).
(** Row of R.  No LCQPow code. *)
Definition mult_R (p : problem) (opt : options xq) (y : list Qc) (i : Z) : Qc := qat y (box_duals p opt + e_nC (pr_data p) + e_nComp (pr_data p) + i).
