(** * SpecKeep: the memory of a problem object between calls, and where the loaded data are.  No LCQPow code. *)
From Coq Require Import List Bool Arith.
From Verif Require Import Base OwnProblem.
Import ListNotations.

(** The memory after constructing an object and making the calls [l].  No LCQPow code. *)
Definition memory_after (d : dims) (l : list mop) (s : mst) : Prop :=
  exists ok s0 oks, exec (c_ctor d) mst0 = Ok (ok, s0) /\ calls d l s0 = Ok (oks, s).
(** The members that hold the loaded problem, dense and sparse.  No LCQPow code. *)
Definition data_flds : list fld :=
  [fQ; fg; fA; flbA; fubA; fL; fR; fC; flbL; fubL; flbR; fubR; fQ_sparse; fA_sparse; fL_sparse; fR_sparse; fC_sparse].
(** The member of the problem object points to a live block in memory [s].  No LCQPow code. *)
Definition points_to (s : mst) (f : fld) (a : nat) : Prop := mem s (Prob, f) = Some a /\ live s a = true.
