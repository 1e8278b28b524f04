(** * SpecRefused: what a refused load leaves behind (specification, not LCQPow code). *)
From Verif Require Import Base Arith Codes Utilities Options Stats FileIO Subsolver State LCQProblem SpecLoad SpecFiles.

Section Refused.
Context {T : Type} `{Arith T}.

(** What can be asked of an object (the two solutions, their sizes, the statistics), its options and whether it works with dense or with sparse data
    are the same for [o] and [o'].  No LCQPow code. *)
Definition same_answers (o o' : lcqp T) : Prop :=
  (forall buf, getPrimalSolution buf o' = getPrimalSolution buf o) /\ (forall buf, getDualSolution buf o' = getDualSolution buf o) /\
  getNumberOfPrimals o' = getNumberOfPrimals o /\ getNumberOfDuals o' = getNumberOfDuals o /\
  getOutputStatistics o' = getOutputStatistics o /\ d_options (pd o') = d_options (pd o) /\ d_sparseSolver (pd o') = d_sparseSolver (pd o).

(** The messages printed for the return value [r], after what was printed before.  No LCQPow code. *)
Definition reported (r : ReturnValue) (o o' : lcqp T) : Prop := s_log (it o') = EvMessage r :: s_log (it o).

(** The object was constructed for problems of the sizes of [v].  No LCQPow code. *)
Definition built_for (v : uvec T) (o : lcqp T) : Prop :=
  d_nV (pd o) = Some (u_nV v) /\ d_nC (pd o) = Some (u_nC v) /\ d_nComp (pd o) = Some (u_nComp v).

(** A vector is given by the problem [v], or was not given by the refused call (pointer [p]).  No LCQPow code. *)
Definition replaced (f : uvec T -> option (list T)) (v : uvec T) (p : ptr T) : Prop := f v <> None \/ p = None.

End Refused.
