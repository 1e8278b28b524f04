(** * SpecTol: options that differ in the complementarity tolerance only. *)
From Verif Require Import Base Arith Codes Options.

Section Tol.
Context {T : Type} `{Arith T}.

(** All options but complementarityTolerance are the same.  No LCQPow code. *)
Record same_but_compl (a b : options T) : Prop := {
  sc_stat : o_stationarityTolerance b = o_stationarityTolerance a;
  sc_rho : o_initialPenaltyParameter b = o_initialPenaltyParameter a;
  sc_factor : o_penaltyUpdateFactor b = o_penaltyUpdateFactor a;
  sc_zero : o_solveZeroPenaltyFirst b = o_solveZeroPenaltyFirst a;
  sc_perturb : o_perturbStep b = o_perturbStep a;
  sc_iter : o_maxIterations b = o_maxIterations a;
  sc_pen : o_maxPenaltyParameter b = o_maxPenaltyParameter a;
  sc_ndyn : o_nDynamicPenalty b = o_nDynamicPenalty a;
  sc_eta : o_etaDynamicPenalty b = o_etaDynamicPenalty a;
  sc_print : o_printLevel b = o_printLevel a;
  sc_store : o_storeSteps b = o_storeSteps a;
  sc_solver : o_qpSolver b = o_qpSolver a }.

(** The complementarity tolerance is not larger: every value below that of [b] is below that of [a].  No LCQPow code. *)
Definition compl_tightened (a b : options T) : Prop :=
  forall phi, a_lt phi (o_complementarityTolerance b) = true -> a_lt phi (o_complementarityTolerance a) = true.
End Tol.
