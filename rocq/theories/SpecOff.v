(** * SpecOff: options that differ in etaDynamicPenalty only. *)
From Verif Require Import Base Arith Codes Options.

(** All options but etaDynamicPenalty are the same.  No LCQPow code. *)
Record same_but_eta {T} (a b : options T) : Prop := {
  se_stat : o_stationarityTolerance b = o_stationarityTolerance a;
  se_compl : o_complementarityTolerance b = o_complementarityTolerance a;
  se_rho : o_initialPenaltyParameter b = o_initialPenaltyParameter a;
  se_factor : o_penaltyUpdateFactor b = o_penaltyUpdateFactor a;
  se_zero : o_solveZeroPenaltyFirst b = o_solveZeroPenaltyFirst a;
  se_perturb : o_perturbStep b = o_perturbStep a;
  se_iter : o_maxIterations b = o_maxIterations a;
  se_pen : o_maxPenaltyParameter b = o_maxPenaltyParameter a;
  se_ndyn : o_nDynamicPenalty b = o_nDynamicPenalty a;
  se_print : o_printLevel b = o_printLevel a;
  se_store : o_storeSteps b = o_storeSteps a;
  se_solver : o_qpSolver b = o_qpSolver a }.
