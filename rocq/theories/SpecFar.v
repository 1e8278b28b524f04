(** * SpecFar: options that differ in nDynamicPenalty only, and what a caller sees of an object. *)
From Verif Require Import Base Arith Codes Options Stats Subsolver State LCQProblem.

(** All options but nDynamicPenalty are the same.  No LCQPow code. *)
Record same_but_n {T} (a b : options T) : Prop := {
  sn_stat : o_stationarityTolerance b = o_stationarityTolerance a;
  sn_compl : o_complementarityTolerance b = o_complementarityTolerance a;
  sn_rho : o_initialPenaltyParameter b = o_initialPenaltyParameter a;
  sn_factor : o_penaltyUpdateFactor b = o_penaltyUpdateFactor a;
  sn_zero : o_solveZeroPenaltyFirst b = o_solveZeroPenaltyFirst a;
  sn_perturb : o_perturbStep b = o_perturbStep a;
  sn_iter : o_maxIterations b = o_maxIterations a;
  sn_pen : o_maxPenaltyParameter b = o_maxPenaltyParameter a;
  sn_eta : o_etaDynamicPenalty b = o_etaDynamicPenalty a;
  sn_print : o_printLevel b = o_printLevel a;
  sn_store : o_storeSteps b = o_storeSteps a;
  sn_solver : o_qpSolver b = o_qpSolver a }.

(** Both objects give the same answers, made the same QP calls, drew the same random numbers and printed the same text.  No LCQPow code. *)
Record same_outcome {T} (a b : lcqp T) : Prop := {
  so_primal : forall buf, getPrimalSolution buf b = getPrimalSolution buf a;
  so_dual : forall buf, getDualSolution buf b = getDualSolution buf a;
  so_duals : getNumberOfDuals b = getNumberOfDuals a;
  so_stats : getOutputStatistics b = getOutputStatistics a;
  so_calls : s_calls (it b) = s_calls (it a);
  so_rnd : s_rnd (it b) = s_rnd (it a);
  so_log : s_log (it b) = s_log (it a) }.
