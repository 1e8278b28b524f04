(** * SpecLimits: options that differ in the limits only, and a run that goes on after another one. *)
From Verif Require Import Base Arith Codes Options Stats State LCQProblem.

Section Limits.
Context {T : Type} `{Arith T}.

(** All options but maxIterations and maxPenaltyParameter are the same.  No LCQPow code. *)
Record same_but_limits (a b : options T) : Prop := {
  sl_stat : o_stationarityTolerance b = o_stationarityTolerance a;
  sl_compl : o_complementarityTolerance b = o_complementarityTolerance a;
  sl_rho : o_initialPenaltyParameter b = o_initialPenaltyParameter a;
  sl_factor : o_penaltyUpdateFactor b = o_penaltyUpdateFactor a;
  sl_zero : o_solveZeroPenaltyFirst b = o_solveZeroPenaltyFirst a;
  sl_perturb : o_perturbStep b = o_perturbStep a;
  sl_ndyn : o_nDynamicPenalty b = o_nDynamicPenalty a;
  sl_eta : o_etaDynamicPenalty b = o_etaDynamicPenalty a;
  sl_print : o_printLevel b = o_printLevel a;
  sl_store : o_storeSteps b = o_storeSteps a;
  sl_solver : o_qpSolver b = o_qpSolver a }.

(** The limits are not lower: every iteration number and every penalty parameter beyond those of [b] is beyond those of [a].  No LCQPow code. *)
Definition limits_raised (a b : options T) : Prop :=
  o_maxIterations a <= o_maxIterations b /\
  forall rho, a_lt (o_maxPenaltyParameter b) rho = true -> a_lt (o_maxPenaltyParameter a) rho = true.

(** The list [l'] starts with [l].  No LCQPow code. *)
Definition starts_with {X} (l' l : list X) : Prop := exists m, l' = l ++ m.

(** The second run did everything the first one did, and perhaps more.  The QP calls are kept newest first.  No LCQPow code. *)
Record goes_on (a b : lcqp T) : Prop := {
  go_calls : exists more, s_calls (it b) = more ++ s_calls (it a);
  go_x : starts_with (st_xSteps (getOutputStatistics b)) (st_xSteps (getOutputStatistics a));
  go_inner : starts_with (st_innerIters (getOutputStatistics b)) (st_innerIters (getOutputStatistics a));
  go_sub : starts_with (st_subproblemIters (getOutputStatistics b)) (st_subproblemIters (getOutputStatistics a));
  go_accu : starts_with (st_accuSubproblemIters (getOutputStatistics b)) (st_accuSubproblemIters (getOutputStatistics a));
  go_length : starts_with (st_stepLength (getOutputStatistics b)) (st_stepLength (getOutputStatistics a));
  go_size : starts_with (st_stepSize (getOutputStatistics b)) (st_stepSize (getOutputStatistics a));
  go_stat : starts_with (st_statVals (getOutputStatistics b)) (st_statVals (getOutputStatistics a));
  go_obj : starts_with (st_objVals (getOutputStatistics b)) (st_objVals (getOutputStatistics a));
  go_phi : starts_with (st_phiVals (getOutputStatistics b)) (st_phiVals (getOutputStatistics a));
  go_merit : starts_with (st_meritVals (getOutputStatistics b)) (st_meritVals (getOutputStatistics a));
  go_total : st_iterTotal (getOutputStatistics a) <= st_iterTotal (getOutputStatistics b);
  go_outer : st_iterOuter (getOutputStatistics a) <= st_iterOuter (getOutputStatistics b);
  go_iters : st_subproblemIter (getOutputStatistics a) <= st_subproblemIter (getOutputStatistics b) }.
End Limits.
