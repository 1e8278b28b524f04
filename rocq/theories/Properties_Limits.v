(** * Properties_Limits: raising the limits on iterations and penalty parameter. *)
From Coq Require Import QArith Qcanon.
From Verif Require Import Base Arith Codes Utilities Options Stats FileIO Subsolver State LCQProblem Loops SpecRun Examples ExamplesRun SpecLimits LimitFacts ExamplesLimits.
Open Scope Z_scope.

(** ** C78: raising the limits does not change what a run does before it meets them

    [opt] has the options of the object [o] but higher limits.  A run that did not end at a raised limit is exactly the same with
    [opt]: same return value and same object afterwards, except for the options stored in it.  In every arithmetic and for every QP
    library, from any state of the object. *)
Theorem C78_same : forall T (A : Arith T) (orc : oracle T) rand opt (o : lcqp T) r o1, runSolver orc rand o = Ok (r, o1) ->
  same_but_limits (d_options (pd o)) opt -> limits_raised (d_options (pd o)) opt ->
  (r = MAX_ITERATIONS_REACHED -> o_maxIterations opt = o_maxIterations (d_options (pd o))) ->
  (r = MAX_PENALTY_REACHED -> o_maxPenaltyParameter opt = o_maxPenaltyParameter (d_options (pd o))) ->
  runSolver orc rand (setOptions opt o) = Ok (r, setOptions opt o1).
Proof. exact @thm_raise_same. Qed.
Print Assumptions C78_same.
Example C78_same_example : let o := ex_o QPOASES_DENSE in runSolver ex_oracle no_rand o = Ok (SUCCESSFUL_RETURN, ex_done ex_oracle o) /\
  same_but_limits (d_options (pd o)) exl_more /\ limits_raised (d_options (pd o)) exl_more /\ o_maxIterations (d_options (pd o)) <> o_maxIterations exl_more.
Proof.
  intros o. unfold o. rewrite (proj1 exl_opts). split; [exact (ex_runs QPOASES_DENSE)|]. split; [apply exl_same|]. split; [apply exl_raised|]. vm_compute. discriminate.
Qed.

(** Whatever the limits ended, the run with higher limits makes the same QP calls and records the same steps first. *)
Theorem C78_goes_on : forall T (A : Arith T) (orc : oracle T) rand opt (o : lcqp T) r o1 r2 o2, runSolver orc rand o = Ok (r, o1) ->
  same_but_limits (d_options (pd o)) opt -> limits_raised (d_options (pd o)) opt ->
  runSolver orc rand (setOptions opt o) = Ok (r2, o2) -> goes_on o1 o2.
Proof. exact @thm_raise_goes. Qed.
Print Assumptions C78_goes_on.
(** A run that ends after three iterations, and a run with higher limits that succeeds. *)
Example C78_goes_on_example : runSolver ex_oracle no_rand ex_short = Ok (MAX_ITERATIONS_REACHED, ex_done ex_oracle ex_short) /\
  length (st_xSteps (getOutputStatistics (ex_done ex_oracle ex_short))) = 4%nat /\
  same_but_limits (d_options (pd ex_short)) exl_more /\ limits_raised (d_options (pd ex_short)) exl_more /\
  exists o2, runSolver ex_oracle no_rand (setOptions exl_more ex_short) = Ok (SUCCESSFUL_RETURN, o2).
Proof.
  rewrite (proj1 (proj2 exl_opts)). split; [exact ex_short_run|]. split; [exact exl_steps|]. split; [apply exl_same|]. split; [apply exl_raised|exact exl_run].
Qed.

(** Higher limits in the usual sense are higher limits, in exact arithmetic and in doubles. *)
Theorem C78_exact : forall a b : options xq, o_maxIterations a <= o_maxIterations b -> a_le (o_maxPenaltyParameter a) (o_maxPenaltyParameter b) = true -> limits_raised a b.
Proof. exact raised_xq. Qed.
Print Assumptions C78_exact.
Theorem C78_doubles : forall a b : options f64, o_maxIterations a <= o_maxIterations b -> a_le (o_maxPenaltyParameter a) (o_maxPenaltyParameter b) = true -> limits_raised a b.
Proof. exact raised_f64. Qed.
Print Assumptions C78_doubles.
Example C78_exact_example : o_maxIterations exl_short <= o_maxIterations exl_more /\ a_le (o_maxPenaltyParameter exl_short) (o_maxPenaltyParameter exl_more) = true.
Proof. vm_compute. split; [discriminate|reflexivity]. Qed.
