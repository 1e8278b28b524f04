(** * Properties_First: a run ends at the first step that meets both tolerances. *)
From Coq Require Import QArith Qcanon.
From Verif Require Import Base Arith Codes Utilities Options Stats FileIO Subsolver State LCQProblem SpecRun Spec Examples RunFacts ExamplesRun SpecFirst FirstFacts.
Open Scope Z_scope.

(** ** C79: a run ends at the first recorded step that meets both tolerances, and only then with success

    With [storeSteps] on, the statistics hold a stationarity and a complementarity value for every step.  A step meets both
    tolerances exactly when the run was successful and the step is the last one.  So a run never goes past a step that meets them, a
    run that ends in any other way has no such step, and a successful run has exactly one.  In every arithmetic and for every QP
    library, from any state of the object. *)
Theorem C79_first : forall T (A : Arith T) (orc : oracle T) rand (o : lcqp T) r o', runSolver orc rand o = Ok (r, o') -> started o o' ->
  o_storeSteps (d_options (pd o)) = true ->
  length (st_statVals (getOutputStatistics o')) = length (st_phiVals (getOutputStatistics o')) /\
  (r = SUCCESSFUL_RETURN -> st_statVals (getOutputStatistics o') <> []) /\
  forall i m phi, nth_error (st_statVals (getOutputStatistics o')) i = Some m -> nth_error (st_phiVals (getOutputStatistics o')) i = Some phi ->
  (meets_both (d_options (pd o)) m phi <-> r = SUCCESSFUL_RETURN /\ S i = length (st_statVals (getOutputStatistics o'))).
Proof. exact @thm_first. Qed.
Print Assumptions C79_first.
(** A successful run with more than one step. *)
Example C79_first_example : let o := ex_o QPOASES_DENSE in let o' := ex_done (ex_orc QPOASES_DENSE) o in
  runSolver (ex_orc QPOASES_DENSE) no_rand o = Ok (SUCCESSFUL_RETURN, o') /\ started o o' /\ o_storeSteps (d_options (pd o)) = true /\
  (1 < length (st_statVals (getOutputStatistics o')))%nat.
Proof.
  intros o o'. split; [exact (ex_runs QPOASES_DENSE)|]. split; [exact (ex_started QPOASES_DENSE)|]. split; [reflexivity|]. vm_compute. lia.
Qed.
(** A run that ends at the iteration limit, with four steps. *)
Example C79_first_example_limit : runSolver ex_oracle no_rand ex_short = Ok (MAX_ITERATIONS_REACHED, ex_done ex_oracle ex_short) /\
  started ex_short (ex_done ex_oracle ex_short) /\ o_storeSteps (d_options (pd ex_short)) = true /\
  length (st_statVals (getOutputStatistics (ex_done ex_oracle ex_short))) = 4%nat.
Proof. split; [exact ex_short_run|]. split; [vm_compute; discriminate|]. split; [reflexivity|]. vm_compute. reflexivity. Qed.
