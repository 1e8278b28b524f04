(** * Properties_Schedule: when the penalty parameter is raised, from the recorded values. *)
From Verif Require Import Base Arith Codes Utilities Options Stats FileIO Subsolver State LCQProblem Loops SpecRun Spec SpecSchedule SpecPrint Schedule LoadFrames ScheduleFacts Examples ExamplesRun ExamplesOutput.

(** The first run of an object raises the penalty parameter exactly by the rule of SpecSchedule.v and stops at the first pass that passes both tests. *)
Theorem C63_first_run : forall {T : Type} `{Arith T} (orc : oracle T) rand o r o', not_run o -> runSolver orc rand o = Ok (r, o') -> started o o' ->
  INT_MIN <= o_nDynamicPenalty (d_options (pd o)) <= INT_MAX -> o_storeSteps (d_options (pd o)) = true ->
  follows_rule (d_options (pd o)) [] r (getOutputStatistics o').
Proof. exact @first_schedule. Qed.
Print Assumptions C63_first_run.
Example C63_first_run_example : not_run exo_o /\ runSolver ex_oracle no_rand exo_o = Ok (SUCCESSFUL_RETURN, ex_done ex_oracle exo_o) /\ started exo_o (ex_done ex_oracle exo_o) /\
  (INT_MIN <= o_nDynamicPenalty (d_options (pd exo_o)) <= INT_MAX /\ o_storeSteps (d_options (pd exo_o)) = true) /\
  st_iterOuter (getOutputStatistics (ex_done ex_oracle exo_o)) = 1.
Proof. exact (conj (exo_not_run _) (conj exo_run (conj exo_started (conj exo_options (proj1 (proj2 exo_counts)))))). Qed.

(** Any run follows the rule started with the values the object still holds. *)
Theorem C63_any_run : forall {T : Type} `{Arith T} (orc : oracle T) rand o r o', runSolver orc rand o = Ok (r, o') -> started o o' ->
  INT_MIN <= o_nDynamicPenalty (d_options (pd o)) <= INT_MAX -> o_storeSteps (d_options (pd o)) = true ->
  len (s_complHistory (it o)) <= Z.max 0 (o_nDynamicPenalty (d_options (pd o))) ->
  follows_rule (d_options (pd o)) (s_complHistory (it o)) r (getOutputStatistics o').
Proof. exact @any_schedule. Qed.
Print Assumptions C63_any_run.
Example C63_any_run_example : runSolver ex_oracle no_rand exo_o = Ok (SUCCESSFUL_RETURN, ex_done ex_oracle exo_o) /\ started exo_o (ex_done ex_oracle exo_o) /\
  (INT_MIN <= o_nDynamicPenalty (d_options (pd exo_o)) <= INT_MAX /\ o_storeSteps (d_options (pd exo_o)) = true) /\ s_complHistory (it exo_o) = [].
Proof. exact (conj exo_run (conj exo_started (conj exo_options (proj1 (not_run_history _ (exo_not_run _)))))). Qed.

(** False for a later run of the same object, even if the problem is loaded again in between: the dynamic strategy uses values of the earlier run. *)
Theorem C63_rerun_refuted : exists (orc : oracle xq) (rand : nat -> Z) (o o1 o2 o3 : lcqp xq) r1 r3,
  not_run o /\ runSolver orc rand o = Ok (r1, o1) /\ ex_load o1 = Ok (SUCCESSFUL_RETURN, o2) /\ runSolver orc rand o2 = Ok (r3, o3) /\ started o2 o3 /\
  o_nDynamicPenalty (d_options (pd o2)) = 2 /\ o_storeSteps (d_options (pd o2)) = true /\
  ~ follows_rule (d_options (pd o2)) [] r3 (getOutputStatistics o3).
Proof. exact exo_rerun. Qed.
Print Assumptions C63_rerun_refuted.
