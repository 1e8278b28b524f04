(** * Properties_Tol: a smaller complementarity tolerance. *)
From Coq Require Import QArith Qcanon.
From Verif Require Import Base Arith Codes Utilities Options Stats FileIO Subsolver State LCQProblem SpecRun Spec Examples SpecLimits SpecTol TolFacts ExamplesTol.
Open Scope Z_scope.

(** ** C80: without the dynamic penalty, a smaller complementarity tolerance only makes a run go on

    [opt] has the options of the object [o] but a smaller complementarityTolerance, and nDynamicPenalty is zero.  A run that was not
    successful is exactly the same with [opt]. *)
Theorem C80_same : forall T (A : Arith T) (orc : oracle T) rand opt (o : lcqp T) r o1, runSolver orc rand o = Ok (r, o1) -> r <> SUCCESSFUL_RETURN ->
  same_but_compl (d_options (pd o)) opt -> compl_tightened (d_options (pd o)) opt -> o_nDynamicPenalty opt = 0 ->
  runSolver orc rand (setOptions opt o) = Ok (r, setOptions opt o1).
Proof. exact @thm_tight_same. Qed.
Print Assumptions C80_same.
Example C80_same_example : let o := ext_o 0 3 true in runSolver ex_oracle no_rand o = Ok (MAX_ITERATIONS_REACHED, ex_done ex_oracle o) /\
  same_but_compl (d_options (pd o)) (ext 0 3 false) /\ compl_tightened (d_options (pd o)) (ext 0 3 false) /\ o_nDynamicPenalty (ext 0 3 false) = 0.
Proof.
  intros o. split; [exact (ext_runs 0 3 true (or_introl eq_refl) (or_introl eq_refl))|].
  split; [exact (proj1 (ext_hyps 0 3 (or_introl eq_refl) (or_introl eq_refl)))|]. split; [exact (proj2 (ext_hyps 0 3 (or_introl eq_refl) (or_introl eq_refl)))|reflexivity].
Qed.

(** A successful run makes the same QP calls and records the same steps first. *)
Theorem C80_goes_on : forall T (A : Arith T) (orc : oracle T) rand opt (o : lcqp T) r o1 r2 o2, runSolver orc rand o = Ok (r, o1) ->
  same_but_compl (d_options (pd o)) opt -> compl_tightened (d_options (pd o)) opt -> o_nDynamicPenalty opt = 0 ->
  runSolver orc rand (setOptions opt o) = Ok (r2, o2) -> goes_on o1 o2.
Proof. exact @thm_tight_goes. Qed.
Print Assumptions C80_goes_on.
(** If the run with the smaller tolerance is successful, so is the run with the larger one. *)
Theorem C80_success : forall T (A : Arith T) (orc : oracle T) rand opt (o : lcqp T) r o1 o2, runSolver orc rand o = Ok (r, o1) ->
  same_but_compl (d_options (pd o)) opt -> compl_tightened (d_options (pd o)) opt -> o_nDynamicPenalty opt = 0 ->
  runSolver orc rand (setOptions opt o) = Ok (SUCCESSFUL_RETURN, o2) -> r = SUCCESSFUL_RETURN.
Proof. exact @thm_tight_success. Qed.
Print Assumptions C80_success.
(** Two successful runs, of 33 and of 36 steps. *)
Example C80_goes_on_example : let o := ext_o 0 1000 true in let opt := ext 0 1000 false in
  runSolver ex_oracle no_rand o = Ok (SUCCESSFUL_RETURN, ex_done ex_oracle o) /\ same_but_compl (d_options (pd o)) opt /\
  compl_tightened (d_options (pd o)) opt /\ o_nDynamicPenalty opt = 0 /\
  runSolver ex_oracle no_rand (setOptions opt o) = Ok (SUCCESSFUL_RETURN, ex_done ex_oracle (ext_o 0 1000 false)) /\
  length (st_xSteps (getOutputStatistics (ex_done ex_oracle o))) = 33%nat /\ length (st_xSteps (getOutputStatistics (ex_done ex_oracle (ext_o 0 1000 false)))) = 36%nat.
Proof.
  intros o opt. split; [exact (ext_runs 0 1000 true (or_introl eq_refl) (or_intror eq_refl))|].
  split; [exact (proj1 (ext_hyps 0 1000 (or_introl eq_refl) (or_intror eq_refl)))|]. split; [exact (proj2 (ext_hyps 0 1000 (or_introl eq_refl) (or_intror eq_refl)))|].
  split; [reflexivity|]. split; [|exact ext_steps]. unfold o, opt. rewrite ext_set. exact (ext_runs 0 1000 false (or_introl eq_refl) (or_intror eq_refl)).
Qed.

(** A smaller tolerance in the usual sense is a smaller tolerance, in exact arithmetic and in doubles. *)
Theorem C80_exact : forall a b : options xq, a_le (o_complementarityTolerance b) (o_complementarityTolerance a) = true -> compl_tightened a b.
Proof. exact tight_xq. Qed.
Print Assumptions C80_exact.
Theorem C80_doubles : forall a b : options f64, a_le (o_complementarityTolerance b) (o_complementarityTolerance a) = true -> compl_tightened a b.
Proof. exact tight_f64. Qed.
Print Assumptions C80_doubles.
Example C80_exact_example : a_le (o_complementarityTolerance (ext 0 3 false)) (o_complementarityTolerance (ext 0 3 true)) = true /\
  a_le (o_complementarityTolerance (setToDefault (T := f64))) (o_complementarityTolerance (snd (setComplementarityTolerance a_one (setToDefault (T := f64))))) = true.
Proof. split; vm_compute; reflexivity. Qed.

(** With the dynamic penalty (nDynamicPenalty positive) the claim is false: the tolerance also decides whether the penalty parameter is
    raised early, so the steps differ before either run meets its tolerance. *)
Theorem C80_dynamic_refuted : exists (orc : oracle xq) opt (o o1 o2 : lcqp xq), runSolver orc no_rand o = Ok (MAX_ITERATIONS_REACHED, o1) /\
  same_but_compl (d_options (pd o)) opt /\ compl_tightened (d_options (pd o)) opt /\ o_nDynamicPenalty opt = 1 /\
  runSolver orc no_rand (setOptions opt o) = Ok (MAX_ITERATIONS_REACHED, o2) /\ ~ goes_on o1 o2.
Proof.
  exists ex_oracle, (ext 1 3 false), (ext_o 1 3 true), (ex_done ex_oracle (ext_o 1 3 true)), (ex_done ex_oracle (ext_o 1 3 false)).
  split; [exact (ext_runs 1 3 true (or_intror eq_refl) (or_introl eq_refl))|].
  split; [exact (proj1 (ext_hyps 1 3 (or_intror eq_refl) (or_introl eq_refl)))|]. split; [exact (proj2 (ext_hyps 1 3 (or_intror eq_refl) (or_introl eq_refl)))|].
  split; [reflexivity|]. split; [|exact ext_dyn]. rewrite ext_set. exact (ext_runs 1 3 false (or_intror eq_refl) (or_introl eq_refl)).
Qed.
Print Assumptions C80_dynamic_refuted.
