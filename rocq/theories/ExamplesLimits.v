(** * ExamplesLimits: runs with other limits (witnesses for hypotheses; no LCQPow code). *)
From Coq Require Import QArith Qcanon.
From Verif Require Import Base Arith Codes Utilities Options Stats FileIO Subsolver State LCQProblem Loops SpecRun Spec Examples RunFacts ExamplesRun SpecOptions OptionsFacts OrderFacts SpecLimits LimitFacts.
Open Scope Z_scope.

(** ** When one limit is not lower than another *)
Section Raised.
Context {T : Type} {A : Arith T}.
Hypothesis O : ordered T.
Lemma raised_le (a b : options T) : o_maxIterations a <= o_maxIterations b -> a_le (o_maxPenaltyParameter a) (o_maxPenaltyParameter b) = true -> limits_raised a b.
Proof.
  intros H L. split; [exact H|]. intros rho E. destruct (a_lt (o_maxPenaltyParameter a) rho) eqn:F; [reflexivity|].
  destruct (or_num _ O _ _ L) as [N1 N2]. destruct (or_num _ O _ _ (or_lt _ O _ _ E)) as [_ N3].
  pose proof (nlt_le O _ _ N1 N3 F) as G. pose proof (or_trans _ O _ _ _ G L) as K. rewrite (or_tot _ O) in K by assumption. rewrite E in K. discriminate.
Qed.
End Raised.
Lemma raised_xq (a b : options xq) : o_maxIterations a <= o_maxIterations b -> a_le (o_maxPenaltyParameter a) (o_maxPenaltyParameter b) = true -> limits_raised a b.
Proof. exact (raised_le xq_ordered a b). Qed.
Lemma raised_f64 (a b : options f64) : o_maxIterations a <= o_maxIterations b -> a_le (o_maxPenaltyParameter a) (o_maxPenaltyParameter b) = true -> limits_raised a b.
Proof. exact (raised_le f64_ordered a b). Qed.

(** ** Examples *)
(** The options of a run of at most three iterations and of a longer one.  No LCQPow code. *)
Definition exl_short : options xq := snd (setMaxIterations 3 (ex_options QPOASES_DENSE)).
(** More iterations and a larger penalty parameter.  No LCQPow code. *)
Definition exl_more : options xq := snd (setMaxPenaltyParameter (Fin (Q2Qc (10000000000#1))) (snd (setMaxIterations 5000 (ex_options QPOASES_DENSE)))).
Lemma exl_same : same_but_limits (ex_options QPOASES_DENSE) exl_more /\ same_but_limits exl_short exl_more.
Proof. split; constructor; reflexivity. Qed.
Lemma exl_raised : limits_raised (ex_options QPOASES_DENSE) exl_more /\ limits_raised exl_short exl_more.
Proof. split; apply raised_xq; vm_compute; try reflexivity; discriminate. Qed.
Lemma exl_opts : d_options (pd (ex_o QPOASES_DENSE)) = ex_options QPOASES_DENSE /\ d_options (pd ex_short) = exl_short /\ o_maxIterations exl_more = 5000 /\ o_maxIterations exl_short = 3.
Proof. vm_compute. repeat split. Qed.
Lemma exl_set : setOptions exl_more ex_short = setOptions exl_more (ex_o QPOASES_DENSE).
Proof. reflexivity. Qed.
Lemma exl_run : exists o2, runSolver ex_oracle no_rand (setOptions exl_more ex_short) = Ok (SUCCESSFUL_RETURN, o2).
Proof.
  eexists. rewrite exl_set. apply (thm_raise_same ex_oracle no_rand exl_more (ex_o QPOASES_DENSE) SUCCESSFUL_RETURN).
  - apply (ex_runs QPOASES_DENSE).
  - rewrite (proj1 exl_opts). apply exl_same.
  - rewrite (proj1 exl_opts). apply exl_raised.
  - discriminate.
  - discriminate.
Qed.
(** The statistics of the short run *)
Lemma exl_steps : length (st_xSteps (getOutputStatistics (ex_done ex_oracle ex_short))) = 4%nat.
Proof. vm_compute. reflexivity. Qed.
