(** * ScheduleFacts: the penalty schedule of runs (proofs; no LCQPow code). *)
From Verif Require Import Base Arith Codes Utilities Options Stats FileIO Subsolver State LCQProblem Loops SpecRun Spec SpecSchedule SpecPrint Schedule LoadFrames Output.

Section ScheduleFacts.
Context {T : Type} `{Arith T}.
Lemma any_schedule (orc : oracle T) rand o r o' : runSolver orc rand o = Ok (r, o') -> started o o' ->
  INT_MIN <= o_nDynamicPenalty (d_options (pd o)) <= INT_MAX -> o_storeSteps (d_options (pd o)) = true ->
  len (s_complHistory (it o)) <= Z.max 0 (o_nDynamicPenalty (d_options (pd o))) ->
  follows_rule (d_options (pd o)) (s_complHistory (it o)) r (getOutputStatistics o').
Proof. unfold runSolver. apply run_schedule. Qed.
Lemma first_schedule (orc : oracle T) rand o r o' : not_run o -> runSolver orc rand o = Ok (r, o') -> started o o' ->
  INT_MIN <= o_nDynamicPenalty (d_options (pd o)) <= INT_MAX -> o_storeSteps (d_options (pd o)) = true ->
  follows_rule (d_options (pd o)) [] r (getOutputStatistics o').
Proof.
  intros N E St Hn Hs. destruct (not_run_history o N) as [Hh _]. rewrite <- Hh. apply any_schedule with orc rand; auto. rewrite Hh. unfold len. cbn. lia.
Qed.
Lemma prints (orc : oracle T) rand o r o' : runSolver orc rand o = Ok (r, o') -> started o o' ->
  exists rows, table (d_options (pd o)) (getOutputStatistics o') rows /\ printed o' = rev (run_text (d_options (pd o)) rows r (getOutputStatistics o')) ++ printed o.
Proof. unfold runSolver. apply run_prints. Qed.
Lemma refused_prints (orc : oracle T) rand o r o' : runSolver orc rand o = Ok (r, o') -> ~ started o o' -> is_success r = false /\ reported o r o'.
Proof. unfold runSolver. intros E S. destruct (run_refused_prints _ _ _ _ _ _ E S) as [F P]. split; [exact F|]. unfold reported. rewrite F. exact P. Qed.
Lemma quiet_run (orc : oracle T) rand o o' : runSolver orc rand o = Ok (SUCCESSFUL_RETURN, o') -> started o o' -> o_printLevel (d_options (pd o)) = PL_NONE -> printed o' = printed o.
Proof.
  intros E S L. destruct (prints _ _ _ _ _ E S) as (rows & _ & ->). unfold run_text. rewrite L. cbn [opening closing app]. rewrite app_nil_r.
  replace (flat_map (shown PL_NONE) rows) with (@nil (print_event T)); [reflexivity|]. induction rows; [reflexivity|exact IHrows].
Qed.
Lemma load_reported Q g L R lbL ubL lbR ubR A lbA ubA lb ub x0 y0 (o : lcqp T) r o' : loadLCQP Q g L R lbL ubL lbR ubR A lbA ubA lb ub x0 y0 o = Ok (r, o') -> reported o r o'.
Proof. apply reported_of, load_reports. Qed.
Lemma load_csc_reported Q g L R lbL ubL lbR ubR A lbA ubA lb ub x0 y0 (o : lcqp T) r o' : loadLCQP_csc Q g L R lbL ubL lbR ubR A lbA ubA lb ub x0 y0 o = Ok (r, o') -> reported o r o'.
Proof. apply reported_of, load_csc_reports. Qed.
Lemma load_files_reported Q g L R lbL ubL lbR ubR A lbA ubA lb ub x0 y0 (o : lcqp T) r o' : loadLCQP_files Q g L R lbL ubL lbR ubR A lbA ubA lb ub x0 y0 o = Ok (r, o') -> reported o r o'.
Proof. apply reported_of, load_files_reports. Qed.
Lemma switch_prints (o : lcqp T) r o' : switchToSparseMode o = Ok (r, o') \/ switchToDenseMode o = Ok (r, o') -> printed o' = printed o.
Proof. unfold printed. intros [E|E]; [apply to_sparse_it in E|apply to_dense_it in E]; rewrite E; reflexivity. Qed.
End ScheduleFacts.
