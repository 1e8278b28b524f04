(** * Properties_Output: what the calls print. *)
From Verif Require Import Base Arith Codes Utilities Options Stats FileIO Subsolver State LCQProblem Loops SpecRun Spec SpecPrint ScheduleFacts Examples ExamplesRun ExamplesOutput.

(** Loading dense data prints nothing on success and otherwise exactly the message of its return value. *)
Theorem C64_load : forall {T : Type} `{Arith T} Q g L R lbL ubL lbR ubR A lbA ubA lb ub x0 y0 (o : lcqp T) r o',
  loadLCQP Q g L R lbL ubL lbR ubR A lbA ubA lb ub x0 y0 o = Ok (r, o') -> reported o r o'.
Proof. exact @load_reported. Qed.
Print Assumptions C64_load.
Example C64_load_example : exists o' : lcqp xq,
  loadLCQP (zvec [2;0;0;2]) None (zvec [1;0]) (zvec [0;1]) None None None None None None None None None None None exo_o = Ok (INVALID_OBJECTIVE_LINEAR_TERM, o').
Proof. exact exo_load_fails. Qed.

(** The same for sparse data. *)
Theorem C64_load_sparse : forall {T : Type} `{Arith T} Q g L R lbL ubL lbR ubR A lbA ubA lb ub x0 y0 (o : lcqp T) r o',
  loadLCQP_csc Q g L R lbL ubL lbR ubR A lbA ubA lb ub x0 y0 o = Ok (r, o') -> reported o r o'.
Proof. exact @load_csc_reported. Qed.
Print Assumptions C64_load_sparse.
Example C64_load_sparse_example : exists o' : lcqp xq,
  loadLCQP_csc (zcsc 2 2 [0;1;2] [0;1] [2;2]) None (zcsc 1 2 [0;1;1] [0] [1]) (zcsc 1 2 [0;0;1] [0] [1]) None None None None None None None None None None None exo_o = Ok (INVALID_OBJECTIVE_LINEAR_TERM, o').
Proof. exact exo_load_csc_fails. Qed.

(** The same for files. *)
Theorem C64_load_files : forall {T : Type} `{Arith T} Q g L R lbL ubL lbR ubR A lbA ubA lb ub x0 y0 (o : lcqp T) r o',
  loadLCQP_files Q g L R lbL ubL lbR ubR A lbA ubA lb ub x0 y0 o = Ok (r, o') -> reported o r o'.
Proof. exact @load_files_reported. Qed.
Print Assumptions C64_load_files.
Example C64_load_files_example : exists o' : lcqp xq, loadLCQP_files None None None None None None None None None None None None None None None exo_o = Ok (UNABLE_TO_READ_FILE, o').
Proof. exact exo_load_files_fails. Qed.

(** A run that calls the QP solver prints exactly the lines of SpecPrint.v: an empty line, the table of its passes at the chosen level, and the kind of
    solution or the message of the return value; the table shows the recorded statistics. *)
Theorem C64_run : forall {T : Type} `{Arith T} (orc : oracle T) rand o r o', runSolver orc rand o = Ok (r, o') -> started o o' ->
  exists rows, table (d_options (pd o)) (getOutputStatistics o') rows /\
    printed o' = rev (run_text (d_options (pd o)) rows r (getOutputStatistics o')) ++ printed o.
Proof. exact @prints. Qed.
Print Assumptions C64_run.
Example C64_run_example : runSolver ex_oracle no_rand exo_o = Ok (SUCCESSFUL_RETURN, ex_done ex_oracle exo_o) /\ started exo_o (ex_done ex_oracle exo_o) /\
  o_printLevel (d_options (pd exo_o)) = INNER_LOOP_ITERATES /\ length (printed (ex_done ex_oracle exo_o)) = 43%nat.
Proof. exact (conj exo_run (conj exo_started (conj eq_refl (proj2 (proj2 exo_counts))))). Qed.

(** A run that is refused before the first QP prints exactly its message. *)
Theorem C64_refused : forall {T : Type} `{Arith T} (orc : oracle T) rand o r o', runSolver orc rand o = Ok (r, o') -> ~ started o o' ->
  is_success r = false /\ reported o r o'.
Proof. exact @refused_prints. Qed.
Print Assumptions C64_refused.
Example C64_refused_example : runSolver ex_oracle no_rand ex_again = Ok (DENSE_SPARSE_MISSMATCH, ex_done ex_oracle ex_again) /\ ~ started ex_again (ex_done ex_oracle ex_again).
Proof. exact exo_refused. Qed.

(** At print level NONE a successful run prints nothing. *)
Theorem C64_quiet : forall {T : Type} `{Arith T} (orc : oracle T) rand o o', runSolver orc rand o = Ok (SUCCESSFUL_RETURN, o') -> started o o' ->
  o_printLevel (d_options (pd o)) = PL_NONE -> printed o' = printed o.
Proof. exact @quiet_run. Qed.
Print Assumptions C64_quiet.
Example C64_quiet_example : runSolver (ex_orc QPOASES_DENSE) no_rand (ex_o QPOASES_DENSE) = Ok (SUCCESSFUL_RETURN, ex_done (ex_orc QPOASES_DENSE) (ex_o QPOASES_DENSE)) /\
  started (ex_o QPOASES_DENSE) (ex_done (ex_orc QPOASES_DENSE) (ex_o QPOASES_DENSE)) /\ o_printLevel (d_options (pd (ex_o QPOASES_DENSE))) = PL_NONE.
Proof. exact (conj (ex_runs _) (conj (ex_started _) eq_refl)). Qed.

(** Switching the mode prints nothing, whether it succeeds or not. *)
Theorem C64_switch : forall {T : Type} `{Arith T} (o : lcqp T) r o', switchToSparseMode o = Ok (r, o') \/ switchToDenseMode o = Ok (r, o') -> printed o' = printed o.
Proof. exact @switch_prints. Qed.
Print Assumptions C64_switch.
Example C64_switch_example : exists r (o' : lcqp xq), switchToSparseMode (ex_o QPOASES_DENSE) = Ok (r, o').
Proof. exact exo_switch. Qed.

(** False: a failed run need not print anything (limits are reported by the return value only). *)
Theorem C64_silent_refuted : exists (orc : oracle xq) (rand : nat -> Z) (o o' : lcqp xq) r,
  runSolver orc rand o = Ok (r, o') /\ started o o' /\ is_success r = false /\ printed o' = printed o.
Proof. exact exo_silent. Qed.
Print Assumptions C64_silent_refuted.
