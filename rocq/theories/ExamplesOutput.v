(** * ExamplesOutput: runs that print and runs on a reused object (witnesses for hypotheses; not LCQPow code). *)
From Coq Require Import QArith Qcanon.
From Verif Require Import Base Arith Codes Utilities Options Stats FileIO Subsolver State LCQProblem Loops SpecRun Spec Examples RunFacts ExamplesRun SpecSchedule SpecPrint.
Open Scope Z_scope.

Lemma exo_not_run f : not_run (ex_with f).
Proof.
  unfold ex_with. apply NR_options. apply (NR_dense (zvec [2;0;0;2]) (zvec [-2;-4]) (zvec [1;0]) (zvec [0;1]) None None None None None None None None None None None
    (setOptions (ex_options QPOASES_DENSE) (ok_or LCQProblem_default (LCQProblem_ctor 2 0 1))) SUCCESSFUL_RETURN).
  - apply NR_options. apply (NR_new 2 0 1). vm_compute. reflexivity.
  - vm_compute. reflexivity.
Qed.

(** Everything printed, the dynamic penalty strategy with two values; 36 passes and one penalty update *)
Definition exo_o : lcqp xq := ex_with (fun o => snd (setPrintLevel_enum INNER_LOOP_ITERATES (snd (setNDynamicPenalty 2 o)))).
Lemma exo_run : runSolver ex_oracle no_rand exo_o = Ok (SUCCESSFUL_RETURN, ex_done ex_oracle exo_o).
Proof. vm_compute. reflexivity. Qed.
Lemma exo_started : started exo_o (ex_done ex_oracle exo_o).
Proof. intros C. apply (f_equal (@length _)) in C. vm_compute in C; discriminate. Qed.
Lemma exo_options : INT_MIN <= o_nDynamicPenalty (d_options (pd exo_o)) <= INT_MAX /\ o_storeSteps (d_options (pd exo_o)) = true.
Proof. vm_compute. split; [split; discriminate|reflexivity]. Qed.
Lemma exo_counts : st_iterTotal (getOutputStatistics (ex_done ex_oracle exo_o)) = 36 /\ st_iterOuter (getOutputStatistics (ex_done ex_oracle exo_o)) = 1 /\
  length (printed (ex_done ex_oracle exo_o)) = 43%nat.
Proof. vm_compute. auto. Qed.

(** A second run, stopped after four passes, on an object loaded again after a first one *)
Definition exo_first : lcqp xq := ex_with (fun o => snd (setMaxIterations 3 (snd (setNDynamicPenalty 2 o)))).
(** Example object, loaded again after a run. No LCQPow code. *)
Definition exo_reloaded : lcqp xq := snd (ok_or (SUCCESSFUL_RETURN, LCQProblem_default) (ex_load (ex_done ex_oracle exo_first))).
Lemma exo_rerun : exists (orc : oracle xq) (rand : nat -> Z) (o o1 o2 o3 : lcqp xq) r1 r3,
  not_run o /\ runSolver orc rand o = Ok (r1, o1) /\ ex_load o1 = Ok (SUCCESSFUL_RETURN, o2) /\ runSolver orc rand o2 = Ok (r3, o3) /\ started o2 o3 /\
  o_nDynamicPenalty (d_options (pd o2)) = 2 /\ o_storeSteps (d_options (pd o2)) = true /\
  ~ follows_rule (d_options (pd o2)) [] r3 (getOutputStatistics o3).
Proof.
  exists ex_oracle, no_rand, exo_first, (ex_done ex_oracle exo_first), exo_reloaded, (ex_done ex_oracle exo_reloaded), MAX_ITERATIONS_REACHED, MAX_ITERATIONS_REACHED.
  split; [apply exo_not_run|]. do 3 (split; [vm_compute; reflexivity|]). split; [intros C; apply (f_equal (@length _)) in C; vm_compute in C; discriminate|].
  do 2 (split; [vm_compute; reflexivity|]). intros (_ & C & _). vm_compute in C. discriminate.
Qed.

(** A run that ends silently although it failed *)
Lemma exo_silent : exists (orc : oracle xq) (rand : nat -> Z) (o o' : lcqp xq) r, runSolver orc rand o = Ok (r, o') /\ started o o' /\ is_success r = false /\ printed o' = printed o.
Proof.
  exists ex_oracle, no_rand, ex_short, (ex_done ex_oracle ex_short), MAX_ITERATIONS_REACHED. split; [apply ex_short_run|]. split; [apply ex_short_started|]. split; vm_compute; reflexivity.
Qed.
(** Loads that fail: no linear term *)
Lemma exo_load_fails : exists o' : lcqp xq, loadLCQP (zvec [2;0;0;2]) None (zvec [1;0]) (zvec [0;1]) None None None None None None None None None None None exo_o = Ok (INVALID_OBJECTIVE_LINEAR_TERM, o').
Proof. eexists. vm_compute. reflexivity. Qed.
Lemma exo_load_csc_fails : exists o' : lcqp xq,
  loadLCQP_csc (zcsc 2 2 [0;1;2] [0;1] [2;2]) None (zcsc 1 2 [0;1;1] [0] [1]) (zcsc 1 2 [0;0;1] [0] [1]) None None None None None None None None None None None exo_o = Ok (INVALID_OBJECTIVE_LINEAR_TERM, o').
Proof. eexists. vm_compute. reflexivity. Qed.
Lemma exo_load_files_fails : exists o' : lcqp xq, loadLCQP_files None None None None None None None None None None None None None None None exo_o = Ok (UNABLE_TO_READ_FILE, o').
Proof. eexists. vm_compute. reflexivity. Qed.
Lemma exo_refused : runSolver ex_oracle no_rand ex_again = Ok (DENSE_SPARSE_MISSMATCH, ex_done ex_oracle ex_again) /\ ~ started ex_again (ex_done ex_oracle ex_again).
Proof. split; [apply ex_again_run|]. intros C. apply C. vm_compute. reflexivity. Qed.
Lemma exo_switch : exists r (o' : lcqp xq), switchToSparseMode (ex_o QPOASES_DENSE) = Ok (r, o').
Proof. do 2 eexists. vm_compute. reflexivity. Qed.
