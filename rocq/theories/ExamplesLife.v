(** * ExamplesLife: sequences of calls that differ in the output options only (examples, not LCQPow code). *)
From Verif Require Import Base Arith Codes Utilities Options Stats FileIO Subsolver State LCQProblem SpecRun Spec SpecLife SpecUse SpecMath Loops Examples.

(** Example options with the given output.  No LCQPow code. *)
Definition exl_options (lvl : Z) (store : bool) : options xq := snd (setStoreSteps store (snd (setPrintLevel lvl (ex_options QPOASES_DENSE)))).
(** Example calls: options, load, two runs, a switch, a refused run, another load and run.  No LCQPow code. *)
Definition exl_calls (lvl : Z) (store : bool) : list (call xq) :=
  let load := KLoad (zvec [2;0;0;2]) (zvec [-2;-4]) (zvec [1;0]) (zvec [0;1]) None None None None None None None None None None None in
  [KOptions (exl_options lvl store); load; KRun; KRun; KToSparse; KRun; KToDense; load; KRun].
(** The object of the example.  No LCQPow code. *)
Definition exl_o : lcqp xq := ok_or LCQProblem_default (LCQProblem_ctor 2 0 1).
(** Its return values.  No LCQPow code. *)
Definition exl_returns : list ReturnValue :=
  [SUCCESSFUL_RETURN; SUCCESSFUL_RETURN; SUCCESSFUL_RETURN; SUCCESSFUL_RETURN; SUCCESSFUL_RETURN; DENSE_SPARSE_MISSMATCH; SUCCESSFUL_RETURN;
   SUCCESSFUL_RETURN; SUCCESSFUL_RETURN].
(** The object after the calls.  No LCQPow code. *)
Definition exl_done (lvl : Z) (store : bool) : lcqp xq :=
  snd (ok_or ([], LCQProblem_default) (perform_all ex_oracle no_rand (exl_calls lvl store) exl_o)).

Lemma exl_new : LCQProblem_ctor 2 0 1 = Ok exl_o.
Proof. vm_compute. reflexivity. Qed.
Lemma exl_loud : perform_all ex_oracle no_rand (exl_calls 2 true) exl_o = Ok (exl_returns, exl_done 2 true).
Proof. vm_compute. reflexivity. Qed.
Lemma exl_quiet : perform_all ex_oracle no_rand (exl_calls 0 false) exl_o = Ok (exl_returns, exl_done 0 false).
Proof. vm_compute. reflexivity. Qed.
Lemma exl_same : Forall2 same_call (exl_calls 2 true) (exl_calls 0 false).
Proof. unfold exl_calls. repeat constructor. Qed.
Lemma exl_differ : length (s_log (it (exl_done 2 true))) = 62%nat /\ length (s_log (it (exl_done 0 false))) = 1%nat /\
  length (st_xSteps (getOutputStatistics (exl_done 2 true))) = 5%nat /\ length (st_xSteps (getOutputStatistics (exl_done 0 false))) = 0%nat /\
  length (s_calls (it (exl_done 2 true))) = 46%nat.
Proof. vm_compute. auto. Qed.

(** ** Box bounds and OSQP *)

(** A QP library answering for qpOASES and for OSQP.  No LCQPow code. *)
Definition exl_orc : oracle xq := fun calls => match calls with c :: _ => match qc_solver c with OSQP_SPARSE => ex_oracle_osqp calls | _ => ex_oracle calls end | [] => ex_oracle calls end.
(** A dense load of the example problem with the given lb.  No LCQPow code. *)
Definition exl_load (lb : ptr xq) : call xq := KLoad (zvec [2;0;0;2]) (zvec [-2;-4]) (zvec [1;0]) (zvec [0;1]) None None None None None None None lb None None None.
(** No box bounds and OSQP only, with a run before.  No LCQPow code. *)
Definition exl_free : history xq := [(KOptions (ex_options OSQP_SPARSE), SUCCESSFUL_RETURN); (exl_load None, SUCCESSFUL_RETURN); (KToSparse, SUCCESSFUL_RETURN)].
(** Box bounds were given to the first of two loads.  No LCQPow code. *)
Definition exl_boxed : history xq :=
  [(KOptions (ex_options OSQP_SPARSE), SUCCESSFUL_RETURN); (exl_load (zvec [0;0]), SUCCESSFUL_RETURN); (KToSparse, SUCCESSFUL_RETURN);
   (KRun, INVALID_OSQP_BOX_CONSTRAINTS); (exl_load None, SUCCESSFUL_RETURN); (KToSparse, SUCCESSFUL_RETURN)].
(** No box bounds, but a run with qpOASES.  No LCQPow code. *)
Definition exl_qpoases : history xq :=
  [(KOptions (ex_options QPOASES_DENSE), SUCCESSFUL_RETURN); (exl_load None, SUCCESSFUL_RETURN); (KRun, SUCCESSFUL_RETURN);
   (KOptions (ex_options OSQP_SPARSE), SUCCESSFUL_RETURN); (exl_load None, SUCCESSFUL_RETURN); (KToSparse, SUCCESSFUL_RETURN)].
(** The object after a history.  No LCQPow code. *)
Definition exl_after (h : history xq) : lcqp xq := snd (ok_or ([], LCQProblem_default) (perform_all exl_orc no_rand (map fst h) exl_o)).
(** The object after another run.  No LCQPow code. *)
Definition exl_again (h : history xq) : lcqp xq := snd (ok_or (SUCCESSFUL_RETURN, LCQProblem_default) (runSolver exl_orc no_rand (exl_after h))).

Lemma exl_free_used : used exl_orc no_rand exl_free exl_o (exl_after exl_free) /\ selected exl_free = OSQP_SPARSE /\ sparsely exl_free = true /\
  runSolver exl_orc no_rand (exl_after exl_free) = Ok (SUCCESSFUL_RETURN, exl_again exl_free).
Proof. split; [vm_compute; reflexivity|]. split; [reflexivity|]. split; [reflexivity|]. vm_compute. reflexivity. Qed.
Lemma exl_free_never : (forall c r, In (c, r) exl_free -> ~ gives_box c) /\ ~ ran_qpoases exl_free.
Proof.
  split.
  - intros c r [E|[E|[E|[]]]]; injection E as <- <-; cbn; [tauto|intros [C|C]; congruence|tauto].
  - intros (h1 & r & h2 & E & _). do 4 (destruct h1 as [|? h1]; [discriminate|]). discriminate.
Qed.
Lemma exl_boxed_used : used exl_orc no_rand exl_boxed exl_o (exl_after exl_boxed) /\ selected exl_boxed = OSQP_SPARSE /\ sparsely exl_boxed = true /\
  runSolver exl_orc no_rand (exl_after exl_boxed) = Ok (INVALID_OSQP_BOX_CONSTRAINTS, exl_again exl_boxed).
Proof. split; [vm_compute; reflexivity|]. split; [reflexivity|]. split; [reflexivity|]. vm_compute. reflexivity. Qed.
Lemma exl_boxed_given : exists c, In (c, SUCCESSFUL_RETURN) exl_boxed /\ gives_box c.
Proof. exists (exl_load (zvec [0;0])). split; [right; left; reflexivity|left; discriminate]. Qed.
Lemma exl_qpoases_used : used exl_orc no_rand exl_qpoases exl_o (exl_after exl_qpoases) /\ selected exl_qpoases = OSQP_SPARSE /\ sparsely exl_qpoases = true /\
  runSolver exl_orc no_rand (exl_after exl_qpoases) = Ok (INVALID_OSQP_BOX_CONSTRAINTS, exl_again exl_qpoases).
Proof. split; [vm_compute; reflexivity|]. split; [reflexivity|]. split; [reflexivity|]. vm_compute. reflexivity. Qed.
Lemma exl_qpoases_started : started_qpoases exl_qpoases.
Proof.
  exists [(KOptions (ex_options QPOASES_DENSE), SUCCESSFUL_RETURN); (exl_load None, SUCCESSFUL_RETURN)], SUCCESSFUL_RETURN,
    [(KOptions (ex_options OSQP_SPARSE), SUCCESSFUL_RETURN); (exl_load None, SUCCESSFUL_RETURN); (KToSparse, SUCCESSFUL_RETURN)].
  split; [reflexivity|]. split; [discriminate|]. split; discriminate.
Qed.

(** ** A second sparse run *)

(** A sparse load of the example problem.  No LCQPow code. *)
Definition exl_load_csc : call xq :=
  KLoadSparse (zcsc 2 2 [0;1;2] [0;1] [2;2]) (zvec [-2;-4]) (zcsc 1 2 [0;1;1] [0] [1]) (zcsc 1 2 [0;0;1] [0] [1]) None None None None None None None None None None None.
(** Example options with a larger initial penalty and no dynamic updates.  No LCQPow code. *)
Definition exl_strong : options xq := snd (setNDynamicPenalty 0 (snd (setInitialPenaltyParameter (a_of_Z 8) (ex_options QPOASES_SPARSE)))).
(** Calls before the first run.  No LCQPow code. *)
Definition exl_first : history xq := [(KOptions (ex_options QPOASES_SPARSE), SUCCESSFUL_RETURN); (exl_load_csc, SUCCESSFUL_RETURN)].
(** Calls before the second run.  No LCQPow code. *)
Definition exl_second : history xq := [(KOptions exl_strong, SUCCESSFUL_RETURN); (exl_load_csc, SUCCESSFUL_RETURN)].
(** The object before the second run.  No LCQPow code. *)
Definition exl_middle : lcqp xq := snd (ok_or ([], LCQProblem_default) (perform_all exl_orc no_rand (map fst exl_second) (exl_again exl_first))).
(** The object after the second run.  No LCQPow code. *)
Definition exl_end : lcqp xq := snd (ok_or (SUCCESSFUL_RETURN, LCQProblem_default) (runSolver exl_orc no_rand exl_middle)).

Lemma exl_fits : (forall c r, In (c, r) (exl_first ++ exl_second) -> fits 2 c) /\ (forall c r, In (c, r) exl_first -> c <> KToSparse).
Proof.
  split.
  - intros c r [E|[E|[E|[E|[]]]]]; injection E as <- <-; cbn; auto.
  - intros c r [E|[E|[]]]; injection E as <- <-; discriminate.
Qed.
Lemma exl_first_run : used exl_orc no_rand exl_first exl_o (exl_after exl_first) /\ sparsely exl_first = true /\
  runSolver exl_orc no_rand (exl_after exl_first) = Ok (SUCCESSFUL_RETURN, exl_again exl_first) /\ st_iterTotal (getOutputStatistics (exl_again exl_first)) = 36 /\
  st_iterOuter (getOutputStatistics (exl_again exl_first)) = 1 /\ started (exl_after exl_first) (exl_again exl_first).
Proof.
  split; [vm_compute; reflexivity|]. split; [reflexivity|]. split; [vm_compute; reflexivity|]. split; [vm_compute; reflexivity|]. split; [vm_compute; reflexivity|].
  unfold started. intros E. apply (f_equal (@length _)) in E. revert E. vm_compute. discriminate.
Qed.
Lemma exl_second_run : used exl_orc no_rand exl_second (exl_again exl_first) exl_middle /\ sparsely (exl_first ++ (KRun, SUCCESSFUL_RETURN) :: exl_second) = true /\
  runSolver exl_orc no_rand exl_middle = Ok (SUCCESSFUL_RETURN, exl_end) /\ st_iterTotal (getOutputStatistics exl_end) = 5 /\ started exl_middle exl_end.
Proof.
  split; [vm_compute; reflexivity|]. split; [reflexivity|]. split; [vm_compute; reflexivity|]. split; [vm_compute; reflexivity|].
  unfold started. intros E. apply (f_equal (@length _)) in E. revert E. vm_compute. discriminate.
Qed.
(** The gradient kept by the object after a run *)
Lemma exl_gradient : exists l, d_nV (pd (exl_again exl_free)) = Some 2 /\ s_gk (it (exl_again exl_free)) = Some (lift l) /\ len l = 2.
Proof.
  exists (match s_gk (it (exl_again exl_free)) with Some a => map (fun c => match c with Some v => v | None => a_zero end) a | None => [] end).
  split; [vm_compute; reflexivity|]. split; vm_compute; reflexivity.
Qed.
