(** * ExamplesHistory: concrete sequences of API calls on one object that refute properties (no LCQPow code). *)
From Coq Require Import QArith Qcanon.
From Verif Require Import Base Arith Codes Utilities Options Stats FileIO Subsolver State LCQProblem Loops SpecSparse SpecMath SpecLoad SpecExact SpecRun SpecTrace SpecSolve SpecHistory
  Exact ExactProps Examples ExamplesKernels ExamplesExact ExamplesExact2 ExamplesRefuted.
Open Scope Z_scope.

(** The object in an outcome.  No LCQPow code. *)
Definition obj (r : res (ReturnValue * lcqp xq)) : lcqp xq := snd (ok_or (SUCCESSFUL_RETURN, LCQProblem_default) r).

(** The box-constrained problem  x1 <= 1, x2 <= 3.  No LCQPow code. *)
Definition exh_v (lbL lbR : option (list Qc)) : qvec := mkQvec 2 0 1 (zq [-2; -4]) lbL None lbR None None None (Some (fz [0; 0])) (Some (fz [1; 3])) None None.
(** Dense form.  No LCQPow code. *)
Definition exh_d : problem := PDense (mkQdense (exh_v None None) (zq [2; 0; 0; 2]) (zq [1; 0]) (zq [0; 1]) []).
(** Without box constraints, dense.  No LCQPow code. *)
Definition exh_n (lbL lbR : option (list Qc)) : problem :=
  PDense (mkQdense (mkQvec 2 0 1 (zq [-2; -4]) lbL None lbR None None None None None None None) (zq [2; 0; 0; 2]) (zq [1; 0]) (zq [0; 1]) []).
(** Without constraints, sparse.  No LCQPow code. *)
Definition exh_s : problem :=
  PSparse (mkQsparse (mkQvec 2 0 1 (zq [-2; -4]) None None None None None None None None None None)
    [zcol [(0, 2)]; zcol [(1, 2)]] [zcol [(0, 1)]; []] [[]; zcol [(0, 1)]] None).
(** The same with a dual guess.  No LCQPow code. *)
Definition exh_y : problem :=
  PSparse (mkQsparse (mkQvec 2 0 1 (zq [-2; -4]) None None None None None None None None None (Some (zq [0; 0; 0; 0])))
    [zcol [(0, 2)]; zcol [(1, 2)]] [zcol [(0, 1)]; []] [[]; zcol [(0, 1)]] None).
(** OSQP never gets a workspace.  No LCQPow code. *)
Definition exh_nowork : oracle xq := fun h => let a := ex_oracle_osqp h in mkRaw (q_ret a) (q_iter a) (q_status a) false false false (q_x a) (q_y a).
(** Fails only at the setup of the second run.  No LCQPow code. *)
Definition exh_late (k : nat) : oracle xq := fun h => if (length h <=? k)%nat then ex_oracle_osqp h else exh_nowork h.


(** Options of the examples.  No LCQPow code. *)
Definition o_dense := ex_options (T := xq) QPOASES_DENSE.
(** With sparse qpOASES.  No LCQPow code. *)
Definition o_sparse := ex_options (T := xq) QPOASES_SPARSE.
(** With OSQP.  No LCQPow code. *)
Definition o_osqp := ex_options (T := xq) OSQP_SPARSE.

(** Solve, then do something else with the object.  No LCQPow code. *)
Definition exh_d1 := obj (pr_solve exh_d o_dense ex_oracle no_rand).
(** Sparse qpOASES.  No LCQPow code. *)
Definition exh_s1 := obj (pr_solve exh_s o_sparse ex_oracle no_rand).
(** OSQP.  No LCQPow code. *)
Definition exh_o1 := obj (pr_solve exh_s o_osqp ex_oracle_osqp no_rand).
(** The problem with lower bounds x1 >= 0, x2 >= -1.  No LCQPow code. *)
Definition exh_b : problem := exh_n (Some (zq [0])) (Some (zq [-1])).
(** The problem without bounds.  No LCQPow code. *)
Definition exh_u : problem := exh_n None None.
(** Its fresh run.  No LCQPow code. *)
Definition exh_u1 := obj (pr_solve exh_u o_dense ex_oracle no_rand).
(** The run of the problem with bounds.  No LCQPow code. *)
Definition exh_b1 := obj (pr_solve exh_b o_dense ex_oracle no_rand).
(** The problem without bounds, loaded into an object.  No LCQPow code. *)
Definition exh_re (o : lcqp xq) := obj (pr_load exh_u o).

Lemma exh_wf_vec lbL lbR : fits 1 lbL -> fits 1 lbR -> wf_vec (to_vec (exh_v lbL lbR)).
Proof.
  intros F1 F2. constructor; try (vm_compute; (reflexivity || discriminate)); try exact I.
  - destruct lbL as [l|]; [|exact I]. change (len (fins l) = 1). change (len l = 1) in F1. unfold len, fins in *. rewrite map_length. exact F1.
  - destruct lbR as [l|]; [|exact I]. change (len (fins l) = 1). change (len l = 1) in F2. unfold len, fins in *. rewrite map_length. exact F2.
Qed.
Lemma exh_d_ok : admissible exh_d o_dense.
Proof.
  split; [split; intros; reflexivity|]. split; [|reflexivity]. constructor; [apply exh_wf_vec; exact I|reflexivity..].
Qed.
Lemma exh_u_ok : admissible exh_u o_dense.
Proof. exact (exr_admissible (zq [-2; -4]) None None o_dense eq_refl (conj (fun e => e) (fun e => e)) I I eq_refl). Qed.
Lemma exh_b_ok : admissible exh_b o_dense.
Proof. apply (exr_admissible (zq [-2; -4]) (Some (zq [0])) (Some (zq [-1])) o_dense); try reflexivity. split; intros C; discriminate C. Qed.
Lemma exh_s_wf y : fits 4 y -> wf_sparse (to_sparse (mkQsparse (mkQvec 2 0 1 (zq [-2; -4]) None None None None None None None None None y)
    [zcol [(0, 2)]; zcol [(1, 2)]] [zcol [(0, 1)]; []] [[]; zcol [(0, 1)]] None)).
Proof.
  intros F. constructor; [| | | | |vm_compute; discriminate]; try (apply wf_cols_check; [reflexivity|reflexivity|repeat constructor]).
  constructor; try (vm_compute; (reflexivity || discriminate)); try exact I.
  destruct y as [l|]; [|exact I]. change (len (fins l) = 4). change (len l = 4) in F. unfold len, fins in *. rewrite map_length. exact F.
Qed.
Lemma exh_s_ok opt : o_qpSolver opt <> QPOASES_DENSE -> admissible exh_s opt.
Proof.
  intros Q. split; [split; intros; reflexivity|]. split; [exact (exh_s_wf None I)|]. split; [exact Q|]. split; [intros _; repeat split|].
  split; [|split].
  - intros i j Hi Hj. apply two_cases in Hi, Hj. apply Qc_is_canon. destruct Hi as [->| ->], Hj as [->| ->]; reflexivity.
  - intros i j Hi Hj. apply two_cases in Hi, Hj. destruct Hi as [->| ->], Hj as [->| ->]; (left; apply Qc_is_canon; reflexivity) || (right; left; reflexivity).
  - exists 0, 1. split; [cbn; lia|]. split; [cbn; lia|]. intros C. apply (f_equal this) in C. vm_compute in C. discriminate C.
Qed.

(** The latest call.  No LCQPow code. *)
Definition newest (o : lcqp xq) : qp_call xq := hd (mkCall QPOASES_DENSE true (MDense []) (MDense []) [] [] [] None None None None) (s_calls (it o)).

(** *** First runs *)
Lemma exh_d1_run : pr_solve exh_d o_dense ex_oracle no_rand = Ok (SUCCESSFUL_RETURN, exh_d1).
Proof. vm_compute. reflexivity. Qed.
Lemma exh_s1_run : pr_solve exh_s o_sparse ex_oracle no_rand = Ok (SUCCESSFUL_RETURN, exh_s1).
Proof. vm_compute. reflexivity. Qed.
Lemma exh_o1_run : pr_solve exh_s o_osqp ex_oracle_osqp no_rand = Ok (SUCCESSFUL_RETURN, exh_o1).
Proof. vm_compute. reflexivity. Qed.
Lemma exh_u1_run : pr_solve exh_u o_dense ex_oracle no_rand = Ok (SUCCESSFUL_RETURN, exh_u1).
Proof. vm_compute. reflexivity. Qed.
Lemma exh_b1_run : pr_solve exh_b o_dense ex_oracle no_rand = Ok (SUCCESSFUL_RETURN, exh_b1).
Proof. vm_compute. reflexivity. Qed.

(** *** Second runs *)
Lemma exh_box_lost : exists o2, runSolver ex_oracle no_rand exh_d1 = Ok (SUCCESSFUL_RETURN, o2) /\
  (exists c r, s_calls (it exh_d1) = c :: r /\ qc_lb c = Some (fz [0; 0]) /\ qc_ub c = Some (fz [1; 3])) /\
  exists c r, s_calls (it o2) = c :: r /\ qc_lb c = Some [NInf; NInf] /\ qc_ub c = Some [PInf; PInf].
Proof.
  exists (obj (runSolver ex_oracle no_rand exh_d1)). split; [vm_compute; reflexivity|]. split; [exists (newest exh_d1), (tl (s_calls (it exh_d1)))|exists (newest (obj (runSolver ex_oracle no_rand exh_d1))), (tl (s_calls (it (obj (runSolver ex_oracle no_rand exh_d1)))))]; (split; [vm_compute; reflexivity|]; split; vm_compute; reflexivity).
Qed.
Lemma exh_sparse_again : runSolver ex_oracle no_rand exh_s1 = UB OutOfBounds /\ runSolver ex_oracle_osqp no_rand exh_o1 = UB OutOfBounds.
Proof. split; vm_compute; reflexivity. Qed.
Lemma exh_osqp_after : exists o2 o3, pr_load exh_s exh_s1 = Ok (SUCCESSFUL_RETURN, o2) /\
  runSolver ex_oracle_osqp no_rand (setOptions o_osqp o2) = Ok (INVALID_OSQP_BOX_CONSTRAINTS, o3).
Proof. exists (obj (pr_load exh_s exh_s1)), (obj (runSolver ex_oracle_osqp no_rand (setOptions o_osqp (obj (pr_load exh_s exh_s1))))). split; vm_compute; reflexivity. Qed.
Lemma exh_reload_bounds : exists o2 o3, pr_load exh_u exh_b1 = Ok (SUCCESSFUL_RETURN, o2) /\ runSolver ex_oracle no_rand o2 = Ok (SUCCESSFUL_RETURN, o3) /\
  st_iterTotal (getOutputStatistics exh_u1) = 36 /\ st_iterTotal (getOutputStatistics o3) = 4.
Proof. exists (exh_re exh_b1), (obj (runSolver ex_oracle no_rand (exh_re exh_b1))). split; [vm_compute; reflexivity|]. split; [vm_compute; reflexivity|]. split; vm_compute; reflexivity. Qed.
Lemma exh_reload_same : exists o2 o3, pr_load exh_u exh_u1 = Ok (SUCCESSFUL_RETURN, o2) /\ runSolver ex_oracle no_rand o2 = Ok (SUCCESSFUL_RETURN, o3) /\
  st_iterTotal (getOutputStatistics exh_u1) = 36 /\ st_iterTotal (getOutputStatistics o3) = 5.
Proof. exists (exh_re exh_u1), (obj (runSolver ex_oracle no_rand (exh_re exh_u1))). split; [vm_compute; reflexivity|]. split; [vm_compute; reflexivity|]. split; vm_compute; reflexivity. Qed.
Lemma exh_stale_status : exists o2, runSolver ex_oracle no_rand (setOptions o_sparse exh_d1) = Ok (DENSE_SPARSE_MISSMATCH, o2) /\
  getPrimalSolution None o2 = Ok (S_STATIONARY_SOLUTION, None) /\ getDualSolution None o2 = Ok (S_STATIONARY_SOLUTION, None) /\
  st_status (getOutputStatistics o2) = S_STATIONARY_SOLUTION /\ 0 < st_iterTotal (getOutputStatistics o2).
Proof. exists (obj (runSolver ex_oracle no_rand (setOptions o_sparse exh_d1))). repeat split; vm_compute; reflexivity. Qed.
Lemma exh_stale_count : exists o2 o3 c, pr_load exh_s exh_o1 = Ok (SUCCESSFUL_RETURN, o2) /\
  runSolver (exh_late 36) no_rand o2 = Ok (OSQP_WORKSPACE_NOT_SET_UP, o3) /\ s_calls (it o3) = c :: s_calls (it exh_o1) /\
  qp_error c (exh_late 36 (c :: s_calls (it exh_o1))) = Some OSQP_WORKSPACE_NOT_SET_UP /\
  st_subproblemIter (getOutputStatistics o3) = 1 /\ st_exit_flag (getOutputStatistics o3) = 1.
Proof. set (o3 := obj (runSolver (exh_late 36) no_rand (obj (pr_load exh_s exh_o1)))). exists (obj (pr_load exh_s exh_o1)), o3, (newest o3).
  split; [vm_compute; reflexivity|]. split; [vm_compute; reflexivity|]. split; [vm_compute; reflexivity|]. split; [vm_compute; reflexivity|]. split; vm_compute; reflexivity. Qed.
Lemma exh_setup_ub : pr_solve exh_s o_osqp exh_nowork no_rand = UB Uninit.
Proof. vm_compute. reflexivity. Qed.
Lemma exh_guess_ub : pr_solve exh_y o_osqp ex_oracle_osqp no_rand = UB Uninit.
Proof. vm_compute. reflexivity. Qed.
