(** * ExamplesData: data loaded after a sparse run, and run twice (examples, not LCQPow code). *)
From Coq Require Import QArith Qcanon.
From Verif Require Import Base Arith Codes Utilities Options Stats FileIO Subsolver State LCQProblem Loops SpecSparse SpecMath SpecLoad LoadSparse SpecExact SpecRun SpecLife SpecUse SpecData
  Examples ExamplesKernels ExamplesExact ExamplesHistory ExamplesReuse ExamplesLife.
Open Scope Z_scope.

(** The sparse example problem with the box 0 <= x1 <= 1, 0 <= x2 <= 3.  No LCQPow code. *)
Definition exd_s : usparse xq := to_sparse (mkQsparse (mkQvec 2 0 1 (zq [-2; -4]) None None None None None None (Some (fz [0; 0])) (Some (fz [1; 3])) None None)
  [zcol [(0, 2)]; zcol [(1, 2)]] [zcol [(0, 1)]; []] [[]; zcol [(0, 1)]] None).
(** A past with a sparse run.  No LCQPow code. *)
Definition exd_past : history xq := exl_first ++ [(KRun, SUCCESSFUL_RETURN)].
(** Loading the sparse problem, as a call.  No LCQPow code. *)
Definition exd_load : call xq := let v := us_v exd_s in
  KLoadSparse (Some (csc_of 2 2 (us_Q exd_s))) (Some (lift (u_g v))) (Some (csc_of 1 2 (us_L exd_s))) (Some (csc_of 1 2 (us_R exd_s)))
    None None None None None None None (ptr_of (u_lb v)) (ptr_of (u_ub v)) None None.
(** The object with that past.  No LCQPow code. *)
Definition exd_a : lcqp xq := exl_after exd_past.
(** New options after the load: the sparse solver, a strong penalty.  No LCQPow code. *)
Definition exd_then : history xq := [(KOptions exl_strong, SUCCESSFUL_RETURN)].
(** The sparse problem loaded, with these options.  No LCQPow code. *)
Definition exd_b : lcqp xq := obj (load_sparse exd_s exd_a).
Definition exd_c : lcqp xq := setOptions exl_strong exd_b. (* No LCQPow code. *)
(** After a run.  No LCQPow code. *)
Definition exd_d : lcqp xq := obj (runSolver exl_orc no_rand exd_c).
(** With other options, and after another run.  No LCQPow code. *)
Definition exd_e : lcqp xq := setOptions exl_strong exd_d.
Definition exd_f : lcqp xq := obj (runSolver exl_orc no_rand exd_e). (* No LCQPow code. *)
(** The dense problem loaded instead, with options for it.  No LCQPow code. *)
Definition exd_db : lcqp xq := obj (load_dense (exr_u true) exd_a).
Definition exd_dc : lcqp xq := setOptions exr_opt exd_db. (* No LCQPow code. *)
Definition exd_dd : lcqp xq := obj (runSolver exl_orc no_rand exd_dc). (* No LCQPow code. *)

Lemma exd_past_used : used exl_orc no_rand exd_past exl_o exd_a.
Proof. vm_compute. reflexivity. Qed.
Lemma exd_s_wf : wf_sparse exd_s.
Proof.
  constructor; [| | | | |vm_compute; discriminate]; try (apply wf_cols_check; [reflexivity|reflexivity|repeat constructor]).
  constructor; try (vm_compute; (reflexivity || discriminate)); exact I.
Qed.
Lemma exd_s_load : load_sparse exd_s exd_a = Ok (SUCCESSFUL_RETURN, exd_b).
Proof. vm_compute. reflexivity. Qed.
Lemma exd_s_run : used exl_orc no_rand exd_then exd_b exd_c /\ runSolver exl_orc no_rand exd_c = Ok (SUCCESSFUL_RETURN, exd_d) /\
  length (s_calls (it exd_d)) = (5 + length (s_calls (it exd_c)))%nat.
Proof. split; [vm_compute; reflexivity|]. split; vm_compute; reflexivity. Qed.
Lemma exd_s_again : used exl_orc no_rand (exd_then ++ [(KRun, SUCCESSFUL_RETURN)] ++ exd_then) exd_b exd_e /\ runSolver exl_orc no_rand exd_e = Ok (SUCCESSFUL_RETURN, exd_f) /\
  length (s_calls (it exd_f)) = (5 + length (s_calls (it exd_e)))%nat.
Proof. split; [vm_compute; reflexivity|]. split; vm_compute; reflexivity. Qed.
Lemma exd_then_again : used exl_orc no_rand exd_then exd_d exd_e.
Proof. vm_compute. reflexivity. Qed.
Lemma exd_then_keeps : (forall c r, In (c, r) exd_then -> exists opt, c = KOptions opt) /\ (forall c r, In (c, r) exd_then -> keeps_problem c) /\
  (forall c r, In (c, r) (exd_then ++ [(KRun, SUCCESSFUL_RETURN)] ++ exd_then) -> keeps_problem c).
Proof.
  split; [|split].
  - intros c r [E|[]]. injection E as <- <-. exists exl_strong. reflexivity.
  - intros c r [E|[]]. injection E as <- <-. exact I.
  - intros c r [E|[E|[E|[]]]]; injection E as <- <-; exact I.
Qed.
Lemma exd_s_past : used exl_orc no_rand (exd_past ++ (exd_load, SUCCESSFUL_RETURN) :: exd_then) exl_o exd_c /\ s_calls (it exd_d) <> s_calls (it exd_c).
Proof.
  split; [vm_compute; reflexivity|]. intros E. apply (f_equal (@length _)) in E. revert E. vm_compute. discriminate.
Qed.
Lemma exd_d_load : load_dense (exr_u true) exd_a = Ok (SUCCESSFUL_RETURN, exd_db).
Proof. vm_compute. reflexivity. Qed.
Lemma exd_d_run : used exl_orc no_rand [(KOptions exr_opt, SUCCESSFUL_RETURN)] exd_db exd_dc /\ runSolver exl_orc no_rand exd_dc = Ok (SUCCESSFUL_RETURN, exd_dd) /\
  length (s_calls (it exd_dd)) = (36 + length (s_calls (it exd_dc)))%nat /\
  (forall c r, In (c, r) [(KOptions exr_opt, SUCCESSFUL_RETURN)] -> keeps_problem c).
Proof.
  split; [vm_compute; reflexivity|]. split; [vm_compute; reflexivity|]. split; [vm_compute; reflexivity|].
  intros c r [E|[]]. injection E as <- <-. exact I.
Qed.
