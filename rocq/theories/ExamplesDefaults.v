(** * ExamplesDefaults: a concrete problem with and without its optional arguments (no LCQPow code). *)
From Coq Require Import QArith Qcanon.
From Verif Require Import Base Arith Codes Utilities Options Stats FileIO Subsolver State LCQProblem Loops SpecSparse SpecMath SpecLoad SpecExact SpecRun SpecSolve LoadSparse StartSparse
  Examples ExamplesKernels ExamplesExact ExamplesExact2 SpecDefaults.
Open Scope Z_scope.

(** The vectors of the problem; [lower]: lbL and lbR are passed; [box]: lb and ub are passed; [rest]: ubL, ubR, lbA and x0 are passed.  No LCQPow code. *)
Definition exj_v (lower box rest : bool) : qvec :=
  let opt {X} (b : bool) (x : X) := if b then Some x else None in
  mkQvec 2 1 1 (zq [-2; -4]) (opt lower (zq [0])) (opt rest [PInf]) (opt lower (zq [0])) (opt rest [PInf])
    (opt rest [NInf]) (Some (fz [10])) (opt box [NInf; NInf]) (opt box [PInf; PInf]) (opt rest (zq [0; 0])) None.
(** The problem.  No LCQPow code. *)
Definition exj_pr (lower box rest : bool) (qs : QPSolver) : problem := with_vec (exj_v lower box rest) (exq_pr true qs).
Lemma exj_wf_vec l b r : wf_vec (to_vec (exj_v l b r)).
Proof. destruct l, b, r; constructor; vm_compute; try reflexivity; try discriminate; exact I. Qed.
Lemma exj_same l b r l' b' r' : same_meaning (to_vec (exj_v l b r)) (to_vec (exj_v l' b' r')).
Proof.
  constructor; try reflexivity; intros i Hi; cbn in Hi;
    (assert (D : i = 0 \/ i = 1) by lia; destruct D as [-> | ->]; try lia; destruct l, b, r, l', b', r'; vm_compute; reflexivity).
Qed.
(** A whole run.  No LCQPow code. *)
Definition exj_run (l b r : bool) (qs : QPSolver) : res (ReturnValue * lcqp xq) := pr_solve (exj_pr l b r qs) (ex_options qs) (exq_orc qs) no_rand.
(** The object after the run.  No LCQPow code. *)
Definition exj_done (l b r : bool) (qs : QPSolver) : lcqp xq := snd (ok_or (SUCCESSFUL_RETURN, LCQProblem_default) (exj_run l b r qs)).
Lemma exj_runs l b r qs : qs <> OSQP_SPARSE \/ b = false -> exj_run l b r qs = Ok (SUCCESSFUL_RETURN, exj_done l b r qs).
Proof. intros H. destruct qs, b; try (destruct H; congruence); destruct l, r; vm_compute; reflexivity. Qed.
Lemma exj_paired l b r : paired (to_vec (exj_v l b r)).
Proof. destruct l; split; cbn; congruence. Qed.
Lemma exj_fin_lower l b r : fin_lower (to_vec (exj_v l b r)).
Proof. destruct l; split; cbn; auto; intros v [<-|[]]; reflexivity. Qed.
Lemma exj_osqp l b r qs : qs <> OSQP_SPARSE \/ b = false -> osqp_ok (to_vec (exj_v l b r)) (ex_options qs).
Proof. intros H Q. destruct H as [H | ->]; [destruct qs; try discriminate Q; congruence|]. repeat split. Qed.
Lemma exj_wf_d l b r : wf_dense (to_dense (mkQdense (exj_v l b r) (qd_Q (exq_d true)) (qd_L (exq_d true)) (qd_R (exq_d true)) (qd_A (exq_d true)))).
Proof. destruct (exq_wf_d true). constructor; [apply exj_wf_vec|assumption..]. Qed.
Lemma exj_wf_s l b r : wf_sparse (to_sparse (mkQsparse (exj_v l b r) (qs_Q (exq_s true)) (qs_L (exq_s true)) (qs_R (exq_s true)) (qs_A (exq_s true)))).
Proof. destruct (exq_wf_s true). constructor; [apply exj_wf_vec|assumption..]. Qed.
Lemma exj_C l b r : concat (us_C (to_sparse (mkQsparse (exj_v l b r) (qs_Q (exq_s true)) (qs_L (exq_s true)) (qs_R (exq_s true)) (qs_A (exq_s true))))) <> [].
Proof. exact (exq_C true). Qed.
Lemma exj_admissible l b r qs : qs <> OSQP_SPARSE \/ b = false -> admissible (exj_pr l b r qs) (ex_options qs).
Proof.
  intros H. split; [destruct qs; apply exj_paired|]. destruct (exq_admissible true qs) as (_ & A). pose proof (exj_osqp l b r qs H) as O.
  destruct qs; cbn [exj_pr with_vec exq_pr] in *.
  - split; [apply exj_wf_d|reflexivity].
  - destruct A as (_ & A2 & _ & A3). split; [apply exj_wf_s|]. split; [exact A2|]. split; [exact O|exact A3].
  - destruct A as (_ & A2 & _ & A3). split; [apply exj_wf_s|]. split; [exact A2|]. split; [exact O|exact A3].
Qed.
Lemma exj_rational l b r qs : qs <> OSQP_SPARSE \/ b = false -> rational_run (exj_pr l b r qs) (ex_options qs) (exq_orc qs) (exj_done l b r qs) 1 (1 + 1).
Proof.
  intros H. split.
  - split; [destruct qs; vm_compute; reflexivity|]. split; [destruct qs; vm_compute; reflexivity|discriminate].
  - apply exq_finite. destruct qs, b; try (destruct H; congruence); destruct l, r; vm_compute; reflexivity.
Qed.
Lemma exj_osqp_box : exists o, exj_run true true true OSQP_SPARSE = Ok (INVALID_OSQP_BOX_CONSTRAINTS, o).
Proof. exists (exj_done true true true OSQP_SPARSE). vm_compute. reflexivity. Qed.

(** The vectors with lbL = 0 given and lbR left out.  No LCQPow code. *)
Definition exj_half : qvec := mkQvec 2 1 1 (zq [-2; -4]) (Some (zq [0])) None None None None (Some (fz [10])) None None None None.
Lemma exj_half_same : wf_vec (to_vec exj_half) /\ same_meaning (to_vec (exj_v true false false)) (to_vec exj_half).
Proof.
  split; [constructor; vm_compute; try reflexivity; try discriminate; exact I|].
  constructor; try reflexivity; intros i Hi; cbn in Hi; (assert (D : i = 0 \/ i = 1) by lia; destruct D as [-> | ->]; try lia; vm_compute; reflexivity).
Qed.
Lemma exj_half_run qs : pr_solve (with_vec exj_half (exq_pr true qs)) (ex_options qs) (exq_orc qs) no_rand = UB NullDeref.
Proof. destruct qs; vm_compute; reflexivity. Qed.
