(** * Properties_Defaults: leaving out optional arguments. *)
From Coq Require Import QArith Qcanon.
From Verif Require Import Base Arith Codes Utilities Options Stats FileIO Subsolver State LCQProblem Loops SpecSparse SpecMath SpecLoad SpecExact SpecRun SpecSolve
  LoadSparse SpecDefaults DefaultsFacts Examples ExamplesKernels ExamplesExact ExamplesExact2 ExamplesDefaults.
Open Scope Z_scope.

(** ** C76: leaving out an optional argument is the same as passing its documented default

    NULL for an upper bound means +infinity, for lbA and lb -infinity, for lbL, lbR and x0 zero.  Whether an argument is left
    out or written out, the whole run is the same: return value, every QP handed to the library, statistics, solution, status
    and multipliers, and the same undefined behaviour if there is any.  This holds in every arithmetic, doubles included.

    Partial: lbL and lbR themselves are unchanged here (see C76_lower_partial), the data are accepted, and the multipliers are
    compared after success.  Printed text is not compared. *)
Theorem C76_dense_partial : forall T (A : Arith T) (u : udense T) v' opt orc rand, wf_dense u -> wf_vec v' -> fin_lower (ud_v u) -> o_qpSolver opt = QPOASES_DENSE ->
  same_meaning (ud_v u) v' -> u_lbL v' = u_lbL (ud_v u) -> u_lbR v' = u_lbR (ud_v u) ->
  equal_runs (solve_dense u opt orc rand) (solve_dense (dense_with v' u) opt orc rand).
Proof. exact @p_C76_dense_any. Qed.
Print Assumptions C76_dense_partial.
(** The same for sparse data.  With OSQP neither call passes boxes or a dual guess, see C76_osqp_refuted. *)
Theorem C76_sparse_partial : forall T (A : Arith T) (u : usparse T) v' opt orc rand, wf_sparse u -> wf_vec v' -> fin_lower (us_v u) -> concat (us_C u) <> [] ->
  o_qpSolver opt <> QPOASES_DENSE -> osqp_ok (us_v u) opt -> osqp_ok v' opt ->
  same_meaning (us_v u) v' -> u_lbL v' = u_lbL (us_v u) -> u_lbR v' = u_lbR (us_v u) ->
  equal_runs (solve_sparse u opt orc rand) (solve_sparse (sparse_with v' u) opt orc rand).
Proof. exact @p_C76_sparse_any. Qed.
Print Assumptions C76_sparse_partial.
(** Nothing but ubA given, and everything written out (with OSQP: except boxes). *)
Example C76_example : forall l qs, let b := match qs with OSQP_SPARSE => false | _ => true end in
  let v := to_vec (exj_v l false false) in let v' := to_vec (exj_v l b true) in
  admissible (exj_pr l false false qs) (ex_options qs) /\ wf_vec v' /\ fin_lower v /\ osqp_ok v' (ex_options qs) /\ same_meaning v v' /\ u_lbL v' = u_lbL v /\ u_lbR v' = u_lbR v /\
  u_ubL v = None /\ u_lbA v = None /\ u_lb v = None /\ u_x0 v = None /\ u_ubL v' <> None /\ u_lbA v' <> None /\ (qs <> OSQP_SPARSE -> u_lb v' <> None) /\ u_x0 v' <> None /\
  (exists o, pr_solve (exj_pr l false false qs) (ex_options qs) (exq_orc qs) no_rand = Ok (SUCCESSFUL_RETURN, o)).
Proof.
  intros l qs b v v'. assert (B : qs <> OSQP_SPARSE \/ b = false) by (destruct qs; auto; left; discriminate).
  split; [apply exj_admissible; auto|]. split; [apply exj_wf_vec|]. split; [apply exj_fin_lower|]. split; [apply exj_osqp; exact B|]. split; [apply exj_same|].
  split; [reflexivity|]. split; [reflexivity|]. split; [reflexivity|]. split; [reflexivity|]. split; [reflexivity|]. split; [reflexivity|]. split; [discriminate|]. split; [discriminate|].
  split; [intros Q; subst b v'; destruct qs; [discriminate|discriminate|congruence]|]. split; [discriminate|].
  exists (exj_done l false false qs). apply exj_runs. auto.
Qed.

(** Lower complementarity bounds, both left out or both written out as zeros, in exact arithmetic and with rational answers of
    the QP library, in all three modes; the other arguments may be left out, too. *)
Theorem C76_lower_partial : forall pr v' opt orc rand r0 fac r o, admissible pr opt -> admissible (with_vec v' pr) opt -> same_meaning (to_vec (pr_vec pr)) (to_vec v') ->
  pr_solve pr opt orc rand = Ok (r, o) -> rational_run pr opt orc o r0 fac ->
  exists o', pr_solve (with_vec v' pr) opt orc rand = Ok (r, o') /\ same_results r o o'.
Proof. exact p_C76_zero. Qed.
Print Assumptions C76_lower_partial.
Example C76_lower_example : forall qs, let b := match qs with OSQP_SPARSE => false | _ => true end in
  let pr := exj_pr false false false qs in let v' := exj_v true b true in
  admissible pr (ex_options qs) /\ admissible (with_vec v' pr) (ex_options qs) /\ same_meaning (to_vec (pr_vec pr)) (to_vec v') /\ qv_lbL (pr_vec pr) = None /\ qv_lbL v' <> None /\
  pr_solve pr (ex_options qs) (exq_orc qs) no_rand = Ok (SUCCESSFUL_RETURN, exj_done false false false qs) /\
  rational_run pr (ex_options qs) (exq_orc qs) (exj_done false false false qs) 1 (1 + 1).
Proof.
  intros qs b pr v'. assert (B : qs <> OSQP_SPARSE \/ b = false) by (destruct qs; auto; left; discriminate).
  assert (E : pr_vec pr = exj_v false false false) by (destruct qs; reflexivity).
  split; [apply exj_admissible; auto|]. split. { pose proof (exj_admissible true b true qs B) as A. destruct qs; exact A. }
  split; [rewrite E; apply exj_same|]. split; [rewrite E; reflexivity|]. split; [discriminate|]. split; [apply exj_runs; auto|apply exj_rational; auto].
Qed.

(** False: with only one of lbL, lbR left out, a run dereferences NULL where zeros succeed (for all data: C24_dense_refuted,
    C24_sparse_refuted). *)
Theorem C76_lower_refuted : forall qs, exists pr v' opt orc rand o, o_qpSolver opt = qs /\ admissible pr opt /\ wf_vec (to_vec v') /\ same_meaning (to_vec (pr_vec pr)) (to_vec v') /\
  pr_solve pr opt orc rand = Ok (SUCCESSFUL_RETURN, o) /\ pr_solve (with_vec v' pr) opt orc rand = UB NullDeref.
Proof.
  intros qs. exists (exj_pr true false false qs), exj_half, (ex_options qs), (exq_orc qs), no_rand, (exj_done true false false qs).
  split; [destruct qs; reflexivity|]. split; [apply exj_admissible; auto|]. split; [apply exj_half_same|]. split; [destruct qs; apply exj_half_same|]. split; [apply exj_runs; auto|].
  pose proof (exj_half_run qs) as R. destruct qs; exact R.
Qed.
Print Assumptions C76_lower_refuted.
(** False: with OSQP, infinite boxes that are written out make the run fail where NULL succeeds. *)
Theorem C76_osqp_refuted : exists pr v' opt orc rand o o', o_qpSolver opt = OSQP_SPARSE /\ admissible pr opt /\ wf_vec (to_vec v') /\ same_meaning (to_vec (pr_vec pr)) (to_vec v') /\
  pr_solve pr opt orc rand = Ok (SUCCESSFUL_RETURN, o) /\ pr_solve (with_vec v' pr) opt orc rand = Ok (INVALID_OSQP_BOX_CONSTRAINTS, o').
Proof.
  destruct exj_osqp_box as (o' & E).
  exists (exj_pr true false true OSQP_SPARSE), (exj_v true true true), (ex_options OSQP_SPARSE), (exq_orc OSQP_SPARSE), no_rand, (exj_done true false true OSQP_SPARSE), o'.
  split; [reflexivity|]. split; [apply exj_admissible; auto|]. split; [apply exj_wf_vec|]. split; [apply exj_same|]. split; [exact (exj_runs true false true OSQP_SPARSE (or_intror eq_refl))|].
  assert (P : with_vec (exj_v true true true) (exj_pr true false true OSQP_SPARSE) = exj_pr true true true OSQP_SPARSE) by (vm_compute; reflexivity).
  rewrite P. unfold exj_run in E. exact E.
Qed.
Print Assumptions C76_osqp_refuted.
