(** * Properties_Reuse: one object used for several loads and runs (C25, C26).

    Any arithmetic, any QP solver answers.  The false parts are in Properties_Refuted.v. *)
From Verif Require Import Base Arith Codes Utilities Options Stats FileIO Subsolver State LCQProblem Loops SpecLoad LoadSparse SpecExact SpecReuse SpecApi ReuseFacts SparseReuse
  Examples ExamplesKernels ExamplesExact ExamplesHistory ExamplesReuse.
Open Scope Z_scope.

(** C25 where it is true: on an object with any past of option changes, loads and runs, loading [u] and running gives what a new object gives,
    if [u] gives lbL, lbR, lb, ub or no load since (for lb, ub: since the last run) gave them, and if the dynamic penalty rule is off now or was off before.
    The past may contain loads of dense and of sparse data, and runs with dense data.
    Missing: these conditions (without them the property is refuted); a past with sparse runs. *)
Theorem C25_partial : forall {T : Type} `{Arith T} h o (u : udense T) opt orc rand,
  used (u_nV (ud_v u)) (u_nC (ud_v u)) (u_nComp (ud_v u)) h o -> wf_dense u -> fin_lower (ud_v u) -> paired (ud_v u) ->
  o_qpSolver opt = QPOASES_DENSE ->
  renewed u_lbL (ud_v u) h -> renewed u_lbR (ud_v u) h -> renewed u_lb (ud_v u) (since_run h) -> renewed u_ub (ud_v u) (since_run h) ->
  (o_nDynamicPenalty opt = 0 \/ forall opt', In (URun opt') h -> o_nDynamicPenalty opt' = 0) ->
  alike (s_calls (it o)) (load_run u orc rand (setOptions opt o))
    (solve_dense u opt (after_calls (s_calls (it o)) orc) (after_draws (s_rnd (it o)) rand)).
Proof. intros T A h o u opt orc rand U. exact (p_C25 (ud_v u) h o u opt orc rand U eq_refl). Qed.
Print Assumptions C25_partial.
Example C25_partial_example : let u := exr_u false in
  used (u_nV (ud_v u)) (u_nC (ud_v u)) (u_nComp (ud_v u)) exr_h2 exr_o2 /\ wf_dense u /\
  (fin_lower (ud_v u) /\ paired (ud_v u) /\ renewed u_lbL (ud_v u) exr_h2 /\ renewed u_lbR (ud_v u) exr_h2 /\ renewed u_lb (ud_v u) (since_run exr_h2) /\ renewed u_ub (ud_v u) (since_run exr_h2)) /\
  o_qpSolver o_dense = QPOASES_DENSE /\ o_nDynamicPenalty o_dense = 3 /\ (forall opt, In (URun opt) exr_h2 -> o_nDynamicPenalty opt = 0).
Proof. exact (conj exr_used2 (conj (exr_wf false) (conj exr_conditions (conj eq_refl (conj eq_refl exr_dyn))))). Qed.

(** What really happens to the box bounds: those of earlier loads stay in force until the next run. *)
Theorem C25_boxes : forall {T : Type} `{Arith T} h o (u : udense T) opt orc rand,
  used (u_nV (ud_v u)) (u_nC (ud_v u)) (u_nComp (ud_v u)) h o -> wf_dense u -> fin_lower (ud_v u) -> paired (ud_v u) ->
  o_qpSolver opt = QPOASES_DENSE -> renewed u_lbL (ud_v u) h -> renewed u_lbR (ud_v u) h ->
  (o_nDynamicPenalty opt = 0 \/ forall opt', In (URun opt') h -> o_nDynamicPenalty opt' = 0) ->
  alike (s_calls (it o)) (load_run u orc rand (setOptions opt o))
    (solve_dense (with_boxes h u) opt (after_calls (s_calls (it o)) orc) (after_draws (s_rnd (it o)) rand)).
Proof. intros T A h o u opt orc rand U. exact (p_C25_boxes (ud_v u) h o u opt orc rand U eq_refl). Qed.
Print Assumptions C25_boxes.
Example C25_boxes_example : let u := exr_u false in
  used (u_nV (ud_v u)) (u_nC (ud_v u)) (u_nComp (ud_v u)) exr_h1 exr_o1 /\ wf_dense u /\
  (fin_lower (ud_v u) /\ paired (ud_v u) /\ renewed u_lbL (ud_v u) exr_h1 /\ renewed u_lbR (ud_v u) exr_h1 /\ u_ub (ud_v u) = None /\ u_ub (ud_v (with_boxes exr_h1 u)) = Some (fz [1; 3])) /\
  o_qpSolver exr_opt = QPOASES_DENSE /\ o_nDynamicPenalty exr_opt = 0.
Proof. exact (conj exr_used1 (conj (exr_wf false) (conj exr_conditions1 (conj eq_refl eq_refl)))). Qed.

(** The same when the data loaded now are sparse and the sparse qpOASES is used.  Missing besides: OSQP; a past with sparse runs (refuted in C27). *)
Theorem C25_sparse_partial : forall {T : Type} `{Arith T} h o (u : usparse T) opt orc rand,
  used (u_nV (us_v u)) (u_nC (us_v u)) (u_nComp (us_v u)) h o -> wf_sparse u -> fin_lower (us_v u) -> paired (us_v u) -> concat (us_C u) <> [] ->
  o_qpSolver opt = QPOASES_SPARSE ->
  renewed u_lbL (us_v u) h -> renewed u_lbR (us_v u) h -> renewed u_lb (us_v u) (since_run h) -> renewed u_ub (us_v u) (since_run h) ->
  (o_nDynamicPenalty opt = 0 \/ forall opt', In (URun opt') h -> o_nDynamicPenalty opt' = 0) ->
  alike (s_calls (it o)) (load_run_sparse u orc rand (setOptions opt o))
    (solve_sparse u opt (after_calls (s_calls (it o)) orc) (after_draws (s_rnd (it o)) rand)).
Proof. exact @p_C25_sparse. Qed.
Print Assumptions C25_sparse_partial.
Example C25_sparse_partial_example : used 2 0 1 exr_h3 exr_o3 /\ wf_sparse exr_s /\
  ((fin_lower (us_v exr_s) /\ paired (us_v exr_s) /\ concat (us_C exr_s) <> []) /\
   renewed u_lbL (us_v exr_s) exr_h3 /\ renewed u_lbR (us_v exr_s) exr_h3 /\ renewed u_lb (us_v exr_s) (since_run exr_h3) /\ renewed u_ub (us_v exr_s) (since_run exr_h3)) /\
  o_qpSolver o_sparse = QPOASES_SPARSE /\ o_nDynamicPenalty o_sparse = 3 /\ (forall opt, In (URun opt) exr_h3 -> o_nDynamicPenalty opt = 0).
Proof. exact (conj exr_used3 (conj exr_s_wf (conj exr_conditions3 (conj eq_refl (conj eq_refl exr_dyn3))))). Qed.

(** Box bounds of earlier loads stay in force with sparse data too. *)
Theorem C25_sparse_boxes : forall {T : Type} `{Arith T} h o (u : usparse T) opt orc rand,
  used (u_nV (us_v u)) (u_nC (us_v u)) (u_nComp (us_v u)) h o -> wf_sparse u -> fin_lower (us_v u) -> paired (us_v u) -> concat (us_C u) <> [] ->
  o_qpSolver opt = QPOASES_SPARSE -> renewed u_lbL (us_v u) h -> renewed u_lbR (us_v u) h ->
  (o_nDynamicPenalty opt = 0 \/ forall opt', In (URun opt') h -> o_nDynamicPenalty opt' = 0) ->
  alike (s_calls (it o)) (load_run_sparse u orc rand (setOptions opt o))
    (solve_sparse (with_boxes_sparse h u) opt (after_calls (s_calls (it o)) orc) (after_draws (s_rnd (it o)) rand)).
Proof. exact @p_C25_sparse_boxes. Qed.
Print Assumptions C25_sparse_boxes.
Example C25_sparse_boxes_example : used 2 0 1 exr_h1 exr_o1 /\ wf_sparse exr_s /\
  ((fin_lower (us_v exr_s) /\ paired (us_v exr_s) /\ concat (us_C exr_s) <> []) /\ renewed u_lbL (us_v exr_s) exr_h1 /\ renewed u_lbR (us_v exr_s) exr_h1 /\
   u_ub (us_v exr_s) = None /\ u_ub (us_v (with_boxes_sparse exr_h1 exr_s)) = Some (fz [1; 3])) /\
  o_qpSolver o_sparse = QPOASES_SPARSE /\ (forall opt, In (URun opt) exr_h1 -> o_nDynamicPenalty opt = 0).
Proof. exact (conj exr_used1 (conj exr_s_wf (conj exr_conditions4 (conj eq_refl (fun opt Ho => exr_dyn opt (or_intror Ho)))))). Qed.

(** C26 where it is true: every QP of every run of an object has the Hessian, the constraint matrix and the constraint bounds of the problem loaded last.
    Its box bounds are those loaded since the previous run, and infinite if there are none.  Missing: box bounds in repeated runs (refuted); sparse data (in Properties_Data.v). *)
Theorem C26_partial : forall {T : Type} `{Arith T} n m k h o (u : udense T) orc rand r o', used n m k h o -> last_load h = Some u ->
  o_qpSolver (d_options (pd o)) = QPOASES_DENSE -> runSolver orc rand o = Ok (r, o') ->
  exists l, l <> [] /\ s_calls (it o') = l ++ s_calls (it o) /\
    forall c, In c l -> qp_of u (latest u_lb (since_run h)) (latest u_ub (since_run h)) c.
Proof. exact @p_C26_data. Qed.
Print Assumptions C26_partial.
Example C26_partial_example : used 2 0 1 exr_h1 exr_o1 /\ last_load exr_h1 = Some (exr_u true) /\ o_qpSolver (d_options (pd exr_o1)) = QPOASES_DENSE /\
  runSolver ex_oracle no_rand exr_o1 = Ok (SUCCESSFUL_RETURN, exr_o2) /\
  (length (s_calls (it exr_o2)) = 36%nat /\ latest u_ub (since_run exr_h1) = Some (fz [1; 3]) /\ latest u_ub (since_run exr_h2) = None).
Proof. exact (conj exr_used1 (conj eq_refl (conj exr_qp (conj exr_run_ok exr_calls)))). Qed.

(** A second run after a successful one is the run of a new object with the same data, without box bounds, started from the solution found. *)
Theorem C26_continues : forall {T : Type} `{Arith T} h o (u : udense T) opt orc rand r o' orc2 rand2,
  used (u_nV (ud_v u)) (u_nC (ud_v u)) (u_nComp (ud_v u)) h o -> last_load h = Some u ->
  renewed u_lbL (ud_v u) h -> renewed u_lbR (ud_v u) h -> paired (ud_v u) -> fin_lower (ud_v u) ->
  o_qpSolver (d_options (pd o)) = QPOASES_DENSE -> runSolver orc rand o = Ok (r, o') -> r = SUCCESSFUL_RETURN ->
  o_qpSolver opt = QPOASES_DENSE ->
  (o_nDynamicPenalty opt = 0 \/ o_nDynamicPenalty (d_options (pd o)) = 0 /\ forall opt', In (URun opt') h -> o_nDynamicPenalty opt' = 0) ->
  exists x y, len x = u_nV (ud_v u) /\ len y = u_nV (ud_v u) + u_nA (ud_v u) /\ gives_primal o' (u_nV (ud_v u)) x /\ gives_dual o' y /\
    alike (s_calls (it o')) (runSolver orc2 rand2 (setOptions opt o'))
      (solve_dense (continued u x y) opt (after_calls (s_calls (it o')) orc2) (after_draws (s_rnd (it o')) rand2)).
Proof. intros T A h o u opt orc rand r o' orc2 rand2 U EL. exact (p_C26 (ud_v u) h o u opt orc rand r o' orc2 rand2 U EL eq_refl). Qed.
Print Assumptions C26_continues.
Example C26_continues_example : used 2 0 1 exr_h1 exr_o1 /\
  (last_load exr_h1 = Some (exr_u true) /\ fin_lower (ud_v (exr_u true)) /\ paired (ud_v (exr_u true)) /\ renewed u_lbL (ud_v (exr_u true)) exr_h1 /\ renewed u_lbR (ud_v (exr_u true)) exr_h1) /\
  o_qpSolver (d_options (pd exr_o1)) = QPOASES_DENSE /\ runSolver ex_oracle no_rand exr_o1 = Ok (SUCCESSFUL_RETURN, exr_o2) /\
  o_qpSolver exr_opt = QPOASES_DENSE /\ o_nDynamicPenalty exr_opt = 0.
Proof. exact (conj exr_used1 (conj exr_conditions2 (conj exr_qp (conj exr_run_ok (conj eq_refl eq_refl))))). Qed.
