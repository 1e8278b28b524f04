(** * Properties_Data: the problem given by the last load is the one that every later run solves (C26).

    Any arithmetic, any QP solver answers, any past of the object.  The false parts are in Properties_Refuted.v. *)
From Verif Require Import Base Arith Codes Utilities Options Stats FileIO Subsolver State LCQProblem Loops SpecSparse SpecLoad SpecLife SpecUse SpecData DataFacts
  Examples ExamplesKernels ExamplesExact ExamplesHistory ExamplesReuse ExamplesLife ExamplesData.
Open Scope Z_scope.

(** Take an object with any past of option changes, loads from arrays, matrices or files, mode changes and runs.  If dense data [u] is loaded successfully, then in each
    later run, until data is loaded or the mode changed, every QP solved has the Hessian Q, the constraint matrix A over L over R and the constraint bounds of [u]. *)
Theorem C26_data_dense : forall {T : Type} `{Arith T} orc rand h1 h2 (u : udense T) o oa ob oc od r,
  LCQProblem_ctor (u_nV (ud_v u)) (u_nC (ud_v u)) (u_nComp (ud_v u)) = Ok o -> used orc rand h1 o oa ->
  wf_dense u -> load_dense u oa = Ok (SUCCESSFUL_RETURN, ob) ->
  used orc rand h2 ob oc -> (forall c r, In (c, r) h2 -> keeps_problem c) -> runSolver orc rand oc = Ok (r, od) ->
  exists l, s_calls (it od) = l ++ s_calls (it oc) /\ forall c, In c l -> dense_qp u c.
Proof. intros T A. exact p_C26_dense. Qed.
Print Assumptions C26_data_dense.
Example C26_data_dense_example : let u := exr_u true in let h2 := [(KOptions exr_opt, SUCCESSFUL_RETURN)] in
  (LCQProblem_ctor (u_nV (ud_v u)) (u_nC (ud_v u)) (u_nComp (ud_v u)) = Ok exl_o /\ used exl_orc no_rand exd_past exl_o exd_a) /\
  (wf_dense u /\ load_dense u exd_a = Ok (SUCCESSFUL_RETURN, exd_db)) /\
  used exl_orc no_rand h2 exd_db exd_dc /\ runSolver exl_orc no_rand exd_dc = Ok (SUCCESSFUL_RETURN, exd_dd) /\
  length (s_calls (it exd_dd)) = (36 + length (s_calls (it exd_dc)))%nat /\ (forall c r, In (c, r) h2 -> keeps_problem c).
Proof. exact (conj (conj exl_new exd_past_used) (conj (conj (exr_wf true) exd_d_load) exd_d_run)). Qed.

(** The same for sparse data; the rows of L are shifted by the rows of A, those of R by the rows of A and L, and OSQP gets the entries of Q on and above the diagonal. *)
Theorem C26_data_sparse : forall {T : Type} `{Arith T} orc rand h1 h2 (u : usparse T) o oa ob oc od r,
  LCQProblem_ctor (u_nV (us_v u)) (u_nC (us_v u)) (u_nComp (us_v u)) = Ok o -> used orc rand h1 o oa ->
  wf_sparse u -> load_sparse u oa = Ok (SUCCESSFUL_RETURN, ob) ->
  used orc rand h2 ob oc -> (forall c r, In (c, r) h2 -> keeps_problem c) -> runSolver orc rand oc = Ok (r, od) ->
  exists l, s_calls (it od) = l ++ s_calls (it oc) /\ forall c, In c l -> sparse_qp u c.
Proof. intros T A. exact p_C26_sparse. Qed.
Print Assumptions C26_data_sparse.
Example C26_data_sparse_example : let u := exd_s in let h2 := exd_then ++ [(KRun, SUCCESSFUL_RETURN)] ++ exd_then in
  (LCQProblem_ctor (u_nV (us_v u)) (u_nC (us_v u)) (u_nComp (us_v u)) = Ok exl_o /\ used exl_orc no_rand exd_past exl_o exd_a) /\
  (wf_sparse u /\ load_sparse u exd_a = Ok (SUCCESSFUL_RETURN, exd_b)) /\
  (used exl_orc no_rand h2 exd_b exd_e /\ runSolver exl_orc no_rand exd_e = Ok (SUCCESSFUL_RETURN, exd_f) /\
  length (s_calls (it exd_f)) = (5 + length (s_calls (it exd_e)))%nat) /\ (forall c r, In (c, r) h2 -> keeps_problem c).
Proof. exact (conj (conj exl_new exd_past_used) (conj (conj exd_s_wf exd_s_load) (conj exd_s_again (proj2 (proj2 exd_then_keeps))))). Qed.

(** The box bounds given by a load with both lb and ub, dense or sparse, are in force in the first run after it; with OSQP the QPs have no box bounds. *)
Theorem C26_boxes_given : forall {T : Type} `{Arith T} orc rand h1 h2 (v : uvec T) lb ub o oa ob oc od r load,
  (exists u, v = ud_v u /\ wf_dense u /\ load = load_dense u) \/ (exists u, v = us_v u /\ wf_sparse u /\ load = load_sparse u) ->
  LCQProblem_ctor (u_nV v) (u_nC v) (u_nComp v) = Ok o -> used orc rand h1 o oa ->
  load oa = Ok (SUCCESSFUL_RETURN, ob) -> u_lb v = Some lb -> u_ub v = Some ub ->
  used orc rand h2 ob oc -> (forall c r, In (c, r) h2 -> exists opt, c = KOptions opt) -> runSolver orc rand oc = Ok (r, od) ->
  exists l, s_calls (it od) = l ++ s_calls (it oc) /\ forall c, In c l -> box_qp (u_nV v) (Some lb) (Some ub) c.
Proof. intros T A. exact p_C26_boxes. Qed.
Print Assumptions C26_boxes_given.
Example C26_boxes_given_example : let u := exd_s in
  (LCQProblem_ctor (u_nV (us_v u)) (u_nC (us_v u)) (u_nComp (us_v u)) = Ok exl_o /\ used exl_orc no_rand exd_past exl_o exd_a) /\
  (wf_sparse u /\ load_sparse u exd_a = Ok (SUCCESSFUL_RETURN, exd_b)) /\ (u_lb (us_v u) = Some (fz [0; 0]) /\ u_ub (us_v u) = Some (fz [1; 3])) /\
  (used exl_orc no_rand exd_then exd_b exd_c /\ runSolver exl_orc no_rand exd_c = Ok (SUCCESSFUL_RETURN, exd_d) /\
  length (s_calls (it exd_d)) = (5 + length (s_calls (it exd_c)))%nat) /\ (forall c r, In (c, r) exd_then -> exists opt, c = KOptions opt).
Proof. exact (conj (conj exl_new exd_past_used) (conj (conj exd_s_wf exd_s_load) (conj (conj eq_refl eq_refl) (conj exd_s_run (proj1 exd_then_keeps))))). Qed.

(** And what happens to them afterwards: once a run has solved a QP, the QPs of all later runs have no finite box bounds, until data is loaded again. *)
Theorem C26_boxes_lost : forall {T : Type} `{Arith T} (orc : oracle T) rand h1 h2 nV nC nComp o oa ob oc od r1 r,
  0 < nV -> 0 <= nC -> 0 < nComp -> nV + nC + 2 * nComp <= INT_MAX ->
  LCQProblem_ctor nV nC nComp = Ok o -> used orc rand h1 o oa ->
  runSolver orc rand oa = Ok (r1, ob) -> s_calls (it ob) <> s_calls (it oa) ->
  used orc rand h2 ob oc -> (forall c r, In (c, r) h2 -> keeps_problem c) -> runSolver orc rand oc = Ok (r, od) ->
  exists l, s_calls (it od) = l ++ s_calls (it oc) /\ forall c, In c l -> box_qp nV None None c.
Proof. intros T A. exact p_C26_boxes_lost. Qed.
Print Assumptions C26_boxes_lost.
Example C26_boxes_lost_example :
  LCQProblem_ctor 2 0 1 = Ok exl_o /\ (used exl_orc no_rand (exd_past ++ (exd_load, SUCCESSFUL_RETURN) :: exd_then) exl_o exd_c /\ s_calls (it exd_d) <> s_calls (it exd_c)) /\
  (runSolver exl_orc no_rand exd_c = Ok (SUCCESSFUL_RETURN, exd_d) /\ used exl_orc no_rand exd_then exd_d exd_e /\ (forall c r, In (c, r) exd_then -> keeps_problem c)) /\
  runSolver exl_orc no_rand exd_e = Ok (SUCCESSFUL_RETURN, exd_f) /\ length (s_calls (it exd_f)) = (5 + length (s_calls (it exd_e)))%nat.
Proof. exact (conj exl_new (conj exd_s_past (conj (conj (proj1 (proj2 exd_s_run)) (conj exd_then_again (proj1 (proj2 exd_then_keeps)))) (proj2 exd_s_again)))). Qed.
