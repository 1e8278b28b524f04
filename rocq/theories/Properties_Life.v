(** * Properties_Life: facts about arbitrary sequences of calls on one object. *)
From Verif Require Import Base Arith Codes Utilities Options Stats FileIO Subsolver State LCQProblem SpecRun Spec SpecMath SpecLoad SpecLife SpecUse LifeFacts BoxFacts SparseAgain Loops HelperFacts Examples ExamplesLife.

(** Two sequences of calls that differ only in the print level and in whether steps are stored return the same values and leave the same solutions,
    counters and status, and pose the same QPs; whatever the object was used for before, whatever the QP solver and rand() answer, in any arithmetic. *)
Theorem C66_output_options : forall {T : Type} `{Arith T} (orc : oracle T) rand l l' (o a b : lcqp T) rs rs', Forall2 same_call l l' ->
  perform_all orc rand l o = Ok (rs, a) -> perform_all orc rand l' o = Ok (rs', b) -> rs = rs' /\ same_results a b.
Proof. exact @p_C66. Qed.
Print Assumptions C66_output_options.
Example C66_output_options_example : Forall2 same_call (exl_calls 2 true) (exl_calls 0 false) /\
  perform_all ex_oracle no_rand (exl_calls 2 true) exl_o = Ok (exl_returns, exl_done 2 true) /\
  perform_all ex_oracle no_rand (exl_calls 0 false) exl_o = Ok (exl_returns, exl_done 0 false) /\
  length (s_log (it (exl_done 2 true))) = 62%nat /\ length (s_calls (it (exl_done 2 true))) = 46%nat.
Proof. exact (conj exl_same (conj exl_loud (conj exl_quiet (conj (proj1 exl_differ) (proj2 (proj2 (proj2 (proj2 exl_differ)))))))). Qed.

(** A sequence of calls that has no undefined behaviour has none either with all output switched off. *)
Theorem C66_silent : forall {T : Type} `{Arith T} (orc : oracle T) rand nV nC nComp l (o a : lcqp T) rs,
  LCQProblem_ctor nV nC nComp = Ok o -> perform_all orc rand l o = Ok (rs, a) ->
  exists b, perform_all orc rand (KOptions (silent setToDefault) :: map silent_call l) o = Ok (SUCCESSFUL_RETURN :: rs, b) /\ same_results a b.
Proof. exact @p_C66_silent. Qed.
Print Assumptions C66_silent.
Example C66_silent_example : LCQProblem_ctor 2 0 1 = Ok exl_o /\ perform_all ex_oracle no_rand (exl_calls 2 true) exl_o = Ok (exl_returns, exl_done 2 true).
Proof. exact (conj exl_new exl_loud). Qed.

(** C29, first half, for every history of calls on one object: a run with OSQP is never rejected for box bounds if no load passed lb or ub and no
    run used qpOASES.  Missing: after a run with qpOASES this is false, see [C29_qpoases_rejects] and [C29_refuted]. *)
Theorem C29_accepted_partial : forall {T : Type} `{Arith T} (orc : oracle T) rand nV nC nComp h (o o1 o2 : lcqp T) r,
  LCQProblem_ctor nV nC nComp = Ok o -> used orc rand h o o1 -> selected h = OSQP_SPARSE ->
  (forall c r', In (c, r') h -> ~ gives_box c) -> ~ ran_qpoases h -> runSolver orc rand o1 = Ok (r, o2) -> r <> INVALID_OSQP_BOX_CONSTRAINTS.
Proof. exact @p_C29_none. Qed.
Print Assumptions C29_accepted_partial.
Example C29_accepted_example : LCQProblem_ctor 2 0 1 = Ok exl_o /\ used exl_orc no_rand exl_free exl_o (exl_after exl_free) /\ selected exl_free = OSQP_SPARSE /\
  (forall c r, In (c, r) exl_free -> ~ gives_box c) /\ ~ ran_qpoases exl_free /\
  runSolver exl_orc no_rand (exl_after exl_free) = Ok (SUCCESSFUL_RETURN, exl_again exl_free).
Proof.
  exact (conj exl_new (conj (proj1 exl_free_used) (conj (proj1 (proj2 exl_free_used)) (conj (proj1 exl_free_never) (conj (proj2 exl_free_never) (proj2 (proj2 (proj2 exl_free_used)))))))).
Qed.

(** C29, second half: once a successful load passed lb or ub, every later run with OSQP on sparse data is rejected, also after loading again without them. *)
Theorem C29_box_rejected : forall {T : Type} `{Arith T} (orc : oracle T) rand nV nC nComp h (o o1 o2 : lcqp T) r,
  LCQProblem_ctor nV nC nComp = Ok o -> used orc rand h o o1 -> selected h = OSQP_SPARSE -> sparsely h = true -> runSolver orc rand o1 = Ok (r, o2) ->
  (exists c, In (c, SUCCESSFUL_RETURN) h /\ gives_box c) -> r = INVALID_OSQP_BOX_CONSTRAINTS.
Proof. exact @p_C29_box. Qed.
Print Assumptions C29_box_rejected.
Example C29_box_rejected_example : LCQProblem_ctor 2 0 1 = Ok exl_o /\
  (used exl_orc no_rand exl_boxed exl_o (exl_after exl_boxed) /\ selected exl_boxed = OSQP_SPARSE /\ sparsely exl_boxed = true /\
   runSolver exl_orc no_rand (exl_after exl_boxed) = Ok (INVALID_OSQP_BOX_CONSTRAINTS, exl_again exl_boxed)) /\
  exists c, In (c, SUCCESSFUL_RETURN) exl_boxed /\ gives_box c.
Proof. exact (conj exl_new (conj exl_boxed_used exl_boxed_given)). Qed.

(** How often C29 fails: after any run with qpOASES that was not refused, every later run with OSQP on sparse data is rejected for box bounds,
    although none were passed. *)
Theorem C29_qpoases_rejects : forall {T : Type} `{Arith T} (orc : oracle T) rand nV nC nComp h (o o1 o2 : lcqp T) r,
  LCQProblem_ctor nV nC nComp = Ok o -> used orc rand h o o1 -> selected h = OSQP_SPARSE -> sparsely h = true -> runSolver orc rand o1 = Ok (r, o2) ->
  started_qpoases h -> r = INVALID_OSQP_BOX_CONSTRAINTS.
Proof. exact @p_C29_qpoases. Qed.
Print Assumptions C29_qpoases_rejects.
Example C29_qpoases_rejects_example : LCQProblem_ctor 2 0 1 = Ok exl_o /\
  (used exl_orc no_rand exl_qpoases exl_o (exl_after exl_qpoases) /\ selected exl_qpoases = OSQP_SPARSE /\ sparsely exl_qpoases = true /\
   runSolver exl_orc no_rand (exl_after exl_qpoases) = Ok (INVALID_OSQP_BOX_CONSTRAINTS, exl_again exl_qpoases)) /\ started_qpoases exl_qpoases.
Proof. exact (conj exl_new (conj exl_qpoases_used exl_qpoases_started)). Qed.

(** How often C27 fails, for every history of calls: after one sparse run that got past its first QP, no later sparse run of the object that has no
    undefined behaviour ever increases the penalty, whether or not data is loaded again; a run that would need a larger penalty is undefined.  The first
    run is on data loaded in sparse form; sparse loads pass an L with nV columns. *)
Theorem C27_never_again : forall {T : Type} `{Arith T} (orc : oracle T) rand nV nC nComp h1 h2 (o oa ob oc od : lcqp T) r1 r2,
  0 < nV -> LCQProblem_ctor nV nC nComp = Ok o -> (forall c r, In (c, r) (h1 ++ h2) -> fits nV c) -> (forall c r, In (c, r) h1 -> c <> KToSparse) ->
  used orc rand h1 o oa -> sparsely h1 = true -> runSolver orc rand oa = Ok (r1, ob) -> 1 <= st_iterTotal (getOutputStatistics ob) -> started oa ob ->
  used orc rand h2 ob oc -> sparsely (h1 ++ (KRun, r1) :: h2) = true -> runSolver orc rand oc = Ok (r2, od) -> started oc od ->
  st_iterOuter (getOutputStatistics od) = 0.
Proof. exact @p_C27_again. Qed.
Print Assumptions C27_never_again.
Example C27_never_again_example : LCQProblem_ctor 2 0 1 = Ok exl_o /\ ((forall c r, In (c, r) (exl_first ++ exl_second) -> fits 2 c) /\ (forall c r, In (c, r) exl_first -> c <> KToSparse)) /\
  (used exl_orc no_rand exl_first exl_o (exl_after exl_first) /\ sparsely exl_first = true /\
   runSolver exl_orc no_rand (exl_after exl_first) = Ok (SUCCESSFUL_RETURN, exl_again exl_first) /\ st_iterTotal (getOutputStatistics (exl_again exl_first)) = 36 /\
   st_iterOuter (getOutputStatistics (exl_again exl_first)) = 1 /\ started (exl_after exl_first) (exl_again exl_first)) /\
  (used exl_orc no_rand exl_second (exl_again exl_first) exl_middle /\ sparsely (exl_first ++ (KRun, SUCCESSFUL_RETURN) :: exl_second) = true /\
   runSolver exl_orc no_rand exl_middle = Ok (SUCCESSFUL_RETURN, exl_end) /\ st_iterTotal (getOutputStatistics exl_end) = 5 /\ started exl_middle exl_end).
Proof. exact (conj exl_new (conj exl_fits (conj exl_first_run exl_second_run))). Qed.

(** ** C69: bounds set by index (setLB, setUB; protected members for derived classes)
    After the bounds were set as a vector ([b], or the default when null), setting one of them changes this one and nothing else; an index outside
    0 .. nV-1 is reported and changes nothing. *)
Theorem C69_lower : forall {T : Type} `{Arith T} (o : lcqp T) n b i v, d_nV (pd o) = Some n -> 0 < n <= INT_MAX -> SpecLoad.fits n b ->
  exists o1, setLB (ptr_of b) o = Ok (SUCCESSFUL_RETURN, o1) /\ d_lb (pd o1) = Some (lift (bnd n b a_ninf)) /\
    if (0 <=? i) && (i <? n)
    then exists l o2, setLB_at i v o1 = Ok (SUCCESSFUL_RETURN, o2) /\ d_lb (pd o2) = Some (lift l) /\ len l = n /\ at_ a_zero l i = v /\
      (forall j, 0 <= j < n -> j <> i -> at_ a_zero l j = at_ a_zero (bnd n b a_ninf) j) /\ pd o2 = set_d_lb (Some (lift l)) (pd o) /\ it o2 = it o
    else setLB_at i v o1 = Ok (INDEX_OUT_OF_BOUNDS, o1).
Proof. exact @set_lb_at. Qed.
Print Assumptions C69_lower.
Theorem C69_upper : forall {T : Type} `{Arith T} (o : lcqp T) n b i v, d_nV (pd o) = Some n -> 0 < n <= INT_MAX -> SpecLoad.fits n b ->
  exists o1, setUB (ptr_of b) o = Ok (SUCCESSFUL_RETURN, o1) /\ d_ub (pd o1) = Some (lift (bnd n b a_pinf)) /\
    if (0 <=? i) && (i <? n)
    then exists l o2, setUB_at i v o1 = Ok (SUCCESSFUL_RETURN, o2) /\ d_ub (pd o2) = Some (lift l) /\ len l = n /\ at_ a_zero l i = v /\
      (forall j, 0 <= j < n -> j <> i -> at_ a_zero l j = at_ a_zero (bnd n b a_pinf) j) /\ pd o2 = set_d_ub (Some (lift l)) (pd o) /\ it o2 = it o
    else setUB_at i v o1 = Ok (INDEX_OUT_OF_BOUNDS, o1).
Proof. exact @set_ub_at. Qed.
Print Assumptions C69_upper.
Example C69_example : d_nV (pd exl_o) = Some 2 /\ SpecLoad.fits 2 (Some [Fin (Qcanon.Q2Qc (QArith_base.inject_Z 0)); Fin (Qcanon.Q2Qc (QArith_base.inject_Z 1))]) /\ (0 <=? 1) && (1 <? 2) = true.
Proof. repeat split. Qed.
(** Before any bounds were set, setting one by index writes through a null pointer. *)
Theorem C69_unset : exists o : lcqp xq, LCQProblem_ctor 2 0 1 = Ok o /\ setLB_at 0 a_zero o = UB NullDeref /\ setUB_at 1 a_zero o = UB NullDeref.
Proof. exact set_at_null. Qed.
Print Assumptions C69_unset.

(** C15 for perturbGradient (protected member, not called by the library): every entry of the gradient of the QP changes by -EPS, 0 or EPS and
    nothing else changes except that nV random numbers are drawn. *)
Theorem C15_gradient : forall {T : Type} `{Arith T} rand (d : pdata T) s n (l : list T), d_nV d = Some n -> 0 <= n -> s_gk s = Some (lift l) -> len l = n ->
  exists sg : Z -> Z, (forall i, sg i = -1 \/ sg i = 0 \/ sg i = 1) /\
    perturbGradient rand d s =
      Ok (set_rnd (s_rnd s + Z.to_nat n)%nat (set_gk (Some (lift (tab n (fun i => at_ a_zero l i + a_of_Z (sg i) * EPS)%num))) s)).
Proof. exact @perturb_grad. Qed.
Print Assumptions C15_gradient.
Example C15_gradient_example : exists l, d_nV (pd (exl_again exl_free)) = Some 2 /\ s_gk (it (exl_again exl_free)) = Some (lift l) /\ len l = 2.
Proof. exact exl_gradient. Qed.
