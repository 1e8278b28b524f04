(** * RunTheorems: the run-level lemmas in the shape of the property theorems. *)
From Coq Require Import QArith Qcanon.
From Verif Require Import Base Arith Codes Utilities Options Stats FileIO Subsolver State LCQProblem Tactics Loops NoFuel Frames Control RunControl SpecRun Spec QPHistory RunStats RunFacts RunProps PenaltyExact Examples ExamplesRun.
Open Scope Z_scope.

Section Thm.
Context {T : Type} `{Arith T}.
Implicit Types (orc : oracle T) (d : pdata T) (s : iter T) (o : lcqp T) (st : stats T).

Lemma thm_terminates orc rand o :
  runSolver orc rand o <> UB OutOfFuel /\
  (forall fuel, (Z.to_nat (o_maxIterations (d_options (pd o))) + 1 <= fuel)%nat -> runSolver_fuel fuel orc rand o = runSolver orc rand o) /\
  (forall r o', runSolver orc rand o = Ok (r, o') ->
     exists new, s_calls (it o') = new ++ s_calls (it o) /\ len new <= Z.max 0 (o_maxIterations (d_options (pd o))) + 1).
Proof.
  split; [|split].
  - unfold runSolver. apply (run_terminates orc rand o). lia.
  - intros fuel Hf. apply (run_terminates orc rand o). exact Hf.
  - intros r o' E. destruct (run_qp _ _ _ _ _ _ E) as [(o1 & E1 & Er & ->)|(o1 & E1 & Epd & CP & QP)].
    + exists []. simpl. rewrite (init_fail_calls _ _ _ E1). split; auto. change (len (@nil (qp_call T))) with 0. lia.
    + destruct (cp_calls _ _ _ _ CP) as (n & A1 & A2). exists n. rewrite (init_options _ _ E1) in A2. auto.
Qed.

Lemma thm_status orc rand o r o' : runSolver orc rand o = Ok (r, o') -> started o o' ->
  exists a, (a = PROBLEM_NOT_SOLVED <-> r <> SUCCESSFUL_RETURN) /\
    st_status (getOutputStatistics o') = a /\
    (forall buf b out, getPrimalSolution buf o' = Ok (b, out) -> b = a) /\
    (forall buf b out, getDualSolution buf o' = Ok (b, out) -> b = a) /\
    getPrimalSolution None o' = Ok (a, None) /\ getDualSolution None o' = Ok (a, None).
Proof. intros E St. destruct (run_status _ _ _ _ _ _ E St) as (a & A1 & A2 & A3 & A4 & A5 & A6). exists a. auto 10. Qed.

Lemma thm_maxit orc rand o r o' : runSolver orc rand o = Ok (r, o') -> 0 <= o_maxIterations (d_options (pd o)) ->
  (started o o' ->
     0 <= st_iterTotal (getOutputStatistics o') <= o_maxIterations (d_options (pd o)) + 1 /\
     (r = MAX_ITERATIONS_REACHED <->
        r <> SUCCESSFUL_RETURN /\ st_iterTotal (getOutputStatistics o') = o_maxIterations (d_options (pd o)) + 1)) /\
  (~ started o o' -> r <> MAX_ITERATIONS_REACHED /\ getOutputStatistics o' = getOutputStatistics o).
Proof.
  intros E Hm. split; [intros St; eapply run_maxit; eauto|].
  intros St. destruct (run_not_started _ _ _ _ _ _ E St) as (A1 & _ & _ & A4). unfold getOutputStatistics. rewrite A1.
  split; auto. intros ->. simpl in A4. intuition discriminate.
Qed.

Lemma thm_tracking orc rand o r o' : runSolver orc rand o = Ok (r, o') -> started o o' ->
  let st := getOutputStatistics o' in
  (o_storeSteps (d_options (pd o)) = true ->
     tracked st (st_iterTotal st) /\
     (0 < st_iterTotal st -> exists X x nV, st_xSteps st = X ++ [x] /\ getNumberOfPrimals o' = Ok nV /\ len x = Z.max 0 nV /\
        forall buf a out, getPrimalSolution (Some buf) o' = Ok (a, Some out) ->
          forall i, 0 <= i < nV -> rd out i = Ok (at_ a_zero x i))) /\
  (o_storeSteps (d_options (pd o)) = false -> untracked st).
Proof.
  intros E St st. destruct (run_tracking _ _ _ _ _ _ E St) as [A1 A2]. split; [|exact A1]. intros Hs. destruct (A2 Hs) as [B1 B2].
  split; [exact B1|]. intros Hp. destruct (B2 Hp) as (X & x & nV & C1 & C2 & C3 & C4). exists X, x, nV.
  unfold getNumberOfPrimals. rewrite C2. auto.
Qed.

Lemma thm_getters_null st : untracked st ->
  vec_getter (st_xSteps st) = None /\ vec_getter (st_innerIters st) = None /\ vec_getter (st_subproblemIters st) = None /\
  vec_getter (st_accuSubproblemIters st) = None /\ vec_getter (st_stepLength st) = None /\ vec_getter (st_stepSize st) = None /\
  vec_getter (st_statVals st) = None /\ vec_getter (st_objVals st) = None /\ vec_getter (st_phiVals st) = None /\
  vec_getter (st_meritVals st) = None.
Proof. intros (-> & -> & -> & -> & -> & -> & -> & -> & -> & ->). repeat split. Qed.

Lemma leyffer_len d s b s' : leyfferCheckPositive d s = Ok (b, s') -> len (s_complHistory s') <= len (s_complHistory s) + 1.
Proof.
  unfold leyfferCheckPositive. cbv zeta. intros E.
  destruct (to_size_t _ <=? 0); [injection E as <- <-; lia|].
  apply bind_ok in E. destruct E as (v & _ & E).
  assert (L : len (tl (s_complHistory s)) <= len (s_complHistory s)).
  { destruct (s_complHistory s); unfold len; simpl; lia. }
  destruct (_ <? _).
  - assert (s' = set_complHistory (s_complHistory s ++ [v]) s) by congruence. subst s'. simpl. rewrite len_app. unfold len. simpl. lia.
  - apply bind_ok in E. destruct E as (cc & _ & E). destruct cc.
    + assert (s' = set_complHistory (tl (s_complHistory s) ++ [v]) s) by congruence. subst s'. simpl. rewrite len_app. unfold len in *. simpl. lia.
    + apply bind_ok in E. destruct E as (q & _ & E).
      assert (s' = set_complHistory (tl (s_complHistory s) ++ [v]) s) by congruence. subst s'. simpl. rewrite len_app. unfold len in *. simpl. lia.
Qed.

Lemma start_history orc rand o d s : s_complHistory (it o) = [] -> pass_start orc rand o d s ->
  d_options d = d_options (pd o) /\ len (s_complHistory s) <= s_totalIter s <= INT_MAX.
Proof.
  intros Hc P. induction P as [o1 s0 E1 E2|d s s' P IH Ep].
  - split; [apply (init_options _ _ E1)|]. apply initializeSolver_ok in E1.
    destruct E1 as [(_ & _ & a & b & c & e' & f & g1 & g2 & y & gt & l & ->)|(C3 & _)]; [|discriminate].
    apply first_solve_inv in E2. inversion E2 as [|g s2 s3 Es Eq]; subst. simpl in *.
    apply solveQPSubproblem_effect in Es. destruct Es. simpl in *. apply setQk_frame in Eq. destruct Eq as (q1 & q2 & q3 & ->). simpl.
    rewrite qe_total, qe_hist, Hc. unfold len, INT_MAX. simpl. lia.
  - destruct IH as [Eo IH]. split; auto.
    apply pass_inv in Ep. inversion Ep as [|s2 s3 s4 e b1 b2 Hh Hhd Hp Hb2 Ht]; subst. clear Ep.
    apply pass_tail_inv in Ht. inversion Ht as [| | |s4 s5 s6 s7 Hm Hr E3 E4 E5 E6]; subst. clear Ht.
    apply updateLinearization_frame in E3. destruct E3 as (w & ->). apply solveQPSubproblem_effect in E4. destruct E4. simpl in *.
    apply getOptimalStepLength_frame in E6. destruct E6 as (al & lk & ->).
    assert (Hs5 : s_complHistory s6 = s_complHistory s5 /\ s_totalIter s6 = s_totalIter s5).
    { destruct (o_perturbStep _); [apply perturbStep_frame in E5; destruct E5 as (a & b & ->); eauto|]. subst s6. auto. }
    destruct Hs5 as [B1 B2]. simpl. rewrite B1, B2, qe_hist, qe_total, (pe_total _ _ _ _ Hp), (he_total _ _ _ _ Hh).
    assert (Hi : s_totalIter s + 1 <= INT_MAX).
    { unfold pass_head in Hhd. apply bind_ok in Hhd; destruct Hhd as (t1 & F1 & Hhd). apply updateStep_frame in F1. destruct F1 as (x & ->).
      apply bind_ok in Hhd; destruct Hhd as (t2 & F2 & Hhd). apply updateStationarity_frame in F2. destruct F2 as (a1 & a2 & a3 & ->).
      apply bind_ok in Hhd; destruct Hhd as (t3 & F3 & Hhd). apply printIteration_frame in F3. destruct F3 as (l & ->).
      apply bind_ok in Hhd; destruct Hhd as (t4 & F4 & Hhd).
      assert (F4' : s_totalIter t4 = s_totalIter s).
      { destruct (o_storeSteps _); [apply storeSteps_frame in F4; destruct F4 as (st & ->); reflexivity|]. injection F4 as <-. reflexivity. }
      apply bind_ok in Hhd; destruct Hhd as (t5 & F5 & _). unfold updateTotalIter in F5. rewrite F4' in F5. apply bind_ok in F5.
      destruct F5 as (n & F5 & _). unfold chk_int, in_int in F5.
      destruct (Z.leb_spec (s_totalIter s + 1) INT_MAX); [assumption|]. rewrite andb_false_r in F5. discriminate. }
    apply head_leyffer in Hhd. destruct Hhd as (sx & sa & b & sb & G1 & G2 & G3 & G4 & G5 & G6).
    apply leyffer_len in G4. rewrite G2 in G4.
    assert (H3 : len (s_complHistory s2) <= len (s_complHistory s) + 1).
    { rewrite G6. destruct (b && _); [unfold len; simpl; lia|exact G4]. }
    assert (H4 : len (s_complHistory s3) <= len (s_complHistory s) + 1).
    { destruct b2.
      - destruct Hb2 as (_ & _ & Hps). apply penaltyStep_frame in Hps. destruct Hps as (q & qs & gt & ->). simpl.
        destruct (0 <? _); [unfold len; simpl; lia|exact H3].
      - destruct Hb2 as (_ & ->). exact H3. }
    lia.
Qed.

Lemma thm_dynamic_off orc rand o d s s1 : INT_MIN <= o_nDynamicPenalty (d_options (pd o)) <= 0 -> s_complHistory (it o) = [] ->
  pass_start orc rand o d s -> pass_head d s = Ok s1 -> s_outerIter s1 = s_outerIter s.
Proof.
  intros Hn Hc P Hh. destruct (start_history _ _ _ _ _ Hc P) as [Eo Hl]. apply (dynamic_off d s s1); [rewrite Eo; assumption|lia|assumption].
Qed.

End Thm.
