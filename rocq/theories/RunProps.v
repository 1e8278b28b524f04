(** * RunProps: proofs of the run-level properties (any arithmetic unless stated). *)
From Verif Require Import Base Arith Codes Utilities Options Stats FileIO Subsolver State LCQProblem Tactics Loops NoFuel Frames Control RunControl SpecRun Spec QPHistory RunStats RunFacts.

Section RunProps.
Context {T : Type} `{Arith T}.
Implicit Types (orc : oracle T) (d : pdata T) (s : iter T) (o : lcqp T) (st : stats T).

Lemma run_post fuel orc rand o r o' : runSolver_fuel fuel orc rand o = Ok (r, o') -> started o o' ->
  exists o1, initializeSolver o = Ok (SUCCESSFUL_RETURN, o1) /\ pd o' = pd o1 /\ d_options (pd o') = d_options (pd o) /\
    ctl_post (pd o1) (s_calls (it o)) r (it o') /\ qp_post orc (pd o1) (s_calls (it o)) r (it o') /\
    trk_post orc (pd o1) (s_calls (it o)) (it o') /\ run_end orc rand o r o'.
Proof.
  intros E St. pose proof (run_ends _ _ _ _ _ _ E) as RE. pose proof (run_qp _ _ _ _ _ _ E) as Q. pose proof (run_trk _ _ _ _ _ _ E) as K.
  destruct Q as [(o1 & E1 & Er & ->)|(o1 & E1 & Epd & CP & QP)].
  { exfalso. apply St. simpl. apply (init_fail_calls _ _ _ E1). }
  exists o1. split; auto. split; auto. split; [rewrite Epd; apply (init_options _ _ E1)|].
  split; auto. split; auto. split; auto.
  destruct K as [(o2 & E2 & Er & ->)|(o2 & E2 & Epd2 & K)].
  - rewrite E1 in E2. injection E2 as <- _. discriminate.
  - rewrite E1 in E2. injection E2 as <-. exact K.
Qed.

Lemma run_not_started fuel orc rand o r o' : runSolver_fuel fuel orc rand o = Ok (r, o') -> ~ started o o' ->
  s_stats (it o') = s_stats (it o) /\ s_algoStat (it o') = s_algoStat (it o) /\ s_xk (it o') = s_xk (it o) /\
  In r [DENSE_SPARSE_MISSMATCH; INVALID_OSQP_BOX_CONSTRAINTS; LCQPOBJECT_NOT_SETUP].
Proof.
  intros E St. pose proof (run_qp _ _ _ _ _ _ E) as Q.
  destruct Q as [(o1 & E1 & Er & ->)|(o1 & E1 & Epd & CP & QP)].
  - pose proof (initializeSolver_ok _ _ _ E1) as F. destruct F as [(C & _)|(_ & a & b & c & e & f & y & ->)]; [congruence|].
    simpl. repeat (split; [reflexivity|]).
    unfold initializeSolver, and_then_quiet in E1. apply bind_ok in E1. destruct E1 as ([r1 o2] & E1 & E2).
    assert (Hr : r1 = r).
    { destruct (is_success r1) eqn:Er1; [|congruence]. exfalso.
      repeat (apply bind_ok in E2; destruct E2 as (? & _ & E2); cbv zeta in E2).
      assert (r = SUCCESSFUL_RETURN) by congruence. subst r. discriminate. }
    subst r1. clear E2. unfold init_subsolver, and_then_quiet, setLB, setUB in E1.
    destruct (o_qpSolver (d_options (pd o))); inv_ok; simpl; auto; discriminate.
  - exfalso. apply St. intros C. destruct QP as [(new & E2 & _ & c & a & rest & E3 & _)].
    rewrite C in E2. destruct new; [discriminate|]. apply (f_equal (@length _)) in E2. rewrite app_length in E2. simpl in E2. lia.
Qed.

(** ** Agreement of code and status *)
Lemma run_status fuel orc rand o r o' : runSolver_fuel fuel orc rand o = Ok (r, o') -> started o o' ->
  exists a, st_status (getOutputStatistics o') = a /\ (a = PROBLEM_NOT_SOLVED <-> r <> SUCCESSFUL_RETURN) /\
    getPrimalSolution None o' = Ok (a, None) /\ getDualSolution None o' = Ok (a, None) /\
    (forall buf b out, getPrimalSolution buf o' = Ok (b, out) -> b = a) /\
    (forall buf b out, getDualSolution buf o' = Ok (b, out) -> b = a).
Proof.
  intros E St. destruct (run_post _ _ _ _ _ _ E St) as (o1 & E1 & Epd & Eo & CP & QP & K & RE).
  destruct (cp_algo _ _ _ _ CP) as (a & A1 & A2 & A3). exists a. split; [exact A2|]. split; [exact A3|].
  unfold getPrimalSolution, getDualSolution. rewrite A1. simpl.
  repeat split; auto; intros buf b out E2; apply bind_ok in E2; destruct E2 as (x & _ & E2); simpl in E2; congruence.
Qed.

(** ** Iteration limit *)
Lemma run_total_pos orc rand o d s : pass_start orc rand o d s -> 0 <= s_totalIter s.
Proof.
  induction 1 as [o1 s1 E1 E2|d s s' P IH Ep].
  - destruct (first_ctl _ _ _ _ E1 _ E2). lia.
  - apply pass_inv in Ep. inversion Ep as [|s1 s2 s3 e b1 b2 Hh Hhd Hp Hb2 Ht]; subst.
    apply pass_tail_inv in Ht. inversion Ht as [| | |s4 s5 s6 s7 Hm Hr E3 E4 E5 E6]; subst.
    apply updateLinearization_frame in E3. destruct E3 as (v & ->). apply solveQPSubproblem_effect in E4. destruct E4, Hh, Hp. simpl in *.
    apply getOptimalStepLength_frame in E6. destruct E6 as (al & lk & ->).
    assert (Hs5 : s_totalIter s6 = s_totalIter s5).
    { destruct (o_perturbStep _); [apply perturbStep_frame in E5; destruct E5 as (a & b & ->); eauto|]. subst s6. reflexivity. }
    simpl. lia.
Qed.

Lemma pass_end_total orc rand d s s' r : pass orc rand d s = Ok (s', Some r) -> s_totalIter s' = s_totalIter s + 1 /\
  (r = MAX_ITERATIONS_REACHED <-> r <> SUCCESSFUL_RETURN /\ o_maxIterations (d_options d) < s_totalIter s').
Proof.
  intros Ep. apply pass_inv in Ep. inversion Ep as [s1 s2 b1 Hh Hhd Hst Hcc Hfin|s1 s2 s3 e b1 b2 Hh Hhd Hp Hb2 Ht]; subst.
  - apply finish_frame in Hfin. destruct Hfin as (y & a & l & Ha & ->). destruct Hh. simpl. split; [lia|]. split; [discriminate|tauto].
  - apply pass_tail_inv in Ht. destruct Hh, Hp. inversion Ht as [Hm|Hm Hr|s4 s5 r' Hm Hr E3 E4 Er|]; subst.
    + split; [lia|]. split; auto. split; auto. discriminate.
    + split; [lia|]. split; [discriminate|]. lia.
    + pose proof (solveQP_ret _ _ _ _ _ _ E4) as Q2.
      apply updateLinearization_frame in E3. destruct E3 as (v & ->). apply solveQPSubproblem_effect in E4. destruct E4. simpl in *.
      split; [lia|]. split; [tauto|]. lia.
Qed.

Lemma run_maxit fuel orc rand o r o' : runSolver_fuel fuel orc rand o = Ok (r, o') -> started o o' ->
  0 <= o_maxIterations (d_options (pd o)) ->
  0 <= st_iterTotal (getOutputStatistics o') <= o_maxIterations (d_options (pd o)) + 1 /\
  (r = MAX_ITERATIONS_REACHED <-> r <> SUCCESSFUL_RETURN /\ st_iterTotal (getOutputStatistics o') = o_maxIterations (d_options (pd o)) + 1).
Proof.
  intros E St Hm. destruct (run_post _ _ _ _ _ _ E St) as (o1 & E1 & Epd & Eo & CP & QP & K & RE).
  assert (Eo1 : d_options (pd o1) = d_options (pd o)) by (rewrite <- Epd; exact Eo).
  assert (Ht : st_iterTotal (getOutputStatistics o') = s_totalIter (it o')) by (simpl; apply (cp_total _ _ _ _ CP)).
  rewrite Ht. pose proof (cp_range _ _ _ _ CP). pose proof (cp_bound _ _ _ _ CP) as B. rewrite Eo1 in B.
  split; [lia|].
  inversion RE as [r1 o2 E2 Er|r1 o2 s1 E2 E3|r1 d s s' P Ep]; subst.
  - rewrite E1 in E2. injection E2 as <- _. discriminate.
  - rewrite E1 in E2. injection E2 as <-. destruct (first_ctl _ _ _ _ E1 _ E3) as (C & N1 & N2). simpl in *.
    split; [congruence|]. intros [_ C2]. exfalso.
    apply first_solve_inv in E3. inversion E3 as [g s2 r' Es Er|]; subst.
    apply solveQPSubproblem_effect in Es. destruct Es. simpl in *.
    apply initializeSolver_ok in E1. destruct E1 as [(_ & _ & a & b & c & e' & f & g1 & g2 & y & gt & l & ->)|(C3 & _)]; [|discriminate].
    simpl in *. lia.
  - simpl in *. subst d. destruct (pass_end_total _ _ _ _ _ _ Ep) as [Q1 Q2]. rewrite Eo1 in Q2. rewrite Q2.
    split; intros [? ?]; split; auto; lia.
Qed.

(** ** The penalty law *)
Lemma head_rhoOpt d s s1 b : head_effect d s s1 b -> a_le (s_rho s1) a_zero = false -> st_rhoOpt (s_stats s) = s_rho s ->
  st_rhoOpt (s_stats s1) = s_rho s1.
Proof.
  intros Hh Hp E. destruct Hh. destruct he_stats as (sx & st1 & A1 & A2 & A3 & A4 & A5 & A6 & A7 & A8).
  rewrite A8. assert (Hst : st_rhoOpt st1 = s_rho s).
  { destruct (o_storeSteps _); [|subst; assumption].
    destruct (storeSteps_scalars _ _ _ A7 st1 eq_refl) as (B1 & B2 & B3 & B4 & B5 & B6). rewrite B6, A1. assumption. }
  destruct b; simpl; rewrite ?Hst; [|auto]. unfold keep_rho. rewrite he_rho in Hp. rewrite Hp. symmetry. exact he_rho.
Qed.

Lemma pen_rhoOpt d s s1 b : pen_effect d s s1 b -> a_le (s_rho s1) a_zero = false -> st_rhoOpt (s_stats s) = s_rho s ->
  st_rhoOpt (s_stats s1) = s_rho s1.
Proof.
  intros Hh Hp E. destruct Hh. rewrite pe_stats. destruct b; simpl; [|rewrite pe_rho; assumption].
  unfold keep_rho. rewrite pe_rho in *. simpl in *. rewrite Hp. reflexivity.
Qed.

(** Penalty facts at the beginning of each pass *)
Lemma start_rho orc rand o d s : pass_start orc rand o d s ->
  (forall k, a_le (rho_seq o k) a_zero = false) ->
  d_options d = d_options (pd o) /\
  st_rhoOpt (s_stats s) = s_rho s /\ 0 <= s_outerIter s /\ s_rho s = rho_seq o (Z.to_nat (s_outerIter s)) /\
  ((s_outerIter s = 0) \/ a_lt (o_maxPenaltyParameter (d_options (pd o))) (s_rho s) = false).
Proof.
  intros P Hpos. induction P as [o1 s1 E1 E2|d s s' P IH Ep].
  - pose proof (init_options _ _ E1) as Eo. split; auto.
    destruct (first_ctl _ _ _ _ E1 _ E2) as [[] _]. rewrite Eo in *.
    assert (Hr : s_rho s1 = rho_seq o (Z.to_nat (s_outerIter s1))).
    { rewrite ci_rho. unfold rho_seq, next_rho. rewrite Eo. reflexivity. }
    apply first_solve_inv in E2. inversion E2 as [|g s2 s3 Es Eq]; subst. rewrite updateRhoOpt_eq in *. simpl in *.
    apply setQk_frame in Eq. destruct Eq as (q1 & q2 & q3 & ->). simpl in *.
    pose proof (Hpos (Z.to_nat (s_outerIter s2))) as Hp. rewrite <- Hr in Hp.
    split; [unfold keep_rho; rewrite Hp; reflexivity|]. split; [lia|]. split; [exact Hr|]. left.
    apply solveQPSubproblem_effect in Es. destruct Es. simpl in *.
    apply initializeSolver_ok in E1. destruct E1 as [(_ & _ & a & b & c & e' & f & g1 & g2 & y & gt & l & ->)|(C3 & _)]; [|discriminate].
    simpl in *. lia.
  - destruct IH as (Eo & R1 & R2 & R3 & R4). split; auto.
    apply pass_inv in Ep. inversion Ep as [|s1 s2 s3 e b1 b2 Hh Hhd Hp Hb2 Ht]; subst.
    assert (H1 : 0 <= s_outerIter s1 /\ s_rho s1 = rho_seq o (Z.to_nat (s_outerIter s1))).
    { pose proof (he_rho _ _ _ _ Hh) as A1. pose proof (he_outer _ _ _ _ Hh) as A2. rewrite A1, A2. destruct b1; simpl.
      - split; [lia|]. replace (Z.to_nat (s_outerIter s + 1)) with (S (Z.to_nat (s_outerIter s))) by lia.
        rewrite R3. unfold next_rho. rewrite Eo. reflexivity.
      - rewrite Z.add_0_r. auto. }
    assert (H2 : 0 <= s_outerIter s2 /\ s_rho s2 = rho_seq o (Z.to_nat (s_outerIter s2))).
    { pose proof (pe_rho _ _ _ _ Hp) as A1. pose proof (pe_outer _ _ _ _ Hp) as A2. rewrite A1, A2. destruct H1. destruct b2; simpl.
      - split; [lia|]. replace (Z.to_nat (s_outerIter s1 + 1)) with (S (Z.to_nat (s_outerIter s1))) by lia.
        rewrite H1. unfold next_rho. rewrite Eo. reflexivity.
      - rewrite Z.add_0_r. auto. }
    assert (Q1 : st_rhoOpt (s_stats s2) = s_rho s2).
    { apply (pen_rhoOpt _ _ _ _ Hp); [rewrite (proj2 H2); apply Hpos|]. apply (head_rhoOpt _ _ _ _ Hh); [rewrite (proj2 H1); apply Hpos|assumption]. }
    apply pass_tail_inv in Ht. inversion Ht as [| | |s4 s5 s6 s7 Hm Hr E3 E4 E5 E6]; subst.
    apply updateLinearization_frame in E3. destruct E3 as (v & ->). apply solveQPSubproblem_effect in E4. destruct E4. simpl in *.
    destruct qe_stats as (k & f' & [rr st] & K1 & K2 & K3 & K4). apply updateSubproblemIter_ok in K3. rewrite K3 in K4. simpl in K4.
    apply getOptimalStepLength_frame in E6. destruct E6 as (al & lk & ->).
    assert (Hs5 : s_stats s6 = s_stats s5 /\ s_rho s6 = s_rho s5 /\ s_outerIter s6 = s_outerIter s5).
    { destruct (o_perturbStep _); [apply perturbStep_frame in E5; destruct E5 as (a & b & ->); eauto|]. subst s6. auto. }
    destruct Hs5 as (B1 & B2 & B3). simpl. rewrite B1, B2, B3, K4, qe_rho, qe_outer. simpl. rewrite Eo in Hr. tauto.
Qed.

Lemma run_penalty fuel orc rand o r o' : runSolver_fuel fuel orc rand o = Ok (r, o') -> started o o' ->
  (forall k, a_le (rho_seq o k) a_zero = false) -> 0 < st_iterTotal (getOutputStatistics o') ->
  0 <= st_iterOuter (getOutputStatistics o') /\
  st_rhoOpt (getOutputStatistics o') = rho_seq o (Z.to_nat (st_iterOuter (getOutputStatistics o'))) /\
  (r = MAX_PENALTY_REACHED -> a_lt (o_maxPenaltyParameter (d_options (pd o))) (st_rhoOpt (getOutputStatistics o')) = true) /\
  (exists m, (m = o_initialPenaltyParameter (d_options (pd o)) \/ a_lt (o_maxPenaltyParameter (d_options (pd o))) m = false) /\
     two_more o m (st_rhoOpt (getOutputStatistics o'))).
Proof.
  intros E St Hpos Htot. destruct (run_post _ _ _ _ _ _ E St) as (o1 & E1 & Epd & Eo & CP & QP & K & RE).
  assert (Eo1 : d_options (pd o1) = d_options (pd o)) by (rewrite <- Epd; exact Eo).
  inversion RE as [r1 o2 E2 Er|r1 o2 s1 E2 E3|r1 d s s' P Ep]; subst.
  - rewrite E1 in E2. injection E2 as <- _. discriminate.
  - exfalso. rewrite E1 in E2. injection E2 as <-. simpl in *. rewrite (cp_total _ _ _ _ CP) in Htot.
    apply first_solve_inv in E3. inversion E3 as [g s2 r' Es Er|]; subst.
    apply solveQPSubproblem_effect in Es. destruct Es. simpl in *.
    apply initializeSolver_ok in E1. destruct E1 as [(_ & _ & a & b & c & e' & f & g1 & g2 & y & gt & l & ->)|(C3 & _)]; [|discriminate].
    simpl in *. lia.
  - simpl in *. subst d. destruct (start_rho _ _ _ _ _ P Hpos) as (_ & R1 & R2 & R3 & R4).
    rewrite (cp_outer _ _ _ _ CP). split; [apply (cp_outer0 _ _ _ _ CP)|].
    assert (Hrho : s_rho s' = rho_seq o (Z.to_nat (s_outerIter s'))).
    { rewrite (cp_rho _ _ _ _ CP). unfold rho_seq, next_rho. rewrite Eo1. reflexivity. }
    assert (Hm : exists m, (m = o_initialPenaltyParameter (d_options (pd o)) \/ a_lt (o_maxPenaltyParameter (d_options (pd o))) m = false) /\ two_more o m (s_rho s') /\ st_rhoOpt (s_stats s') = s_rho s').
    { exists (s_rho s). split.
      { destruct R4 as [R4|R4]; [left|right; assumption]. rewrite R3, R4. reflexivity. }
      pose proof Ep as Ep'.
      apply pass_inv in Ep. inversion Ep as [s1 s2 b1 Hh Hhd Hst Hcc Hfin|s1 s2 s3 e b1 b2 Hh Hhd Hp Hb2 Ht]; subst.
      - assert (Hs : s_rho s' = s_rho s1 /\ st_rhoOpt (s_stats s') = st_rhoOpt (s_stats s1)).
        { apply finish_frame in Hfin. destruct Hfin as (y & a & l & Ha & ->). auto. }
        destruct Hs as [S1 S2]. split.
        + rewrite S1, (he_rho _ _ _ _ Hh). unfold two_more, next_rho. rewrite Eo1. destruct b1; auto.
        + rewrite S1, S2. apply (head_rhoOpt _ _ _ _ Hh); auto. rewrite <- S1, Hrho. apply Hpos.
      - assert (Hs : s_rho s' = s_rho s2 /\ st_rhoOpt (s_stats s') = st_rhoOpt (s_stats s2)).
        { apply pass_tail_inv in Ht. inversion Ht as [Hm|Hm Hr|s4 s5 r' Hm Hr E3 E4 Er|]; subst; auto.
          apply updateLinearization_frame in E3. destruct E3 as (v & ->). apply solveQPSubproblem_effect in E4. destruct E4. simpl in *.
          destruct qe_stats as (k & f' & [rr st] & K1 & K2 & K3 & K4). apply updateSubproblemIter_ok in K3. rewrite K3 in K4. simpl in K4.
          rewrite K4. auto. }
        destruct Hs as [S1 S2].
        assert (Hp1 : a_le (s_rho s1) a_zero = false).
        { rewrite (he_rho _ _ _ _ Hh). destruct b1; rewrite R3; [|apply Hpos].
          specialize (Hpos (S (Z.to_nat (s_outerIter s)))). unfold rho_seq in Hpos. simpl in Hpos. unfold next_rho. rewrite Eo1. exact Hpos. }
        split.
        + rewrite S1, (pe_rho _ _ _ _ Hp), (he_rho _ _ _ _ Hh). unfold two_more, add_rho, next_rho. rewrite Eo1. destruct b1, b2; auto.
        + rewrite S1, S2. apply (pen_rhoOpt _ _ _ _ Hp); [rewrite <- S1, Hrho; apply Hpos|]. apply (head_rhoOpt _ _ _ _ Hh); auto. }
    destruct Hm as (m & M1 & M2 & M3).
    split; [rewrite M3; exact Hrho|]. split; [|exists m; rewrite M3; auto].
    rewrite M3. rewrite <- Eo1. apply (cp_pen _ _ _ _ CP).
Qed.

(** ** QP failures *)
Lemma run_qp_failure fuel orc rand o r o' : runSolver_fuel fuel orc rand o = Ok (r, o') -> started o o' ->
  exists new c a rest,
    s_calls (it o') = new ++ s_calls (it o) /\ answers orc new (s_calls (it o)) = (c, a) :: rest /\
    Forall (fun p => qp_error (fst p) (snd p) = None) rest /\
    match qp_error c a with
    | Some e => r = e /\ r <> SUCCESSFUL_RETURN /\ st_status (getOutputStatistics o') = PROBLEM_NOT_SOLVED /\
                (qp_reported c a -> st_exit_flag (getOutputStatistics o') = qp_flag c a)
    | None => In r [SUCCESSFUL_RETURN; MAX_ITERATIONS_REACHED; MAX_PENALTY_REACHED]
    end.
Proof.
  intros E St. destruct (run_post _ _ _ _ _ _ E St) as (o1 & E1 & Epd & Eo & CP & QP & K & RE).
  destruct QP as [(new & A1 & A2 & c & a & rest & A3 & A4 & A5 & A6)]. exists new, c, a, rest. repeat (split; [assumption|]).
  destruct (qp_error c a) as [e|] eqn:Ee; auto. destruct A6 as (-> & A7 & A8). split; auto. split; [apply (qp_error_not_success _ _ _ Ee)|].
  split; auto. intros Q. apply A5 in Q. tauto.
Qed.

Lemma run_qp_iters fuel orc rand o r o' : runSolver_fuel fuel orc rand o = Ok (r, o') -> started o o' ->
  exists new c a rest,
    s_calls (it o') = new ++ s_calls (it o) /\ answers orc new (s_calls (it o)) = (c, a) :: rest /\
    (qp_reported c a -> st_subproblemIter (getOutputStatistics o') = sum_iters (answers orc new (s_calls (it o)))).
Proof.
  intros E St. destruct (run_post _ _ _ _ _ _ E St) as (o1 & E1 & Epd & Eo & CP & QP & K & RE).
  destruct QP as [(new & A1 & A2 & c & a & rest & A3 & A4 & A5 & A6)]. exists new, c, a, rest. repeat (split; [assumption|]).
  intros Q. apply A5 in Q. tauto.
Qed.

(** ** Delivered solution *)
Lemma copy_out (x out out' : arr T) n : for_ 0 n (fun i out => let! v := rd x i in wr out i v) out = Ok out' ->
  len out' = len out /\ forall i, 0 <= i < n -> exists v, rd x i = Ok v /\ rd out' i = Ok v.
Proof.
  intros E.
  pose (P := fun (i : Z) (a : arr T) => len a = len out /\ forall j, 0 <= j < i -> exists v, rd x j = Ok v /\ rd a j = Ok v).
  apply (for_inv P) in E.
  - destruct E as [L E]. split; auto. intros i Hi. apply E. lia.
  - split; auto. intros; lia.
  - intros i a a' Hi [L Hl] E'. apply bind_ok in E'. destruct E' as (v & Ev & E'). apply wr_inv in E'. destruct E' as [B ->].
    split; [rewrite len_upd; assumption|]. intros j Hj.
    assert (Hr : rd (upd a (Z.to_nat i) (Some v)) j = if i =? j then Ok v else rd a j).
    { rewrite !rd_at, len_upd, at_upd by lia. destruct (Z.eqb_spec i j); auto. subst j.
      replace ((0 <=? i) && (i <? len a)) with true by lia. reflexivity. }
    destruct (Z.eqb_spec i j); [subst j; eauto|]. destruct (Hl j) as (v' & V1 & V2); [lia|]. exists v'. rewrite Hr. auto.
Qed.

Lemma primal_holds o buf a out l nV : getPrimalSolution (Some buf) o = Ok (a, Some out) -> d_nV (pd o) = Some nV -> 
  0 <= nV -> holds (s_xk (it o)) nV l ->
  forall i, 0 <= i < nV -> rd out i = Ok (at_ a_zero l i).
Proof.
  unfold getPrimalSolution; intros E HnV Hn Hl i Hi.
  destruct Hl as [L Hl]. destruct (Hl i Hi) as (x & Hx & Hr). rewrite Hx, HnV in E. simpl in E.
  apply bind_ok in E. destruct E as (p & Ep & E). apply bind_ok in Ep. destruct Ep as (q & Eq & Ep).
  apply bind_ok in E. destruct E as (a' & _ & E).
  apply copy_out in Eq. destruct Eq as [_ Eq]. destruct (Eq i Hi) as (v & V1 & V2).
  assert (q = out) by congruence. subst q. congruence.
Qed.

Lemma run_tracking fuel orc rand o r o' : runSolver_fuel fuel orc rand o = Ok (r, o') -> started o o' ->
  let st := getOutputStatistics o' in
  (o_storeSteps (d_options (pd o)) = false -> untracked st) /\
  (o_storeSteps (d_options (pd o)) = true ->
     tracked st (st_iterTotal st) /\
     (0 < st_iterTotal st -> exists X x nV, st_xSteps st = X ++ [x] /\ d_nV (pd o') = Some nV /\ len x = Z.max 0 nV /\
        forall buf a out, getPrimalSolution (Some buf) o' = Ok (a, Some out) -> forall i, 0 <= i < nV -> rd out i = Ok (at_ a_zero x i))).
Proof.
  intros E St st. destruct (run_post _ _ _ _ _ _ E St) as (o1 & E1 & Epd & Eo & CP & QP & K & RE).
  assert (Eo1 : d_options (pd o1) = d_options (pd o)) by (rewrite <- Epd; exact Eo). destruct K. rewrite Eo1 in *.
  split; [exact tp_off|]. intros Hs. split.
  - unfold st. simpl. rewrite (cp_total _ _ _ _ CP). apply tp_on; auto.
  - intros Hp. unfold st in Hp. simpl in Hp. rewrite (cp_total _ _ _ _ CP) in Hp.
    destruct (tp_newest Hs Hp) as (nV & x & sk & xs & m & ob & ph & X & M & O & P & H1 & H2 & H3 & H4 & H5 & H6 & H7 & H8 & H9 & H10 & H11).
    exists X, xs, nV. split; [exact H8|]. split; [rewrite Epd; exact H1|]. split; [apply H4|].
    intros buf a out G i Hi. eapply primal_holds; eauto; [rewrite Epd; exact H1|lia].
Qed.

Lemma run_success_values fuel orc rand o o' : runSolver_fuel fuel orc rand o = Ok (SUCCESSFUL_RETURN, o') ->
  exists nV statk m phi,
    d_nV (pd o') = Some nV /\ s_statk (it o') = Some statk /\
    MaxAbs statk nV = Ok m /\ a_lt m (o_stationarityTolerance (d_options (pd o))) = true /\
    getPhi (pd o') (it o') = Ok phi /\ a_lt phi (o_complementarityTolerance (d_options (pd o))) = true /\
    (o_storeSteps (d_options (pd o)) = true -> exists P M, st_phiVals (getOutputStatistics o') = P ++ [phi] /\ st_statVals (getOutputStatistics o') = M ++ [m]).
Proof.
  intros E. destruct (success_tests _ _ _ _ _ E) as (nV & sk & m & phi & H1 & H2 & H3 & H4 & H5 & H6).
  assert (St : started o o').
  { intros C. destruct (run_not_started _ _ _ _ _ _ E) as (_ & _ & _ & B); [intros D; auto|]. simpl in B. intuition discriminate. }
  destruct (run_post _ _ _ _ _ _ E St) as (o1 & E1 & Epd & Eo & CP & QP & K & RE). rewrite Eo in *.
  exists nV, sk, m, phi. repeat (split; [assumption|]). intros Hs. destruct K. rewrite <- Epd, Eo in *.
  assert (Hp : 0 < s_totalIter (it o')).
  { inversion RE as [r1 o2 E2 Er|r1 o2 s1 E2 E3|r1 d s s' P Ep]; subst; [discriminate| |].
    - exfalso. apply first_not_success in E3. assumption.
    - simpl. destruct (pass_end_total _ _ _ _ _ _ Ep). pose proof (run_total_pos _ _ _ _ _ P). lia. }
  destruct (tp_newest Hs Hp) as (nV' & x & sk' & xs & m' & ob & ph & X & M & O & P & G1 & G2 & G3 & G4 & G5 & G6 & G7 & G8 & G9 & G10 & G11).
  exists P, M. rewrite H1 in G1. injection G1 as <-. rewrite H2 in G3. injection G3 as <-.
  simpl. rewrite G9, G11. split; do 2 f_equal; congruence.
Qed.

(** ** Dynamic penalty strategy *)
(** Values fed to the check since the last penalty update, oldest first *)
Inductive fed d : list T -> iter T -> Prop :=
| Fed_nil s : s_complHistory s = [] -> fed d [] s
| Fed_snoc vs s s1 b s2 s3 v : fed d vs s -> s_complHistory s1 = s_complHistory s ->
    getPhi d s1 = Ok v -> leyfferCheckPositive d s1 = Ok (b, s2) -> s_complHistory s3 = s_complHistory s2 -> fed d (vs ++ [v]) s3.

Lemma skipn_snoc {X} (l : list X) k x : (k <= length l)%nat -> skipn k (l ++ [x]) = skipn k l ++ [x].
Proof. intros Hk. rewrite skipn_app. replace (k - length l)%nat with O by lia. reflexivity. Qed.
Lemma tl_skipn {X} (l : list X) k : tl (skipn k l) = skipn (S k) l.
Proof. revert l; induction k; intros [|x l]; try reflexivity. cbn [skipn]. apply IHk. Qed.

Lemma to_size_t_pos n : 0 < n <= INT_MAX -> to_size_t n = n.
Proof. intros. unfold to_size_t, INT_MAX in *. apply Z.mod_small. lia. Qed.

Lemma fed_history d vs s n : o_nDynamicPenalty (d_options d) = n -> 0 < n <= INT_MAX -> fed d vs s -> s_complHistory s = last_n n vs.
Proof.
  intros Hn Hb F. induction F as [s Hs|vs s s1 b s2 s3 v F IH Hh Hv Hl Hs3].
  - rewrite Hs. reflexivity.
  - rewrite Hs3. clear s3 Hs3. unfold leyfferCheckPositive in Hl. rewrite Hn, to_size_t_pos in Hl by assumption. cbv zeta in Hl.
    destruct (Z.leb_spec n 0); [lia|]. rewrite Hv in Hl. simpl in Hl. rewrite Hh, IH in Hl.
    assert (Ln : length (last_n n vs) = Nat.min (length vs) (Z.to_nat n)) by (unfold last_n; rewrite skipn_length; lia).
    rewrite Ln in Hl. unfold last_n at 1. rewrite app_length. simpl length.
    destruct (Z.ltb_spec (Z.of_nat (Nat.min (length vs) (Z.to_nat n))) n) as [Hlt|Hge].
    + assert (s2 = set_complHistory (last_n n vs ++ [v]) s1) by congruence. subst s2. simpl.
      replace (length vs + 1 - Z.to_nat n)%nat with O by lia. unfold last_n. replace (length vs - Z.to_nat n)%nat with O by lia. reflexivity.
    + assert (E2 : s_complHistory s2 = tl (last_n n vs) ++ [v]).
      { apply bind_ok in Hl. destruct Hl as (cc & _ & Hl). destruct cc; [|apply bind_ok in Hl; destruct Hl as (o & _ & Hl)].
        all: assert (Q : s2 = set_complHistory (tl (last_n n vs) ++ [v]) s1) by congruence; rewrite Q; reflexivity. }
      rewrite E2. unfold last_n. rewrite tl_skipn.
      replace (length vs + 1 - Z.to_nat n)%nat with (S (length vs - Z.to_nat n)) by lia. rewrite skipn_snoc by lia. reflexivity.
Qed.

Lemma forb_all {X} (P : X -> bool) (h : list X) n : len h = n ->
  forb 0 n (fun i (_ : unit) => let! hi := vrd h i in if P hi then Ok (inr tt) else Ok (inl tt)) tt =
  Ok (if existsb P h then inr tt else inl tt).
Proof.
  intros L.
  assert (G : forall k (pre suf : list X), h = pre ++ suf -> length suf = k ->
    forb_nat k (len pre) (fun i (_ : unit) => let! hi := vrd h i in if P hi then Ok (inr tt) else Ok (inl tt)) tt =
    Ok (if existsb P suf then inr tt else inl tt)).
  { induction k; intros pre suf Eh Hk.
    - destruct suf; [|discriminate]. reflexivity.
    - destruct suf as [|x suf]; [discriminate|]. cbn [forb_nat existsb].
      assert (Hv : vrd h (len pre) = Ok x).
      { unfold vrd, len. destruct (Z.ltb_spec (Z.of_nat (length pre)) 0); [lia|]. rewrite Nat2Z.id, Eh, nth_error_app2, Nat.sub_diag by lia. reflexivity. }
      rewrite Hv. simpl. destruct (P x); simpl; auto.
      rewrite <- (IHk (pre ++ [x]) suf).
      + f_equal. unfold len. rewrite app_length. simpl. lia.
      + rewrite <- app_assoc. assumption.
      + simpl in Hk. lia. }
  unfold forb. rewrite Z.sub_0_r. apply (G (Z.to_nat n) [] h); auto. unfold len in L. lia.
Qed.

Lemma leyffer_rule d vs s s1 b s2 v n : o_nDynamicPenalty (d_options d) = n -> 0 < n <= INT_MAX ->
  fed d vs s -> s_complHistory s1 = s_complHistory s -> getPhi d s1 = Ok v -> leyfferCheckPositive d s1 = Ok (b, s2) ->
  (b = true <-> n <= len vs /\ a_lt v (o_complementarityTolerance (d_options d)) = false /\
                Forall (fun w => a_lt v (o_etaDynamicPenalty (d_options d) * w)%num = false) (last_n n vs)).
Proof.
  intros Hn Hb F Hh Hv Hl. pose proof (fed_history _ _ _ _ Hn Hb F) as HH.
  unfold leyfferCheckPositive in Hl. rewrite Hn, to_size_t_pos in Hl by assumption. cbv zeta in Hl.
  destruct (Z.leb_spec n 0); [lia|]. rewrite Hv in Hl. simpl in Hl. rewrite Hh, HH in Hl.
  assert (Ln : length (last_n n vs) = Nat.min (length vs) (Z.to_nat n)) by (unfold last_n; rewrite skipn_length; lia).
  rewrite Ln in Hl. unfold len.
  destruct (Z.ltb_spec (Z.of_nat (Nat.min (length vs) (Z.to_nat n))) n) as [Hlt|Hge].
  - assert (b = false) by congruence. subst b. split; [discriminate|lia].
  - unfold complementarityCheck in Hl. rewrite Hv in Hl. cbn [bind] in Hl.
    destruct (a_lt v (o_complementarityTolerance (d_options d))) eqn:Hc.
    + assert (b = false) by congruence. subst b. split; [discriminate|]. intros (_ & C & _). discriminate.
    + rewrite (forb_all (fun hi => a_lt v (o_etaDynamicPenalty (d_options d) * hi)%num)) in Hl by (unfold len; lia).
      cbn [bind] in Hl. set (ex := existsb _ _) in Hl.
      assert (Hex : ex = false <-> Forall (fun w => a_lt v (o_etaDynamicPenalty (d_options d) * w)%num = false) (last_n n vs)).
      { unfold ex. generalize (last_n n vs). clear. intros l. induction l; simpl; [split; auto|].
        rewrite orb_false_iff, IHl. split; [intros []; constructor; auto|inversion 1; auto]. }
      rewrite <- Hex. destruct ex; assert (Hb' : b = negb true \/ b = negb false) by (destruct b; auto).
      * assert (b = false) by congruence. subst b. split; [discriminate|]. intros (_ & _ & C). discriminate.
      * assert (b = true) by congruence. subst b. repeat split; auto; lia.
Qed.

Lemma leyffer_off d s b s' : INT_MIN <= o_nDynamicPenalty (d_options d) <= 0 -> len (s_complHistory s) <= INT_MAX ->
  leyfferCheckPositive d s = Ok (b, s') -> b = false.
Proof.
  unfold leyfferCheckPositive. intros Hn Hl E. cbv zeta in E.
  destruct (Z.leb_spec (to_size_t (o_nDynamicPenalty (d_options d))) 0); [congruence|].
  assert (Hs : INT_MAX < to_size_t (o_nDynamicPenalty (d_options d))).
  { unfold to_size_t, INT_MIN, INT_MAX in *. destruct (Z.eq_dec (o_nDynamicPenalty (d_options d)) 0) as [Z0|Z0].
    - exfalso. rewrite Z0 in H0. rewrite Z.mod_0_l in H0; lia.
    - rewrite <- (Z.mod_add _ 1) by lia. rewrite Z.mod_small by lia. lia. }
  apply bind_ok in E. destruct E as (v & _ & E). unfold len in Hl.
  destruct (Z.ltb_spec (Z.of_nat (length (s_complHistory s))) (to_size_t (o_nDynamicPenalty (d_options d)))); [congruence|lia].
Qed.

(** The first part of a pass, seen from the dynamic penalty strategy *)
Lemma head_leyffer d s s' : pass_head d s = Ok s' ->
  exists sx sa b sb, updateStep d s = Ok sx /\ s_complHistory sa = s_complHistory s /\ s_xk sa = s_xk sx /\
    leyfferCheckPositive d sa = Ok (b, sb) /\ s_outerIter s' = s_outerIter s + b2z b /\
    s_complHistory s' = (if b && (0 <? o_nDynamicPenalty (d_options d)) then [] else s_complHistory sb).
Proof.
  unfold pass_head; intros E.
  apply bind_ok in E; destruct E as (s1 & E1 & E). exists s1. pose proof E1 as E0. apply updateStep_frame in E1. destruct E1 as (x & ->).
  apply bind_ok in E; destruct E as (s2 & E2 & E). apply updateStationarity_frame in E2. destruct E2 as (a1 & a2 & a3 & ->).
  apply bind_ok in E; destruct E as (s3 & E3 & E). apply printIteration_frame in E3. destruct E3 as (l & ->).
  apply bind_ok in E; destruct E as (s4 & E4 & E).
  assert (E4' : exists st1, s4 = set_stats st1 (set_log l (set_statk a1 (set_box_statk a2 (set_constr_statk a3 (set_xk (Some x) s)))))).
  { destruct (o_storeSteps _).
    - apply storeSteps_frame in E4. destruct E4 as (st & ->). eauto.
    - injection E4 as <-. exists (s_stats s). reflexivity. }
  destruct E4' as (st1 & ->). clear E4.
  apply bind_ok in E; destruct E as (s5 & E5 & E). apply updateTotalIter_frame in E5.
  apply bind_ok in E; destruct E as (n & En & E).
  apply bind_ok in E; destruct E as ([b s6] & E6 & E). exists (set_innerIter n s5), b, s6.
  pose proof E6 as E7. apply leyffer_frame in E7. destruct E7 as (h & ->).
  apply bind_ok in E; destruct E as (s7 & E7 & E). apply updateLinearization_frame in E. destruct E as (gk & ->).
  subst s5. split; [exact E0|]. split; [reflexivity|]. split; [reflexivity|]. split; [exact E6|]. destruct b.
  - apply penaltyStep_frame in E7. destruct E7 as (q & qs & gt & ->). simpl. auto.
  - injection E7 as <-. simpl. split; auto. lia.
Qed.

Lemma since_fed orc rand o d s vs : s_complHistory (it o) = [] -> 0 < o_nDynamicPenalty (d_options d) -> since orc rand o d s vs -> fed d vs s.
Proof.
  intros Hf Hn S. induction S as [o1 s1 E1 -> E2|s s' s1 vs v S IH Ep E1 Ev].
  - apply Fed_nil. apply initializeSolver_ok in E1.
    destruct E1 as [(_ & _ & a & b & c & e' & f & g1 & g2 & y & gt & l & ->)|(C3 & _)]; [|discriminate].
    apply first_solve_inv in E2. inversion E2 as [|g s2 s3 Es Eq]; subst. simpl in *.
    apply solveQPSubproblem_effect in Es. destruct Es. simpl in *. apply setQk_frame in Eq. destruct Eq as (q1 & q2 & q3 & ->). simpl. congruence.
  - apply pass_inv in Ep. inversion Ep as [|s2 s3 s4 e b1 b2 Hh Hhd Hp Hb2 Ht]; subst. clear Ep.
    apply pass_tail_inv in Ht. inversion Ht as [| | |s4 s5 s6 s7 Hm Hr E3 E4 E5 E6]; subst. clear Ht.
    apply updateLinearization_frame in E3. destruct E3 as (w & ->). apply solveQPSubproblem_effect in E4. destruct E4. simpl in *.
    apply getOptimalStepLength_frame in E6. destruct E6 as (al & lk & ->).
    assert (Hs5 : s_complHistory s6 = s_complHistory s5 /\ s_outerIter s6 = s_outerIter s5).
    { destruct (o_perturbStep _); [apply perturbStep_frame in E5; destruct E5 as (a & b & ->); eauto|]. subst s6. auto. }
    destruct Hs5 as (B1 & B2). simpl. rewrite B2, qe_outer.
    pose proof (pe_outer _ _ _ _ Hp) as O2.
    apply head_leyffer in Hhd. destruct Hhd as (sx & sa & b & sb & G1 & G2 & G3 & G4 & G5 & G6).
    assert (sx = s1) by congruence. subst sx.
    assert (Hin : s_complHistory (set_alphak al (set_lk_tmp lk s6)) = s_complHistory s3) by (simpl; congruence).
    replace (0 <? o_nDynamicPenalty (d_options d)) with true in G6 by lia. rewrite andb_true_r in G6.
    destruct b2.
    + destruct Hb2 as (_ & _ & Hps). apply penaltyStep_frame in Hps. destruct Hps as (q & qs & gt & ->). simpl in *.
      replace (0 <? o_nDynamicPenalty (d_options d)) with true in Hin by lia.
      destruct (Z.eqb_spec (s_outerIter s2 + 1) (s_outerIter s)); [destruct b; simpl in *; lia|]. apply Fed_nil. exact Hin.
    + destruct Hb2 as (_ & ->). destruct b; simpl in *.
      * destruct (Z.eqb_spec (s_outerIter s2) (s_outerIter s)); [lia|]. apply Fed_nil. simpl. congruence.
      * destruct (Z.eqb_spec (s_outerIter s2) (s_outerIter s)); [|lia].
        eapply Fed_snoc; eauto; [|simpl; congruence]. rewrite (getPhi_xk d s1) by assumption. exact Ev.
Qed.

Lemma dynamic_rule orc rand o d s vs s1 sx v n : s_complHistory (it o) = [] -> o_nDynamicPenalty (d_options d) = n -> 0 < n <= INT_MAX ->
  since orc rand o d s vs -> pass_head d s = Ok s1 -> updateStep d s = Ok sx -> getPhi d sx = Ok v ->
  (s_outerIter s1 = s_outerIter s + 1 <->
     n <= len vs /\ a_lt v (o_complementarityTolerance (d_options d)) = false /\
     Forall (fun w => a_lt v (o_etaDynamicPenalty (d_options d) * w)%num = false) (last_n n vs)) /\
  (s_outerIter s1 = s_outerIter s + 1 \/ s_outerIter s1 = s_outerIter s).
Proof.
  intros Hf Hn Hb S Hhd Ex Ev. apply head_leyffer in Hhd. destruct Hhd as (sx' & sa & b & sb & G1 & G2 & G3 & G4 & G5 & G6).
  assert (sx' = sx) by congruence. subst sx'.
  assert (F : fed d vs s) by (apply (since_fed orc rand o); auto; lia).
  rewrite <- (leyffer_rule d vs s sa b sb v n); auto; [|rewrite (getPhi_xk d sx) by assumption; exact Ev].
  destruct b; simpl in G5; split; try lia; split; auto; try lia; discriminate.
Qed.

(** Every pass of a run has such a list of values *)
Lemma since_start orc rand o d s : pass_start orc rand o d s -> 0 < o_nDynamicPenalty (d_options d) <= INT_MAX -> exists vs, since orc rand o d s vs.
Proof.
  intros P Hn. induction P as [o1 s1 E1 E2|d s s' P IH Ep].
  - exists []. eapply Since_first; eauto.
  - destruct (IH Hn) as (vs & S). pose proof Ep as Ep'.
    apply pass_inv in Ep'. inversion Ep' as [|s2 s3 s4 e b1 b2 Hh Hhd Hp Hb2 Ht]; subst. clear Ep'.
    apply head_leyffer in Hhd. destruct Hhd as (sx & sa & b & sb & G1 & G2 & G3 & G4 & G5 & G6).
    unfold leyfferCheckPositive in G4. cbv zeta in G4. rewrite to_size_t_pos in G4 by assumption.
    destruct (Z.leb_spec (o_nDynamicPenalty (d_options d)) 0); [lia|].
    apply bind_ok in G4. destruct G4 as (v & Ev & _). rewrite (getPhi_xk d sx) in Ev by assumption.
    eexists. eapply Since_next; eauto.
Qed.

(** Without the strategy the first part of a pass never updates the penalty *)
Lemma dynamic_off d s s1 : INT_MIN <= o_nDynamicPenalty (d_options d) <= 0 -> len (s_complHistory s) <= INT_MAX ->
  pass_head d s = Ok s1 -> s_outerIter s1 = s_outerIter s.
Proof.
  intros Hn Hl Hhd. apply head_leyffer in Hhd. destruct Hhd as (sx & sa & b & sb & G1 & G2 & G3 & G4 & G5 & G6).
  apply leyffer_off in G4; auto; [subst b; simpl in G5; lia|congruence].
Qed.

End RunProps.
