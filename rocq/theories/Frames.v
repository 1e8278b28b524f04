(** * Frames: what each step of the solver may change (any arithmetic, any state). *)
From Verif Require Import Base Arith Codes Utilities Options Stats FileIO Subsolver State LCQProblem Tactics.

Section Frames.
Context {T : Type} `{Arith T}.
Implicit Types (orc : oracle T) (d : pdata T) (s : iter T) (o : lcqp T).

Lemma chk_int_ok z v : chk_int z = Ok v -> v = z /\ in_int z = true.
Proof. unfold chk_int; destruct in_int; intros; inv_ok; auto. Qed.

(** Field updates of the statistics record *)
Definition set_st_iterTotal (v : Z) (st : stats T) : stats T :=
  mkStats v (st_iterOuter st) (st_subproblemIter st) (st_rhoOpt st) (st_status st) (st_exit_flag st) (st_xSteps st) (st_innerIters st) (st_subproblemIters st) (st_accuSubproblemIters st) (st_stepLength st) (st_stepSize st) (st_statVals st) (st_objVals st) (st_phiVals st) (st_meritVals st).
(** Assignment to one member of OutputStatistics, include/OutputStatistics.hpp *)
Definition set_st_iterOuter (v : Z) (st : stats T) : stats T :=
  mkStats (st_iterTotal st) v (st_subproblemIter st) (st_rhoOpt st) (st_status st) (st_exit_flag st) (st_xSteps st) (st_innerIters st) (st_subproblemIters st) (st_accuSubproblemIters st) (st_stepLength st) (st_stepSize st) (st_statVals st) (st_objVals st) (st_phiVals st) (st_meritVals st).
(** Assignment to one member of OutputStatistics, include/OutputStatistics.hpp *)
Definition set_st_subproblemIter (v : Z) (st : stats T) : stats T :=
  mkStats (st_iterTotal st) (st_iterOuter st) v (st_rhoOpt st) (st_status st) (st_exit_flag st) (st_xSteps st) (st_innerIters st) (st_subproblemIters st) (st_accuSubproblemIters st) (st_stepLength st) (st_stepSize st) (st_statVals st) (st_objVals st) (st_phiVals st) (st_meritVals st).
(** Assignment to one member of OutputStatistics, include/OutputStatistics.hpp *)
Definition set_st_rhoOpt (v : T) (st : stats T) : stats T :=
  mkStats (st_iterTotal st) (st_iterOuter st) (st_subproblemIter st) v (st_status st) (st_exit_flag st) (st_xSteps st) (st_innerIters st) (st_subproblemIters st) (st_accuSubproblemIters st) (st_stepLength st) (st_stepSize st) (st_statVals st) (st_objVals st) (st_phiVals st) (st_meritVals st).
(** Assignment to one member of OutputStatistics, include/OutputStatistics.hpp *)
Definition set_st_status (v : AlgorithmStatus) (st : stats T) : stats T :=
  mkStats (st_iterTotal st) (st_iterOuter st) (st_subproblemIter st) (st_rhoOpt st) v (st_exit_flag st) (st_xSteps st) (st_innerIters st) (st_subproblemIters st) (st_accuSubproblemIters st) (st_stepLength st) (st_stepSize st) (st_statVals st) (st_objVals st) (st_phiVals st) (st_meritVals st).
(** Assignment to one member of OutputStatistics, include/OutputStatistics.hpp *)
Definition set_st_exit_flag (v : Z) (st : stats T) : stats T :=
  mkStats (st_iterTotal st) (st_iterOuter st) (st_subproblemIter st) (st_rhoOpt st) (st_status st) v (st_xSteps st) (st_innerIters st) (st_subproblemIters st) (st_accuSubproblemIters st) (st_stepLength st) (st_stepSize st) (st_statVals st) (st_objVals st) (st_phiVals st) (st_meritVals st).

Lemma updateIterTotal_ok st r st' : updateIterTotal 1 st = Ok (r, st') -> st' = set_st_iterTotal (st_iterTotal st + 1) st.
Proof.
  unfold updateIterTotal; simpl; intros; inv_ok.
  match goal with H : chk_int _ = _ |- _ => apply chk_int_ok in H; destruct H; subst end. reflexivity.
Qed.
Lemma updateIterOuter_ok st r st' : updateIterOuter 1 st = Ok (r, st') -> st' = set_st_iterOuter (st_iterOuter st + 1) st.
Proof.
  unfold updateIterOuter; simpl; intros; inv_ok.
  match goal with H : chk_int _ = _ |- _ => apply chk_int_ok in H; destruct H; subst end. reflexivity.
Qed.
Lemma updateSubproblemIter_ok k st r st' : updateSubproblemIter k st = Ok (r, st') ->
  st' = set_st_subproblemIter (st_subproblemIter st + Z.max 0 k) st.
Proof.
  unfold updateSubproblemIter; intros; destruct (Z.ltb_spec k 0); inv_ok.
  - replace (Z.max 0 k) with 0 by lia. rewrite Z.add_0_r. reflexivity.
  - match goal with H : chk_int _ = _ |- _ => apply chk_int_ok in H; destruct H; subst end.
    replace (Z.max 0 k) with k by lia. reflexivity.
Qed.
Lemma updateRhoOpt_eq rho st :
  snd (updateRhoOpt rho st) = set_st_rhoOpt (if a_le rho a_zero then st_rhoOpt st else rho) st.
Proof. unfold updateRhoOpt; destruct (a_le _ _); reflexivity. Qed.

Lemma updateLinearization_frame d s s' : updateLinearization d s = Ok s' -> exists v, s' = set_gk (Some v) s.
Proof. unfold updateLinearization; intros; inv_ok; eauto. Qed.

Lemma updateStep_frame d s s' : updateStep d s = Ok s' -> exists v, s' = set_xk (Some v) s.
Proof. unfold updateStep; intros; inv_ok; eauto. Qed.

Lemma updateStationarity_frame d s s' : updateStationarity d s = Ok s' ->
  exists a b c, s' = set_statk a (set_box_statk b (set_constr_statk c s)).
Proof.
  exists (s_statk s'), (s_box_statk s'), (s_constr_statk s').
  unfold updateStationarity in *; inv_ok; reflexivity.
Qed.

Lemma printIteration_frame d s s' : printIteration d s = Ok s' -> exists l, s' = set_log l s.
Proof.
  exists (s_log s'). unfold printIteration, logI in *; inv_ok; try (destruct (_ =? 0)); reflexivity.
Qed.

Lemma storeSteps_frame d s s' : storeSteps d s = Ok s' -> exists st, s' = set_stats st s.
Proof. unfold storeSteps; intros; inv_ok; eauto. Qed.

Lemma updateTotalIter_frame s s' : updateTotalIter s = Ok s' ->
  s' = set_stats (set_st_iterTotal (st_iterTotal (s_stats s) + 1) (s_stats s)) (set_totalIter (s_totalIter s + 1) s).
Proof.
  unfold updateTotalIter; intros; inv_ok.
  match goal with H : chk_int _ = _ |- _ => apply chk_int_ok in H; destruct H; subst end.
  match goal with H : updateIterTotal _ _ = _ |- _ => apply updateIterTotal_ok in H; subst end. reflexivity.
Qed.

Lemma leyffer_frame d s b s' : leyfferCheckPositive d s = Ok (b, s') -> exists h, s' = set_complHistory h s.
Proof.
  exists (s_complHistory s'). unfold leyfferCheckPositive in *; inv_ok; reflexivity.
Qed.

Lemma updateQk_frame d s s' : updateQk d s = Ok s' -> exists a b, s' = set_Qk a (set_Qk_sparse b s).
Proof.
  exists (s_Qk s'), (s_Qk_sparse s'). unfold updateQk in *; inv_ok; reflexivity.
Qed.

Lemma updatePenalty_frame d s s' : updatePenalty d s = Ok s' ->
  exists q qs gt,
    s' = set_g_tilde gt (set_Qk q (set_Qk_sparse qs
          (set_stats (snd (updateRhoOpt (s_rho s * o_penaltyUpdateFactor (d_options d))%num (s_stats s)))
          (set_rho (s_rho s * o_penaltyUpdateFactor (d_options d))%num
          (set_complHistory (if 0 <? o_nDynamicPenalty (d_options d) then [] else s_complHistory s) s))))).
Proof.
  exists (s_Qk s'), (s_Qk_sparse s'), (s_g_tilde s'). unfold updatePenalty in *; inv_ok;
    match goal with H : updateQk _ _ = _ |- _ => apply updateQk_frame in H; destruct H as (q & qs & H) end; subst.
  all: destruct (0 <? _); reflexivity.
Qed.

Lemma updateOuterIter_frame s s' : updateOuterIter s = Ok s' ->
  s' = set_stats (set_st_iterOuter (st_iterOuter (s_stats s) + 1) (s_stats s)) (set_outerIter (s_outerIter s + 1) s).
Proof.
  unfold updateOuterIter; intros; inv_ok.
  match goal with H : chk_int _ = _ |- _ => apply chk_int_ok in H; destruct H; subst end.
  match goal with H : updateIterOuter _ _ = _ |- _ => apply updateIterOuter_ok in H; subst end. reflexivity.
Qed.

Lemma perturbStep_frame r d s s' : perturbStep r d s = Ok s' -> exists a b, s' = set_rnd a (set_xk (Some b) s).
Proof. unfold perturbStep; intros; inv_ok; eauto. Qed.

Lemma getOptimalStepLength_frame d s s' : getOptimalStepLength d s = Ok s' ->
  exists a b, s' = set_alphak a (set_lk_tmp b s).
Proof. unfold getOptimalStepLength; intros; inv_ok; eauto. Qed.

Lemma setQk_frame d s s' : setQk d s = Ok s' ->
  exists a b c, s' = set_Qk a (set_Qk_indices_of_C b (set_Qk_sparse c s)).
Proof.
  exists (s_Qk s'), (s_Qk_indices_of_C s'), (s_Qk_sparse s'). unfold setQk in *; inv_ok; reflexivity.
Qed.

Lemma transformDuals_frame d s s' : transformDuals d s = Ok s' -> exists a, s' = set_yk a s.
Proof. exists (s_yk s'). unfold transformDuals, transform_part in *; inv_ok; reflexivity. Qed.

Lemma determine_frame d s s' : determineStationarityType d s = Ok s' -> exists a, s' = set_algoStat (Some a) s.
Proof. unfold determineStationarityType; intros; inv_ok; eauto. Qed.

(** The status assigned on success is one of the four stationarity types *)
Lemma classify_solved tol nC nComp y w : forall a b r,
  classify tol nC nComp y w a b = Ok r -> r <> PROBLEM_NOT_SOLVED.
Proof.
  induction w as [|i w IH]; intros a b r; cbn [classify]; intros; inv_ok; try (destruct a, b; discriminate); eauto.
  all: discriminate.
Qed.

Lemma finish_frame d s s' : finish d s = Ok s' ->
  exists y a l, a <> PROBLEM_NOT_SOLVED /\
    s' = set_log l (set_stats (updateSolutionStatus a (s_stats s)) (set_algoStat (Some a) (set_yk y s))).
Proof.
  exists (s_yk s'), (st_status (s_stats s')), (s_log s').
  unfold finish, determineStationarityType in *; inv_ok.
  match goal with H : transformDuals _ _ = _ |- _ => apply transformDuals_frame in H; destruct H as (y & ->) end.
  match goal with H : classify _ _ _ _ _ _ _ = _ |- _ => apply classify_solved in H; rename H into Hc end.
  simpl in *; inv_ok. destruct (o_printLevel _); split; auto.
Qed.

(** What one QP solve changes in the bookkeeping *)
Record qp_effect orc (s s' : iter T) (r : ReturnValue) : Prop := {
  qe_rho : s_rho s' = s_rho s;
  qe_alphak : s_alphak s' = s_alphak s;
  qe_outer : s_outerIter s' = s_outerIter s;
  qe_inner : s_innerIter s' = s_innerIter s;
  qe_total : s_totalIter s' = s_totalIter s;
  qe_algo : s_algoStat s' = s_algoStat s;
  qe_hist : s_complHistory s' = s_complHistory s;
  qe_Qk : s_Qk s' = s_Qk s;
  qe_Qks : s_Qk_sparse s' = s_Qk_sparse s;
  qe_idx : s_Qk_indices_of_C s' = s_Qk_indices_of_C s;
  qe_gt : s_g_tilde s' = s_g_tilde s;
  qe_gk : s_gk s' = s_gk s;
  qe_statk : s_statk s' = s_statk s;
  qe_rnd : s_rnd s' = s_rnd s;
  qe_log : s_log s' = s_log s;
  qe_stats : exists k f st,
    s_qpIterk s' = Some k /\ s_qpSolverExitFlag s' = Some f /\
    updateSubproblemIter k (s_stats s) = Ok st /\ s_stats s' = updateQPSolverExitFlag f (snd st);
  qe_calls : s_calls s' = s_calls s \/ exists c, s_calls s' = c :: s_calls s
}.

Lemma sub_solve_calls orc sub calls w i g lbA ubA x0 y0 lb ub r :
  sub_solve orc sub calls w i g lbA ubA x0 y0 lb ub = Ok r ->
  sr_calls r = calls \/ exists c, sr_calls r = c :: calls.
Proof.
  unfold sub_solve, solve_OSQP, solve_qpOASES; intros E.
  destruct (sub_qpSolver sub); inv_ok; simpl; eauto.
Qed.

Lemma solveQPSubproblem_inv orc d b s r s' :
  solveQPSubproblem orc d b s = Ok (r, s') ->
  exists sub res k f st,
    d_subsolver d = Some sub /\
    sub_solve orc sub (s_calls s) (s_work s) b (s_gk s) (d_lbA d) (d_ubA d) (s_xk s) (s_yk s) (d_lb d) (d_ub d) = Ok res /\
    s_qpIterk (sqp_record res s) = Some k /\
    s_qpSolverExitFlag (sqp_record res s) = Some f /\
    updateSubproblemIter k (s_stats s) = Ok st /\
    r = sr_ret res /\
    exists a1 a2 a3 a4 a5,
      s' = set_pk a1 (set_yk_A a2 (set_xnew a3 (set_yk a4 (set_xk a5
             (set_stats (updateQPSolverExitFlag f (snd st)) (sqp_record res s)))))).
Proof.
  unfold solveQPSubproblem; intros E.
  apply bind_ok in E; destruct E as (sub & Esub & E).
  apply bind_ok in E; destruct E as (res & Eres & E). cbv beta zeta in E.
  assert (Hst : s_stats (sqp_record res s) = s_stats s)
    by (unfold sqp_record; destruct (sr_iter res), (sr_flag res); reflexivity).
  rewrite Hst in E.
  apply bind_ok in E; destruct E as (k & Ek & E).
  apply bind_ok in E; destruct E as ([r1 st1] & Est & E).
  apply bind_ok in E; destruct E as (f & Ef & E).
  exists sub, res, k, f, (r1, st1).
  split; [destruct (d_subsolver d); simpl in Esub; congruence|].
  split; [assumption|].
  split; [destruct (s_qpIterk _); simpl in Ek; congruence|].
  split; [destruct (s_qpSolverExitFlag _); simpl in Ef; congruence|].
  split; [assumption|].
  split.
  { clear - E. inv_ok; auto;
      match goal with H : negb _ = false |- _ => apply negb_false_iff in H; destruct (sr_ret res); auto; discriminate end. }
  exists (s_pk s'), (s_yk_A s'), (s_xnew s'), (s_yk s'), (s_xk s').
  clear - E. simpl in E. inv_ok; reflexivity.
Qed.

Lemma solveQPSubproblem_effect orc d b s r s' :
  solveQPSubproblem orc d b s = Ok (r, s') -> qp_effect orc s s' r.
Proof.
  intros E. apply solveQPSubproblem_inv in E.
  destruct E as (sub & res & k & f & st & Hs & Hsv & Hk & Hf & Hst & Hr & a1 & a2 & a3 & a4 & a5 & ->).
  apply sub_solve_calls in Hsv.
  assert (Hc : s_calls (sqp_record res s) = sr_calls res)
    by (unfold sqp_record; destruct (sr_iter res), (sr_flag res); reflexivity).
  constructor; simpl; try (unfold sqp_record; destruct (sr_iter res), (sr_flag res); reflexivity).
  - exists k, f, st; repeat split; auto.
  - rewrite Hc; exact Hsv.
Qed.

End Frames.
