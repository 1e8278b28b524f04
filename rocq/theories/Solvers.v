(** * Solvers: the list-level loop with sparse qpOASES and with OSQP (no LCQPow code). *)
From Coq Require Import QArith Qcanon.
From Verif Require Import Base Arith Codes Utilities Options Stats FileIO Subsolver State LCQProblem Tactics Loops Kernels
  Pure PureFacts SpecLoad Refine CscBuild StartSparse SpecModes SpecSolvers.
Open Scope Z_scope.

Lemma list_at_ext {X} (d : X) l l' : len l = len l' -> (forall i, 0 <= i < len l -> at_ d l i = at_ d l' i) -> l = l'.
Proof. intros L E. rewrite <- (tab_at d l), <- (tab_at d l'). rewrite <- L. apply tab_ext. exact E. Qed.
Section Solvers.
Context {T : Type} `{Arith T} {K : Type}.
Variables (p : ops T K) (mH : qp_mat T) (rand : nat -> Z).
(** The same problem for OSQP *)
Let p' : ops T K :=
  mkOps T K (with_solver OSQP_SPARSE (p_opt p)) OSQP_SPARSE (p_nV p) (p_nC p) (p_nComp p) 0 false (p_g p) (p_gphi p) (p_pc p) mH (p_matA p) (p_lbA p) (p_ubA p)
    None None (p_setH p) (p_updH p) (p_affH p) (p_quadH p) (p_affC p) (p_quadC p) (p_quadQ p) (p_tA p) (p_mulL p) (p_mulR p).
Let n := p_nV p.
Let nC := p_nC p.
Let m := p_nComp p.
Let k := p_nC p + 2 * p_nComp p.
Hypothesis (Hs : p_solver p = QPOASES_SPARSE) (Hn : 0 <= p_nV p) (Ho : p_off p = p_nV p) (Hx : p_box p = true) (Hc : 0 <= p_nC p) (Hm : 0 <= p_nComp p).
Hypothesis (HH : exists cols, p_matH p = csc_mat n n cols /\ mH = csc_mat n n (upper_cols cols n)).
Hypothesis (Hl : p_lb p = Some (tab n (fun _ => a_ninf))) (Hu : p_ub p = Some (tab n (fun _ => a_pinf))).
Hypothesis (Neg : forall a : T, (- - a = a)%num) (Sub : forall a : T, (a_one * a + a_mone * a_zero = a)%num).

(** [w] is [v] with the data that differ between the libraries replaced.  No LCQPow code. *)
Definition repl (v : vst T K) c y yA wk fl ef : vst T K :=
  w_calls c (w_yA yA (w_y y (w_work wk (w_flag fl (w_stats (updateQPSolverExitFlag ef (v_stats v)) v))))).
(** Related states.  No LCQPow code. *)
Definition Rel (v w : vst T K) : Prop := exists c y yA wk fl ef, w = repl v c y yA wk fl ef /\ Forall2 (boxless_qp n) (v_calls v) c.
(** After a solved QP.  No LCQPow code. *)
Definition RelL (v w : vst T K) : Prop := exists c y fl ef, w = repl v c y (v_yA v) true fl ef /\ Forall2 (boxless_qp n) (v_calls v) c /\
  len y = k /\ v_y v = tab n (fun _ => a_zero) ++ y.
Lemma RelL_Rel v w : RelL v w -> Rel v w.
Proof. intros (c & y & fl & ef & E & F & _). exists c, y, (v_yA v), true, fl, ef. auto. Qed.
Variables (orc orc' : oracle T).
Hypothesis (HO : same_solutions n k orc orc').

Lemma sub_so ini v w : (ini = false -> v_work w = true) -> Rel v w -> exists (h h' : list (qp_call T)) (q : bool) (f' : Z),
  Forall2 (boxless_qp n) h h' /\ boxless_answer n k (orc h) (orc' h') /\
  v_sub p orc ini None v = mkSubRes (if q then SUCCESSFUL_RETURN else SUBPROBLEM_SOLVER_ERROR) (Some (q_iter (orc h))) (Some (q_ret (orc h))) (v_work v) (Some (orc h)) h /\
  v_sub p' orc' ini None w = mkSubRes (if q then SUCCESSFUL_RETURN else SUBPROBLEM_SOLVER_ERROR) (Some (q_iter (orc h))) (Some f') true (Some (orc' h')) h'.
Proof.
  intros HW (c & y & yA & wk & fl & ef & E & F).
  assert (F' : Forall2 (boxless_qp n) (v_call p ini (v_x v) None (v_gk v) :: v_calls v) (v_call p' ini (v_x v) None (v_gk v) :: c)).
  { constructor; auto. constructor; try reflexivity; cbn; auto. all: destruct ini; auto. }
  pose proof (HO _ _ F') as A. eexists. eexists. exists (q_ret (orc (v_call p ini (v_x v) None (v_gk v) :: v_calls v)) =? 0). exists (q_status (orc' (v_call p' ini (v_x v) None (v_gk v) :: c))).
  split; [exact F'|]. split; [exact A|]. destruct A as [Er Ei Ew Ex0 Ex Eb Ey].
  assert (S2 : p_solver p' = OSQP_SPARSE) by reflexivity. unfold v_sub. rewrite Hs, S2. assert (X1 : v_x w = v_x v) by (rewrite E; reflexivity). assert (X2 : v_gk w = v_gk v) by (rewrite E; reflexivity). assert (X3 : v_calls w = c) by (rewrite E; reflexivity).
  rewrite X1, X2, X3. set (h := v_call p ini (v_x v) None (v_gk v) :: v_calls v) in *. set (h' := v_call p' ini (v_x v) None (v_gk v) :: c) in *.
  cbv zeta. rewrite Ex0, Ew, Ei. clearbody h h'. split; [reflexivity|]. cbn [notNull]. rewrite !andb_false_r. cbn [andb].
  assert (EW : (if ini then true else v_work w) = true) by (destruct ini; auto). rewrite EW. cbn [negb].
  assert (ER : negb (q_ret (orc' h') =? 0) || (q_status (orc' h') <=? 0) = negb (q_ret (orc h) =? 0)).
  { destruct (Z.eqb_spec (q_ret (orc h)) 0) as [Q|Q]; cbn [negb].
    - destruct (proj1 Er Q) as [Q1 Q2]. rewrite Q1, (proj2 (Z.leb_gt _ _)) by lia. reflexivity.
    - destruct (Z.eqb_spec (q_ret (orc' h')) 0) as [Q1|]; [|reflexivity]. cbn. apply Z.leb_le. assert (~ 0 < q_status (orc' h')) by (intros Q2; apply Q, Er; auto). lia. }
  rewrite ER. destruct (q_ret (orc h) =? 0); reflexivity.
Qed.

Lemma solve_so ini v w : (ini = false -> v_work w = true) -> Rel v w ->
  sim (fun a b => fst b = fst a /\ Rel (snd a) (snd b) /\ (fst a = SUCCESSFUL_RETURN -> RelL (snd a) (snd b)))
    (v_solve p orc ini None v) (v_solve p' orc' ini None w).
Proof.
  intros HW R. destruct (sub_so ini v w HW R) as (h & h' & q & f' & F & [Er Ei Ew Ex0 Ex Eb Ey] & E1 & E2).
  destruct R as (c & y & yA & wk & fl & ef & -> & _). unfold v_solve. rewrite E1, E2. cbv zeta.
  unfold v_record, repl. cbn [sr_calls sr_work sr_iter sr_flag sr_ret sr_raw w_calls w_work w_qpit w_flag w_stats w_y w_yA v_qpit v_flag v_stats get bind].
  unfold updateSubproblemIter. cbn [updateQPSolverExitFlag st_subproblemIter]. destruct (q_iter (orc h) <? 0).
  all: cbn [bind]. 2: destruct (chk_int _); [|reflexivity]. all: cbn [bind].
  all: destruct q; cbn [is_success negb sim fst snd];
    [|split; [reflexivity|]; split; [|discriminate]; exists h', y, yA, true, (Some f'), f'; split; [reflexivity|exact F]].
  all: assert (EXx : a_x p' (orc' h') = a_x p (orc h)) by (apply tab_ext; intros; apply Ex; auto).
  all: assert (EY : a_y p (orc h) = tab n (fun _ => a_zero) ++ a_y p' (orc' h')).
  1,3: unfold a_y, p_nD, p_nA; rewrite Hs, Ho; cbn [p' p_off p_nC p_nComp p_solver]; rewrite Z.add_0_l; fold n k;
    apply (list_at_ext a_zero); [rewrite len_app, !len_tab by lia; lia|]; rewrite len_tab by lia; intros i Hi; rewrite at_tab by lia;
    (destruct (Z.ltb_spec i n); [rewrite at_app_l by (rewrite len_tab; lia); rewrite at_tab by lia; apply Eb; lia|]);
    rewrite at_app_r by (rewrite len_tab; lia); rewrite len_tab by lia; rewrite at_tab by lia; rewrite Ey by lia; rewrite Neg; f_equal; lia.
  all: assert (LY : len (a_y p' (orc' h')) = k) by (unfold a_y, p_nD, p_nA; cbn [p' p_off p_nC p_nComp]; rewrite Z.add_0_l; fold k; rewrite len_tab; lia).
  all: assert (EYA : tab (p_nA p') (fun i => at_ a_zero (a_y p' (orc' h')) (p_off p' + i)) = tab (p_nA p) (fun i => at_ a_zero (a_y p (orc h)) (p_off p + i))).
  1,3: change (p_nA p') with (p_nA p); apply tab_ext; unfold p_nA; fold k; intros i Hi; change (p_off p') with 0; rewrite Ho, EY; rewrite at_app_r by (rewrite len_tab; lia); rewrite len_tab by lia; f_equal; fold n; lia.
  all: match goal with |- _ /\ Rel ?A ?B /\ _ => assert (RR : RelL A B) end.
  1,3: exists h', (a_y p' (orc' h')), (Some f'), f'; split; [cbn [v_x]; rewrite EXx, EYA; reflexivity|]; split; [exact F|]; split; [exact LY|exact EY].
  all: split; [reflexivity|]; split; [apply RelL_Rel; exact RR|intros _; exact RR].
Qed.

(** Operations that only read and write what is equal *)
Lemma lin_so v w : Rel v w -> Rel (v_lin p v) (v_lin p' w).
Proof. intros (c & y & yA & wk & fl & ef & -> & F). exists c, y, yA, wk, fl, ef. split; [destruct v; reflexivity|exact F]. Qed.
Lemma lin_soL v w : RelL v w -> RelL (v_lin p v) (v_lin p' w).
Proof. intros (c & y & fl & ef & -> & F). exists c, y, fl, ef. split; [destruct v; reflexivity|exact F]. Qed.
Lemma station_soL v w : RelL v w -> RelL (v_station p v) (v_station p' w).
Proof.
  intros (c & y & fl & ef & -> & F & LY & Y). exists c, y, fl, ef. split; [|auto].
  unfold v_station. rewrite Hx. change (p_box p') with false. cbn [v_h v_x v_gt v_yA v_y repl w_calls w_yA w_y w_work w_flag w_stats].
  change (p_nV p') with n. fold n. cbn [p' p_affH p_tA].
  assert (E : forall st, len st = n -> wadd a_one st a_mone (v_y v) n = st).
  { intros st L. rewrite <- (tab_at a_zero st) at 2. rewrite L. apply tab_ext. intros i Hi. rewrite Y. rewrite at_app_l by (rewrite len_tab; lia). rewrite at_tab by lia. apply Sub. }
  rewrite E by (unfold wadd; rewrite len_tab; [reflexivity|exact Hn]). destruct v; reflexivity.
Qed.
Lemma step_soL v w : RelL v w -> RelL (v_step p v) (v_step p' w).
Proof. intros (c & y & fl & ef & -> & F). exists c, y, fl, ef. split; [destruct v; reflexivity|exact F]. Qed.
Lemma steplen_soL v w : RelL v w -> RelL (v_steplen p v) (v_steplen p' w).
Proof. intros (c & y & fl & ef & -> & F). exists c, y, fl, ef. split; [destruct v; reflexivity|exact F]. Qed.
Lemma perturb_soL v w : RelL v w -> RelL (v_perturb p rand v) (v_perturb p' rand w).
Proof. intros (c & y & fl & ef & -> & F). exists c, y, fl, ef. split; [destruct v; reflexivity|exact F]. Qed.
Lemma print_soL v w : RelL v w -> sim RelL (v_print p v) (v_print p' w).
Proof.
  intros R. assert (E : v_qpit w = v_qpit v) by (destruct R as (c & y & fl & ef & -> & F); destruct v; reflexivity).
  unfold v_print. change (o_printLevel (p_opt p')) with (o_printLevel (p_opt p)). rewrite E. destruct (o_printLevel _); try exact R. destruct (v_qpit v); [exact R|reflexivity].
Qed.
Lemma store_soL v w : RelL v w -> sim RelL (v_store p v) (v_store p' w).
Proof.
  intros (c & y & fl & ef & -> & F). unfold v_store. set (w := repl v c y (v_yA v) true fl ef). change (v_qpit w) with (v_qpit v). destruct (v_qpit v); [|reflexivity]. cbn [get bind].
  change (v_obj p' w) with (v_obj p v). change (v_phi p' w) with (v_phi p v). change (v_merit p' w) with (v_merit p v).
  change (v_x w) with (v_x v). change (v_inner w) with (v_inner v). change (v_alpha w) with (v_alpha v). change (v_p w) with (v_p v). change (v_stat w) with (v_stat v).
  change (v_stats w) with (updateQPSolverExitFlag ef (v_stats v)). change (p_nV p') with (p_nV p). unfold updateTrackingVectors.
  destruct (for_ _ _ _ _); [|reflexivity]. cbn [bind updateQPSolverExitFlag st_accuSubproblemIters]. destruct (st_accuSubproblemIters (v_stats v)).
  - cbn [bind sim]. exists c, y, fl, ef. split; [reflexivity|exact F].
  - destruct (chk_int _); [|reflexivity]. cbn [bind sim]. exists c, y, fl, ef. split; [reflexivity|exact F].
Qed.
Lemma total_soL v w : RelL v w -> sim RelL (v_totalIter v) (v_totalIter w).
Proof.
  intros (c & y & fl & ef & -> & F). unfold v_totalIter. change (v_total (repl v c y (v_yA v) true fl ef)) with (v_total v). destruct (chk_int _); [|reflexivity]. cbn [bind].
  change (v_stats (repl v c y (v_yA v) true fl ef)) with (updateQPSolverExitFlag ef (v_stats v)). unfold updateIterTotal. cbn [Z.ltb Z.compare updateQPSolverExitFlag st_iterTotal].
  destruct (chk_int (st_iterTotal (v_stats v) + 1)); [|reflexivity]. cbn [bind sim]. exists c, y, fl, ef. split; [reflexivity|exact F].
Qed.
Lemma inner_soL kk v w : RelL v w -> RelL (w_inner kk v) (w_inner kk w).
Proof. intros (c & y & fl & ef & -> & F). exists c, y, fl, ef. split; [destruct v; reflexivity|exact F]. Qed.
Lemma opt_so : o_nDynamicPenalty (p_opt p') = o_nDynamicPenalty (p_opt p) /\ o_complementarityTolerance (p_opt p') = o_complementarityTolerance (p_opt p) /\
  o_etaDynamicPenalty (p_opt p') = o_etaDynamicPenalty (p_opt p) /\ o_penaltyUpdateFactor (p_opt p') = o_penaltyUpdateFactor (p_opt p).
Proof. repeat split; reflexivity. Qed.
Lemma phi_so v c y yA wk fl ef : v_phi p' (repl v c y yA wk fl ef) = v_phi p v.
Proof. reflexivity. Qed.
Lemma hist_so v c y yA wk fl ef h : w_hist h (repl v c y yA wk fl ef) = repl (w_hist h v) c y yA wk fl ef.
Proof. destruct v; reflexivity. Qed.
Lemma leyffer_soL v w : RelL v w -> fst (v_leyffer p' w) = fst (v_leyffer p v) /\ RelL (snd (v_leyffer p v)) (snd (v_leyffer p' w)).
Proof.
  intros (c & y & fl & ef & -> & F). unfold v_leyffer, v_complOK. destruct opt_so as (-> & -> & -> & _). rewrite phi_so. cbv zeta.
  assert (EH : v_hist (repl v c y (v_yA v) true fl ef) = v_hist v) by reflexivity. rewrite EH. rewrite !hist_so.
  assert (Q : forall b : bool, forall h, fst (b, repl (w_hist h v) c y (v_yA v) true fl ef) = fst (b, w_hist h v) /\ RelL (w_hist h v) (repl (w_hist h v) c y (v_yA v) true fl ef)).
  { intros b h. split; [reflexivity|]. exists c, y, fl, ef. split; [destruct v; reflexivity|]. destruct v; exact F. }
  destruct (_ <=? 0); [split; [reflexivity|]; exists c, y, fl, ef; split; [reflexivity|exact F]|].
  destruct (_ <? _); [apply (Q false)|]. destruct (a_lt _ _); [apply (Q false)|]. cbn [fst snd]. split; [reflexivity|]. apply (Q false).
Qed.
Lemma penalty_soL v w : RelL v w -> RelL (v_penalty p v) (v_penalty p' w).
Proof.
  intros (c & y & fl & ef & -> & F). exists c, y, fl, ef. unfold v_penalty. destruct opt_so as (-> & _ & _ & ->).
  assert (U : forall r s, snd (updateRhoOpt r (updateQPSolverExitFlag ef s)) = updateQPSolverExitFlag ef (snd (updateRhoOpt r s))) by (intros r s; unfold updateRhoOpt; destruct (a_le _ _); reflexivity).
  cbn [p' p_gphi p_g p_updH p_nV].
  destruct (0 <? _); destruct (p_gphi p); (split; [|exact F]); unfold repl;
  cbn [v_rho v_stats v_h v_yA w_calls w_yA w_y w_work w_flag w_hist w_rho w_stats w_h w_gt]; rewrite U; reflexivity.
Qed.
Lemma penaltyStep_soL v w : RelL v w -> sim RelL (v_penaltyStep p v) (v_penaltyStep p' w).
Proof.
  intros R. unfold v_penaltyStep. eapply sim_bind with (R := RelL).
  - destruct (penalty_soL _ _ R) as (c & y & fl & ef & -> & F). unfold v_outerIter. set (u := v_penalty p v) in *. clearbody u.
    change (v_outer (repl u c y (v_yA u) true fl ef)) with (v_outer u). change (v_stats (repl u c y (v_yA u) true fl ef)) with (updateQPSolverExitFlag ef (v_stats u)).
    destruct (chk_int (v_outer u + 1)); [|reflexivity]. cbn [bind]. unfold updateIterOuter. cbn [Z.ltb Z.compare updateQPSolverExitFlag st_iterOuter].
    destruct (chk_int (st_iterOuter (v_stats u) + 1)); [|reflexivity]. cbn [bind sim]. exists c, y, fl, ef. split; [reflexivity|exact F].
  - intros a b Q. cbn [sim]. apply inner_soL. exact Q.
Qed.

Lemma head_soL v w : RelL v w -> sim RelL (v_head p v) (v_head p' w).
Proof.
  intros R. unfold v_head. eapply sim_bind; [apply print_soL, station_soL, step_soL; exact R|]. intros v1 w1 R1.
  change (o_storeSteps (p_opt p')) with (o_storeSteps (p_opt p)). eapply sim_bind with (R := RelL); [destruct (o_storeSteps _); [apply store_soL; exact R1|exact R1]|]. intros v2 w2 R2.
  eapply sim_bind; [apply total_soL; exact R2|]. intros v3 w3 R3.
  assert (E : v_inner w3 = v_inner v3) by (destruct R3 as (c & y & fl & ef & -> & F); reflexivity). rewrite E.
  destruct (chk_int _) as [kk|]; [|reflexivity]. cbn [bind].
  destruct (leyffer_soL _ _ (inner_soL kk _ _ R3)) as [L1 L2].
  destruct (v_leyffer p (w_inner kk v3)) as [bl v4]. destruct (v_leyffer p' (w_inner kk w3)) as [b' w4]. cbn [fst snd] in *. subst b'.
  eapply sim_bind with (R := RelL); [destruct bl; [apply penaltyStep_soL; exact L2|exact L2]|]. intros v5 w5 R5. apply lin_soL. exact R5.
Qed.

Lemma duals_y v w y : v_y w = y -> v_rho w = v_rho v -> v_x w = v_x v -> v_y v = tab n (fun _ => a_zero) ++ y -> len y = k ->
  len (v_y (v_duals p' w)) = k /\ v_y (v_duals p v) = tab n (fun _ => a_zero) ++ v_y (v_duals p' w).
Proof.
  intros Yw R X Y LY. cbn [v_duals v_y w_y]. unfold p_nD, p_nA. cbn [p' p_off p_nC p_nComp p_mulL p_mulR]. rewrite Z.add_0_l. fold k. split; [rewrite len_tab; lia|].
  rewrite Ho. fold n nC m. apply (list_at_ext a_zero); [rewrite len_app, !len_tab by lia; lia|]. rewrite len_tab by lia. intros i Hi. rewrite at_tab by lia. rewrite Y.
  destruct (Z.ltb_spec i n).
  - rewrite !at_app_l by (rewrite len_tab; lia). rewrite !at_tab by lia. rewrite !(proj2 (Z.leb_gt _ i)) by lia. reflexivity.
  - rewrite !at_app_r by (rewrite len_tab; lia). rewrite len_tab by lia. rewrite at_tab by lia. rewrite Yw, R, X. rewrite !Z.add_0_l.
    assert (B : forall a, (a <=? i - n) = (n + a <=? i)) by (intros q; destruct (Z.leb_spec q (i - n)), (Z.leb_spec (n + q) i); lia).
    assert (B' : forall a, (i - n <? a) = (i <? n + a)) by (intros q; destruct (Z.ltb_spec (i - n) q), (Z.ltb_spec i (n + q)); lia).
    rewrite !B, !B'. rewrite !Z.add_assoc. replace (i - n - (nC + m)) with (i - (n + nC + m)) by ring. replace (i - n - nC) with (i - (n + nC)) by ring. reflexivity.
Qed.
Lemma duals_soL v w : RelL v w -> RelL (v_duals p v) (v_duals p' w).
Proof.
  intros (c & y & fl & ef & E & F & LY & Y). exists c, (v_y (v_duals p' w)), fl, ef.
  destruct (duals_y v w y) as [L1 L2]; try (rewrite E; reflexivity); auto.
  split; [|split; [exact F|split; [exact L1|exact L2]]]. rewrite E. reflexivity.
Qed.
Lemma classify_so tol yA ws : forall s t, v_classify p' tol yA ws s t = v_classify p tol yA ws s t.
Proof.
  induction ws as [|i ws IH]; intros s t; [reflexivity|]. cbn [v_classify]. change (p_nC p') with (p_nC p). change (p_nComp p') with (p_nComp p).
  destruct (_ && _); [destruct (a_le _ tol); [reflexivity|apply IH]|apply IH].
Qed.
Lemma finish_soL v w : RelL v w -> RelL (v_finish p v) (v_finish p' w).
Proof.
  intros R. unfold v_finish. cbv zeta. apply duals_soL in R. generalize dependent (v_duals p v). generalize (v_duals p' w). intros u' u (c & y & fl & ef & -> & F).
  assert (EW : v_weak p' (repl u c y (v_yA u) true fl ef) = v_weak p u) by (unfold v_weak; destruct opt_so as (_ & -> & _); reflexivity). rewrite EW, classify_so. destruct opt_so as (_ & -> & _).
  change (v_yA (repl u c y (v_yA u) true fl ef)) with (v_yA u). generalize (v_classify p (o_complementarityTolerance (p_opt p)) (v_yA u) (v_weak p u) true true). intros a.
  exists c, y, fl, ef. split; [reflexivity|exact F].
Qed.

(** A step of the loop *)
Definition RelO (a b : vst T K * option ReturnValue) : Prop :=
  snd b = snd a /\ Rel (fst a) (fst b) /\ (snd a = None \/ snd a = Some SUCCESSFUL_RETURN -> RelL (fst a) (fst b)).

Lemma tail_soL v w : RelL v w -> sim RelO (v_tail p orc rand v) (v_tail p' orc' rand w).
Proof.
  intros R. unfold v_tail. change (o_maxIterations (p_opt p')) with (o_maxIterations (p_opt p)). change (o_maxPenaltyParameter (p_opt p')) with (o_maxPenaltyParameter (p_opt p)). change (o_perturbStep (p_opt p')) with (o_perturbStep (p_opt p)).
  assert (E1 : v_total w = v_total v) by (destruct R as (c & y & fl & ef & -> & F); destruct v; reflexivity).
  assert (E2 : v_rho w = v_rho v) by (destruct R as (c & y & fl & ef & -> & F); destruct v; reflexivity). rewrite E1, E2.
  destruct (_ <? _); [split; [reflexivity|]; split; [apply RelL_Rel; exact R|intros [?|?]; discriminate]|].
  destruct (a_lt _ _); [split; [reflexivity|]; split; [apply RelL_Rel; exact R|intros [?|?]; discriminate]|].
  eapply sim_bind; [apply (solve_so false); [intros _; destruct R as (c & y & fl & ef & -> & F); reflexivity|apply lin_so, RelL_Rel, R]|].
  intros [r v1] [r' w1] (Er & R1 & R2). cbn [fst snd] in *. subst r'. destruct (is_success r) eqn:ES; cbn [negb].
  - assert (R3 : RelL v1 w1) by (apply R2; destruct r; try discriminate; reflexivity). cbn [sim].
    assert (R4 : RelL (v_steplen p (if o_perturbStep (p_opt p) then v_perturb p rand v1 else v1)) (v_steplen p' (if o_perturbStep (p_opt p) then v_perturb p' rand w1 else w1))).
    { apply steplen_soL. destruct (o_perturbStep _); [apply perturb_soL; exact R3|exact R3]. }
    split; [reflexivity|]. split; [apply RelL_Rel; exact R4|intros _; exact R4].
  - split; [reflexivity|]. split; [exact R1|]. cbn [fst snd]. intros [?|E]; [discriminate|]. injection E as ->. discriminate.
Qed.
Lemma pass_soL v w : RelL v w -> sim RelO (v_pass p orc rand v) (v_pass p' orc' rand w).
Proof.
  intros R. unfold v_pass. eapply sim_bind; [apply head_soL; exact R|]. intros v1 w1 R1.
  assert (E1 : v_statOK p' w1 = v_statOK p v1) by (destruct R1 as (c & y & fl & ef & -> & F); destruct v1; reflexivity).
  assert (E2 : v_complOK p' w1 = v_complOK p v1) by (destruct R1 as (c & y & fl & ef & -> & F); destruct v1; reflexivity). rewrite E1, E2.
  destruct (v_statOK p v1); [|apply tail_soL; exact R1]. destruct (v_complOK p v1).
  - pose proof (finish_soL _ _ R1) as R2. split; [reflexivity|]. split; [apply RelL_Rel; exact R2|intros _; exact R2].
  - eapply sim_bind; [apply penaltyStep_soL; exact R1|]. intros v2 w2 R2. apply tail_soL. exact R2.
Qed.
(** Results of a run *)
Definition RelR (a b : ReturnValue * vst T K) : Prop :=
  fst b = fst a /\ Rel (snd a) (snd b) /\ (fst a = SUCCESSFUL_RETURN -> RelL (snd a) (snd b)).
Lemma loop_soL fuel : forall v w, RelL v w -> sim RelR (v_loop p fuel orc rand v) (v_loop p' fuel orc' rand w).
Proof.
  induction fuel as [|fuel IH]; intros v w R; [reflexivity|]. cbn [v_loop]. eapply sim_bind; [apply pass_soL; exact R|].
  intros [v1 e] [w1 e'] (Ee & R1 & R2). cbn [fst snd] in *. subst e'. destruct e as [r|]; [|apply IH; auto].
  split; [reflexivity|]. split; [exact R1|]. cbn [fst snd]. intros ->. apply R2. auto.
Qed.
Lemma run_so fuel x0 : sim RelR (v_run p fuel orc rand None (v_init p x0)) (v_run p' fuel orc' rand None (v_init p' x0)).
Proof.
  assert (R0 : Rel (v_init p x0) (v_init p' x0)).
  { exists [], [], (tab (p_nA p) (fun _ => a_zero)), false, None, 0. split; [reflexivity|constructor]. }
  unfold v_run. eapply sim_bind with (R := RelO).
  - unfold v_first. change (o_solveZeroPenaltyFirst (p_opt p')) with (o_solveZeroPenaltyFirst (p_opt p)). eapply sim_bind; [apply (solve_so true); [discriminate|]|].
    + destruct (o_solveZeroPenaltyFirst _); [|apply lin_so; exact R0]. destruct R0 as (c & y & yA & wk & fl & ef & E & F). rewrite E. exists c, y, yA, wk, fl, ef. split; [reflexivity|exact F].
    + intros [r v1] [r' w1] (Er & R1 & R2). cbn [fst snd] in *. subst r'. destruct (is_success r) eqn:ES; cbn [negb].
      * assert (R3 : RelL v1 w1) by (apply R2; destruct r; try discriminate; reflexivity). cbn [sim].
        assert (R4 : RelL (w_stats (snd (updateRhoOpt (v_rho (w_h (p_setH p (v_rho v1)) v1)) (v_stats (w_h (p_setH p (v_rho v1)) v1)))) (w_h (p_setH p (v_rho v1)) v1))
                          (w_stats (snd (updateRhoOpt (v_rho (w_h (p_setH p' (v_rho w1)) w1)) (v_stats (w_h (p_setH p' (v_rho w1)) w1)))) (w_h (p_setH p' (v_rho w1)) w1))).
        { destruct R3 as (c & y & fl & ef & -> & F). exists c, y, fl, ef. split; [|exact F]. unfold updateRhoOpt. cbn [repl v_rho w_h w_calls w_yA w_y w_work w_flag w_stats v_stats]. destruct (a_le _ _); destruct v1; reflexivity. }
        split; [reflexivity|]. split; [apply RelL_Rel; exact R4|intros _; exact R4].
      * split; [reflexivity|]. split; [exact R1|]. cbn [fst snd]. intros [?|E]; [discriminate|]. injection E as ->. discriminate.
  - intros [v1 e] [w1 e'] (Ee & R1 & R2). cbn [fst snd] in *. subst e'. destruct e as [r|]; [|apply loop_soL; auto].
    split; [reflexivity|]. split; [exact R1|]. cbn [fst snd]. intros ->. apply R2. auto.
Qed.
End Solvers.
