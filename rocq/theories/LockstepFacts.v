(** * LockstepFacts: the same problem loaded densely and sparsely (no LCQPow code). *)
From Coq Require Import QArith Qcanon.
From Verif Require Import Base Arith Codes Utilities Options Stats FileIO Subsolver State LCQProblem Tactics Loops Kernels Exact SpecSparse CscKernels CscBuild CscMerge SpecMath QSum
  KernelProps2 Pure PureFacts Refine SpecLoad LoadSparse SpecExact SpecRun SpecTrace SpecSolve StartDense StartSparse ExactOps ExactDense ExactSparse ExactRun SpecModes Lockstep.
Open Scope Z_scope.

(** Two descriptions with the same entries.  No LCQPow code. *)
Record agree (e f : qdata) : Prop := mkAgree {
  ag_nV : e_nV e = e_nV f; ag_nC : e_nC e = e_nC f; ag_nComp : e_nComp e = e_nComp f;
  ag_g : e_g e = e_g f; ag_lbL : e_lbL e = e_lbL f; ag_lbR : e_lbR e = e_lbR f;
  ag_Q : forall i j, 0 <= i < e_nV e -> 0 <= j < e_nV e -> e_Q e i j = e_Q f i j;
  ag_L : forall i j, 0 <= i < e_nComp e -> 0 <= j < e_nV e -> e_L e i j = e_L f i j;
  ag_R : forall i j, 0 <= i < e_nComp e -> 0 <= j < e_nV e -> e_R e i j = e_R f i j;
  ag_A : forall i j, 0 <= i < e_nC e -> 0 <= j < e_nV e -> e_A e i j = e_A f i j }.

Section Agree.
Variables e f : qdata.
Hypothesis G : agree e f.
Lemma ag_C i j : 0 <= i < e_nV e -> 0 <= j < e_nV e -> e_C e i j = e_C f i j.
Proof. intros Hi Hj. unfold e_C. rewrite <- (ag_nComp _ _ G). apply qsum_ext. intros k Hk. rewrite !(ag_L _ _ G), !(ag_R _ _ G) by auto. reflexivity. Qed.
Lemma ag_H r i j : 0 <= i < e_nV e -> 0 <= j < e_nV e -> e_H e r i j = e_H f r i j.
Proof. intros Hi Hj. unfold e_H. rewrite ag_C, (ag_Q _ _ G) by auto. reflexivity. Qed.
Lemma ag_rows i j : 0 <= i < e_nA e -> 0 <= j < e_nV e -> e_rows e i j = e_rows f i j.
Proof.
  intros Hi Hj. unfold e_rows, e_nA in *. rewrite <- (ag_nC _ _ G), <- (ag_nComp _ _ G). destruct (Z.ltb_spec i (e_nC e)); [apply (ag_A _ _ G); lia|].
  destruct (Z.ltb_spec i (e_nC e + e_nComp e)); [apply (ag_L _ _ G)|apply (ag_R _ _ G)]; lia.
Qed.
Lemma ag_gphi i : 0 <= i < e_nV e -> e_gphi e i = e_gphi f i.
Proof.
  intros Hi. unfold e_gphi. rewrite <- (ag_nComp _ _ G), <- (ag_lbL _ _ G), <- (ag_lbR _ _ G). f_equal. f_equal; apply qsum_ext; intros k Hk.
  - rewrite (ag_R _ _ G) by auto. reflexivity.
  - rewrite (ag_L _ _ G) by auto. reflexivity.
Qed.
Lemma ag_phi x : e_phi e x = e_phi f x.
Proof.
  unfold e_phi. rewrite <- (ag_nComp _ _ G), <- (ag_nV _ _ G), <- (ag_lbL _ _ G), <- (ag_lbR _ _ G). apply qsum_ext. intros k Hk.
  rewrite (mv_ext (e_L e) (e_L f)), (mv_ext (e_R e) (e_R f)); [reflexivity| |]; intros j Hj; [apply (ag_R _ _ G)|apply (ag_L _ _ G)]; auto.
Qed.
Lemma ag_nA : e_nA e = e_nA f.
Proof. unfold e_nA. rewrite (ag_nC _ _ G), (ag_nComp _ _ G). reflexivity. Qed.

Lemma exops_agree {K} (p : ops xq K) EH : exops p f EH -> exops p e EH.
Proof.
  intros X. pose proof (ag_nV _ _ G) as N. pose proof (ag_nC _ _ G) as NC. pose proof (ag_nComp _ _ G) as NM. pose proof (ag_g _ _ G) as NG.
  constructor; try (rewrite ?N, ?NC, ?NM, ?NG; apply X).
  - pose proof (x_gphi _ _ _ X) as Y. destruct (p_gphi p).
    + rewrite Y. f_equal. rewrite <- N. apply tab_ext. intros i Hi. symmetry. apply ag_gphi. auto.
    + intros i Hi. rewrite ag_gphi by auto. apply Y. lia.
  - intros x Lx. rewrite ag_phi. apply (x_phi _ _ _ X). lia.
  - intros h r x c Eh Lx Lc. rewrite (x_affH _ _ _ X _ _ _ _ Eh) by lia. f_equal. rewrite N. apply tab_ext. intros i Hi. f_equal. symmetry. apply mv_ext. intros j Hj. apply ag_H; lia.
  - intros h r x Eh Lx. rewrite (x_quadH _ _ _ X _ _ _ Eh) by lia. f_equal. rewrite N. symmetry. apply qform_ext. intros i j Hi Hj. apply ag_H; lia.
  - intros r x c Lx Lc. rewrite (x_affC _ _ _ X) by lia. f_equal. rewrite N. apply tab_ext. intros i Hi. f_equal. f_equal. symmetry. apply mv_ext. intros j Hj. apply ag_C; lia.
  - intros x Lx. rewrite (x_quadQ _ _ _ X) by lia. f_equal. rewrite N. symmetry. apply qform_ext. intros i j Hi Hj. apply (ag_Q _ _ G); lia.
  - intros y Ly. rewrite (x_tA _ _ _ X) by (rewrite <- ag_nA; auto). f_equal. rewrite N, ag_nA. apply tab_ext. intros j Hj. symmetry. apply tv_ext. intros i Hi. apply ag_rows; [rewrite ag_nA|]; lia.
  - intros x Lx. rewrite (x_mulL _ _ _ X) by lia. f_equal. rewrite N, NM. apply tab_ext. intros i Hi. symmetry. apply mv_ext. intros j Hj. apply (ag_L _ _ G); lia.
  - intros x Lx. rewrite (x_mulR _ _ _ X) by lia. f_equal. rewrite N, NM. apply tab_ext. intros i Hi. symmetry. apply mv_ext. intros j Hj. apply (ag_R _ _ G); lia.
Qed.
End Agree.

Lemma same_agree d s : same_problem d s -> agree (dense_data d) (sparse_data s).
Proof. intros (V & Q & L & R & A). constructor; auto; cbn; rewrite V; reflexivity. Qed.

(** The two runs *)
Lemma modes_agree d s opt orc orc' rand r0 fac r o :
  admissible (PDense d) (with_solver QPOASES_DENSE opt) -> admissible (PSparse s) (with_solver QPOASES_SPARSE opt) -> same_problem d s ->
  same_answers (qv_nV (qd_v d)) (e_nA (dense_data d)) orc orc' ->
  pr_solve (PDense d) (with_solver QPOASES_DENSE opt) orc rand = Ok (r, o) ->
  rational_run (PDense d) (with_solver QPOASES_DENSE opt) orc o r0 fac ->
  exists o', pr_solve (PSparse s) (with_solver QPOASES_SPARSE opt) orc' rand = Ok (r, o') /\
    Forall2 (same_qp (qv_nV (qd_v d)) (e_nA (dense_data d))) (s_calls (it o)) (s_calls (it o')) /\
    getOutputStatistics o' = getOutputStatistics o /\
    (forall buf, getPrimalSolution buf o' = getPrimalSolution buf o) /\
    (r = SUCCESSFUL_RETURN -> forall buf, getDualSolution buf o' = getDualSolution buf o).
Proof.
  intros (P & W & Hq) (P' & W' & Hq' & Ho & Sy & NT & NZ) SP SA E (Hp & Fc). pose proof (same_agree _ _ SP) as AG. cbn [pr_solve pr_vec] in *.
  set (od := with_solver QPOASES_DENSE opt) in *. set (os := with_solver QPOASES_SPARSE opt) in *.
  pose proof (solve_dense_ref (to_dense d) od orc rand W P (fin_lower_q _) Hq) as R. rewrite E in R. rewrite dense_ux in R.
  apply (sim_left (fun x : ReturnValue * lcqp xq => pd (snd x) = dense_pd (to_dense d) od) (fun x y => relT (dense_ops (to_dense d) od) (dense_KR (u_nV (ud_v (to_dense d)))) (fst x, it (snd x)) y) (r, o)) in R. destruct R as (D & R2). cbn [fst snd] in D, R2.
  pose proof (sparse_nonzero s W' NT NZ) as NZ'.
  pose proof (solve_sparse_ref (to_sparse s) os orc' rand W' P' (fin_lower_q _) NZ' Hq' Ho) as R'. rewrite sparse_ux in R'.
  destruct (v_run (dense_ops (to_dense d) od) _ _ _ _ _) as [[r' v]|] eqn:EV; [|contradiction]. destruct R2 as (Er & RB & RI). cbn [fst snd] in Er, RB, RI. subst r'.
  pose proof (dense_exops d W P od) as X1. pose proof (exops_agree _ _ AG _ _ (sparse_exops s W' P' Sy NT os)) as X2.
  destruct SP as (V & SQ & SL & SR & SAe).
  assert (Ex0 : pr_x0 (PSparse s) = pr_x0 (PDense d)) by (unfold pr_x0; cbn [pr_vec pr_data dense_data sparse_data e_nV]; rewrite V; reflexivity).
  assert (Eb : box_duals (PDense d) od = qv_nV (qd_v d)) by reflexivity.
  destruct (run_ls (dense_ops (to_dense d) od) (sparse_ops (to_sparse s) os) (dense_data d) _ _ r0 fac X1 X2 Hp) with (orc1 := orc) (orc2 := orc') (rand := rand) (x0 := pr_x0 (PDense d))
    (fuel := (Z.to_nat (o_maxIterations od) + 2)%nat) (y0 := u_y0 (ud_v (to_dense d))) (r := r) (v := v) as (w & EW & QE & QC).
  - exists QPOASES_SPARSE. reflexivity.
  - discriminate.
  - discriminate.
  - cbn. rewrite V. reflexivity.
  - cbn. rewrite V. reflexivity.
  - cbn. rewrite V. reflexivity.
  - cbn. rewrite V. reflexivity.
  - cbn. rewrite V. reflexivity.
  - exists (e_Q (dense_data d)). split.
    + exists (qd_Q d). split; [reflexivity|]. split; [|reflexivity]. pose proof (wu_Q _ W) as L. cbn in L. rewrite len_fins in L. exact L.
    + exists (qs_Q s). split; [cbn; rewrite V; reflexivity|]. pose proof (ws_Q _ W') as (L & _). cbn in L. split; [unfold fincols in L; rewrite len_map in L; cbn; rewrite V; exact L|].
      intros i j Hi Hj. symmetry. apply SQ; auto.
  - exists (e_rows (dense_data d)). split.
    + exists (qd_A d ++ qd_L d ++ qd_R d). split; [cbn; unfold ud_ALR; cbn; unfold fins; rewrite !map_app; reflexivity|]. split.
      * pose proof (wu_A _ W) as LA. pose proof (wu_L _ W) as LL. pose proof (wu_R _ W) as LR. cbn in LA, LL, LR. rewrite len_fins in *. rewrite !len_app. rewrite LA, LL, LR. unfold e_nA. cbn [dense_data e_nC e_nComp e_nV]. ring.
      * intros i j Hi Hj. apply (dense_rows d W); auto.
    + exists (sp_ALR s). split; [|split; [cbn; rewrite V; apply (len_sp_ALR s W')|]].
      * cbn [sparse_ops p_matA]. rewrite (sparse_ALR_fin s). unfold e_nA. cbn. rewrite V. unfold u_nA. cbn. f_equal; lia.
      * intros i j Hi Hj. rewrite (sparse_rows s W') by (try rewrite <- (ag_nA _ _ AG); cbn in *; rewrite <- ?V; auto). symmetry. apply (ag_rows _ _ AG); auto.
  - exact SA.
  - exact (dense_x0 d W).
  - exact EV.
  - unfold fin1. rewrite <- (rb_calls _ _ _ RB). exact Fc.
  - rewrite Ex0 in R'. change (u_y0 (us_v (to_sparse s))) with (option_map fins (qv_y0 (qs_v s))) in R'. rewrite <- V in R'. change (option_map fins (qv_y0 (qd_v d))) with (u_y0 (ud_v (to_dense d))) in R'.
    change (o_maxIterations os) with (o_maxIterations od) in R'. rewrite EW in R'.
    destruct (solve_sparse (to_sparse s) os orc' rand) as [[r2 o']|]; [|contradiction]. cbn [sim] in R'. destruct R' as (D' & Er' & RB' & RI'). cbn [fst snd] in D', Er', RB', RI'. subst r2.
    exists o'. split; [reflexivity|]. destruct QE. 
    assert (ND : d_nV (pd o') = d_nV (pd o)) by (rewrite D, D'; cbn; rewrite V; reflexivity).
    assert (NDu : d_nDuals (pd o') = d_nDuals (pd o)) by (rewrite D, D'; cbn; rewrite V; reflexivity).
    assert (XE : s_xk (it o') = s_xk (it o)). { rewrite (proj1 (rb_x _ _ _ RB)), (proj1 (rb_x _ _ _ RB')). rewrite q_x'. reflexivity. }
    assert (AE : s_algoStat (it o') = s_algoStat (it o)). { rewrite (rb_algo _ _ _ RB), (rb_algo _ _ _ RB'). congruence. }
    split; [rewrite (rb_calls _ _ _ RB), (rb_calls _ _ _ RB'); exact QC|]. split.
    { change (getOutputStatistics o') with (s_stats (it o')). change (getOutputStatistics o) with (s_stats (it o)). rewrite (rb_stats _ _ _ RB), (rb_stats _ _ _ RB'). congruence. }
    split.
    { intros buf. unfold getPrimalSolution. rewrite XE, AE, ND. reflexivity. }
    intros Su buf. destruct (RI Su) as [RR _]. destruct (RI' Su) as [RR' _]. pose proof (proj1 (rl_y _ _ _ _ RR)) as Y. pose proof (proj1 (rl_y _ _ _ _ RR')) as Y'. cbn [snd] in Y, Y'.
    assert (YE : s_yk (it o') = s_yk (it o)) by (rewrite Y, Y', q_y'; reflexivity).
    unfold getDualSolution. rewrite YE, AE, NDu. reflexivity.
Qed.
