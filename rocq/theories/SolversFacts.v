(** * SolversFacts: sparse qpOASES and OSQP on the same problem (no LCQPow code). *)
From Coq Require Import QArith Qcanon.
From Verif Require Import Base Arith Codes Utilities Options Stats FileIO Subsolver State LCQProblem Tactics Loops Kernels Exact SpecSparse CscKernels CscBuild CscMerge
  Pure PureFacts SpecLoad SpecModes SpecSolvers Refine LoadDense LoadSparse StartDense StartSparse SpecApi ApiFacts SwapFacts Solvers.
Open Scope Z_scope.

Lemma x_neg_neg (a : xq) : (- - a = a)%num.
Proof. destruct a; try reflexivity. cbn. f_equal. ring. Qed.
Lemma x_sub_0 (a : xq) : (a_one * a + a_mone * a_zero = a)%num.
Proof. destruct a; try reflexivity. cbn. f_equal. ring. Qed.

(** From the list level to the objects *)
Lemma boxless_conclude {K} (p p2 : ops xq K) KR KR' d d' (s1 s2 : res (ReturnValue * lcqp xq)) v1 v2 :
  p_off p = p_nV p -> p_nD p2 = p_nC p + 2 * p_nComp p -> d_nV d' = d_nV d -> d_nDuals d = Some (p_nD p) -> d_nDuals d' = Some (p_nD p2) ->
  (forall r o, s1 = Ok (r, o) -> exists a, s_algoStat (it o) = Some a) ->
  sim (fun a b => pd (snd a) = d /\ relT p KR (fst a, it (snd a)) b) s1 v1 -> sim (fun a b => pd (snd a) = d' /\ relT p2 KR' (fst a, it (snd a)) b) s2 v2 ->
  sim (RelR p) v1 v2 -> boxless_runs (p_nV p) (p_nC p + 2 * p_nComp p) s1 s2.
Proof.
  intros Eo EN DV DN DN' HA S1 S2 R.
  destruct v1 as [[r v]|e]; destruct v2 as [[r' w]|e']; try contradiction.
  2: { destruct s1 as [[? ?]|]; [contradiction|]. destruct s2 as [[? ?]|]; [contradiction|]. cbn in *. congruence. }
  destruct s1 as [[r1 o]|]; [|contradiction]. destruct s2 as [[r2 o']|]; [|contradiction].
  destruct R as (Er & R & RS). destruct S1 as (D & E1 & RB & RI). destruct S2 as (D' & E2 & RB' & RI'). cbn [fst snd] in *. subst r1 r2 r'.
  assert (XE : s_xk (it o') = s_xk (it o)). { rewrite (proj1 (rb_x _ _ _ RB)), (proj1 (rb_x _ _ _ RB')). destruct R as (c & y & yA & wk & fl & ef & -> & F). reflexivity. }
  assert (AE : s_algoStat (it o') = s_algoStat (it o)). { rewrite (rb_algo _ _ _ RB), (rb_algo _ _ _ RB'). destruct R as (c & y & yA & wk & fl & ef & -> & F). reflexivity. }
  assert (ND : d_nV (pd o') = d_nV (pd o)) by (rewrite D, D'; exact DV).
  cbn [boxless_runs]. split; [reflexivity|]. split.
  { change (getOutputStatistics o') with (s_stats (it o')). change (getOutputStatistics o) with (s_stats (it o)). rewrite (rb_stats _ _ _ RB), (rb_stats _ _ _ RB'). destruct R as (c & y & yA & wk & fl & ef & -> & F). exists ef. reflexivity. }
  split; [intros buf; unfold getPrimalSolution; rewrite XE, AE, ND; reflexivity|]. split.
  { rewrite (rb_calls _ _ _ RB), (rb_calls _ _ _ RB'). destruct R as (c & y & yA & wk & fl & ef & -> & F). exact F. }
  intros Su. destruct (RI Su) as [RR _]. destruct (RI' Su) as [RR' _]. pose proof (rl_y _ _ _ _ RR) as Y. pose proof (rl_y _ _ _ _ RR') as Y'. cbn [snd] in Y, Y'.
  destruct (HA _ _ eq_refl) as (a & Ea). destruct (RS Su) as (c & y & fl & ef & EW & _ & LY & EY).
  exists a, y. split; [exact LY|]. assert (WY : v_y w = y) by (rewrite EW; reflexivity).
  destruct Y as [Y LYY], Y' as [Y' LYY']. rewrite WY in Y', LYY'. rewrite EY in Y, LYY. split.
  - intros buf Hb. unfold getDualSolution. rewrite Y, D, DN, Ea. cbn [get bind]. assert (LB : len buf = p_nD p) by (rewrite Hb; unfold p_nD, p_nA; rewrite Eo; ring). rewrite copy_out by lia. reflexivity.
  - intros buf Hb. unfold getDualSolution. rewrite Y', D', DN', AE, Ea. cbn [get bind]. rewrite copy_out by lia. reflexivity.
Qed.

Lemma p_C54_osqp (u : usparse xq) opt orc orc' rand : wf_sparse u -> paired (us_v u) -> fin_lower (us_v u) -> concat (us_C u) <> [] ->
  u_lb (us_v u) = None -> u_ub (us_v u) = None -> u_y0 (us_v u) = None ->
  same_solutions (u_nV (us_v u)) (u_nC (us_v u) + 2 * u_nComp (us_v u)) orc orc' ->
  boxless_runs (u_nV (us_v u)) (u_nC (us_v u) + 2 * u_nComp (us_v u))
    (solve_sparse u (with_solver QPOASES_SPARSE opt) orc rand) (solve_sparse u (with_solver OSQP_SPARSE opt) orc' rand).
Proof.
  intros W Pa FL NZ Nl Nu Ny HO. pose proof (ws_v _ W) as V. pose proof (wv_nV _ V). pose proof (wv_nC _ V). pose proof (wv_nComp _ V).
  set (o1 := with_solver QPOASES_SPARSE opt). set (o2 := with_solver OSQP_SPARSE opt).
  assert (Q1 : o_qpSolver o1 <> QPOASES_DENSE) by discriminate. assert (Q2 : o_qpSolver o2 <> QPOASES_DENSE) by discriminate.
  assert (HQ1 : osqp_ok (us_v u) o1) by (intros E; discriminate). assert (HQ2 : osqp_ok (us_v u) o2) by (intros _; auto).
  pose proof (solve_sparse_ref u o1 orc rand W Pa FL NZ Q1 HQ1) as S1. pose proof (solve_sparse_ref u o2 orc' rand W Pa FL NZ Q2 HQ2) as S2.
  eapply (boxless_conclude (sparse_ops u o1) (sparse_ops u o2)); [| | | | | |exact S1|exact S2|]; try reflexivity.
  { unfold sparse_pd, sparse_pd0, p_nD, p_nA. cbn [sparse_ops p_off p_nC p_nComp]. change (osqp o1) with false. cbn -[Z.mul Z.add]. f_equal. lia. }
  { intros r o ES. eapply sparse_algo; [exact W|exact Pa|exact FL|exact NZ|exact Q1|exact HQ1|exact ES]. }
  rewrite Ny.
  pose proof (run_so (sparse_ops u o1) (csc_mat (u_nV (us_v u)) (u_nV (us_v u)) (sparse_H u o2)) rand) as R. cbv zeta in R.
  assert (B1 : forall d, bnd (u_nV (us_v u)) (@None (list xq)) d = tab (u_nV (us_v u)) (fun _ => d)) by reflexivity.
  refine (R eq_refl _ eq_refl eq_refl _ _ _ _ _ x_neg_neg x_sub_0 orc orc' HO (Z.to_nat (o_maxIterations o1) + 2)%nat (u_x (us_v u))); try (cbn; lia).
  - exists (us_Q u). split; reflexivity.
  - cbn. rewrite Nl. reflexivity.
  - cbn. rewrite Nu. reflexivity.
Qed.
