(** * DefaultsFacts: leaving out optional arguments changes nothing (no LCQPow code). *)
From Coq Require Import QArith Qcanon.
From Verif Require Import Base Arith Codes Utilities Options Stats FileIO Subsolver State LCQProblem Tactics Loops Kernels Exact SpecSparse CscKernels CscBuild CscMerge SpecMath QSum
  KernelProps2 Pure PureFacts PurePace Refine SpecLoad LoadSparse SpecExact SpecRun SpecTrace SpecSchedule SpecSolve StartDense StartSparse ExactOps ExactDense ExactSparse ExactRun LoadFacts Safety SpecModes Lockstep LockstepFacts SpecDefaults.
Open Scope Z_scope.

Section Any.
Context {T : Type} `{Arith T}.

Lemma bnd_same n d (l l' : option (list T)) : 0 <= n -> SpecLoad.fits n l -> SpecLoad.fits n l' -> same_value n d l l' -> bnd n l' d = bnd n l d.
Proof.
  intros Hn F F' S. assert (L : forall k : option (list T), SpecLoad.fits n k -> bnd n k d = tab n (value_of d k)).
  { intros [k|] Fk; cbn [bnd value_of]; [|reflexivity]. cbn in Fk. subst n. apply (eq_sym (tab_at a_zero k)). }
  rewrite !L by auto. apply tab_ext. intros i Hi. apply S. exact Hi.
Qed.

Section Vec.
Variables (v v' : uvec T).
Hypothesis (V : wf_vec v) (V' : wf_vec v') (M : same_meaning v v').
Lemma same_lower : u_lower v' = u_lower v.
Proof.
  pose proof (wv_nC _ V). pose proof (wv_nComp _ V). destruct M. unfold u_lower. rewrite sm_nC, sm_nComp.
  pose proof (wv_lbA _ V') as F1. pose proof (wv_lbL _ V') as F2. pose proof (wv_lbR _ V') as F3. rewrite ?sm_nC, ?sm_nComp in *.
  f_equal; [|f_equal]; apply bnd_same; auto; try lia; apply V.
Qed.
Lemma same_upper : u_upper v' = u_upper v.
Proof.
  pose proof (wv_nC _ V). pose proof (wv_nComp _ V). destruct M. unfold u_upper. rewrite sm_nC, sm_nComp.
  pose proof (wv_ubA _ V') as F1. pose proof (wv_ubL _ V') as F2. pose proof (wv_ubR _ V') as F3. rewrite ?sm_nC, ?sm_nComp in *.
  f_equal; [|f_equal]; apply bnd_same; auto; try lia; apply V.
Qed.
Lemma same_lb : bnd (u_nV v') (u_lb v') a_ninf = bnd (u_nV v) (u_lb v) a_ninf.
Proof. pose proof (wv_nV _ V). pose proof (wv_lb _ V'). destruct M. rewrite sm_nV in *. apply bnd_same; auto; try lia; apply V. Qed.
Lemma same_ub : bnd (u_nV v') (u_ub v') a_pinf = bnd (u_nV v) (u_ub v) a_pinf.
Proof. pose proof (wv_nV _ V). pose proof (wv_ub _ V'). destruct M. rewrite sm_nV in *. apply bnd_same; auto; try lia; apply V. Qed.
Lemma same_x : u_x v' = u_x v.
Proof. pose proof (wv_nV _ V). pose proof (wv_x0 _ V'). destruct M. unfold u_x. rewrite sm_nV in *. apply bnd_same; auto; try lia; apply V. Qed.
Lemma same_nA : u_nA v' = u_nA v.
Proof. destruct M. unfold u_nA. congruence. Qed.
End Vec.

(** The operations with another penalty constant and gradient.  No LCQPow code. *)
Definition with_phi {K} (g : option (list T)) (c : T) (p : ops T K) : ops T K :=
  mkOps T K (p_opt p) (p_solver p) (p_nV p) (p_nC p) (p_nComp p) (p_off p) (p_box p) (p_g p) g c (p_matH p) (p_matA p) (p_lbA p) (p_ubA p)
    (p_lb p) (p_ub p) (p_setH p) (p_updH p) (p_affH p) (p_quadH p) (p_affC p) (p_quadC p) (p_quadQ p) (p_tA p) (p_mulL p) (p_mulR p).

Lemma dense_same (u : udense T) v' opt : wf_vec (ud_v u) -> wf_vec v' -> same_meaning (ud_v u) v' ->
  dense_ops (dense_with v' u) opt = with_phi (dense_gphi (dense_with v' u)) (u_pc v') (dense_ops u opt).
Proof.
  intros V V' M. unfold dense_ops, with_phi. cbn [dense_with ud_v ud_Q ud_L ud_R ud_A p_opt p_solver p_nV p_nC p_nComp p_off p_box p_g p_matH p_matA p_lbA p_ubA p_lb p_ub p_setH p_updH p_affH p_quadH p_affC p_quadC p_quadQ p_tA p_mulL p_mulR].
  assert (EC : ud_C (dense_with v' u) = ud_C u) by (unfold ud_C; cbn; rewrite (sm_nComp _ _ M), (sm_nV _ _ M); reflexivity).
  rewrite EC, (same_lower _ _ V V' M), (same_upper _ _ V V' M), (same_lb _ _ V V' M), (same_ub _ _ V V' M), (same_nA _ _ M), (sm_nV _ _ M), (sm_nC _ _ M), (sm_nComp _ _ M), (sm_g _ _ M).
  reflexivity.
Qed.
Lemma sparse_same (u : usparse T) v' opt : wf_vec (us_v u) -> wf_vec v' -> same_meaning (us_v u) v' ->
  sparse_ops (sparse_with v' u) opt = with_phi (sparse_gphi (sparse_with v' u)) (u_pc v') (sparse_ops u opt).
Proof.
  intros V V' M. unfold sparse_ops, with_phi. cbn [sparse_with us_v us_Q us_L us_R us_A p_opt p_solver p_nV p_nC p_nComp p_off p_box p_g p_matH p_matA p_lbA p_ubA p_lb p_ub p_setH p_updH p_affH p_quadH p_affC p_quadC p_quadQ p_tA p_mulL p_mulR].
  assert (EC : us_C (sparse_with v' u) = us_C u) by (unfold us_C; cbn; rewrite ?(sm_nComp _ _ M), ?(sm_nV _ _ M); reflexivity).
  assert (ET : us_tags (sparse_with v' u) = us_tags u) by (unfold us_tags; rewrite EC; cbn; rewrite ?(sm_nComp _ _ M), ?(sm_nV _ _ M); reflexivity).
  assert (EA : us_ALR (sparse_with v' u) = us_ALR u) by (unfold us_ALR, us_Acols; cbn; rewrite ?(sm_nC _ _ M), ?(sm_nComp _ _ M), ?(sm_nV _ _ M); reflexivity).
  assert (EH : sparse_H (sparse_with v' u) opt = sparse_H u opt) by (unfold sparse_H; cbn; rewrite ?(sm_nV _ _ M); reflexivity).
  rewrite EC, ET, EA, EH, (same_lower _ _ V V' M), (same_upper _ _ V V' M), (same_lb _ _ V V' M), (same_ub _ _ V V' M), (same_nA _ _ M), (sm_nV _ _ M), (sm_nC _ _ M), (sm_nComp _ _ M), (sm_g _ _ M).
  reflexivity.
Qed.

(** From the list level to the objects *)
Lemma conclude {K} (p p2 : ops T K) KR KR' d d' (s1 s2 : res (ReturnValue * lcqp T)) v :
  d_nV d' = d_nV d -> d_nDuals d' = d_nDuals d ->
  sim (fun a b => pd (snd a) = d /\ relT p KR (fst a, it (snd a)) b) s1 v -> sim (fun a b => pd (snd a) = d' /\ relT p2 KR' (fst a, it (snd a)) b) s2 v ->
  equal_runs s1 s2.
Proof.
  intros DV DN S1 S2. destruct v as [[r v]|e].
  2: { destruct s1 as [[? ?]|]; [contradiction|]. destruct s2 as [[? ?]|]; [contradiction|]. cbn in *. congruence. }
  destruct s1 as [[r1 o]|]; [|contradiction]. destruct s2 as [[r2 o']|]; [|contradiction].
  destruct S1 as (D & E1 & RB & RI). destruct S2 as (D' & E2 & RB' & RI'). cbn [fst snd] in *. subst r1 r2.
  assert (XE : s_xk (it o') = s_xk (it o)) by (rewrite (proj1 (rb_x _ _ _ RB)), (proj1 (rb_x _ _ _ RB')); reflexivity).
  assert (AE : s_algoStat (it o') = s_algoStat (it o)) by (rewrite (rb_algo _ _ _ RB), (rb_algo _ _ _ RB'); reflexivity).
  cbn [equal_runs]. split; [reflexivity|]. unfold same_results.
  split. { change (getOutputStatistics o') with (s_stats (it o')). change (getOutputStatistics o) with (s_stats (it o)). rewrite (rb_stats _ _ _ RB), (rb_stats _ _ _ RB'). reflexivity. }
  split; [rewrite (rb_calls _ _ _ RB), (rb_calls _ _ _ RB'); reflexivity|].
  split; [intros buf; unfold getPrimalSolution; rewrite XE, AE, D, D', DV; reflexivity|].
  split; [unfold getNumberOfDuals; rewrite D, D', DN; reflexivity|].
  intros Su buf. destruct (RI Su) as [RR _]. destruct (RI' Su) as [RR' _]. pose proof (proj1 (rl_y _ _ _ _ RR)) as Y. pose proof (proj1 (rl_y _ _ _ _ RR')) as Y'. cbn [snd] in Y, Y'.
  unfold getDualSolution. rewrite Y, Y', D, D', DN, AE. reflexivity.
Qed.

Lemma p_C76_dense (u : udense T) v' opt orc rand : wf_dense u -> wf_vec v' -> paired (ud_v u) -> fin_lower (ud_v u) -> o_qpSolver opt = QPOASES_DENSE ->
  same_meaning (ud_v u) v' -> u_lbL v' = u_lbL (ud_v u) -> u_lbR v' = u_lbR (ud_v u) ->
  equal_runs (solve_dense u opt orc rand) (solve_dense (dense_with v' u) opt orc rand).
Proof.
  intros W V' P F Hq M EL ER. pose proof (wu_v _ W) as V.
  assert (W' : wf_dense (dense_with v' u)). { destruct W. constructor; cbn; rewrite ?(sm_nV _ _ M), ?(sm_nC _ _ M), ?(sm_nComp _ _ M); auto. }
  assert (P' : paired (ud_v (dense_with v' u))) by (unfold paired in *; cbn; rewrite EL, ER; exact P).
  assert (F' : fin_lower (ud_v (dense_with v' u))) by (unfold fin_lower in *; cbn; rewrite EL, ER; exact F).
  pose proof (solve_dense_ref u opt orc rand W P F Hq) as S1. pose proof (solve_dense_ref (dense_with v' u) opt orc rand W' P' F' Hq) as S2.
  rewrite (dense_same u v' opt V V' M) in S2. cbn [dense_with ud_v] in S2. rewrite (same_x _ _ V V' M), (sm_y0 _ _ M) in S2.
  assert (EG : dense_gphi (dense_with v' u) = dense_gphi u) by (unfold dense_gphi; cbn; rewrite EL, ER, (sm_nComp _ _ M), (sm_nV _ _ M); reflexivity).
  assert (EP : u_pc v' = u_pc (ud_v u)) by (unfold u_pc; rewrite EL, ER, (sm_nComp _ _ M); reflexivity).
  rewrite EG, EP in S2. change (with_phi (dense_gphi u) (u_pc (ud_v u)) (dense_ops u opt)) with (dense_ops u opt) in S2.
  eapply conclude; [| |exact S1|exact S2]; cbn; rewrite ?(sm_nV _ _ M), ?(sm_nC _ _ M), ?(sm_nComp _ _ M); reflexivity.
Qed.
Lemma p_C76_sparse (u : usparse T) v' opt orc rand : wf_sparse u -> wf_vec v' -> paired (us_v u) -> fin_lower (us_v u) -> concat (us_C u) <> [] ->
  o_qpSolver opt <> QPOASES_DENSE -> osqp_ok (us_v u) opt -> osqp_ok v' opt ->
  same_meaning (us_v u) v' -> u_lbL v' = u_lbL (us_v u) -> u_lbR v' = u_lbR (us_v u) ->
  equal_runs (solve_sparse u opt orc rand) (solve_sparse (sparse_with v' u) opt orc rand).
Proof.
  intros W V' P F NZ Hq Ho Ho' M EL ER. pose proof (ws_v _ W) as V.
  assert (W' : wf_sparse (sparse_with v' u)). { destruct W. constructor; unfold us_Acols in *; cbn in *; rewrite ?(sm_nV _ _ M), ?(sm_nC _ _ M), ?(sm_nComp _ _ M); auto. }
  assert (P' : paired (us_v (sparse_with v' u))) by (unfold paired in *; cbn; rewrite EL, ER; exact P).
  assert (F' : fin_lower (us_v (sparse_with v' u))) by (unfold fin_lower in *; cbn; rewrite EL, ER; exact F).
  assert (NZ' : concat (us_C (sparse_with v' u)) <> []). { unfold us_C in *. cbn. rewrite ?(sm_nComp _ _ M), ?(sm_nV _ _ M). exact NZ. }
  pose proof (solve_sparse_ref u opt orc rand W P F NZ Hq Ho) as S1. pose proof (solve_sparse_ref (sparse_with v' u) opt orc rand W' P' F' NZ' Hq Ho') as S2.
  rewrite (sparse_same u v' opt V V' M) in S2. cbn [sparse_with us_v] in S2. rewrite (same_x _ _ V V' M), (sm_y0 _ _ M) in S2.
  assert (EG : sparse_gphi (sparse_with v' u) = sparse_gphi u) by (unfold sparse_gphi; cbn; rewrite EL, ER, (sm_nV _ _ M); reflexivity).
  assert (EP : u_pc v' = u_pc (us_v u)) by (unfold u_pc; rewrite EL, ER, (sm_nComp _ _ M); reflexivity).
  rewrite EG, EP in S2. change (with_phi (sparse_gphi u) (u_pc (us_v u)) (sparse_ops u opt)) with (sparse_ops u opt) in S2.
  eapply conclude; [| |exact S1|exact S2]; unfold sparse_pd, sparse_pd0; destruct (osqp opt); cbn; rewrite ?(sm_nV _ _ M), ?(sm_nC _ _ M), ?(sm_nComp _ _ M); reflexivity.
Qed.
Lemma unpaired (v v' : uvec T) : u_lbL v' = u_lbL v -> u_lbR v' = u_lbR v -> ~ paired v -> ~ paired v'.
Proof. unfold paired. intros -> ->. auto. Qed.
Lemma p_C76_dense_any (u : udense T) v' opt orc rand : wf_dense u -> wf_vec v' -> fin_lower (ud_v u) -> o_qpSolver opt = QPOASES_DENSE ->
  same_meaning (ud_v u) v' -> u_lbL v' = u_lbL (ud_v u) -> u_lbR v' = u_lbR (ud_v u) ->
  equal_runs (solve_dense u opt orc rand) (solve_dense (dense_with v' u) opt orc rand).
Proof.
  intros W V' F Hq M EL ER. destruct (paired_dec (ud_v u)) as [P|P]; [apply p_C76_dense; auto|].
  assert (W' : wf_dense (dense_with v' u)). { destruct W. constructor; cbn; rewrite ?(sm_nV _ _ M), ?(sm_nC _ _ M), ?(sm_nComp _ _ M); auto. }
  assert (F' : fin_lower (ud_v (dense_with v' u))) by (unfold fin_lower in *; cbn; rewrite EL, ER; exact F).
  rewrite (thm_dense_unpaired u opt orc rand W P F Hq), (thm_dense_unpaired (dense_with v' u) opt orc rand W' (unpaired _ _ EL ER P) F' Hq). reflexivity.
Qed.
Lemma p_C76_sparse_any (u : usparse T) v' opt orc rand : wf_sparse u -> wf_vec v' -> fin_lower (us_v u) -> concat (us_C u) <> [] ->
  o_qpSolver opt <> QPOASES_DENSE -> osqp_ok (us_v u) opt -> osqp_ok v' opt ->
  same_meaning (us_v u) v' -> u_lbL v' = u_lbL (us_v u) -> u_lbR v' = u_lbR (us_v u) ->
  equal_runs (solve_sparse u opt orc rand) (solve_sparse (sparse_with v' u) opt orc rand).
Proof.
  intros W V' F NZ Hq Ho Ho' M EL ER. destruct (paired_dec (us_v u)) as [P|P]; [apply p_C76_sparse; auto|].
  assert (W' : wf_sparse (sparse_with v' u)). { destruct W. constructor; unfold us_Acols in *; cbn in *; rewrite ?(sm_nV _ _ M), ?(sm_nC _ _ M), ?(sm_nComp _ _ M); auto. }
  assert (F' : fin_lower (us_v (sparse_with v' u))) by (unfold fin_lower in *; cbn; rewrite EL, ER; exact F).
  assert (NZ' : concat (us_C (sparse_with v' u)) <> []). { unfold us_C in *. cbn. rewrite ?(sm_nComp _ _ M), ?(sm_nV _ _ M). exact NZ. }
  rewrite (thm_sparse_unpaired u opt orc rand W P F NZ Hq Ho), (thm_sparse_unpaired (sparse_with v' u) opt orc rand W' (unpaired _ _ EL ER P) F' NZ' Hq Ho'). reflexivity.
Qed.
End Any.

Lemma bind_same {A B} (m : res A) (f g : A -> res B) : (forall a, m = Ok a -> f a = g a) -> bind m f = bind m g.
Proof. destruct m; cbn; auto. Qed.

(** ** Rational data: zero lower complementarity bounds given or left out *)
Section Zero.
Context {K : Type}.
Variables (p : ops xq K) (e : qdata) (EH : K -> Qc -> Prop) (r0 fac : Qc) (g : option (list xq)) (c : xq).
Let p2 := with_phi g c p.
Hypothesis X : exops p e EH.
Hypothesis X2 : exops p2 e EH.
Hypothesis Hpen : finite_penalty (p_opt p) r0 fac.
Let n := e_nV e.
Let S1 := St p e EH r0 fac.

Lemma to_2 v k x y a d : S1 v k x y a d -> St p2 e EH r0 fac v k x y a d.
Proof. intros []. constructor; auto. Qed.
Lemma phi_2 v k x y a d : S1 v k x y a d -> v_phi p2 v = v_phi p v.
Proof. intros SV. rewrite (phi_st p e EH r0 fac X _ _ _ _ _ _ SV). apply (phi_st p2 e EH r0 fac X2 _ _ _ _ _ _ (to_2 _ _ _ _ _ _ SV)). Qed.
Lemma compl_2 v k x y a d : S1 v k x y a d -> v_complOK p2 v = v_complOK p v.
Proof. intros SV. unfold v_complOK. rewrite (phi_2 _ _ _ _ _ _ SV). reflexivity. Qed.
Lemma gt_next {K'} (q : ops xq K') EH' (Y : exops q e EH') (gt : list xq) k : gt = fins (tab n (t_lin e r0 fac k)) ->
  match p_gphi q with None => gt | Some gp => wadd a_one (p_g q) (Fin (t_rho r0 fac (S k))) gp (p_nV q) end = fins (tab n (t_lin e r0 fac (S k))).
Proof.
  intros ->. pose proof (x_gphi _ _ _ Y) as G. pose proof (x_pV _ _ _ Y). destruct (p_gphi q) as [l|].
  - rewrite G, (x_g _ _ _ Y), (x_nV _ _ _ Y). change a_one with (Fin 1). rewrite wadd_fin. f_equal. apply tab_ext. intros i Hi. rewrite qat_tab by lia. cbn [t_lin]. ring.
  - f_equal. apply tab_ext. intros i Hi. destruct k; cbn [t_lin]; rewrite G by auto; ring.
Qed.
Lemma penalty_2 v k x y a d : S1 v k x y a d -> v_penalty p2 v = v_penalty p v.
Proof.
  intros SV. assert (R : (v_rho v * o_penaltyUpdateFactor (p_opt p))%num = Fin (t_rho r0 fac (S k))).
  { destruct Hpen as (_ & P2 & _). rewrite (s_rho' _ _ _ _ _ _ _ _ _ _ _ SV), P2, fin_mul. f_equal. unfold t_rho. cbn [Qcpower]. ring. }
  pose proof (gt_next p EH X (v_gt v) k (s_gt' _ _ _ _ _ _ _ _ _ _ _ SV)) as G1. pose proof (gt_next p2 EH X2 (v_gt v) k (s_gt' _ _ _ _ _ _ _ _ _ _ _ SV)) as G2.
  assert (F : forall (gp : option (list xq)) (w : vst xq K), v_rho w = Fin (t_rho r0 fac (S k)) -> v_gt w = v_gt v ->
    match gp with None => w | Some gp => w_gt (wadd a_one (p_g p) (v_rho w) gp (p_nV p)) w end =
    w_gt (match gp with None => v_gt v | Some gp => wadd a_one (p_g p) (Fin (t_rho r0 fac (S k))) gp (p_nV p) end) w).
  { intros [gp|] w E1 E2; [rewrite E1; reflexivity|]. rewrite <- E2. destruct w; reflexivity. }
  unfold v_penalty. change (p_opt p2) with (p_opt p). change (p_updH p2) with (p_updH p). change (p_g p2) with (p_g p) in *. change (p_nV p2) with (p_nV p) in *.
  cbv zeta. rewrite !F; [|destruct (0 <? _); solve [exact R|reflexivity]..]. rewrite G1, G2. reflexivity.
Qed.
Lemma penaltyStep_2 v k x y a d : S1 v k x y a d -> v_penaltyStep p2 v = v_penaltyStep p v.
Proof. intros SV. unfold v_penaltyStep. rewrite (penalty_2 _ _ _ _ _ _ SV). reflexivity. Qed.
Lemma leyffer_2 v k x y a d : S1 v k x y a d -> v_leyffer p2 v = v_leyffer p v.
Proof. intros SV. unfold v_leyffer. rewrite (compl_2 _ _ _ _ _ _ SV), (phi_2 _ _ _ _ _ _ SV). reflexivity. Qed.
Lemma store_2 v k x y a d : S1 v k x y a d -> v_store p2 v = v_store p v.
Proof. intros SV. unfold v_store. rewrite (phi_2 _ _ _ _ _ _ SV). reflexivity. Qed.
Ltac st := unfold S1 in *; match goal with S : St _ _ _ _ _ _ _ _ _ _ _ |- _ => destruct S; constructor; cbn; auto end.
Lemma head_2 v k x y a d : S1 v k x y a d -> v_head p2 v = v_head p v.
Proof.
  intros SV. unfold v_head. change (v_station p2 (v_step p2 v)) with (v_station p (v_step p v)).
  apply (step_st p e EH r0 fac X) in SV. apply (station_st p e EH r0 fac X) in SV. destruct SV as (SV & _).
  set (v1 := v_station p (v_step p v)) in *. clearbody v1. clear v. set (x1 := tab (e_nV e) _) in *. clearbody x1. clear x.
  apply bind_same. intros w1 E1. apply f_print in E1. subst w1.
  change (p_opt p2) with (p_opt p). rewrite (store_2 _ _ _ _ _ _ SV). apply bind_same. intros w2 E2.
  assert (S2 : S1 w2 k x1 y a d).
  { destruct (o_storeSteps (p_opt p)); [|injection E2 as <-; exact SV]. unfold v_store in E2. apply bind_ok in E2. destruct E2 as (q & _ & E2). apply bind_ok in E2. destruct E2 as (st & _ & E2). injection E2 as <-. st. }
  apply bind_same. intros w3 E3. apply f_total in E3. destruct E3 as (st & -> & _).
  apply bind_same. intros k1 _. match goal with |- context [v_leyffer p ?z] => set (w4 := z) end.
  assert (S4 : S1 w4 k x1 y a d) by (unfold w4; clear SV; st).
  clearbody w4. rewrite (leyffer_2 _ _ _ _ _ _ S4). destruct (f_leyffer p w4) as (h & Eh). destruct (v_leyffer p w4) as [b w5]. cbn [snd] in Eh. subst w5.
  assert (S5 : S1 (w_hist h w4) k x1 y a d) by (clear SV S2; st).
  rewrite (penaltyStep_2 _ _ _ _ _ _ S5). reflexivity.
Qed.

Variables (orc : oracle xq) (rand : nat -> Z) (x0 : list Qc).
Hypothesis Lx0 : len x0 = n.
Lemma pass_2 v f tr : Pst p e EH r0 fac v f -> recorded p e r0 fac tr (v_stats v) -> v_pass p2 orc rand v = v_pass p orc rand v.
Proof.
  intros Pv Rc. unfold v_pass. rewrite (head_2 _ _ _ _ _ _ Pv). apply bind_same. intros w Ew.
  destruct (head_st p e EH r0 fac X Hpen v f tr w Pv Rc Ew) as (k & Sw & _).
  change (v_statOK p2 w) with (v_statOK p w). rewrite (compl_2 _ _ _ _ _ _ Sw). destruct (v_statOK p w); [|reflexivity]. destruct (v_complOK p w); [reflexivity|].
  rewrite (penaltyStep_2 _ _ _ _ _ _ Sw). reflexivity.
Qed.
Let fin := fin_calls p e orc.
Lemma pass_fin v v' ex : v_pass p orc rand v = Ok (v', ex) -> fin (v_calls v') -> fin (v_calls v).
Proof. intros E F. apply (fin_mono p e orc v v'); auto. apply pass_calls in E. destruct E as [|(? & ? & ?)]; eauto. Qed.
Lemma loop_fin fuel : forall v r v', v_loop p fuel orc rand v = Ok (r, v') -> fin (v_calls v') -> fin (v_calls v).
Proof.
  induction fuel as [|fuel IH]; intros v r v' E F; [discriminate|]. cbn [v_loop] in E. apply bind_ok in E. destruct E as ([v1 ex] & E1 & E).
  apply (pass_fin _ _ _ E1). destruct ex; [injection E as <- <-; exact F|eauto].
Qed.
Lemma loop_2 fuel : forall v f tr r v', Pst p e EH r0 fac v f -> trace e r0 fac (p_off p) (o_solveZeroPenaltyFirst (p_opt p)) (o_perturbStep (p_opt p)) (p_solver p) x0 (f :: tr) (answers orc (v_calls v) []) ->
  recorded p e r0 fac tr (v_stats v) -> (int_dyn p -> paced p e r0 fac (f :: tr) /\ v_phase p v (phase_of p e r0 fac tr)) ->
  v_loop p fuel orc rand v = Ok (r, v') -> fin (v_calls v') -> v_loop p2 fuel orc rand v = Ok (r, v').
Proof.
  induction fuel as [|fuel IH]; intros v f tr r v' A B C D E F; [discriminate|]. cbn [v_loop] in *. rewrite (pass_2 _ _ _ A C).
  apply bind_ok in E. destruct E as ([v1 ex] & E1 & E). rewrite E1. cbn [bind]. destruct ex; [exact E|].
  pose proof (loop_fin _ _ _ _ E F) as F1.
  destruct (pass_st p e EH r0 fac X Hpen orc rand x0 v f tr v1 None A B C D E1 F1) as (f' & B' & A' & C' & D'). eapply IH; eauto.
Qed.
Lemma run_2 fuel y0 r v : v_run p fuel orc rand y0 (v_init p (fins x0)) = Ok (r, v) -> fin (v_calls v) ->
  v_run p2 fuel orc rand y0 (v_init p2 (fins x0)) = Ok (r, v).
Proof.
  unfold v_run. change (v_first p2 orc y0 (v_init p2 (fins x0))) with (v_first p orc y0 (v_init p (fins x0))). intros E F.
  apply bind_ok in E. destruct E as ([v1 ex] & E1 & E). rewrite E1. cbn [bind]. destruct ex; [exact E|]. pose proof (loop_fin _ _ _ _ E F) as F1.
  destruct (first_st p e EH r0 fac X Hpen orc x0 Lx0 _ _ _ E1 F1) as (f & A1 & A2 & A3). apply (loop_2 _ v1 f []); auto.
  intros Hd. pose proof (first_pace p _ _ _ _ E1) as Vp. split; [|exact Vp]. split; [|exact Logic.I]. destruct A2. destruct Vp as [V1 _ _]. cbn in V1. unfold phase_of. cbn. lia.
Qed.
End Zero.

(** Lower complementarity bounds that mean the same *)
(** The same data with other lower complementarity bounds.  No LCQPow code. *)
Definition with_lo (l r : option (list Qc)) (e : qdata) : qdata := mkQdata (e_nV e) (e_nC e) (e_nComp e) (e_Q e) (e_L e) (e_R e) (e_A e) (e_g e) l r.
Lemma exops_lo {K} (p : ops xq K) e l r EH : (forall k, 0 <= k < e_nComp e -> lo l k = lo (e_lbL e) k) -> (forall k, 0 <= k < e_nComp e -> lo r k = lo (e_lbR e) k) ->
  exops p (with_lo l r e) EH -> exops p e EH.
Proof.
  intros HL HR X.
  assert (EG : forall i, e_gphi (with_lo l r e) i = e_gphi e i).
  { intros i. unfold e_gphi. cbn. f_equal. f_equal; apply qsum_ext; intros k Hk; [rewrite HL by auto|rewrite HR by auto]; reflexivity. }
  assert (EP : forall x, e_phi (with_lo l r e) x = e_phi e x).
  { intros x. unfold e_phi. cbn. apply qsum_ext. intros k Hk. rewrite HL, HR by auto. reflexivity. }
  constructor; try exact (x_nV _ _ _ X); try exact (x_nC _ _ _ X); try exact (x_nComp _ _ _ X); try exact (x_pV _ _ _ X); try exact (x_pC _ _ _ X); try exact (x_pComp _ _ _ X);
    try exact (x_len _ _ _ X); try exact (x_box _ _ _ X); try exact (x_off _ _ _ X); try exact (x_g _ _ _ X); try exact (x_setH _ _ _ X); try exact (x_updH _ _ _ X);
    try exact (x_affH _ _ _ X); try exact (x_quadH _ _ _ X); try exact (x_affC _ _ _ X); try exact (x_quadQ _ _ _ X); try exact (x_tA _ _ _ X); try exact (x_mulL _ _ _ X); try exact (x_mulR _ _ _ X).
  - pose proof (x_gphi _ _ _ X) as G. cbn [with_lo e_nV] in G. destruct (p_gphi p).
    + rewrite G. f_equal. apply tab_ext. intros i _. apply EG.
    + intros i Hi. rewrite <- EG. apply G. exact Hi.
  - intros x Lx. rewrite <- EP. apply (x_phi _ _ _ X). exact Lx.
Qed.
Lemma lo_same n l l' : same_value n a_zero (option_map fins l) (option_map fins l') -> forall k, 0 <= k < n -> lo l' k = lo l k.
Proof.
  intros S k Hk. specialize (S k Hk). unfold value_of in S. change (@a_zero xq _) with (Fin 0) in S. destruct l, l'; cbn [option_map lo] in *; rewrite ?at_fins in S; congruence.
Qed.
Lemma x0_same v v' : same_meaning (to_vec v) (to_vec v') -> wf_vec (to_vec v) -> wf_vec (to_vec v') -> u_x (to_vec v') = u_x (to_vec v).
Proof. intros M V V'. exact (same_x _ _ V V' M). Qed.

Lemma p_C76_zero pr v' opt orc rand r0 fac r o : admissible pr opt -> admissible (with_vec v' pr) opt -> same_meaning (to_vec (pr_vec pr)) (to_vec v') ->
  pr_solve pr opt orc rand = Ok (r, o) -> rational_run pr opt orc o r0 fac ->
  exists o', pr_solve (with_vec v' pr) opt orc rand = Ok (r, o') /\ same_results r o o'.
Proof.
  destruct pr as [u|u]; cbn [with_vec pr_vec].
  - intros (P & W & Hq) (P' & W' & _) M E (Hp & Fc). cbn [pr_vec pr_solve] in *.
    set (u' := mkQdense v' (qd_Q u) (qd_L u) (qd_R u) (qd_A u)) in *. change (qd_v u') with v' in *.
    pose proof (sm_nV _ _ M) as NV. pose proof (sm_nC _ _ M) as NC. pose proof (sm_nComp _ _ M) as NM. pose proof (sm_g _ _ M) as NG. cbn in NV, NC, NM, NG. apply fins_inj in NG.
    pose proof (solve_dense_ref (to_dense u) opt orc rand W P (fin_lower_q _) Hq) as R1. rewrite dense_ux in R1.
    pose proof (solve_dense_ref (to_dense u') opt orc rand W' P' (fin_lower_q _) Hq) as R2.
    change (ud_v (to_dense u')) with (to_vec v') in R2.
    rewrite (x0_same (qd_v u) v' M (wu_v _ W) (wu_v _ W')) in R2. change (u_x (to_vec (qd_v u))) with (u_x (ud_v (to_dense u))) in R2. rewrite dense_ux in R2.
    rewrite (sm_y0 _ _ M) in R2. change (u_y0 (to_vec (qd_v u))) with (u_y0 (ud_v (to_dense u))) in R2.
    pose proof (dense_same (to_dense u) (to_vec v') opt (wu_v _ W) (wu_v _ W') M) as ES. change (dense_with (to_vec v') (to_dense u)) with (to_dense u') in ES.
    assert (EEH : dense_EH u' = dense_EH u) by (unfold dense_EH, dense_Cm, e_C, u'; cbn; rewrite NV, NM; reflexivity).
    pose proof (dense_exops u W P opt) as X. pose proof (dense_exops u' W' P' opt) as X'. rewrite EEH in X'.
    apply (exops_agree (with_lo (qv_lbL v') (qv_lbR v') (dense_data u))) in X'.
    2: { constructor; cbn; auto; try (intros i j _ _); rewrite ?NV; reflexivity. }
    apply exops_lo in X'; [|apply lo_same with (n := qv_nComp (qd_v u)); apply M..]. rewrite ES in X'.
    destruct (v_run (dense_ops (to_dense u) opt) _ _ _ _ _) as [[r' v]|] eqn:EV; [|rewrite E in R1; contradiction].
    pose proof R1 as Q1. rewrite E in Q1. destruct Q1 as (D & Er & RB & RI). cbn [fst snd] in *. subst r'.
    rewrite ES in R2. rewrite (run_2 _ _ _ r0 fac _ _ X X' Hp orc rand _ (dense_x0 u W) _ _ _ _ EV) in R2.
    2: { unfold fin_calls. rewrite <- (rb_calls _ _ _ RB). unfold box_duals in Fc. rewrite Hq in Fc. exact Fc. }
    eapply conclude in R2; [| | |exact R1]; [|cbn; rewrite NV; reflexivity|cbn; rewrite NV, NC, NM; reflexivity].
    rewrite E in R2. destruct (solve_dense (to_dense u') opt orc rand) as [[r2 o']|]; [|contradiction]. destruct R2 as (-> & R2). exists o'. split; [reflexivity|exact R2].
  - intros (P & W & Hq & Ho & Sy & NT & NZ) (P' & W' & _ & Ho' & Sy' & NT' & NZ') M E (Hp & Fc). cbn [pr_vec pr_solve] in *.
    set (u' := mkQsparse v' (qs_Q u) (qs_L u) (qs_R u) (qs_A u)) in *. change (qs_v u') with v' in *.
    pose proof (sm_nV _ _ M) as NV. pose proof (sm_nC _ _ M) as NC. pose proof (sm_nComp _ _ M) as NM. pose proof (sm_g _ _ M) as NG. cbn in NV, NC, NM, NG. apply fins_inj in NG.
    pose proof (solve_sparse_ref (to_sparse u) opt orc rand W P (fin_lower_q _) (sparse_nonzero u W NT NZ) Hq Ho) as R1. rewrite sparse_ux in R1.
    pose proof (solve_sparse_ref (to_sparse u') opt orc rand W' P' (fin_lower_q _) (sparse_nonzero u' W' NT' NZ') Hq Ho') as R2.
    change (us_v (to_sparse u')) with (to_vec v') in R2.
    rewrite (x0_same (qs_v u) v' M (ws_v _ W) (ws_v _ W')) in R2. change (u_x (to_vec (qs_v u))) with (u_x (us_v (to_sparse u))) in R2. rewrite sparse_ux in R2.
    rewrite (sm_y0 _ _ M) in R2. change (u_y0 (to_vec (qs_v u))) with (u_y0 (us_v (to_sparse u))) in R2.
    pose proof (sparse_same (to_sparse u) (to_vec v') opt (ws_v _ W) (ws_v _ W') M) as ES. change (sparse_with (to_vec v') (to_sparse u)) with (to_sparse u') in ES.
    pose proof (sparse_exops u W P Sy NT opt) as X. pose proof (sparse_exops u' W' P' Sy' NT' opt) as X'.
    apply (exops_agree (with_lo (qv_lbL v') (qv_lbR v') (sparse_data u))) in X'.
    2: { constructor; cbn; auto; try (intros i j _ _); rewrite ?NV; reflexivity. }
    apply exops_lo in X'; [|apply lo_same with (n := qv_nComp (qs_v u)); apply M..]. rewrite ES in X'.
    destruct (v_run (sparse_ops (to_sparse u) opt) _ _ _ _ _) as [[r' v]|] eqn:EV; [|rewrite E in R1; contradiction].
    pose proof R1 as Q1. rewrite E in Q1. destruct Q1 as (D & Er & RB & RI). cbn [fst snd] in *. subst r'.
    rewrite ES in R2. rewrite (run_2 _ _ _ r0 fac _ _ X X' Hp orc rand _ (sparse_x0 u W) _ _ _ _ EV) in R2.
    2: { unfold fin_calls. rewrite <- (rb_calls _ _ _ RB). unfold box_duals in Fc. cbn. unfold osqp. destruct (o_qpSolver opt); exact Fc. }
    eapply conclude in R2; [| | |exact R1]; [|unfold sparse_pd, sparse_pd0; destruct (osqp opt); cbn; rewrite ?NV, ?NC, ?NM; reflexivity..].
    rewrite E in R2. destruct (solve_sparse (to_sparse u') opt orc rand) as [[r2 o']|]; [|contradiction]. destruct R2 as (-> & R2). exists o'. split; [reflexivity|exact R2].
Qed.
