(** * SparseReuse: sparse runs on objects with a past (no LCQPow code). *)
From Verif Require Import Base Arith Codes Utilities Options Stats FileIO Subsolver State LCQProblem Tactics Loops Kernels SpecSparse CscKernels CscBuild CscMerge SpecLoad LoadLoops LoadDense LoadSparse Pure PureShift Refine StartDense StartSparse SpecReuse Frames Control Reuse ReuseFacts.

Section SparseReuse.
Context {T : Type} `{Arith T}.

(** What an object holds that was loaded with [u], whose box bounds are those it has kept.  No LCQPow code. *)
Record keptS (u : usparse T) (d : pdata T) : Prop := mkKeptS {
  ks_dims : dims (us_v u) d;
  ks_sp : d_sparseSolver d = true;
  ks_Q : d_Q_sparse d = Some (csc_of (u_nV (us_v u)) (u_nV (us_v u)) (us_Q u));
  ks_g : d_g d = Some (lift (u_g (us_v u)));
  ks_A : d_A_sparse d = Some (csc_of (u_nA (us_v u)) (u_nV (us_v u)) (us_ALR u));
  ks_lbA : d_lbA d = Some (lift (u_lower (us_v u)));
  ks_ubA : d_ubA d = Some (lift (u_upper (us_v u)));
  ks_L : d_L_sparse d = Some (csc_of (u_nComp (us_v u)) (u_nV (us_v u)) (us_L u));
  ks_R : d_R_sparse d = Some (csc_of (u_nComp (us_v u)) (u_nV (us_v u)) (us_R u));
  ks_C : d_C_sparse d = Some (csc_of (u_nV (us_v u)) (u_nV (us_v u)) (us_C u));
  ks_lbL : d_lbL d = ptr_of (u_lbL (us_v u));
  ks_lbR : d_lbR d = ptr_of (u_lbR (us_v u));
  ks_lbt : d_lb_tmp d = ptr_of (u_lb (us_v u));
  ks_ubt : d_ub_tmp d = ptr_of (u_ub (us_v u));
  ks_phi : u_lbL (us_v u) = None -> u_lbR (us_v u) = None -> d_g_phi d = None /\ d_phi_const d = a_zero }.

Lemma init_phi_kept (u : usparse T) (d : pdata T) : wf_sparse u -> paired (us_v u) -> d_sparseSolver d = true ->
  d_lbL d = ptr_of (u_lbL (us_v u)) -> d_lbR d = ptr_of (u_lbR (us_v u)) ->
  d_L_sparse d = Some (csc_of (u_nComp (us_v u)) (u_nV (us_v u)) (us_L u)) -> d_R_sparse d = Some (csc_of (u_nComp (us_v u)) (u_nV (us_v u)) (us_R u)) ->
  (u_lbL (us_v u) = None -> u_lbR (us_v u) = None -> d_g_phi d = None /\ d_phi_const d = a_zero) ->
  init_phi (u_nV (us_v u)) (u_nComp (us_v u)) d = Ok (set_d_phi_const (u_pc (us_v u)) (set_d_g_phi (ptr_of (sparse_gphi u)) d)).
Proof.
  intros W P S EL ER E1 E2 E3. pose proof (ws_v _ W) as V. pose proof (wv_nV _ V). pose proof (wv_nComp _ V). pose proof (wv_int _ V). pose proof (wv_nC _ V).
  pose proof (wv_lbL _ V) as FL. pose proof (wv_lbR _ V) as FR. pose proof (repr_csc_of _ _ _ (ws_L _ W)) as RL. pose proof (repr_csc_of _ _ _ (ws_R _ W)) as RR.
  unfold init_phi, sparse_gphi, u_pc. rewrite EL, ER, S, E1, E2. unfold paired in P.
  destruct (u_lbL (us_v u)) as [l|], (u_lbR (us_v u)) as [r|]; cbn [ptr_of notNull isNull negb orb fits] in *.
  - rewrite (for_sum _ (u_nComp (us_v u)) (fun i => (at_ a_zero l i * at_ a_zero r i)%num)); [|lia|].
    2:{ intros i s Hi. cbn [deref bind]. rewrite !rd_vec_ by lia. reflexivity. }
    cbn [bind deref]. rewrite alloc_init_ok by lia. cbn [bind]. rewrite repeat_tab.
    set (z := tab (u_nV (us_v u)) (fun _ => a_zero)). assert (Lz : len z = u_nV (us_v u)) by (apply len_tab; lia).
    rewrite (AddTransponsedMatrixMultiplication_csc_ok _ _ _ _ _ _ RR) by lia. cbn [bind].
    rewrite (AddTransponsedMatrixMultiplication_csc_ok _ _ _ _ _ _ RL) by (try lia; unfold addtmul_csc; rewrite len_tab; lia). cbn [bind].
    rewrite neg_loop by (unfold addtmul_csc; rewrite len_tab; lia). reflexivity.
  - exfalso. assert (C : Some l = None) by (apply P; reflexivity). discriminate.
  - exfalso. assert (C : Some r = None) by (apply P; reflexivity). discriminate.
  - destruct (E3 eq_refl eq_refl) as [E4 E5]. f_equal. destruct d; cbn in *. unfold set_d_g_phi, set_d_phi_const; cbn. congruence.
Qed.

(** Members after initializeSolver.  No LCQPow code. *)
Definition dS (u : usparse T) (d : pdata T) : pdata T :=
  let v := us_v u in
  let n := u_nV v in
  let d := set_d_boxDualOffset (Some n) (set_d_nDuals (Some (n + u_nC v + 2 * u_nComp v)) d) in
  let d := set_d_ub (Some (lift (bnd n (u_ub v) a_pinf))) (set_d_lb (Some (lift (bnd n (u_lb v) a_ninf))) d) in
  let d := set_d_subsolver (Some (mkSub QPOASES_SPARSE n (u_nA v) (SSparse (csc_of n n (us_Q u)) (csc_of (u_nA v) n (us_ALR u))))) d in
  let d := set_d_phi_const (u_pc v) (set_d_g_phi (ptr_of (sparse_gphi u)) d) in
  set_d_ub_tmp None (set_d_lb_tmp None d).

Section One.
Variables (u : usparse T) (d : pdata T).
Let v := us_v u.
Hypothesis (W : wf_sparse u) (NZ : concat (us_C u) <> []) (P : paired v).
Hypothesis (Hq : o_qpSolver (d_options d) = QPOASES_SPARSE).
Hypothesis (KD : keptS u d).

Lemma start_keptS (s : iter T) : initializeSolver (mkLcqp d s) = Ok (SUCCESSFUL_RETURN, mkLcqp (dS u d) (start_it v (d_options d) s)).
Proof.
  pose proof (ws_v _ W) as V. pose proof (wv_nV _ V). pose proof (wv_nC _ V). pose proof (wv_nComp _ V). pose proof (wv_int _ V).
  pose proof (wv_lb _ V) as Fl. pose proof (wv_ub _ V) as Fu.
  pose proof (wv_sq _ V). pose proof (wv_rect _ V) as HR. unfold u_nA in HR. fold v in V, Fl, Fu, H0, H1, H2, H3, H4, HR.
  destruct (ks_dims _ _ KD) as (E1 & E2 & E3). fold v in E1, E2, E3.
  assert (Hd : o_qpSolver (d_options d) <> QPOASES_DENSE) by (rewrite Hq; discriminate).
  pose proof (Subsolver_sparse_ok u (d_options d) W Hd) as SUB. cbv zeta in SUB. rewrite Hq in SUB. unfold sparse_H, osqp in SUB. rewrite Hq in SUB. fold v in SUB.
  unfold initializeSolver, and_then_quiet at 1. unfold init_subsolver. cbn [pd it]. rewrite Hq, E1, E2, E3. cbn [get bind].
  match goal with |- context [d_sparseSolver ?z] => replace (d_sparseSolver z) with true by (symmetry; exact (ks_sp _ _ KD)) end. cbn [negb].
  unfold and_then_quiet at 1. unfold setLB. cbn [pd].
  match goal with |- context [d_nV ?z] => replace (d_nV z) with (Some (u_nV v)) by (symmetry; exact E1) end. cbn [get bind]. replace (u_nV v =? 0) with false by lia.
  match goal with |- context [d_lb_tmp ?z] => replace (d_lb_tmp z) with (ptr_of (u_lb v)) by (symmetry; exact (ks_lbt _ _ KD)) end.
  rewrite box_vec_ok by (auto; lia). cbn [bind is_success].
  unfold and_then_quiet. unfold setUB. cbn [pd].
  match goal with |- context [d_nV ?z] => replace (d_nV z) with (Some (u_nV v)) by (symmetry; exact E1) end. cbn [get bind]. replace (u_nV v =? 0) with false by lia.
  match goal with |- context [d_ub_tmp ?z] => replace (d_ub_tmp z) with (ptr_of (u_ub v)) by (symmetry; exact (ks_ubt _ _ KD)) end.
  rewrite box_vec_ok by (auto; lia). cbn [bind is_success].
  match goal with |- context [Subsolver_sparse _ _ ?q ?a _] =>
    replace q with (Some (csc_of (u_nV v) (u_nV v) (us_Q u))) by (symmetry; exact (ks_Q _ _ KD));
    replace a with (Some (csc_of (u_nA v) (u_nV v) (us_ALR u))) by (symmetry; exact (ks_A _ _ KD)) end.
  rewrite SUB. cbn [bind is_success pd].
  match goal with |- context [d_nV ?z] => replace (d_nV z) with (Some (u_nV v)) by (symmetry; exact E1) end.
  match goal with |- context [d_nComp ?z] => replace (d_nComp z) with (Some (u_nComp v)) by (symmetry; exact E3) end. cbn [get bind].
  match goal with |- context [memcpy_ptr _ ?g _] => replace g with (Some (lift (u_g v))) by (symmetry; exact (ks_g _ _ KD)) end.
  rewrite memcpy_new_k by (rewrite ?(wv_g _ V); lia). cbn [bind].
  rewrite (init_phi_kept u); [reflexivity|exact W|exact P|exact (ks_sp _ _ KD)|exact (ks_lbL _ _ KD)|exact (ks_lbR _ _ KD)|exact (ks_L _ _ KD)|exact (ks_R _ _ KD)|exact (ks_phi _ _ KD)].
Qed.

Let opt := d_options d.
Lemma osqp_no : osqp opt = false.
Proof. unfold osqp, opt. rewrite Hq. reflexivity. Qed.
Lemma osqp_ok_ : osqp_ok v opt.
Proof. intros C. unfold opt in C. rewrite Hq in C. discriminate. Qed.

Lemma keptS_wfd : wfd (sparse_ops u opt) (sparse_KR u) (dS u d).
Proof.
  assert (Hd : o_qpSolver opt <> QPOASES_DENSE) by (unfold opt; rewrite Hq; discriminate).
  pose proof (sparse_wfd u opt W NZ Hd osqp_ok_) as D.
  destruct (ks_dims _ _ KD) as (E1 & E2 & E3). fold v in E1, E2, E3.
  pose proof (ws_v _ W) as V. pose proof (wv_nV _ V).
  assert (ON : osqp opt = false) by exact osqp_no.
  assert (F : d_sparseSolver (sparse_pd u opt) = true) by apply sparse_flag.
  assert (C : d_C_sparse (sparse_pd u opt) = Some (csc_of (u_nV v) (u_nV v) (us_C u))) by (apply sparse_Ccsc; exact NZ).
  assert (EQ : d_Q_sparse (sparse_pd u opt) = Some (csc_of (u_nV v) (u_nV v) (us_Q u))) by (unfold sparse_pd, sparse_pd0; rewrite ON; reflexivity).
  assert (EA : d_A_sparse (sparse_pd u opt) = Some (csc_of (u_nA v) (u_nV v) (us_ALR u))) by (unfold sparse_pd, sparse_pd0; rewrite ON; reflexivity).
  assert (EL : d_L_sparse (sparse_pd u opt) = Some (csc_of (u_nComp v) (u_nV v) (us_L u))) by (unfold sparse_pd, sparse_pd0; rewrite ON; reflexivity).
  assert (ER : d_R_sparse (sparse_pd u opt) = Some (csc_of (u_nComp v) (u_nV v) (us_R u))) by (unfold sparse_pd, sparse_pd0; rewrite ON; reflexivity).
  assert (S : d_sparseSolver (dS u d) = true) by exact (ks_sp _ _ KD).
  assert (C' : d_C_sparse (dS u d) = d_C_sparse (sparse_pd u opt)) by (rewrite C; exact (ks_C _ _ KD)).
  assert (Q' : d_Q_sparse (dS u d) = d_Q_sparse (sparse_pd u opt)) by (rewrite EQ; exact (ks_Q _ _ KD)).
  assert (A' : d_A_sparse (dS u d) = d_A_sparse (sparse_pd u opt)) by (rewrite EA; exact (ks_A _ _ KD)).
  assert (L' : d_L_sparse (dS u d) = d_L_sparse (sparse_pd u opt)) by (rewrite EL; exact (ks_L _ _ KD)).
  assert (R' : d_R_sparse (dS u d) = d_R_sparse (sparse_pd u opt)) by (rewrite ER; exact (ks_R _ _ KD)).
  assert (O' : d_options (dS u d) = d_options (sparse_pd u opt)) by (unfold sparse_pd, sparse_pd0; rewrite ON; reflexivity).
  assert (A1 : forall X n x c D', dAffC (dS u d) X x c D' n = dAffC (sparse_pd u opt) X x c D' n) by (intros; unfold dAffC; rewrite S, F, C'; reflexivity).
  assert (A2 : forall M M' Ms x n, dQuad (dS u d) M Ms x n = dQuad (sparse_pd u opt) M' Ms x n) by (intros; unfold dQuad; rewrite S, F; reflexivity).
  assert (A3 : forall y cs, dTA (dS u d) y cs = dTA (sparse_pd u opt) y cs) by (intros; unfold dTA; rewrite S, F, A'; reflexivity).
  assert (A4 : forall M M' Ms x t m n, dMul (dS u d) M Ms x t m n = dMul (sparse_pd u opt) M' Ms x t m n) by (intros; unfold dMul; rewrite S, F; reflexivity).
  assert (A5 : forall M Ms x c D' n, dAffH (dS u d) M Ms x c D' n = dAffH (sparse_pd u opt) M Ms x c D' n) by (intros; unfold dAffH; rewrite S, F; reflexivity).
  assert (A6 : forall s, updateQk (dS u d) s = updateQk (sparse_pd u opt) s) by (intros; unfold updateQk; rewrite S, F, C', O'; reflexivity).
  assert (PD : sparse_pd u opt = sparse_pd u opt) by reflexivity. unfold sparse_pd at 2, sparse_pd0 in PD. rewrite ON in PD.
  destruct D. constructor.
  - reflexivity.
  - exact E1.
  - exact E2.
  - exact E3.
  - rewrite <- wd_nD, PD. reflexivity.
  - rewrite <- wd_off, PD. reflexivity.
  - exact wd_pos.
  - exact wd_solver.
  - rewrite PD in wd_lb. exact wd_lb.
  - rewrite PD in wd_ub. exact wd_ub.
  - exact wd_box.
  - split; [exact (ks_g _ _ KD)|apply (wv_g _ V)].
  - rewrite PD in wd_gphi. exact wd_gphi.
  - rewrite PD in wd_pc. exact wd_pc.
  - split; [exact (ks_lbA _ _ KD)|exact (proj2 wd_lbA)].
  - split; [exact (ks_ubA _ _ KD)|exact (proj2 wd_ubA)].
  - rewrite PD in wd_sub. unfold sparse_H in wd_sub. rewrite ON in wd_sub.
    destruct wd_sub as (sub & X1 & X2). exists sub. split; [|exact X2]. rewrite <- X1. reflexivity.
  - intros. rewrite A1. apply wd_affC; auto.
  - intros. rewrite C', (A2 _ (d_C (sparse_pd u opt))). apply (wd_quadC x). assumption.
  - intros. rewrite Q', (A2 _ (d_Q (sparse_pd u opt))). apply (wd_quadQ x). assumption.
  - intros. rewrite A3. apply wd_tA; auto.
  - intros. rewrite L', (A4 _ (d_L (sparse_pd u opt))). apply wd_L; auto.
  - intros. rewrite R', (A4 _ (d_R (sparse_pd u opt))). apply wd_R; auto.
  - intros. rewrite A5. eapply wd_affH; eauto.
  - intros. rewrite (A2 M M). eapply wd_quadH; eauto.
  - intros. rewrite A6. apply wd_updH; auto.
Qed.

Lemma keptS_noH s : s_Qk_indices_of_C s = [] -> noH (sparse_ops u opt) (sparse_KR u) (dS u d) s.
Proof.
  intros E. destruct (sparse_noH u opt s W NZ E) as (q & m & i & ES & KR). exists q, m, i. split; [|exact KR]. rewrite <- ES.
  destruct (ks_dims _ _ KD) as (E1 & _).
  assert (EV : d_nV (sparse_pd u opt) = Some (u_nV v)) by (unfold sparse_pd, sparse_pd0; rewrite osqp_no; reflexivity).
  assert (EQ : d_Q_sparse (sparse_pd u opt) = Some (csc_of (u_nV v) (u_nV v) (us_Q u))) by (unfold sparse_pd, sparse_pd0; rewrite osqp_no; reflexivity).
  unfold setQk. rewrite sparse_flag, EV, EQ, (sparse_Ccsc u opt NZ).
  change (d_sparseSolver (dS u d)) with (d_sparseSolver d). change (d_C_sparse (dS u d)) with (d_C_sparse d). change (d_Q_sparse (dS u d)) with (d_Q_sparse d).
  change (d_nV (dS u d)) with (d_nV d). rewrite (ks_sp _ _ KD), (ks_C _ _ KD), (ks_Q _ _ KD), E1. reflexivity.
Qed.

(** The state in which the loop starts.  No LCQPow code. *)
Definition v_startS (x gk yA pk st : list T) (s : iter T) : vst T (@tag T -> T) :=
  stale gk yA pk st (p_setH (sparse_ops u opt) a_zero) (s_qpIterk s) (s_qpSolverExitFlag s)
    (w_hist (s_complHistory s) (w_work (s_work s) (w_rnd (s_rnd s) (w_calls (s_calls s) (v_init (sparse_ops u opt) x))))).

Lemma start_relS x gk yA pk st (s : iter T) : vec (u_nV v) (s_gk s) gk -> vec (u_nA v) (s_yk_A s) yA -> vec (u_nV v) (s_pk s) pk ->
  vec (u_nV v) (s_statk s) st -> sized (u_nV v) (u_nA v) s -> vec (u_nV v) (s_xk s) x ->
  relB (sparse_ops u opt) (start_it v opt s) (v_startS x gk yA pk st s).
Proof.
  intros E1 E2 E3 E4 Z Ex. pose proof (ws_v _ W) as V.
  assert (G : relB (sparse_ops u opt) (set_stats stats_reset (set_algoStat (Some PROBLEM_NOT_SOLVED) (set_totalIter 0 (set_innerIter 0 (set_outerIter 0
             (set_rho (o_initialPenaltyParameter opt) (set_alphak a_one (set_g_tilde (Some (lift (u_g v))) s))))))))
     (v_startS x gk yA pk st s)).
  { destruct Z. constructor; try reflexivity; try assumption.
    split; [reflexivity|apply (wv_g _ V)]. }
  unfold start_it. destruct (o_printLevel opt); auto; destruct G; constructor; auto.
Qed.

Lemma run_keptS orc rand x y0 gk yA pk st (s : iter T) :
  vec (u_nV v) (s_gk s) gk -> vec (u_nA v) (s_yk_A s) yA -> vec (u_nV v) (s_pk s) pk ->
  vec (u_nV v) (s_statk s) st -> sized (u_nV v) (u_nA v) s -> vec (u_nV v) (s_xk s) x -> s_yk s = ptr_of y0 -> fits (u_nV v + u_nA v) y0 ->
  s_Qk_indices_of_C s = [] ->
  sim (fun a b => pd (snd a) = dS u d /\ relT (sparse_ops u opt) (sparse_KR u) (fst a, it (snd a)) b)
    (runSolver orc rand (mkLcqp d s))
    (v_run (sparse_ops u opt) (Z.to_nat (o_maxIterations opt) + 2) orc rand y0 (v_startS x gk yA pk st s)).
Proof.
  intros E1 E2 E3 E4 Z Ex Ey Fy IX. pose proof (ws_v _ W) as V. pose proof (wv_nV _ V) as Hn. fold v in V, Hn.
  unfold runSolver, runSolver_fuel. rewrite start_keptS by auto. cbn [bind is_success negb pd it].
  fold opt. set (s1 := start_it v opt s). set (fuel := (Z.to_nat (o_maxIterations opt) + 2)%nat).
  pose proof (run_ref (sparse_ops u opt) (sparse_KR u) (dS u d) keptS_wfd fuel orc rand y0 s1 (v_startS x gk yA pk st s)) as R.
  match type of R with ?A -> ?B -> ?C -> _ => assert (HA : A); [|assert (HB : B); [|assert (HC : C)]] end.
  - apply start_relS; auto.
  - assert (E : s_yk s1 = ptr_of y0) by (unfold s1, start_it; destruct (o_printLevel opt); exact Ey).
    rewrite E. destruct y0; cbn [ptr_of optvec fits] in *; [|reflexivity]. split; [reflexivity|]. rewrite Fy. unfold p_nD, p_nA. cbn [sparse_ops p_off p_nC p_nComp].
    rewrite osqp_no. reflexivity.
  - intros s' _ _ _ E. apply keptS_noH. rewrite E. unfold s1, start_it. destruct (o_printLevel opt); exact IX.
  - specialize (R HA HB HC). unfold run_after in R.
    destruct (first_solve orc (dS u d) s1) as [[s2 [r|]]|e]; cbn [bind] in *.
    + destruct (v_run _ _ _ _ _ _); cbn [sim] in *; [|contradiction]. split; [reflexivity|exact R].
    + destruct (loop fuel orc rand (dS u d) s2) as [[r s3]|e]; cbn [bind] in *;
        (destruct (v_run _ _ _ _ _ _); cbn [sim] in *; [|contradiction || exact R]); [split; [reflexivity|exact R]|contradiction].
    + exact R.
Qed.

(** A loaded object runs like a new one loaded with the same data *)
Lemma run_like_freshS s orc rand : fin_lower v -> sized (u_nV v) (u_nA v) s -> s_xk s = Some (lift (u_x v)) -> s_yk s = ptr_of (u_y0 v) ->
  s_Qk_indices_of_C s = [] -> (o_nDynamicPenalty opt = 0 \/ s_complHistory s = []) ->
  alike (s_calls s) (runSolver orc rand (mkLcqp d s)) (solve_sparse u opt (after_calls (s_calls s) orc) (after_draws (s_rnd s) rand)).
Proof.
  intros F Z Exk Eyk IX Hh. pose proof (ws_v _ W) as V. pose proof (wv_nV _ V) as Hn. fold v in V, Hn.
  destruct (z_gk _ _ _ Z) as (gk & Egk), (z_yA _ _ _ Z) as (yA & EyA), (z_pk _ _ _ Z) as (pk & Epk), (z_st _ _ _ Z) as (st & Est).
  assert (Vx : vec (u_nV v) (s_xk s) (u_x v)) by (split; [exact Exk|apply len_bnd; [lia|apply V]]).
  pose proof (run_keptS orc rand _ _ gk yA pk st s Egk EyA Epk Est Z Vx Eyk (wv_y0 _ V) IX) as R.
  assert (Hd : o_qpSolver opt <> QPOASES_DENSE) by (unfold opt; rewrite Hq; discriminate).
  pose proof (solve_sparse_ref u opt (after_calls (s_calls s) orc) (after_draws (s_rnd s) rand) W P F NZ Hd osqp_ok_) as R2.
  set (k := if o_nDynamicPenalty opt =? 0 then Some (s_complHistory s) else None).
  assert (Ek : v_startS (u_x v) gk yA pk st s =
    stale gk yA pk st (p_setH (sparse_ops u opt) a_zero) (s_qpIterk s) (s_qpSolverExitFlag s) (sh (s_calls s) (s_rnd s) (s_work s) k (v_init (sparse_ops u opt) (u_x v)))).
  { unfold v_startS, k, sh. destruct (Z.eqb_spec (o_nDynamicPenalty opt) 0) as [E|E]; [reflexivity|]. destruct Hh as [C|C]; [congruence|]. rewrite C. reflexivity. }
  rewrite Ek in R.
  eapply alike_of; [| |exact R|exact R2|].
  - change (d_nV (dS u d)) with (d_nV d). rewrite (proj1 (ks_dims _ _ KD)). unfold sparse_pd, sparse_pd0. rewrite osqp_no. reflexivity.
  - unfold sparse_pd, sparse_pd0. rewrite osqp_no. reflexivity.
  - apply sh_run.
    + unfold k. change (p_opt (sparse_ops u opt)) with opt.
      destruct (Z.eqb_spec (o_nDynamicPenalty opt) 0) as [E|E]; [auto|]. intros C. destruct C. reflexivity.
    + cbn [sparse_ops p_solver]. change (o_qpSolver opt <> OSQP_SPARSE). unfold opt. rewrite Hq. discriminate.
Qed.

End One.

Lemma p_C25_sparse_boxes h o (u : usparse T) opt orc rand : used (u_nV (us_v u)) (u_nC (us_v u)) (u_nComp (us_v u)) h o ->
  wf_sparse u -> fin_lower (us_v u) -> paired (us_v u) -> concat (us_C u) <> [] ->
  o_qpSolver opt = QPOASES_SPARSE -> renewed u_lbL (us_v u) h -> renewed u_lbR (us_v u) h ->
  (o_nDynamicPenalty opt = 0 \/ forall opt', In (URun opt') h -> o_nDynamicPenalty opt' = 0) ->
  alike (s_calls (it o)) (load_run_sparse u orc rand (setOptions opt o))
    (solve_sparse (with_boxes_sparse h u) opt (after_calls (s_calls (it o)) orc) (after_draws (s_rnd (it o)) rand)).
Proof.
  intros U W F P NZ Hq RL RR Hh. pose proof (ws_v _ W) as V.
  pose proof (used_inv _ _ _ V U) as [D S Z Y X Q IX (lL & lR & lb & ub & Fi & (B1 & B2 & B3 & B4) & Ph & L & C1 & C2 & C3 & C4) I].
  set (o1 := setOptions opt o).
  assert (E : load_sparse u o1 = Ok (SUCCESSFUL_RETURN, loaded_sparse u o1)) by (apply load_sparse_ok; auto).
  unfold load_run_sparse. rewrite E. cbn [bind is_success].
  assert (N : forall f x h', renewed f (us_v u) h' -> ((forall c, In c h' -> given f c = None) -> x = None) -> newer (f (us_v u)) x = f (us_v u)).
  { intros f x h' [A|A] B; [destruct (f (us_v u)); [reflexivity|congruence]|]. rewrite (B A). destruct (f (us_v u)); reflexivity. }
  pose proof (N u_lbL lL h RL C1) as N1. pose proof (N u_lbR lR h RR C2) as N2. subst lb ub.
  assert (K : keptS (with_boxes_sparse h u) (pd (loaded_sparse u o1))).
  { constructor; try reflexivity.
    - exact D.
    - change ((if len (concat (us_C u)) =? 0 then None else Some (csc_of (u_nV (us_v u)) (u_nV (us_v u)) (us_C u))) = Some (csc_of (u_nV (us_v u)) (u_nV (us_v u)) (us_C u))).
      destruct (concat (us_C u)) eqn:Ec; [congruence|]. rewrite len_cons. pose proof (len_nonneg l). replace (len l + 1 =? 0) with false by lia. reflexivity.
    - change (keep (u_lbL (us_v u)) (d_lbL (pd o)) = ptr_of (u_lbL (us_v u))). rewrite B1, keep_newer, N1. reflexivity.
    - change (keep (u_lbR (us_v u)) (d_lbR (pd o)) = ptr_of (u_lbR (us_v u))). rewrite B2, keep_newer, N2. reflexivity.
    - change (keep (u_lb (us_v u)) (d_lb_tmp (pd o)) = ptr_of (newer (u_lb (us_v u)) (latest u_lb (since_run h)))). rewrite B3. apply keep_newer.
    - change (keep (u_ub (us_v u)) (d_ub_tmp (pd o)) = ptr_of (newer (u_ub (us_v u)) (latest u_ub (since_run h)))). rewrite B4. apply keep_newer.
    - change (u_lbL (us_v u) = None -> u_lbR (us_v u) = None -> d_g_phi (pd o) = None /\ d_phi_const (pd o) = a_zero).
      intros A1 A2. rewrite A1 in N1. rewrite A2 in N2. apply Ph; assumption. }
  change (s_calls (it o)) with (s_calls (it (loaded_sparse u o1))). change (s_rnd (it o)) with (s_rnd (it (loaded_sparse u o1))).
  change opt with (d_options (pd (loaded_sparse u o1))).
  change (loaded_sparse u o1) with (mkLcqp (pd (loaded_sparse u o1)) (it (loaded_sparse u o1))) at 2.
  apply (run_like_freshS (with_boxes_sparse h u) (pd (loaded_sparse u o1))); auto; try reflexivity.
  - destruct W as [V' ? ? ? ?]; constructor; try assumption. destruct V'. destruct Fi as (_ & _ & Fi1 & Fi2).
    constructor; try assumption; cbn; [destruct (u_lb (us_v u))|destruct (u_ub (us_v u))]; assumption.
  - apply sized_guessed. exact Z.
  - destruct Hh as [Hh|Hh]; [left; exact Hh|right; exact (I Hh)].
Qed.

Lemma p_C25_sparse h o (u : usparse T) opt orc rand : used (u_nV (us_v u)) (u_nC (us_v u)) (u_nComp (us_v u)) h o ->
  wf_sparse u -> fin_lower (us_v u) -> paired (us_v u) -> concat (us_C u) <> [] -> o_qpSolver opt = QPOASES_SPARSE ->
  renewed u_lbL (us_v u) h -> renewed u_lbR (us_v u) h -> renewed u_lb (us_v u) (since_run h) -> renewed u_ub (us_v u) (since_run h) ->
  (o_nDynamicPenalty opt = 0 \/ forall opt', In (URun opt') h -> o_nDynamicPenalty opt' = 0) ->
  alike (s_calls (it o)) (load_run_sparse u orc rand (setOptions opt o))
    (solve_sparse u opt (after_calls (s_calls (it o)) orc) (after_draws (s_rnd (it o)) rand)).
Proof.
  intros U W F P NZ Hq RL RR Rl Ru Hh. rewrite <- (boxes_own_sparse h u Rl Ru) at 2. eapply p_C25_sparse_boxes; eauto.
Qed.

End SparseReuse.
