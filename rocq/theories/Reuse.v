(** * Reuse: runs of dense objects with a past (no LCQPow code). *)
From Verif Require Import Base Arith Codes Utilities Options Stats FileIO Subsolver State LCQProblem Tactics Loops Kernels SpecSparse CscKernels CscBuild SpecLoad LoadLoops LoadDense Pure PureShift Refine StartDense SpecReuse Frames Control.

Lemma sim_weak {A B} (R R' : A -> B -> Prop) a b : (forall x y, R x y -> R' x y) -> sim R a b -> sim R' a b.
Proof. destruct a, b; simpl; auto. Qed.

Section Reuse.
Context {T : Type} `{Arith T}.

(** The vectors with other bounds.  No LCQPow code. *)
Definition with_bounds (v : uvec T) (lL lR lb ub : option (list T)) : uvec T :=
  mkUvec (u_nV v) (u_nC v) (u_nComp v) (u_g v) lL (u_ubL v) lR (u_ubR v) (u_lbA v) (u_ubA v) lb ub (u_x0 v) (u_y0 v).
(** The problem with other vectors.  No LCQPow code. *)
Definition eff (u : udense T) (w : uvec T) : udense T := mkUdense w (ud_Q u) (ud_L u) (ud_R u) (ud_A u).

(** What an object holds that was loaded with [u] and has kept [lL], [lR], [lb], [ub].  No LCQPow code. *)
Record kept (u : udense T) (lL lR lb ub : option (list T)) (d : pdata T) : Prop := mkKept {
  k_dims : dims (ud_v u) d;
  k_sp : d_sparseSolver d = false;
  k_Q : d_Q d = Some (lift (ud_Q u));
  k_g : d_g d = Some (lift (u_g (ud_v u)));
  k_A : d_A d = Some (lift (ud_ALR u));
  k_lbA : d_lbA d = Some (lift (u_lower (ud_v u)));
  k_ubA : d_ubA d = Some (lift (u_upper (ud_v u)));
  k_L : d_L d = Some (lift (ud_L u));
  k_R : d_R d = Some (lift (ud_R u));
  k_C : d_C d = Some (lift (ud_C u));
  k_lbL : d_lbL d = ptr_of lL;
  k_lbR : d_lbR d = ptr_of lR;
  k_lbt : d_lb_tmp d = ptr_of lb;
  k_ubt : d_ub_tmp d = ptr_of ub;
  k_phi : lL = None -> lR = None -> d_g_phi d = None /\ d_phi_const d = a_zero }.

(** Sizes of the work vectors.  No LCQPow code. *)
Record sized (nV nA : Z) (s : iter T) : Prop := mkSized {
  z_gk : exists l, vec nV (s_gk s) l;
  z_yA : exists l, vec nA (s_yk_A s) l;
  z_pk : exists l, vec nV (s_pk s) l;
  z_st : exists l, vec nV (s_statk s) l;
  z_lk : room nV (s_lk_tmp s);
  z_cs : room nV (s_constr_statk s);
  z_bs : room nV (s_box_statk s);
  z_xn : room nV (s_xnew s);
  z_Qk : room (nV * nV) (s_Qk s) }.

(** The problem seen by the loop.  No LCQPow code. *)
Definition opsR (u : udense T) (w : uvec T) (opt : options T) : ops T (list T) :=
  let p := dense_ops u opt in
  mkOps T (list T) opt QPOASES_DENSE (p_nV p) (p_nC p) (p_nComp p) (p_off p) (p_box p) (p_g p) (dense_gphi (eff u w)) (u_pc w)
    (p_matH p) (p_matA p) (p_lbA p) (p_ubA p) (Some (bnd (u_nV w) (u_lb w) a_ninf)) (Some (bnd (u_nV w) (u_ub w) a_pinf))
    (p_setH p) (p_updH p) (p_affH p) (p_quadH p) (p_affC p) (p_quadC p) (p_quadQ p) (p_tA p) (p_mulL p) (p_mulR p).

(** Members after initializeSolver.  No LCQPow code. *)
Definition dR (u : udense T) (w : uvec T) (d : pdata T) : pdata T :=
  let v := ud_v u in
  let d := set_d_boxDualOffset (Some (u_nV v)) (set_d_nDuals (Some (u_nV v + u_nC v + 2 * u_nComp v)) d) in
  let d := set_d_ub (Some (lift (bnd (u_nV v) (u_ub w) a_pinf))) (set_d_lb (Some (lift (bnd (u_nV v) (u_lb w) a_ninf))) d) in
  let d := set_d_subsolver (Some (mkSub QPOASES_DENSE (u_nV v) (u_nA v) (SDense (lift (ud_Q u)) (lift (ud_ALR u))))) d in
  let d := set_d_phi_const (u_pc w) (set_d_g_phi (ptr_of (dense_gphi (eff u w))) d) in
  set_d_ub_tmp None (set_d_lb_tmp None d).

Lemma solve_fails_yk orc (d : pdata T) b s r s' : solveQPSubproblem orc d b s = Ok (r, s') -> is_success r = false ->
  s_yk s' = s_yk s \/ exists n a, d_nDuals d = Some n /\ alloc n = Ok a /\ s_yk s' = Some a.
Proof.
  unfold solveQPSubproblem. intros E F.
  apply bind_ok in E; destruct E as (sub & Esub & E). apply bind_ok in E; destruct E as (res & Eres & E). cbv beta zeta in E.
  apply bind_ok in E; destruct E as (k & Ek & E). apply bind_ok in E; destruct E as ([r1 st1] & Est & E). apply bind_ok in E; destruct E as (f & Ef & E).
  apply bind_ok in E; destruct E as (nV & EV & E). apply bind_ok in E; destruct E as (nD & ED & E).
  apply bind_ok in E; destruct E as (s1 & E1 & E). apply bind_ok in E; destruct E as (s2 & E2 & E).
  assert (Y0 : s_yk (sqp_record res s) = s_yk s) by (unfold sqp_record; destruct (sr_iter res), (sr_flag res); reflexivity).
  assert (Y1 : s_yk s1 = s_yk s).
  { match type of E1 with (match ?z with _ => _ end) = _ => destruct z end; [injection E1 as <-; exact Y0|].
    apply bind_ok in E1. destruct E1 as (a & _ & E1). injection E1 as <-. exact Y0. }
  assert (Y2 : s_yk s2 = s_yk s \/ exists n a, d_nDuals d = Some n /\ alloc n = Ok a /\ s_yk s2 = Some a).
  { destruct (s_yk s1) eqn:Y; [injection E2 as <-; left; congruence|]. apply bind_ok in E2. destruct E2 as (a & Ea & E2). injection E2 as <-.
    right. exists nD, a. split; [destruct (d_nDuals d); [injection ED as ->; reflexivity|discriminate]|]. split; [exact Ea|reflexivity]. }
  destruct (is_success (sr_ret res)) eqn:Sr; cbn [negb] in E; [|injection E as <- <-; exact Y2].
  exfalso. repeat (apply bind_ok in E; destruct E as (? & _ & E); try match type of E with (let '(_, _) := ?z in _) = _ => destruct z end).
  injection E as <- _. discriminate.
Qed.

Lemma rd_list_exact {X} (a : arr X) n l : rd_list a n = Ok l -> (length a <= n)%nat -> a = lift l /\ length l = n.
Proof.
  revert a l. induction n as [|n IH]; intros a l E L.
  - destruct a; [injection E as <-; auto|simpl in L; lia].
  - destruct a as [|[x|] a]; try discriminate. cbn in E. destruct (rd_list a n) as [l'|] eqn:E1; [|discriminate]. injection E as <-.
    destruct (IH a l' E1) as [-> L']; [simpl in L; lia|]. split; [reflexivity|simpl; lia].
Qed.

(** Room of the dual vector: never more than [n].  No LCQPow code. *)
Definition yroom (n : Z) (s : iter T) : Prop := match s_yk s with Some a => len a <= n | None => True end.

Section One.
Variables (u : udense T) (lL lR lb ub : option (list T)) (d : pdata T).
Let v := ud_v u.
Let w := with_bounds v lL lR lb ub.
Hypothesis (W : wf_dense u).
Hypothesis (FL : fits (u_nComp v) lL) (FR : fits (u_nComp v) lR) (Fl : fits (u_nV v) lb) (Fu : fits (u_nV v) ub).
Hypothesis (KD : kept u lL lR lb ub d).

Lemma eff_wf : wf_dense (eff u w).
Proof. destruct W as [[]]. constructor; cbn; auto. constructor; cbn; auto. Qed.

(** Members when initializeSolver reaches the penalty data.  No LCQPow code. *)
Let d0 : pdata T :=
  let d := set_d_boxDualOffset (Some (u_nV v)) (set_d_nDuals (Some (u_nV v + u_nC v + 2 * u_nComp v)) d) in
  let d := set_d_ub (Some (lift (bnd (u_nV v) ub a_pinf))) (set_d_lb (Some (lift (bnd (u_nV v) lb a_ninf))) d) in
  set_d_subsolver (Some (mkSub QPOASES_DENSE (u_nV v) (u_nA v) (SDense (lift (ud_Q u)) (lift (ud_ALR u))))) d.

Lemma start_gen (s : iter T) : o_qpSolver (d_options d) = QPOASES_DENSE ->
  initializeSolver (mkLcqp d s) =
  let! d := init_phi (u_nV v) (u_nComp v) d0 in
  Ok (SUCCESSFUL_RETURN, mkLcqp (set_d_ub_tmp None (set_d_lb_tmp None d)) (start_it v (d_options d) s)).
Proof.
  intros Hq. pose proof (wu_v _ W) as V. pose proof (wv_nV _ V). pose proof (wv_nC _ V). pose proof (wv_nComp _ V). pose proof (wv_int _ V).
  pose proof (wv_sq _ V). pose proof (wv_rect _ V) as HR. unfold u_nA in HR. fold v in V, H0, H1, H2, H3, H4, HR.
  destruct (k_dims _ _ _ _ _ _ KD) as (E1 & E2 & E3). fold v in E1, E2, E3.
  unfold initializeSolver, and_then_quiet at 1. unfold init_subsolver. cbn [pd it]. rewrite Hq, E1, E2, E3. cbn [get bind].
  match goal with |- context [d_sparseSolver ?z] => replace (d_sparseSolver z) with false by (symmetry; exact (k_sp _ _ _ _ _ _ KD)) end. cbn match.
  unfold and_then_quiet at 1. unfold setLB. cbn [pd].
  match goal with |- context [d_nV ?z] => replace (d_nV z) with (Some (u_nV v)) by (symmetry; exact E1) end. cbn [get bind]. replace (u_nV v =? 0) with false by lia.
  match goal with |- context [d_lb_tmp ?z] => replace (d_lb_tmp z) with (ptr_of lb) by (symmetry; exact (k_lbt _ _ _ _ _ _ KD)) end.
  rewrite box_vec_ok by (auto; lia). cbn [bind is_success].
  unfold and_then_quiet. unfold setUB. cbn [pd].
  match goal with |- context [d_nV ?z] => replace (d_nV z) with (Some (u_nV v)) by (symmetry; exact E1) end. cbn [get bind]. replace (u_nV v =? 0) with false by lia.
  match goal with |- context [d_ub_tmp ?z] => replace (d_ub_tmp z) with (ptr_of ub) by (symmetry; exact (k_ubt _ _ _ _ _ _ KD)) end.
  rewrite box_vec_ok by (auto; lia). cbn [bind is_success].
  match goal with |- context [Subsolver_dense _ _ ?q ?a] =>
    assert (E4 : Subsolver_dense (u_nV v) (u_nC v + 2 * u_nComp v) q a = Ok (mkSub QPOASES_DENSE (u_nV v) (u_nA v) (SDense (lift (ud_Q u)) (lift (ud_ALR u))))) end.
  { match goal with |- Subsolver_dense _ _ ?q ?a = _ => replace q with (Some (lift (ud_Q u))) by (symmetry; exact (k_Q _ _ _ _ _ _ KD));
      replace a with (Some (lift (ud_ALR u))) by (symmetry; exact (k_A _ _ _ _ _ _ KD)) end.
    apply (Subsolver_dense_ok (u_nV v) (u_nC v + 2 * u_nComp v) (ud_Q u) (ud_ALR u)); try lia; [exact (wu_Q _ W)|]. unfold ud_ALR. rewrite !len_app, (wu_A _ W), (wu_L _ W), (wu_R _ W). fold v. lia. }
  rewrite E4. cbn [bind is_success pd].
  match goal with |- context [d_nV ?z] => replace (d_nV z) with (Some (u_nV v)) by (symmetry; exact E1) end.
  match goal with |- context [d_nComp ?z] => replace (d_nComp z) with (Some (u_nComp v)) by (symmetry; exact E3) end. cbn [get bind].
  match goal with |- context [memcpy_ptr _ ?g _] => replace g with (Some (lift (u_g v))) by (symmetry; exact (k_g _ _ _ _ _ _ KD)) end.
  rewrite memcpy_new_k by (rewrite ?(wv_g _ V); lia).
  reflexivity.
Qed.

Lemma start_kept (s : iter T) : o_qpSolver (d_options d) = QPOASES_DENSE -> (lL = None <-> lR = None) ->
  initializeSolver (mkLcqp d s) = Ok (SUCCESSFUL_RETURN, mkLcqp (dR u w d) (start_it v (d_options d) s)).
Proof.
  intros Hq P. rewrite start_gen by auto.
  pose proof (init_phi_dense (eff u w) d0 eff_wf) as I. cbn [ud_v eff ud_L ud_R] in I.
  change (u_nV w) with (u_nV v) in I. change (u_nComp w) with (u_nComp v) in I. rewrite I; clear I.
  - reflexivity.
  - exact P.
  - exact (k_sp _ _ _ _ _ _ KD).
  - exact (k_lbL _ _ _ _ _ _ KD).
  - exact (k_lbR _ _ _ _ _ _ KD).
  - exact (k_L _ _ _ _ _ _ KD).
  - exact (k_R _ _ _ _ _ _ KD).
  - exact (k_phi _ _ _ _ _ _ KD).
Qed.
Lemma start_unpaired (s : iter T) : o_qpSolver (d_options d) = QPOASES_DENSE -> ~ (lL = None <-> lR = None) ->
  initializeSolver (mkLcqp d s) = UB NullDeref.
Proof.
  intros Hq P. rewrite start_gen by auto. pose proof (wv_nComp _ (wu_v _ W)) as Hn.
  rewrite init_phi_unpaired; [reflexivity|exact Hn|].
  change (d_lbL d0) with (d_lbL d). change (d_lbR d0) with (d_lbR d). rewrite (k_lbL _ _ _ _ _ _ KD), (k_lbR _ _ _ _ _ _ KD).
  destruct lL as [a|], lR as [b|]; cbn [ptr_of notNull isNull negb].
  - exfalso. apply P. split; discriminate.
  - left. split; [reflexivity|]. split; [reflexivity|]. intros a' E. injection E as <-. cbn [fits] in FL.
    rewrite rd_vec_ by (fold v in Hn; lia). eauto.
  - right. split; reflexivity.
  - exfalso. apply P. split; reflexivity.
Qed.

Lemma kept_wfd opt : d_options d = opt -> wfd (opsR u w opt) (dense_KR (u_nV v)) (dR u w d).
Proof.
  intros Eo. pose proof (dense_wfd u opt W) as D.
  destruct (k_dims _ _ _ _ _ _ KD) as (E1 & E2 & E3). fold v in E1, E2, E3.
  pose proof (wu_v _ W) as V. pose proof (wv_nV _ V).
  assert (A1 : forall X n x c D', dAffC (dR u w d) X x c D' n = dAffC (dense_pd u opt) X x c D' n).
  { intros. unfold dAffC. change (d_sparseSolver (dR u w d)) with (d_sparseSolver d). change (d_C (dR u w d)) with (d_C d).
    rewrite (k_sp _ _ _ _ _ _ KD), (k_C _ _ _ _ _ _ KD). reflexivity. }
  assert (A2 : forall M Ms x n, dQuad (dR u w d) M Ms x n = dQuad (dense_pd u opt) M Ms x n).
  { intros. unfold dQuad. change (d_sparseSolver (dR u w d)) with (d_sparseSolver d). rewrite (k_sp _ _ _ _ _ _ KD). reflexivity. }
  assert (A3 : forall y cs, dTA (dR u w d) y cs = dTA (dense_pd u opt) y cs).
  { intros. unfold dTA. change (d_sparseSolver (dR u w d)) with (d_sparseSolver d). change (d_A (dR u w d)) with (d_A d).
    change (d_nC (dR u w d)) with (d_nC d). change (d_nComp (dR u w d)) with (d_nComp d). change (d_nV (dR u w d)) with (d_nV d).
    rewrite (k_sp _ _ _ _ _ _ KD), E1, E2, E3, (k_A _ _ _ _ _ _ KD). reflexivity. }
  assert (A4 : forall M Ms x t m n, dMul (dR u w d) M Ms x t m n = dMul (dense_pd u opt) M Ms x t m n).
  { intros. unfold dMul. change (d_sparseSolver (dR u w d)) with (d_sparseSolver d). rewrite (k_sp _ _ _ _ _ _ KD). reflexivity. }
  assert (A5 : forall M Ms x c D' n, dAffH (dR u w d) M Ms x c D' n = dAffH (dense_pd u opt) M Ms x c D' n).
  { intros. unfold dAffH. change (d_sparseSolver (dR u w d)) with (d_sparseSolver d). rewrite (k_sp _ _ _ _ _ _ KD). reflexivity. }
  assert (A6 : forall s, updateQk (dR u w d) s = updateQk (dense_pd u opt) s).
  { intros. unfold updateQk. change (d_sparseSolver (dR u w d)) with (d_sparseSolver d). change (d_C (dR u w d)) with (d_C d). change (d_Q (dR u w d)) with (d_Q d).
    change (d_nV (dR u w d)) with (d_nV d). rewrite (k_sp _ _ _ _ _ _ KD), (k_C _ _ _ _ _ _ KD), (k_Q _ _ _ _ _ _ KD), E1. reflexivity. }
  destruct D. constructor.
  - exact Eo.
  - exact E1.
  - exact E2.
  - exact E3.
  - exact wd_nD.
  - exact wd_off.
  - exact wd_pos.
  - exact wd_solver.
  - split; [reflexivity|apply len_bnd; auto; cbn; lia].
  - split; [reflexivity|apply len_bnd; auto; cbn; lia].
  - reflexivity.
  - split; [exact (k_g _ _ _ _ _ _ KD)|apply (wv_g _ V)].
  - change (d_g_phi (dR u w d)) with (ptr_of (dense_gphi (eff u w))). cbn [opsR p_gphi]. unfold dense_gphi. cbn [eff ud_v].
    destruct (u_lbL w), (u_lbR w); cbn [optvec ptr_of]; auto. split; [reflexivity|apply len_tab; cbn; unfold v; lia].
  - reflexivity.
  - split; [exact (k_lbA _ _ _ _ _ _ KD)|exact (proj2 wd_lbA)].
  - split; [exact (k_ubA _ _ _ _ _ _ KD)|exact (proj2 wd_ubA)].
  - exact wd_sub.
  - intros. rewrite A1. apply wd_affC; auto.
  - intros. rewrite A2. change (d_C (dR u w d)) with (d_C d). rewrite (k_C _ _ _ _ _ _ KD).
    etransitivity; [|apply (wd_quadC x); assumption]. reflexivity.
  - intros. rewrite A2. change (d_Q (dR u w d)) with (d_Q d). rewrite (k_Q _ _ _ _ _ _ KD).
    etransitivity; [|apply (wd_quadQ x); assumption]. reflexivity.
  - intros. rewrite A3. apply wd_tA; auto.
  - intros. rewrite A4. change (d_L (dR u w d)) with (d_L d). rewrite (k_L _ _ _ _ _ _ KD). apply wd_L; auto.
  - intros. rewrite A4. change (d_R (dR u w d)) with (d_R d). rewrite (k_R _ _ _ _ _ _ KD). apply wd_R; auto.
  - intros. rewrite A5. eapply wd_affH; eauto.
  - intros. rewrite A2. eapply wd_quadH; eauto.
  - intros. rewrite A6. apply wd_updH; auto.
Qed.

(** The state in which the loop starts.  No LCQPow code. *)
Definition v_start (opt : options T) (x gk yA pk st : list T) (s : iter T) : vst T (list T) :=
  stale gk yA pk st (p_setH (opsR u w opt) a_zero) (s_qpIterk s) (s_qpSolverExitFlag s)
    (w_hist (s_complHistory s) (w_work (s_work s) (w_rnd (s_rnd s) (w_calls (s_calls s) (v_init (opsR u w opt) x))))).

Lemma start_relR opt x gk yA pk st (s : iter T) : vec (u_nV v) (s_gk s) gk -> vec (u_nA v) (s_yk_A s) yA -> vec (u_nV v) (s_pk s) pk ->
  vec (u_nV v) (s_statk s) st -> sized (u_nV v) (u_nA v) s -> vec (u_nV v) (s_xk s) x ->
  relB (opsR u w opt) (start_it v opt s) (v_start opt x gk yA pk st s).
Proof.
  intros E1 E2 E3 E4 Z Ex. pose proof (wu_v _ W) as V.
  assert (G : relB (opsR u w opt) (set_stats stats_reset (set_algoStat (Some PROBLEM_NOT_SOLVED) (set_totalIter 0 (set_innerIter 0 (set_outerIter 0
             (set_rho (o_initialPenaltyParameter opt) (set_alphak a_one (set_g_tilde (Some (lift (u_g v))) s))))))))
     (v_start opt x gk yA pk st s)).
  { destruct Z. constructor; try reflexivity; try assumption.
    split; [reflexivity|apply (wv_g _ V)]. }
  unfold start_it. destruct (o_printLevel opt); auto; destruct G; constructor; auto.
Qed.

Lemma run_kept orc rand x y0 gk yA pk st (s : iter T) : o_qpSolver (d_options d) = QPOASES_DENSE -> (lL = None <-> lR = None) ->
  vec (u_nV v) (s_gk s) gk -> vec (u_nA v) (s_yk_A s) yA -> vec (u_nV v) (s_pk s) pk ->
  vec (u_nV v) (s_statk s) st -> sized (u_nV v) (u_nA v) s -> vec (u_nV v) (s_xk s) x -> s_yk s = ptr_of y0 -> fits (u_nV v + u_nA v) y0 ->
  sim (fun a b => pd (snd a) = dR u w d /\ relT (opsR u w (d_options d)) (dense_KR (u_nV v)) (fst a, it (snd a)) b /\ room (u_nV v * u_nV v) (s_Qk (it (snd a))) /\ yroom (u_nV v + u_nA v) (it (snd a)))
    (runSolver orc rand (mkLcqp d s))
    (v_run (opsR u w (d_options d)) (Z.to_nat (o_maxIterations (d_options d)) + 2) orc rand y0 (v_start (d_options d) x gk yA pk st s)).
Proof.
  intros Hq P E1 E2 E3 E4 Z Ex Ey Fy. pose proof (wu_v _ W) as V. pose proof (wv_nV _ V) as Hn. fold v in V, Hn.
  unfold runSolver, runSolver_fuel. rewrite start_kept by auto. cbn [bind is_success negb pd it].
  set (opt := d_options d). set (s1 := start_it v opt s). set (fuel := (Z.to_nat (o_maxIterations opt) + 2)%nat). clearbody fuel.
  pose proof (kept_wfd opt eq_refl) as WD.
  assert (HA : relB (opsR u w opt) s1 (v_start opt x gk yA pk st s)) by (apply start_relR; auto).
  assert (HB : optvec (p_nD (opsR u w opt)) (s_yk s1) y0).
  { assert (E : s_yk s1 = ptr_of y0) by (unfold s1, start_it; destruct (o_printLevel opt); exact Ey).
    rewrite E. destruct y0; cbn [ptr_of optvec fits] in *; [|reflexivity]. split; [reflexivity|]. rewrite Fy. reflexivity. }
  assert (EQ : s_Qk s1 = s_Qk s) by (unfold s1, start_it; destruct (o_printLevel opt); reflexivity).
  assert (RQ : room (u_nV v * u_nV v) (s_Qk s1)) by (rewrite EQ; apply (z_Qk _ _ _ Z)).
  assert (HC : forall s', s_rho s' = s_rho s1 -> s_Qk s' = s_Qk s1 -> s_Qk_sparse s' = s_Qk_sparse s1 -> s_Qk_indices_of_C s' = s_Qk_indices_of_C s1 ->
     noH (opsR u w opt) (dense_KR (u_nV v)) (dR u w d) s').
  { intros s' _ E _ _. rewrite <- E in RQ. destruct (k_dims _ _ _ _ _ _ KD) as (N1 & N2 & N3).
    destruct (dense_noH u opt s' W RQ) as (q & m & i & ES & KR). exists q, m, i. split; [|exact KR]. rewrite <- ES. unfold setQk.
    change (d_sparseSolver (dR u w d)) with (d_sparseSolver d). change (d_C (dR u w d)) with (d_C d). change (d_Q (dR u w d)) with (d_Q d).
    change (d_nV (dR u w d)) with (d_nV d). rewrite (k_sp _ _ _ _ _ _ KD), (k_C _ _ _ _ _ _ KD), (k_Q _ _ _ _ _ _ KD), N1. reflexivity. }
  pose proof (first_ref (opsR u w opt) (dense_KR (u_nV v)) (dR u w d) WD orc y0 s1 _ HA HB HC) as F.
  unfold v_run. destruct (first_solve orc (dR u w d) s1) as [[s2 e]|] eqn:EF, (v_first _ _ _ _) as [[v2 e']|]; cbn [sim bind] in F |- *; try contradiction; auto.
  destruct F as (Ee & RB & Q & M). cbn [fst snd] in Ee, RB, Q, M. subst e'. destruct e as [r|].
  - cbn [sim fst snd pd it]. split; [reflexivity|]. split; [split; [reflexivity|split; [exact RB|cbn [fst]; intros ->; congruence]]|].
    assert (EQ2 : s_Qk s2 = s_Qk s1 /\ (s_yk s2 = s_yk s1 \/ exists n a, d_nDuals (dR u w d) = Some n /\ alloc n = Ok a /\ s_yk s2 = Some a)).
    { revert EF. unfold first_solve. intros EF. apply bind_ok in EF. destruct EF as (s3 & E5 & EF).
      assert (Q3 : s_Qk s3 = s_Qk s1 /\ s_yk s3 = s_yk s1).
      { destruct (o_solveZeroPenaltyFirst _); [inv_ok; split; reflexivity|]. apply updateLinearization_frame in E5. destruct E5 as (g & ->). split; reflexivity. }
      apply bind_ok in EF. destruct EF as ([r3 s4] & E6 & EF). pose proof (solveQPSubproblem_effect _ _ _ _ _ _ E6) as QE.
      destruct (is_success r3) eqn:Sr; cbn [negb] in EF.
      - apply bind_ok in EF. destruct EF as (s5 & _ & EF). discriminate.
      - injection EF as <- _. cbn. rewrite (qe_Qk _ _ _ _ QE). split; [apply Q3|].
        destruct (solve_fails_yk _ _ _ _ _ _ E6 Sr) as [Y|Y]; [left; rewrite Y; apply Q3|right; exact Y]. }
    destruct EQ2 as [-> Y2]. split; [exact RQ|]. unfold yroom. cbn [snd it]. destruct Y2 as [->|(n & a & En & Ea & ->)].
    + destruct y0; cbn [optvec] in HB; [destruct HB as [-> L]; rewrite len_lift, L|rewrite HB; exact I]. unfold p_nD, p_nA, u_nA. cbn [opsR dense_ops p_off p_nC p_nComp]. fold v. lia.
    + change (Some (u_nV v + u_nC v + 2 * u_nComp v) = Some n) in En. assert (En' : n = u_nV v + u_nC v + 2 * u_nComp v) by congruence. subst n.
      pose proof (wv_nC _ V) as B1. pose proof (wv_nComp _ V) as B2. pose proof (wv_int _ V) as B3.
      rewrite alloc_ok in Ea by lia. match type of Ea with Ok ?z = _ => assert (Ea' : a = z) by congruence end. subst a. rewrite len_fresh by lia. unfold u_nA. lia.
  - pose proof (loop_ref (opsR u w opt) (dense_KR (u_nV v)) (dR u w d) WD fuel orc rand s2 v2 M) as L.
    destruct (loop fuel orc rand (dR u w d) s2) as [[r s3]|], (v_loop _ fuel orc rand v2) as [[r' v3]|]; cbn [sim bind] in L |- *; try contradiction; auto.
    destruct L as [L1 L2]. cbn [fst snd] in L1, L2. split; [reflexivity|]. split; [split; [exact L1|split; [exact (rl_B _ _ _ _ (proj1 L2))|intros _; exact L2]]|].
    destruct (rl_h _ _ _ _ (proj1 L2)) as [EK LK]. cbn [snd it]. split; [rewrite EK; eexists; split; [reflexivity|]; rewrite len_lift; exact LK|].
    unfold yroom. destruct (rl_y _ _ _ _ (proj1 L2)) as [-> Ly]. rewrite len_lift, Ly. unfold p_nD, p_nA, u_nA. cbn [opsR dense_ops p_off p_nC p_nComp]. fold v. lia.
Qed.
Lemma run_reads_yk orc rand s r o' a : o_qpSolver (d_options d) = QPOASES_DENSE -> (lL = None <-> lR = None) ->
  runSolver orc rand (mkLcqp d s) = Ok (r, o') -> s_yk s = Some a -> len a <= u_nV v + u_nA v -> exists l, a = lift l /\ len l = u_nV v + u_nA v.
Proof.
  intros Hq P E Ey La. pose proof (wu_v _ W) as V. pose proof (wv_nV _ V) as Hn. pose proof (wv_nC _ V). pose proof (wv_nComp _ V). fold v in V, Hn.
  unfold runSolver, runSolver_fuel in E. rewrite start_kept in E by auto. cbn [bind is_success negb pd it] in E.
  apply bind_ok in E. destruct E as ([s2 e] & EF & _). unfold first_solve in EF. apply bind_ok in EF. destruct EF as (s3 & E5 & EF).
  set (s1 := start_it v (d_options d) s) in *.
  assert (Y1 : s_yk s1 = Some a) by (unfold s1, start_it; destruct (o_printLevel _); exact Ey).
  assert (Y3 : s_yk s3 = Some a).
  { destruct (o_solveZeroPenaltyFirst _); [inv_ok; exact Y1|]. apply updateLinearization_frame in E5. destruct E5 as (g & ->). exact Y1. }
  apply bind_ok in EF. destruct EF as ([r3 s4] & E6 & _). apply solveQPSubproblem_inv in E6.
  destruct E6 as (sub & res & k & f & st & Es & Er & _). change (d_subsolver (dR u w d)) with (Some (mkSub QPOASES_DENSE (u_nV v) (u_nA v) (SDense (lift (ud_Q u)) (lift (ud_ALR u))))) in Es.
  injection Es as <-. unfold sub_solve in Er. cbn [sub_qpSolver] in Er. unfold solve_qpOASES in Er. rewrite Y3 in Er. cbn [sub_nV sub_nC] in Er.
  apply bind_ok in Er. destruct Er as ([mH mA] & _ & Er).
  do 6 (apply bind_ok in Er; destruct Er as (? & _ & Er)).
  apply bind_ok in Er. destruct Er as (yl & Eyl & _). unfold rd_opt in Eyl. unfold u_nA in *. fold v in H0, H1.
  destruct (rd_list a _) as [l|] eqn:El; [|discriminate]. apply rd_list_exact in El; [|unfold len in La; lia].
  destruct El as [-> L]. exists l. split; [reflexivity|]. unfold len. lia.
Qed.

End One.

End Reuse.
