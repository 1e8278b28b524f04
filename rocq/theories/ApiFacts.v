(** * ApiFacts: calls with missing data and calls at the wrong time (no LCQPow code). *)
From Verif Require Import Base Arith Codes Utilities Options Stats FileIO Subsolver State LCQProblem Tactics Loops Kernels SpecSparse CscKernels CscBuild SpecLoad LoadLoops LoadDense LoadSparse
  Pure Refine StartDense StartSparse SpecRun Spec RunControl QPHistory RunStats RunFacts RunProps SpecApi.

Section ApiFacts.
Context {T : Type} `{Arith T}.

(** ** Missing data *)
Lemma memcpy_null (dst : arr T) n : 0 < n -> memcpy_ptr dst None n = UB NullDeref.
Proof. intros. unfold memcpy_ptr. replace (n =? 0) with false by lia. reflexivity. Qed.
Lemma copy_loop_null (dst : arr T) o n : 0 < n -> copy_loop dst o None n = UB NullDeref.
Proof. intros. unfold copy_loop. rewrite for_cons by lia. reflexivity. Qed.

Ltac dsizes u := pose proof (wu_v _ u) as V; pose proof (wv_nV _ V); pose proof (wv_nC _ V); pose proof (wv_nComp _ V); pose proof (wv_int _ V); pose proof (wv_sq _ V); pose proof (wv_rect _ V) as HR; unfold u_nA in HR.
Ltac ssizes u := pose proof (ws_v _ u) as V; pose proof (wv_nV _ V); pose proof (wv_nC _ V); pose proof (wv_nComp _ V); pose proof (wv_int _ V); pose proof (wv_sq _ V); pose proof (wv_rect _ V) as HR; unfold u_nA in HR.

Lemma load_dense_noQ k u (o : lcqp T) : wf_dense u -> dims (ud_v u) (pd o) -> pa_Q k = false -> load_dense_part k u o = UB NullDeref.
Proof.
  intros W (E1 & E2 & E3) HQ. dsizes W. unfold load_dense_part, loadLCQP. rewrite E1, E3, HQ. cbn [get bind].
  replace (u_nV (ud_v u) <=? 0) with false by lia. replace (u_nComp (ud_v u) <=? 0) with false by lia.
  unfold and_then at 1, setQ. rewrite E1. cbn [get bind]. replace (u_nV (ud_v u) <=? 0) with false by lia.
  rewrite alloc_ok by nia. cbn [bind arg]. rewrite memcpy_null by nia. reflexivity.
Qed.
Lemma load_dense_nog k u (o : lcqp T) : wf_dense u -> dims (ud_v u) (pd o) -> pa_Q k = true -> pa_g k = false ->
  exists o', load_dense_part k u o = Ok (INVALID_OBJECTIVE_LINEAR_TERM, o').
Proof.
  intros W (E1 & E2 & E3) HQ Hg. dsizes W. unfold load_dense_part, loadLCQP. rewrite E1, E3, HQ, Hg. cbn [get bind].
  replace (u_nV (ud_v u) <=? 0) with false by lia. replace (u_nComp (ud_v u) <=? 0) with false by lia.
  unfold and_then at 1, setQ. rewrite E1. cbn [get bind arg]. replace (u_nV (ud_v u) <=? 0) with false by lia.
  rewrite memcpy_new_k by (rewrite ?(wu_Q _ W); lia). cbn [bind is_success].
  unfold and_then at 1, setG. cbn [pd]. match goal with |- context [get (d_nV ?z)] => change (d_nV z) with (d_nV (pd o)) end. rewrite E1. cbn [get bind].
  replace (u_nV (ud_v u) =? 0) with false by lia. cbn [isNull bind]. cbn [is_success]. eexists. reflexivity.
Qed.

(** The first two steps and the box of a dense load with Q and g *)
Lemma load_dense_upto k u (o : lcqp T) : wf_dense u -> dims (ud_v u) (pd o) -> pa_Q k = true -> pa_g k = true ->
  let v := ud_v u in
  exists o1, dims v (pd o1) /\ load_dense_part k u o =
    and_then (setConstraints (arg (pa_L k) (lift (ud_L u))) (arg (pa_R k) (lift (ud_R u))) (arg (pa_A k) (lift (ud_A u))) (ptr_of (u_lbA v)) (ptr_of (u_ubA v)) o1) (fun o =>
    and_then (setComplementarityBounds (ptr_of (u_lbL v)) (ptr_of (u_ubL v)) (ptr_of (u_lbR v)) (ptr_of (u_ubR v)) o) (fun o =>
    and_then (setInitialGuess (ptr_of (u_x0 v)) (ptr_of (u_y0 v)) o) (fun o =>
    Ok (SUCCESSFUL_RETURN, mkLcqp (set_d_sparseSolver false (pd o)) (it o))))).
Proof.
  intros W (E1 & E2 & E3) HQ Hg v. dsizes W. unfold load_dense_part, loadLCQP. rewrite E1, E3, HQ, Hg. cbn [get bind arg].
  replace (u_nV (ud_v u) <=? 0) with false by lia. replace (u_nComp (ud_v u) <=? 0) with false by lia.
  unfold and_then at 1. unfold setQ. rewrite E1. cbn [get bind]. replace (u_nV (ud_v u) <=? 0) with false by lia.
  rewrite memcpy_new_k by (rewrite ?(wu_Q _ W); lia). cbn [bind is_success].
  unfold and_then at 1. rewrite (setG_ok (ud_v u)) by (auto; repeat split; auto). cbn [bind is_success].
  rewrite (copy_box_ok (ud_v u)) by (auto; repeat split; auto). cbn [bind].
  eexists. split; [|reflexivity]. repeat split; auto.
Qed.

Lemma load_dense_noA k u (o : lcqp T) : wf_dense u -> dims (ud_v u) (pd o) -> pa_Q k = true -> pa_g k = true -> pa_A k = false -> 0 < u_nC (ud_v u) ->
  exists o', load_dense_part k u o = Ok (INVALID_CONSTRAINT_MATRIX, o').
Proof.
  intros W D HQ Hg HA HC. dsizes W. destruct (load_dense_upto k u o W D HQ Hg) as (o1 & (E1 & E2 & E3) & ->).
  unfold and_then at 1, setConstraints. rewrite E1, E2, E3, HA. cbn [get bind arg].
  replace (u_nV (ud_v u) =? 0) with false by lia. replace (u_nComp (ud_v u) =? 0) with false by lia. cbn [orb isNull].
  replace (0 <? u_nC (ud_v u)) with true by lia. cbn [andb bind is_success]. eexists; reflexivity.
Qed.
Lemma load_dense_noLR k u (o : lcqp T) : wf_dense u -> dims (ud_v u) (pd o) -> pa_Q k = true -> pa_g k = true -> pa_A k = true \/ u_nC (ud_v u) = 0 ->
  pa_L k = false \/ pa_R k = false -> load_dense_part k u o = UB NullDeref.
Proof.
  intros W D HQ Hg HA HLR. dsizes W. destruct (load_dense_upto k u o W D HQ Hg) as (o1 & (E1 & E2 & E3) & ->).
  unfold and_then at 1, setConstraints. rewrite E1, E2, E3. cbn [get bind].
  set (v := ud_v u) in *. set (nV := u_nV v) in *. set (nC := u_nC v) in *. set (nK := u_nComp v) in *.
  pose proof (wu_L _ W) as LL. pose proof (wu_R _ W) as LR. pose proof (wu_A _ W) as LA. fold v nV nC nK in LL, LR, LA.
  replace (nV =? 0) with false by lia. replace (nK =? 0) with false by lia. cbn [orb].
  replace (isNull (arg (pa_A k) (lift (ud_A u))) && (0 <? nC)) with false by (destruct HA as [-> | ->]; [reflexivity|destruct (pa_A k); reflexivity]).
  rewrite alloc_ok by nia. cbn [bind]. set (n := (nC + 2 * nK) * nV).
  assert (EA : copy_loop (repeat None (Z.to_nat n)) 0 (arg (pa_A k) (lift (ud_A u))) (nC * nV) = Ok (lift (ud_A u) ++ repeat None (Z.to_nat (n - nC * nV)))).
  { destruct (Z.eqb_spec nC 0) as [E|].
    - replace (nC * nV) with 0 by nia. rewrite copy_loop_0. destruct (ud_A u); [|exfalso; rewrite len_cons in LA; pose proof (len_nonneg l); nia].
      replace (n - 0) with n by lia. reflexivity.
    - destruct HA as [-> | ?]; [|lia]. cbn [arg]. rewrite copy_loop_start by (rewrite ?len_fresh; nia). rewrite drop_fresh by nia. reflexivity. }
  rewrite EA. cbn [bind].
  destruct (pa_L k) eqn:HL; cbn [arg].
  - destruct HLR as [?| ->]; [discriminate|]. rewrite copy_loop_ok by (rewrite ?len_fresh; nia). cbn [bind].
    rewrite (copy_loop_null _ _ (nK * nV)) by nia. reflexivity.
  - rewrite (copy_loop_null _ _ (nK * nV)) by nia. reflexivity.
Qed.

Lemma load_sparse_noQ k u (o : lcqp T) : wf_sparse u -> dims (us_v u) (pd o) -> pa_Q k = false -> load_sparse_part k u o = UB NullDeref.
Proof.
  intros W (E1 & E2 & E3) HQ. ssizes W. unfold load_sparse_part, loadLCQP_csc, and_then at 1, setQ_csc. rewrite E1, HQ. cbn [get bind].
  replace (u_nV (us_v u) <=? 0) with false by lia. reflexivity.
Qed.
Lemma load_sparse_nog k u (o : lcqp T) : wf_sparse u -> dims (us_v u) (pd o) -> pa_Q k = true -> pa_g k = false ->
  exists o', load_sparse_part k u o = Ok (INVALID_OBJECTIVE_LINEAR_TERM, o').
Proof.
  intros W (E1 & E2 & E3) HQ Hg. ssizes W. unfold load_sparse_part, loadLCQP_csc. unfold and_then at 1, setQ_csc. rewrite E1, HQ, Hg. cbn [get bind arg].
  replace (u_nV (us_v u) <=? 0) with false by lia.
  pose proof (ws_Q _ W) as WQ. assert (0 <= u_nV (us_v u)) by lia. pose proof (wf_cols_len (u_nV (us_v u)) _ _ ltac:(assumption) WQ).
  rewrite (copyCSC_ok _ _ _ _ (repr_csc_of _ _ _ WQ)) by lia. cbn [bind is_success].
  unfold and_then at 1, setG. match goal with |- context [get (d_nV ?z)] => change (d_nV z) with (d_nV (pd o)) end. rewrite E1. cbn [get bind].
  replace (u_nV (us_v u) =? 0) with false by lia. cbn [isNull bind is_success]. eexists; reflexivity.
Qed.
Lemma load_sparse_noLR k u (o : lcqp T) : wf_sparse u -> dims (us_v u) (pd o) -> pa_Q k = true -> pa_g k = true ->
  pa_L k = false \/ pa_R k = false -> load_sparse_part k u o = UB NullDeref.
Proof.
  intros W (E1 & E2 & E3) HQ Hg HLR. ssizes W. unfold load_sparse_part, loadLCQP_csc. unfold and_then at 1, setQ_csc. rewrite E1, HQ, Hg. cbn [get bind arg].
  replace (u_nV (us_v u) <=? 0) with false by lia.
  pose proof (ws_Q _ W) as WQ. assert (0 <= u_nV (us_v u)) by lia. pose proof (wf_cols_len (u_nV (us_v u)) _ _ ltac:(assumption) WQ).
  rewrite (copyCSC_ok _ _ _ _ (repr_csc_of _ _ _ WQ)) by lia. cbn [bind is_success].
  unfold and_then at 1. rewrite (setG_ok (us_v u)) by (auto; repeat split; auto). cbn [bind is_success].
  unfold and_then at 1, setConstraints_csc. destruct (pa_L k) eqn:HL; [|reflexivity]. destruct HLR as [?| ->]; [discriminate|]. cbn [arg].
  pose proof (ws_L _ W) as WL. assert (0 <= u_nComp (us_v u)) by lia. pose proof (wf_cols_len (u_nComp (us_v u)) _ _ ltac:(assumption) WL).
  rewrite (copyCSC_ok _ _ _ _ (repr_csc_of _ _ _ WL)) by nia. cbn [bind]. reflexivity.
Qed.
(** Without A the sparse load succeeds: all rows of A are taken to be zero *)
Lemma load_sparse_noA k u (o : lcqp T) : wf_sparse u -> dims (us_v u) (pd o) -> pa_Q k = true -> pa_g k = true -> pa_L k = true -> pa_R k = true -> pa_A k = false ->
  fin_lower (us_v u) -> concat (us_C u) <> [] -> exists o', load_sparse_part k u o = Ok (SUCCESSFUL_RETURN, o').
Proof.
  intros W D HQ Hg HL HR0 HA F NZ. set (u' := mkUsparse (us_v u) (us_Q u) (us_L u) (us_R u) None).
  ssizes W. assert (W' : wf_sparse u').
  { destruct W as [A1 A2 A3 A4 A5 A6]. constructor; auto. unfold us_Acols, u'. cbn [us_A us_v]. split; [|split].
    - apply len_tab; lia.
    - intros c r x Hc Hr. apply in_map_iff in Hc. destruct Hc as (i & <- & _). destruct Hr.
    - intros c Hc. apply in_map_iff in Hc. destruct Hc as (i & <- & _). constructor. }
  exists (loaded_sparse u' o). rewrite <- (load_sparse_ok u' o W' D F NZ).
  unfold load_sparse_part, load_sparse. rewrite HQ, Hg, HL, HR0, HA. reflexivity.
Qed.

(** ** Objects with invalid dimensions *)
Lemma bad_ctor nV nC nComp : bad_dims nV nC nComp -> exists e, LCQProblem_ctor nV nC nComp = Ok (logL e (@LCQProblem_default T _)).
Proof.
  unfold bad_dims, LCQProblem_ctor. intros B. destruct (Z.leb_spec nV 0); [eexists; reflexivity|]. destruct (Z.leb_spec nComp 0); [eexists; reflexivity|].
  destruct (Z.ltb_spec nC 0); [eexists; reflexivity|]. lia.
Qed.
(** An object without dimensions. No LCQPow code. *)
Definition unsized (o : lcqp T) : Prop := d_nV (pd o) = None /\ d_lb (pd o) = None /\ d_ub (pd o) = None.
Lemma unsized_unusable (o : lcqp T) : unsized o ->
  (forall Q g L R lbL ubL lbR ubR A lbA ubA lb ub x0 y0, loadLCQP Q g L R lbL ubL lbR ubR A lbA ubA lb ub x0 y0 o = UB Uninit) /\
  (forall Q g L R lbL ubL lbR ubR A lbA ubA lb ub x0 y0, loadLCQP_csc Q g L R lbL ubL lbR ubR A lbA ubA lb ub x0 y0 o = UB Uninit) /\
  (forall Q g L R lbL ubL lbR ubR A lbA ubA lb ub x0 y0, loadLCQP_files Q g L R lbL ubL lbR ubR A lbA ubA lb ub x0 y0 o = UB Uninit) /\
  (forall orc rand, runSolver orc rand o = UB Uninit).
Proof.
  intros (E1 & E2 & E3). split; [|split; [|split]]; intros.
  - unfold loadLCQP. rewrite E1. reflexivity.
  - unfold loadLCQP_csc, setQ_csc, and_then. rewrite E1. reflexivity.
  - unfold loadLCQP_files. rewrite E1. reflexivity.
  - unfold runSolver, runSolver_fuel, initializeSolver, init_subsolver, and_then_quiet. rewrite E1, E2, E3. destruct (o_qpSolver _); reflexivity.
Qed.
Lemma bad_unsized nV nC nComp opt (o : lcqp T) : bad_dims nV nC nComp -> LCQProblem_ctor nV nC nComp = Ok o -> unsized o /\ unsized (setOptions opt o).
Proof. intros B E. destruct (bad_ctor _ _ _ B) as (e & E'). rewrite E' in E. injection E as <-. repeat split. Qed.

(** ** Getters before the first run *)
Lemma ctor_getters nV nC nComp (o : lcqp T) : LCQProblem_ctor nV nC nComp = Ok o ->
  (forall buf, getPrimalSolution buf o = UB Uninit) /\ (forall buf, getDualSolution buf o = UB Uninit) /\ getNumberOfDuals o = UB Uninit.
Proof.
  intros E. assert (G : s_xk (it o) = None /\ s_yk (it o) = None /\ s_algoStat (it o) = None /\ d_nDuals (pd o) = None).
  { unfold LCQProblem_ctor in E. destruct (nV <=? 0); [injection E as <-; auto|]. destruct (nComp <=? 0); [injection E as <-; auto|].
    destruct (nC <? 0); [injection E as <-; auto|]. repeat (apply bind_ok in E; destruct E as (? & _ & E)). injection E as <-. auto. }
  destruct G as (G1 & G2 & G3 & G4). unfold getPrimalSolution, getDualSolution, getNumberOfDuals. rewrite G1, G2, G3, G4.
  split; [intros [b|]; reflexivity|]. split; [intros [b|]; reflexivity|reflexivity].
Qed.

(** ** Getters after a run *)
Lemma copy_out (l : list T) (buf : arr T) n : len l = n -> len buf = n ->
  for_ 0 n (fun i out => let! v := rd (lift l) i in wr out i v) buf = Ok (lift l).
Proof.
  intros H1 H2. pose proof (len_nonneg l).
  rewrite (for_fill1 _ (at_ a_zero l) n) by (try lia; intros i a Hi Ha _; rewrite (rd_lift a_zero) by lia; cbn [bind]; apply wr_ok; lia).
  rewrite drop_all, app_nil_r by lia. rewrite <- H1, tab_at. reflexivity.
Qed.
Lemma gives_primal_of (o : lcqp T) n x a : d_nV (pd o) = Some n -> vec n (s_xk (it o)) x -> s_algoStat (it o) = Some a -> gives_primal o n x.
Proof.
  intros H1 (H2 & H3) H4. split; [exact H3|]. exists a. intros buf Hb. unfold getPrimalSolution. rewrite H2, H1, H4. cbn [get bind].
  rewrite copy_out by lia. reflexivity.
Qed.
Lemma gives_dual_of (o : lcqp T) n y a : d_nDuals (pd o) = Some n -> vec n (s_yk (it o)) y -> s_algoStat (it o) = Some a -> gives_dual o y.
Proof.
  intros H1 (H2 & H3) H4. split; [unfold getNumberOfDuals; rewrite H1, H3; reflexivity|]. exists a. intros buf Hb. unfold getDualSolution. rewrite H2, H1, H4. cbn [get bind].
  rewrite copy_out by lia. reflexivity.
Qed.

Lemma run_algo orc rand (o : lcqp T) o1 r o' : initializeSolver o = Ok (SUCCESSFUL_RETURN, o1) -> runSolver orc rand o = Ok (r, o') -> exists a, s_algoStat (it o') = Some a.
Proof.
  intros E0 E. destruct (run_qp _ _ _ _ _ _ E) as [(o2 & E1 & Er & ->)|(o2 & E1 & Epd & CP & QP)].
  - rewrite E0 in E1. injection E1 as <- _. discriminate.
  - destruct (cp_algo _ _ _ _ CP) as (a & A1 & _). eauto.
Qed.

Lemma dense_getters u opt orc rand r (o : lcqp T) : wf_dense u -> paired (ud_v u) -> fin_lower (ud_v u) -> o_qpSolver opt = QPOASES_DENSE ->
  solve_dense u opt orc rand = Ok (r, o) ->
  (exists x, gives_primal o (u_nV (ud_v u)) x) /\ (r = SUCCESSFUL_RETURN -> exists y, len y = u_nV (ud_v u) + u_nA (ud_v u) /\ gives_dual o y).
Proof.
  intros W P F Hq E. pose proof (solve_dense_ref u opt orc rand W P F Hq) as R. rewrite E in R.
  assert (exists a, s_algoStat (it o) = Some a) as (a & Ha).
  { unfold solve_dense in E. rewrite new_object_ok in E by apply (wu_v _ W). cbn [bind] in E. rewrite load_dense_ok in E by (auto using fresh_dims). cbn [bind is_success] in E.
    eapply run_algo; [|exact E]. apply start_dense; auto. }
  destruct (v_run _ _ _ _ _ _) as [[r' v]|]; cbn [sim] in R; [|contradiction]. destruct R as (Ep & Er & RB & RI). cbn [fst snd] in *.
  pose proof (dense_wfd u opt W) as D. split.
  - exists (v_x v). eapply gives_primal_of; [|apply (rb_x _ _ _ RB)|exact Ha]. rewrite Ep. apply (wd_nV _ _ _ D).
  - intros Hr. specialize (RI Hr). exists (v_y v). pose proof (rl_y _ _ _ _ (proj1 RI)) as HV. split; [exact (proj2 HV)|].
    eapply gives_dual_of; [|exact HV|exact Ha]. rewrite Ep. apply (wd_nD _ _ _ D).
Qed.
Lemma sparse_getters u opt orc rand r (o : lcqp T) : wf_sparse u -> paired (us_v u) -> fin_lower (us_v u) -> concat (us_C u) <> [] ->
  o_qpSolver opt <> QPOASES_DENSE -> osqp_ok (us_v u) opt ->
  solve_sparse u opt orc rand = Ok (r, o) ->
  (exists x, gives_primal o (u_nV (us_v u)) x) /\
  (r = SUCCESSFUL_RETURN -> exists y, len y = (if match o_qpSolver opt with OSQP_SPARSE => true | _ => false end then 0 else u_nV (us_v u)) + u_nA (us_v u) /\ gives_dual o y).
Proof.
  intros W P F NZ Hq Ho E. pose proof (solve_sparse_ref u opt orc rand W P F NZ Hq Ho) as R. rewrite E in R.
  assert (exists a, s_algoStat (it o) = Some a) as (a & Ha).
  { unfold solve_sparse in E. rewrite new_object_ok in E by apply (ws_v _ W). cbn [bind] in E. rewrite load_sparse_ok in E by (auto using fresh_dims). cbn [bind is_success] in E.
    eapply run_algo; [|exact E]. apply start_sparse; auto. }
  destruct (v_run _ _ _ _ _ _) as [[r' v]|]; cbn [sim] in R; [|contradiction]. destruct R as (Ep & Er & RB & RI). cbn [fst snd] in *.
  pose proof (sparse_wfd u opt W NZ Hq Ho) as D. split.
  - exists (v_x v). eapply gives_primal_of; [|apply (rb_x _ _ _ RB)|exact Ha]. rewrite Ep. apply (wd_nV _ _ _ D).
  - intros Hr. specialize (RI Hr). exists (v_y v). pose proof (rl_y _ _ _ _ (proj1 RI)) as HV. split; [exact (proj2 HV)|].
    eapply gives_dual_of; [|exact HV|exact Ha]. rewrite Ep. apply (wd_nD _ _ _ D).
Qed.
End ApiFacts.
