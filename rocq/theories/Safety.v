(** * Safety: whole calls without undefined behaviour; with one lower bound only there always is some (no LCQPow code). *)
From Verif Require Import Base Arith Codes Utilities Options Stats FileIO Subsolver State LCQProblem Tactics Loops SpecSparse Pure Refine
  Kernels SpecLoad LoadLoops LoadDense LoadSparse StartDense StartSparse NoUB Kernels.

Section Safety.
Context {T : Type} `{Arith T}.

Lemma above_ninf_dec (l : option (list T)) : above_ninf l \/ ~ above_ninf l.
Proof.
  destruct l as [l|]; [|left; exact I]. cbn [above_ninf].
  assert (D : forall l, (forall v : T, In v l -> a_le v a_ninf = false) \/ ~ (forall v, In v l -> a_le v a_ninf = false)).
  { induction l0 as [|a l0 IH]; [left; intros v []|]. destruct (a_le a a_ninf) eqn:E.
    - right. intros C. rewrite (C a (or_introl eq_refl)) in E. discriminate.
    - destruct IH as [IH|IH]; [left; intros v [<-|Hv]; auto|right; intros C; apply IH; intros v Hv; apply C; right; auto]. }
  apply D.
Qed.
Lemma fin_lower_dec (u : uvec T) : fin_lower u \/ ~ fin_lower u.
Proof.
  unfold fin_lower. destruct (above_ninf_dec (u_lbL u)); [|right; tauto]. destruct (above_ninf_dec (u_lbR u)); [left|right]; tauto.
Qed.
Lemma paired_dec (u : uvec T) : paired u \/ ~ paired u.
Proof.
  unfold paired. destruct (u_lbL u) as [l|], (u_lbR u) as [r|].
  - left; split; discriminate.
  - right. intros [_ C]. specialize (C eq_refl). discriminate.
  - right. intros [C _]. specialize (C eq_refl). discriminate.
  - left; split; reflexivity.
Qed.

Lemma thm_dense_safe (u : udense T) opt orc rand B :
  wf_dense u -> paired (ud_v u) -> o_qpSolver opt = QPOASES_DENSE -> small_counts opt orc B ->
  exists r o, solve_dense u opt orc rand = Ok (r, o).
Proof.
  intros W P Hq SC. destruct (fin_lower_dec (ud_v u)) as [F|F].
  - pose proof (solve_dense_ref u opt orc rand W P F Hq) as R. pose proof (wv_nV _ (wu_v _ W)).
    destruct (run_no_ub (dense_ops u opt) orc rand B SC (u_y0 (ud_v u)) (u_x (ud_v u))) as (r & E).
    + cbn [dense_ops p_nV]. lia.
    + cbn [dense_ops p_solver p_opt]. congruence.
    + intros E. cbn [dense_ops p_opt] in E. congruence.
    + cbn [dense_ops p_opt]. congruence.
    + cbn [dense_ops p_opt] in E. rewrite E in R. destruct (solve_dense u opt orc rand) as [[r' o']|]; cbn [sim] in R; [eauto|contradiction].
  - destruct (load_dense_bad u (fresh (ud_v u) opt) W (fresh_dims _ _) F) as (o' & E).
    unfold solve_dense. rewrite new_object_ok by apply (wu_v _ W). cbn [bind]. rewrite E. cbn. eauto.
Qed.

Lemma thm_sparse_safe (u : usparse T) opt orc rand B :
  wf_sparse u -> paired (us_v u) -> o_qpSolver opt <> QPOASES_DENSE -> osqp_ok (us_v u) opt -> setup_works opt orc -> small_counts opt orc B ->
  exists r o, solve_sparse u opt orc rand = Ok (r, o).
Proof.
  intros W P Hq Ho Hs SC.
  assert (Z : concat (us_C u) = [] \/ concat (us_C u) <> []) by (destruct (concat (us_C u)); [left|right]; congruence).
  destruct Z as [Z|Z].
  - destruct (load_sparse_zero u (fresh (us_v u) opt) W (fresh_dims _ _) Z) as (o' & E).
    unfold solve_sparse. rewrite new_object_ok by apply (ws_v _ W). cbn [bind]. rewrite E. cbn. eauto.
  - destruct (fin_lower_dec (us_v u)) as [F|F].
    + pose proof (solve_sparse_ref u opt orc rand W P F Z Hq Ho) as R. pose proof (wv_nV _ (ws_v _ W)).
      destruct (run_no_ub (sparse_ops u opt) orc rand B SC (u_y0 (us_v u)) (u_x (us_v u))) as (r & E).
      * cbn [sparse_ops p_nV]. lia.
      * reflexivity.
      * exact Hs.
      * cbn [sparse_ops p_solver p_opt]. intros E. apply (Ho E).
      * cbn [sparse_ops p_opt] in E. rewrite E in R. destruct (solve_sparse u opt orc rand) as [[r' o']|]; cbn [sim] in R; [eauto|contradiction].
    + destruct (load_sparse_bad u (fresh (us_v u) opt) W (fresh_dims _ _) F Z) as (o' & E).
      unfold solve_sparse. rewrite new_object_ok by apply (ws_v _ W). cbn [bind]. rewrite E. cbn. eauto.
Qed.

Lemma unpaired_cases (u : uvec T) (d : pdata T) : wf_vec u -> ~ paired u ->
  d_lbL d = ptr_of (u_lbL u) -> d_lbR d = ptr_of (u_lbR u) -> init_phi (u_nV u) (u_nComp u) d = UB NullDeref.
Proof.
  intros V P EL ER. pose proof (wv_nComp _ V). apply init_phi_unpaired; [auto|]. rewrite EL, ER. unfold paired in P. pose proof (wv_lbL _ V) as FL.
  destruct (u_lbL u) as [l|], (u_lbR u) as [r|]; cbn [ptr_of notNull isNull negb fits] in *.
  - exfalso. apply P. split; discriminate.
  - left. split; [reflexivity|]. split; [reflexivity|]. intros a [= <-]. exists (at_ a_zero l 0). apply rd_vec_. lia.
  - right. auto.
  - exfalso. apply P. split; reflexivity.
Qed.

Lemma thm_dense_unpaired (u : udense T) opt orc rand : wf_dense u -> ~ paired (ud_v u) -> fin_lower (ud_v u) -> o_qpSolver opt = QPOASES_DENSE ->
  solve_dense u opt orc rand = UB NullDeref.
Proof.
  intros W P F Hq. pose proof (wu_v _ W) as V.
  unfold solve_dense. rewrite new_object_ok by auto. cbn [bind]. rewrite load_dense_ok by (auto using fresh_dims). cbn [bind is_success].
  unfold runSolver, runSolver_fuel. rewrite start_dense_gen by auto.
  assert (K1 : forall x, keep x (@None (arr T)) = ptr_of x) by (intros []; reflexivity).
  rewrite unpaired_cases; auto; apply K1.
Qed.
Lemma thm_sparse_unpaired (u : usparse T) opt orc rand : wf_sparse u -> ~ paired (us_v u) -> fin_lower (us_v u) -> concat (us_C u) <> [] ->
  o_qpSolver opt <> QPOASES_DENSE -> osqp_ok (us_v u) opt -> solve_sparse u opt orc rand = UB NullDeref.
Proof.
  intros W P F Z Hq Ho. pose proof (ws_v _ W) as V.
  unfold solve_sparse. rewrite new_object_ok by auto. cbn [bind]. rewrite load_sparse_ok by (auto using fresh_dims). cbn [bind is_success].
  unfold runSolver, runSolver_fuel. rewrite start_sparse_gen by auto.
  assert (K1 : forall x, keep x (@None (arr T)) = ptr_of x) by (intros []; reflexivity).
  rewrite unpaired_cases; auto; unfold sparse_pd0; destruct (osqp opt); apply K1.
Qed.

(** ** Successful runs *)
Lemma dense_success u opt orc rand (o : lcqp T) : wf_dense u -> o_qpSolver opt = QPOASES_DENSE -> fin_lower (ud_v u) ->
  (exists r, solve_dense u opt orc rand = Ok (r, o)) -> paired (ud_v u).
Proof.
  intros W Hq F (r & E). destruct (paired_dec (ud_v u)) as [P|P]; [auto|]. rewrite (thm_dense_unpaired u opt orc rand W P F Hq) in E. discriminate.
Qed.
End Safety.
