(** * ExactRun: a run on rational data seen from outside (no LCQPow code). *)
From Coq Require Import QArith Qcanon.
From Verif Require Import Base Arith Codes Utilities Options Stats FileIO Subsolver State LCQProblem Tactics Loops Kernels Exact SpecSparse CscKernels CscBuild CscMerge SpecMath QSum
  KernelProps2 Pure PureFacts Refine SpecLoad LoadSparse SpecExact SpecRun SpecTrace SpecSolve StartDense StartSparse SpecSchedule ExactOps ExactDense ExactSparse.
Open Scope Z_scope.

Lemma vec_of_x (v : qvec) : u_x (to_vec v) = fins (match qv_x0 v with Some x => x | None => tab (qv_nV v) (fun _ => 0%Qc) end).
Proof. unfold u_x, bnd. cbn. destruct (qv_x0 v); [reflexivity|]. rewrite <- tab_fins. reflexivity. Qed.
Lemma fin_lower_q (v : qvec) : fin_lower (to_vec v).
Proof.
  split; cbn.
  - destruct (qv_lbL v); cbn; [|exact I]. intros x Hx. apply in_map_iff in Hx. destruct Hx as (q & <- & _). reflexivity.
  - destruct (qv_lbR v); cbn; [|exact I]. intros x Hx. apply in_map_iff in Hx. destruct Hx as (q & <- & _). reflexivity.
Qed.

Lemma sparse_nonzero u : wf_sparse (to_sparse u) -> no_tiny (sparse_data u) ->
  (exists i j, 0 <= i < qv_nV (qs_v u) /\ 0 <= j < qv_nV (qs_v u) /\ e_C (sparse_data u) i j <> 0%Qc) -> concat (us_C (to_sparse u)) <> [].
Proof.
  intros W NT (i & j & Hi & Hj & N) E. apply N. rewrite <- (sparse_C_ent u NT i j) by auto. rewrite (sparse_C_fin u W) in E.
  unfold qentry. assert (E2 : at_ [] (sp_C u) j = []).
  { assert (I : In (at_ [] (sp_C u) j) (sp_C u)). { apply (col_in (sp_C u)). rewrite (len_sp_C u W). auto. }
    destruct (at_ [] (sp_C u) j) as [|x c] eqn:E3; [reflexivity|]. exfalso.
    assert (In (fst x, Fin (snd x)) (concat (fincols (sp_C u)))); [|rewrite E in *; contradiction].
    apply in_concat. exists (fincol (x :: c)). split; [apply in_map; auto|]. left. reflexivity. }
  rewrite E2. reflexivity.
Qed.

Section Outcome.
Variables (pr : problem) (opt : options xq) (orc : oracle xq) (rand : nat -> Z) (r0 fac : Qc) (r : ReturnValue) (o : lcqp xq).
Let e := pr_data pr.
Let n := e_nV e.
Let off := box_duals pr opt.
Let x0 := pr_x0 pr.
Let tol := o_complementarityTolerance opt.
Let tr_ := trace e r0 fac off (o_solveZeroPenaltyFirst opt) (o_perturbStep opt) (o_qpSolver opt) x0.

(** The recorded values are those of the frames *)
Definition shown (tr : list frame) : Prop :=
  o_storeSteps opt = true ->
  let l := rev tr in
  lists (s_stats (it o)) = (map (fun f => fins (f_x e f)) l, map (fun f => Fin (f_a f)) l, map (fun f => maxabs (fins (f_d e f)) n) l,
    map (fun f => maxabs (fins (f_res e r0 fac off f)) n) l, map (fun f => Fin (e_obj e (f_x e f))) l, map (fun f => Fin (e_phi e (f_x e f))) l,
    map (fun f => Fin (qdot n (e_g e) (f_x e f) + qform (e_H e (t_rho r0 fac (f_k f))) n (f_x e f) * qhalf)%Qc) l).
(** Linear terms of the QPs *)
Definition g_first : list xq :=
  fins (tab n (fun i => if o_solveZeroPenaltyFirst opt then qat (e_g e) i else t_rho r0 fac 0 * mv (e_C e) n x0 i + qat (e_g e) i)%Qc).
(** Linear term of the next QP. No LCQPow code. *)
Definition g_next (k : nat) (x : list Qc) : list xq := fins (tab n (fun i => t_rho r0 fac k * mv (e_C e) n x i + t_lin e r0 fac k i)%Qc).
(** Pairs treated as biactive *)
Definition weak_pairs (x : list Qc) : list Z :=
  filter (fun i => a_le (Fin (mv (e_L e) n x i)) tol && a_le (Fin (mv (e_R e) n x i)) tol) (tab (e_nComp e) (fun i => i)).
(** The classification loop *)
Fixpoint classed (y : list Qc) (w : list Z) (s_st m_st : bool) : AlgorithmStatus :=
  match w with
  | [] => if s_st then S_STATIONARY_SOLUTION else if m_st then M_STATIONARY_SOLUTION else C_STATIONARY_SOLUTION
  | i :: w =>
      let a := Fin (qat y (e_nC e + i)) in
      let b := Fin (qat y (e_nC e + e_nComp e + i)) in
      let s_st := if a_lt (std_min a b) a_zero then false else s_st in
      if a_le tol (a_abs (a * b)%num) && a_le (std_min a b) a_zero then
        if a_le (a * b)%num tol then W_STATIONARY_SOLUTION else classed y w s_st false
      else classed y w s_st m_st
  end.

(** The phase of the rule after the passes of the frames.  No LCQPow code. *)
Definition rule_phase (tr : list frame) : phase xq :=
  phase_from opt [] (map (fun f => (Fin (e_phi e (f_x e f)), maxabs (fins (f_res e r0 fac off f)) n)) (rev tr)).
(** The number of updates in each frame is that of the rule.  No LCQPow code. *)
Fixpoint follows (tr : list frame) : Prop := match tr with [] => True | f :: tr => f_k f = ph_updates (rule_phase tr) /\ follows tr end.
(** What is proved of a finished run. No LCQPow code. *)
Definition outcome : Prop :=
  d_nV (pd o) = Some n /\ d_nDuals (pd o) = Some (off + e_nA e) /\ (exists a, s_algoStat (it o) = Some a) /\
  ((r <> SUCCESSFUL_RETURN /\ (exists c, s_calls (it o) = [c] /\ qp_error c (orc [c]) = Some r /\ qc_g c = g_first) /\ s_xk (it o) = Some (lift (fins x0)) /\ shown []) \/
  exists f tr k cs, tr_ (f :: tr) (answers orc cs []) /\
    (s_calls (it o) = cs \/ exists c, s_calls (it o) = c :: cs /\ r <> SUCCESSFUL_RETURN /\ qc_g c = g_next k (f_x e f)) /\
    s_rho (it o) = Fin (t_rho r0 fac k) /\ s_outerIter (it o) = Z.of_nat k /\ (f_k f <= k <= f_k f + 2)%nat /\
    s_xk (it o) = Some (lift (fins (f_x e f))) /\ shown (f :: tr) /\
    (r = SUCCESSFUL_RETURN -> s_calls (it o) = cs /\ k = f_k f /\ s_yk (it o) = Some (lift (fins (f_duals e r0 fac off f))) /\
       a_lt (maxabs (fins (f_res e r0 fac off f)) n) (o_stationarityTolerance opt) = true /\
       a_lt (Fin (e_phi e (f_x e f))) tol = true /\
       s_algoStat (it o) = Some (classed (f_yA e off f) (weak_pairs (f_x e f)) true true)) /\
    (INT_MIN <= o_nDynamicPenalty opt <= INT_MAX -> follows (f :: tr) /\ k = ph_updates (rule_phase (f :: tr)))).

Lemma classed_eq {K} (p : ops xq K) y w s m : p_nC p = e_nC e -> p_nComp p = e_nComp e -> v_classify p tol (fins y) w s m = classed y w s m.
Proof.
  intros E1 E2. revert s m. induction w as [|i w IH]; intros s m; [reflexivity|]. cbn [v_classify classed]. change (@a_zero xq _) with (Fin 0).
  rewrite !at_fins, E1, E2, !IH. reflexivity.
Qed.

Lemma outcome_of {K} (p : ops xq K) EH KR : exops p e EH -> p_opt p = opt -> p_off p = off -> p_solver p = o_qpSolver opt ->
  forall fuel y0, len x0 = n -> rational_run pr opt orc o r0 fac ->
  d_nV (pd o) = Some n -> d_nDuals (pd o) = Some (off + e_nA e) ->
  match v_run p fuel orc rand y0 (v_init p (fins x0)) with Ok b => relT p KR (r, it o) b | UB _ => False end -> outcome.
Proof.
  intros X Eo Ef Es fuel y0 Lx (Hp & Fc) D1 D2. destruct (v_run _ _ _ _ _ _) as [[r' v]|] eqn:E; [|contradiction]. intros (R1 & RB & RI). cbn [fst snd] in *. subst r'.
  split; [auto|]. split; [auto|]. destruct RB. split; [rewrite rb_algo; apply run_algo in E; exact E|].
  assert (Hp' : finite_penalty (p_opt p) r0 fac) by (rewrite Eo; auto).
  assert (VX : forall x : list xq, v_x v = x -> s_xk (it o) = Some (lift x)) by (intros ? <-; apply rb_x).
  apply (run_trace p e EH r0 fac X Hp' orc rand x0 Lx) in E.
  2: { unfold fin_calls. rewrite <- rb_calls, Ef. exact Fc. }
  unfold ended in E. rewrite Eo, Ef, Es in E. fold n in E. rewrite <- rb_calls, <- rb_stats, <- rb_rho, <- rb_outer in E.
  destruct E as [(N & C & Vx & Rc)|(f & tr & k & cs & T & C & Er & Eu & Hk & Vx & Rc & _ & Su & Pc)].
  - left. split; [auto|]. split; [exact C|]. split; [apply VX; exact Vx|]. unfold recorded in Rc. rewrite Eo, Ef in Rc. exact Rc.
  - right. exists f, tr, k, cs. split; [exact T|]. split; [exact C|]. split; [auto|]. split; [auto|]. split; [auto|]. split; [apply VX; exact Vx|].
    split; [unfold recorded in Rc; rewrite Eo, Ef in Rc; exact Rc|].
    split; [|intros Hi; assert (Hi' : int_dyn p) by (unfold int_dyn; rewrite Eo; exact Hi); specialize (Pc Hi');
      assert (Q : forall l, phase_of p e r0 fac l = rule_phase l) by (intros l; unfold phase_of, rule_phase; rewrite Eo, Ef; reflexivity);
      destruct Pc as (Pc & ->); rewrite Q; split; [|reflexivity]; clear - Pc Q; induction (f :: tr) as [|g l IH]; [exact Logic.I|]; cbn [paced follows] in *; rewrite <- Q; split; [apply Pc|apply IH, Pc]].
    intros Sr. specialize (Su Sr). destruct Su as (S1 & S2 & S3 & S4 & S5 & S6).
    split; [auto|]. split; [auto|]. split.
    { destruct (RI Sr) as [RR _]. pose proof (proj1 (rl_y _ _ _ _ RR)) as Y. cbn [snd] in Y. rewrite <- S3. exact Y. }
    split; [auto|]. split; [auto|]. rewrite rb_algo, S6. f_equal.
    assert (EW : weak p e (f_x e f) = weak_pairs (f_x e f)) by (unfold weak, weak_pairs; rewrite Eo; reflexivity). rewrite EW.
    apply classed_eq; [apply (x_nC _ _ _ X)|apply (x_nComp _ _ _ X)].
Qed.
End Outcome.

Lemma sim_left {A B} (P : A -> Prop) (R : A -> B -> Prop) (a : A) (V : res B) : sim (fun x y => P x /\ R x y) (Ok a) V ->
  P a /\ match V with Ok b => R a b | UB _ => False end.
Proof. destruct V; cbn; [auto|contradiction]. Qed.

Lemma dense_x0 u : wf_dense (to_dense u) -> len (pr_x0 (PDense u)) = e_nV (pr_data (PDense u)).
Proof.
  intros W. unfold pr_x0. cbn [pr_vec pr_data]. pose proof (wv_x0 _ (wu_v _ W)) as L. cbn in L. pose proof (wv_nV _ (wu_v _ W)) as Hn. cbn in Hn.
  destruct (qv_x0 (qd_v u)); [cbn in L; rewrite len_fins in L; exact L|apply len_tab; cbn; lia].
Qed.
Lemma sparse_x0 u : wf_sparse (to_sparse u) -> len (pr_x0 (PSparse u)) = e_nV (pr_data (PSparse u)).
Proof.
  intros W. unfold pr_x0. cbn [pr_vec pr_data]. pose proof (wv_x0 _ (ws_v _ W)) as L. cbn in L. pose proof (wv_nV _ (ws_v _ W)) as Hn. cbn in Hn.
  destruct (qv_x0 (qs_v u)); [cbn in L; rewrite len_fins in L; exact L|apply len_tab; cbn; lia].
Qed.
Lemma dense_ux u : u_x (ud_v (to_dense u)) = fins (pr_x0 (PDense u)).
Proof. exact (vec_of_x (qd_v u)). Qed.
Lemma sparse_ux u : u_x (us_v (to_sparse u)) = fins (pr_x0 (PSparse u)).
Proof. exact (vec_of_x (qs_v u)). Qed.
Lemma dense_nD u opt : o_qpSolver opt = QPOASES_DENSE -> d_nDuals (dense_pd (to_dense u) opt) = Some (box_duals (PDense u) opt + e_nA (pr_data (PDense u))).
Proof. intros Hq. unfold box_duals. rewrite Hq. cbn. unfold e_nA. cbn. f_equal. lia. Qed.
Lemma sparse_nD u opt : d_nDuals (sparse_pd (to_sparse u) opt) = Some (box_duals (PSparse u) opt + e_nA (pr_data (PSparse u))).
Proof. unfold sparse_pd, sparse_pd0, box_duals, osqp. destruct (o_qpSolver opt); cbn; unfold e_nA; cbn; f_equal; lia. Qed.
Lemma sparse_nV u opt : d_nV (sparse_pd (to_sparse u) opt) = Some (e_nV (pr_data (PSparse u))).
Proof. unfold sparse_pd, sparse_pd0. destruct (osqp opt); reflexivity. Qed.

Lemma solved_dense u opt orc rand r0 fac r o : admissible (PDense u) opt -> pr_solve (PDense u) opt orc rand = Ok (r, o) -> rational_run (PDense u) opt orc o r0 fac ->
  outcome (PDense u) opt orc r0 fac r o.
Proof.
  intros (P & W & Hq) E Rr. cbn [pr_solve pr_vec] in *.
  pose proof (solve_dense_ref (to_dense u) opt orc rand W P (fin_lower_q _) Hq) as R. rewrite E in R. rewrite dense_ux in R.
  apply (sim_left (fun x : ReturnValue * lcqp xq => pd (snd x) = dense_pd (to_dense u) opt) (fun x y => relT (dense_ops (to_dense u) opt) (dense_KR (u_nV (ud_v (to_dense u)))) (fst x, it (snd x)) y) (r, o)) in R. destruct R as (D & R2). cbn [fst snd] in D, R2.
  refine (outcome_of (PDense u) opt orc rand r0 fac r o (dense_ops (to_dense u) opt) _ _ (dense_exops u W P opt) eq_refl _ _ _ _ (dense_x0 u W) Rr _ _ R2).
  - unfold box_duals. rewrite Hq. reflexivity.
  - symmetry. exact Hq.
  - rewrite D. reflexivity.
  - rewrite D. apply dense_nD, Hq.
Qed.
Lemma solved_sparse u opt orc rand r0 fac r o : admissible (PSparse u) opt -> pr_solve (PSparse u) opt orc rand = Ok (r, o) -> rational_run (PSparse u) opt orc o r0 fac ->
  outcome (PSparse u) opt orc r0 fac r o.
Proof.
  intros (P & W & Hq & Ho & Sy & NT & NZ) E Rr. cbn [pr_solve pr_vec] in *. pose proof (sparse_nonzero u W NT NZ) as NZ'.
  pose proof (solve_sparse_ref (to_sparse u) opt orc rand W P (fin_lower_q _) NZ' Hq Ho) as R. rewrite E in R. rewrite sparse_ux in R.
  apply (sim_left (fun x : ReturnValue * lcqp xq => pd (snd x) = sparse_pd (to_sparse u) opt) (fun x y => relT (sparse_ops (to_sparse u) opt) (sparse_KR (to_sparse u)) (fst x, it (snd x)) y) (r, o)) in R. destruct R as (D & R2). cbn [fst snd] in D, R2.
  refine (outcome_of (PSparse u) opt orc rand r0 fac r o (sparse_ops (to_sparse u) opt) _ _ (sparse_exops u W P Sy NT opt) eq_refl _ eq_refl _ _ (sparse_x0 u W) Rr _ _ R2).
  - unfold box_duals. cbn. unfold osqp. destruct (o_qpSolver opt); reflexivity.
  - rewrite D. apply sparse_nV.
  - rewrite D. apply sparse_nD.
Qed.
Lemma solved pr opt orc rand r0 fac r o : admissible pr opt -> pr_solve pr opt orc rand = Ok (r, o) -> rational_run pr opt orc o r0 fac ->
  outcome pr opt orc r0 fac r o.
Proof. destruct pr; [apply solved_dense|apply solved_sparse]. Qed.
