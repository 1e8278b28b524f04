(** * ApiProps: proofs of the theorems of Properties_Api.v and their examples (no LCQPow code). *)
From Coq Require Import QArith Qcanon.
From Verif Require Import Base Arith Codes Utilities Options Stats FileIO Subsolver State LCQProblem Tactics Loops SpecSparse SpecMath SpecLoad SpecExact SpecRun SpecApi
  Exact LoadDense LoadSparse LoadFacts StartDense StartSparse NoUB Safety ApiFacts ApiFacts2 Examples ExamplesKernels ExamplesExact.
Open Scope Z_scope.

Section P.
Context {T : Type} `{Arith T}.
Lemma obj_dims (v : uvec T) opt (o : lcqp T) : wf_vec v -> new_object v opt = Ok o -> dims v (pd o).
Proof. intros W E. rewrite new_object_ok in E by exact W. injection E as <-. apply fresh_dims. Qed.

Lemma p_C21_dense (u : udense T) opt o k : wf_dense u -> new_object (ud_v u) opt = Ok o -> pa_Q k = true ->
  (pa_g k = false -> exists o', load_dense_part k u o = Ok (INVALID_OBJECTIVE_LINEAR_TERM, o')) /\
  (pa_g k = true -> pa_A k = false -> 0 < u_nC (ud_v u) -> exists o', load_dense_part k u o = Ok (INVALID_CONSTRAINT_MATRIX, o')).
Proof. intros W E HQ. pose proof (obj_dims _ _ _ (wu_v _ W) E). split; intros; [apply load_dense_nog|apply load_dense_noA]; auto. Qed.
Lemma p_C21_dense_ub (u : udense T) opt o k : wf_dense u -> new_object (ud_v u) opt = Ok o ->
  (pa_Q k = false -> load_dense_part k u o = UB NullDeref) /\
  (pa_Q k = true -> pa_g k = true -> pa_A k = true \/ u_nC (ud_v u) = 0 -> pa_L k = false \/ pa_R k = false -> load_dense_part k u o = UB NullDeref).
Proof. intros W E. pose proof (obj_dims _ _ _ (wu_v _ W) E). split; intros; [apply load_dense_noQ|apply load_dense_noLR]; auto. Qed.
Lemma p_C21_sparse (u : usparse T) opt o k : wf_sparse u -> new_object (us_v u) opt = Ok o -> pa_Q k = true -> pa_g k = false ->
  exists o', load_sparse_part k u o = Ok (INVALID_OBJECTIVE_LINEAR_TERM, o').
Proof. intros W E HQ Hg. pose proof (obj_dims _ _ _ (ws_v _ W) E). apply load_sparse_nog; auto. Qed.
Lemma p_C21_sparse_ub (u : usparse T) opt o k : wf_sparse u -> new_object (us_v u) opt = Ok o ->
  (pa_Q k = false -> load_sparse_part k u o = UB NullDeref) /\
  (pa_Q k = true -> pa_g k = true -> pa_L k = false \/ pa_R k = false -> load_sparse_part k u o = UB NullDeref) /\
  (pa_Q k = true -> pa_g k = true -> pa_L k = true -> pa_R k = true -> pa_A k = false -> fin_lower (us_v u) -> concat (us_C u) <> [] ->
     exists o', load_sparse_part k u o = Ok (SUCCESSFUL_RETURN, o')).
Proof. intros W E. pose proof (obj_dims _ _ _ (ws_v _ W) E). split; [|split]; intros; [apply load_sparse_noQ|apply load_sparse_noLR|apply load_sparse_noA]; auto. Qed.

Lemma p_C23 nV nC nComp opt (o : lcqp T) : bad_dims nV nC nComp -> LCQProblem_ctor nV nC nComp = Ok o ->
  forall o', o' = o \/ o' = setOptions opt o ->
  (forall Q g L R lbL ubL lbR ubR A lbA ubA lb ub x0 y0, loadLCQP Q g L R lbL ubL lbR ubR A lbA ubA lb ub x0 y0 o' = UB Uninit) /\
  (forall Q g L R lbL ubL lbR ubR A lbA ubA lb ub x0 y0, loadLCQP_csc Q g L R lbL ubL lbR ubR A lbA ubA lb ub x0 y0 o' = UB Uninit) /\
  (forall Q g L R lbL ubL lbR ubR A lbA ubA lb ub x0 y0, loadLCQP_files Q g L R lbL ubL lbR ubR A lbA ubA lb ub x0 y0 o' = UB Uninit) /\
  (forall orc rand, runSolver orc rand o' = UB Uninit).
Proof. intros B E o' [->| ->]; apply unsized_unusable; eapply bad_unsized; eauto; exact opt. Qed.

Lemma p_C55_dense (u : udense T) opt orc rand B : wf_dense u -> paired (ud_v u) -> o_qpSolver opt = QPOASES_DENSE -> small_counts opt orc B ->
  solve_dense u opt orc rand <> UB IntOverflow.
Proof. intros W P Q S. destruct (thm_dense_safe u opt orc rand B W P Q S) as (r & o & ->). discriminate. Qed.
Lemma p_C55_sparse (u : usparse T) opt orc rand B : wf_sparse u -> paired (us_v u) -> o_qpSolver opt <> QPOASES_DENSE -> osqp_ok (us_v u) opt -> setup_works opt orc -> small_counts opt orc B ->
  solve_sparse u opt orc rand <> UB IntOverflow.
Proof. intros W P Q O W2 S. destruct (thm_sparse_safe u opt orc rand B W P Q O W2 S) as (r & o & ->). discriminate. Qed.

Lemma loop_fuel_mono m : forall n orc rand d (s : iter T) x, (m <= n)%nat -> loop m orc rand d s = Ok x -> loop n orc rand d s = Ok x.
Proof.
  induction m as [|m IH]; intros n orc rand d s x Hn E; [discriminate|]. destruct n as [|n]; [lia|]. cbn [loop] in *.
  apply bind_ok in E. destruct E as ([s1 e] & E1 & E). rewrite E1. cbn [bind]. destruct e; [exact E|]. apply IH; [lia|exact E].
Qed.
Lemma run_fuel_mono m n orc rand (o : lcqp T) x : (m <= n)%nat -> runSolver_fuel m orc rand o = Ok x -> runSolver_fuel n orc rand o = Ok x.
Proof.
  intros Hn E. unfold runSolver_fuel in *. apply bind_ok in E. destruct E as ([r o1] & E1 & E). rewrite E1. cbn [bind].
  destruct (negb _); [exact E|]. apply bind_ok in E. destruct E as ([s e] & E2 & E). rewrite E2. cbn [bind]. destruct e; [exact E|].
  apply bind_ok in E. destruct E as ([r2 s2] & E3 & E). rewrite (loop_fuel_mono _ _ _ _ _ _ _ Hn E3). exact E.
Qed.
End P.

(** ** Examples *)
(** A QP solver that reports INT_MAX iterations for each call.  No LCQPow code. *)
Definition exa_many : oracle xq := fun h => let a := exq_orc QPOASES_DENSE h in mkRaw (q_ret a) INT_MAX (q_status a) (q_work a) (q_wsx_fails a) (q_wsy_fails a) (q_x a) (q_y a).
Lemma p_C55_refuted : exists u opt orc rand, wf_dense u /\ paired (ud_v u) /\ o_qpSolver opt = QPOASES_DENSE /\
  (forall h, 0 <= q_iter (orc h) <= INT_MAX) /\ @solve_dense xq _ u opt orc rand = UB IntOverflow.
Proof.
  exists (to_dense (exq_d false)), (ex_options QPOASES_DENSE), exa_many, no_rand. split; [apply exq_wf_d|]. split; [apply exq_paired|]. split; [reflexivity|].
  split; [intros h; cbn; unfold INT_MAX; lia|]. vm_compute. reflexivity.
Qed.
(** The example problem with iteration limit INT_MAX.  No LCQPow code. *)
Definition exa_nolimit : lcqp xq := setOptions (snd (setMaxIterations INT_MAX (ex_options QPOASES_DENSE))) (ex_o QPOASES_DENSE).
Lemma exa_nolimit_ok : INT_MAX <= o_maxIterations (d_options (pd exa_nolimit)) /\
  exists o, runSolver (ex_orc QPOASES_DENSE) no_rand exa_nolimit = Ok (SUCCESSFUL_RETURN, o).
Proof.
  split; [vm_compute; discriminate|].
  set (x := snd (ok_or (SUCCESSFUL_RETURN, LCQProblem_default) (runSolver_fuel 100 (ex_orc QPOASES_DENSE) no_rand exa_nolimit))).
  exists x. unfold runSolver. apply (run_fuel_mono 100).
  - change (o_maxIterations (d_options (pd exa_nolimit))) with INT_MAX. unfold INT_MAX. lia.
  - vm_compute. reflexivity.
Qed.

(** A one-variable QP  min x^2 + g x  with one constraint row, dense and sparse.  No LCQPow code. *)
Definition exa_sub (qs : QPSolver) : subsolver xq :=
  match qs with
  | QPOASES_DENSE => mkSub qs 1 1 (SDense (lift (fz [2])) (lift (fz [1])))
  | _ => mkSub qs 1 1 (SSparse (csc_of 1 1 [[(0, Fin (Q2Qc 2))]]) (csc_of 1 1 [[(0, Fin 1)]]))
  end.
(** A library that answers every call with the given return value, iteration count and status.  No LCQPow code. *)
Definition exa_orc (ret iter status : Z) : oracle xq := fun _ => mkRaw ret iter status true false false (fun _ => Fin 1) (fun _ => Fin (Q2Qc 3)).
(** One call of the QP wrapper.  No LCQPow code. *)
Definition exa_call (qs : QPSolver) (orc : oracle xq) : res (sub_result xq) :=
  sub_solve orc (exa_sub qs) [] false true (Some (lift (fz [-4]))) (Some (lift (fz [0]))) (Some (lift (fz [9]))) None None None None.
(** What it reported.  No LCQPow code. *)
Definition exa_view (r : res (sub_result xq)) : option (ReturnValue * option Z * option Z) :=
  match r with Ok s => Some (sr_ret s, sr_iter s, sr_flag s) | UB _ => None end.
Lemma exa_views : exa_view (exa_call QPOASES_DENSE (exa_orc 0 7 0)) = Some (SUCCESSFUL_RETURN, Some 7, Some 0) /\
  exa_view (exa_call QPOASES_SPARSE (exa_orc 64 7 0)) = Some (SUBPROBLEM_SOLVER_ERROR, Some 7, Some 64) /\
  exa_view (exa_call OSQP_SPARSE (exa_orc 0 7 1)) = Some (SUCCESSFUL_RETURN, Some 7, Some 1) /\
  exa_view (exa_call OSQP_SPARSE (exa_orc 0 7 (-3))) = Some (SUBPROBLEM_SOLVER_ERROR, Some 7, Some (-3)).
Proof. repeat split; vm_compute; reflexivity. Qed.
Lemma exa_raw : exists r, exa_call OSQP_SPARSE (exa_orc 0 7 1) = Ok r /\ exists a, sr_raw r = Some a /\ q_status a <= 2.
Proof.
  destruct (exa_call OSQP_SPARSE (exa_orc 0 7 1)) as [r|u] eqn:E; [|vm_compute in E; discriminate]. exists r. split; [reflexivity|].
  exists (exa_orc 0 7 1 []). split; [|vm_compute; discriminate].
  assert (G : match exa_call OSQP_SPARSE (exa_orc 0 7 1) with Ok r => sr_raw r | UB _ => None end = Some (exa_orc 0 7 1 [])) by (vm_compute; reflexivity).
  rewrite E in G. exact G.
Qed.
Lemma p_C57_refuted : exists orc (s : subsolver xq) calls g lbA ubA res, sub_qpSolver s = OSQP_SPARSE /\
  sub_solve orc s calls false true g lbA ubA None None None None = Ok res /\
  sr_ret res = SUCCESSFUL_RETURN /\ forall h, ~ osqp_solved (q_status (orc h)).
Proof.
  destruct (exa_call OSQP_SPARSE (exa_orc 0 7 3)) as [r|u] eqn:E; [|vm_compute in E; discriminate].
  exists (exa_orc 0 7 3), (exa_sub OSQP_SPARSE), [], (Some (lift (fz [-4]))), (Some (lift (fz [0]))), (Some (lift (fz [9]))), r.
  split; [reflexivity|]. split; [exact E|]. split; [|intros h [C|C]; discriminate].
  assert (G : match exa_call OSQP_SPARSE (exa_orc 0 7 3) with Ok r => sr_ret r | UB _ => NOT_YET_IMPLEMENTED end = SUCCESSFUL_RETURN) by (vm_compute; reflexivity).
  rewrite E in G. exact G.
Qed.
