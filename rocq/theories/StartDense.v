(** * StartDense: a freshly constructed and densely loaded object enters the solver loop as the problem [dense_ops]
    (no LCQPow code). *)
From Verif Require Import Base Arith Codes Utilities Options Stats FileIO Subsolver State LCQProblem Tactics Loops Kernels SpecSparse CscKernels CscBuild SpecLoad LoadLoops LoadDense Pure Refine.

Section StartDense.
Context {T : Type} `{Arith T}.

(** A new object.  No LCQPow code. *)
Definition fresh (u : uvec T) (opt : options T) : lcqp T :=
  let z n := Some (lift (tab n (fun _ => a_zero))) in
  let d := set_d_options opt (set_d_nComp (Some (u_nComp u)) (set_d_nC (Some (u_nC u)) (set_d_nV (Some (u_nV u)) pdata0))) in
  mkLcqp d (set_Qk (z (u_nV u * u_nV u)) (set_gk (z (u_nV u)) (set_xnew (z (u_nV u)) (set_yk_A (z (u_nA u)) (set_pk (z (u_nV u))
           (set_statk (z (u_nV u)) (set_constr_statk (z (u_nV u)) (set_box_statk (z (u_nV u))
           (set_lk_tmp (z (u_nV u)) iter0))))))))).

Lemma new_object_ok u opt : wf_vec u -> new_object u opt = Ok (fresh u opt).
Proof.
  intros W. pose proof (wv_nV _ W). pose proof (wv_nC _ W). pose proof (wv_nComp _ W). pose proof (wv_int _ W). pose proof (wv_sq _ W).
  unfold new_object, LCQProblem_ctor.
  replace (u_nV u <=? 0) with false by lia. replace (u_nComp u <=? 0) with false by lia. replace (u_nC u <? 0) with false by lia.
  rewrite !alloc_init_ok by nia. cbn [bind]. rewrite !repeat_tab. reflexivity.
Qed.
Lemma fresh_dims u opt : dims u (pd (fresh u opt)).
Proof. repeat split. Qed.

(** Linear term and constant of the penalty for nonzero lower bounds.  No LCQPow code. *)
Definition dense_gphi (u : udense T) : option (list T) :=
  let v := ud_v u in
  match u_lbL v, u_lbR v with
  | Some l, Some r =>
      let z := tab (u_nV v) (fun _ => a_zero) in
      let a := addtmul (ud_L u) r (addtmul (ud_R u) l z (u_nComp v) (u_nV v) 1) (u_nComp v) (u_nV v) 1 in
      Some (tab (u_nV v) (fun i => (- at_ a_zero a i)%num))
  | _, _ => None
  end.
(** No LCQPow code. *)
Definition u_pc (v : uvec T) : T :=
  match u_lbL v, u_lbR v with
  | Some l, Some r => fsum (u_nComp v) (fun i => (at_ a_zero l i * at_ a_zero r i)%num)
  | _, _ => a_zero
  end.

(** The stacked constraint matrix.  No LCQPow code. *)
Definition ud_ALR (u : udense T) : list T := ud_A u ++ ud_L u ++ ud_R u.
(** The matrix of the complementarity form.  No LCQPow code. *)
Definition ud_C (u : udense T) : list T := symm (ud_L u) (ud_R u) (u_nComp (ud_v u)) (u_nV (ud_v u)).

(** The problem as the solver loop sees it.  No LCQPow code. *)
Definition dense_ops (u : udense T) (opt : options T) : ops T (list T) :=
  let v := ud_v u in
  let n := u_nV v in
  mkOps T (list T) opt QPOASES_DENSE n (u_nC v) (u_nComp v) n true (u_g v) (dense_gphi u) (u_pc v)
    (MDense (ud_Q u)) (MDense (ud_ALR u)) (u_lower v) (u_upper v)
    (Some (bnd n (u_lb v) a_ninf)) (Some (bnd n (u_ub v) a_pinf))
    (fun rho => wadd a_one (ud_Q u) rho (ud_C u) (n * n))
    (fun rho _ => wadd a_one (ud_Q u) rho (ud_C u) (n * n))
    (fun h x c => affine a_one h x c n n)
    (fun h x => quad h x n)
    (fun rho x c => affine rho (ud_C u) x c n n)
    (fun x => quad (ud_C u) x n)
    (fun x => quad (ud_Q u) x n)
    (fun y => tmul (ud_ALR u) y (u_nA v) n 1)
    (fun x => mmul (ud_L u) x (u_nComp v) n 1)
    (fun x => mmul (ud_R u) x (u_nComp v) n 1).

(** Stored form of the penalised Hessian.  No LCQPow code. *)
Definition dense_KR (n : Z) (h : list T) (M : ptr T) (_ : option (csc T)) (_ : list Z) : Prop := M = Some (lift h) /\ len h = n * n.

(** Members when initializeSolver reaches the penalty data.  No LCQPow code. *)
Definition dense_pd0 (u : udense T) (opt : options T) : pdata T :=
  let v := ud_v u in
  let d := pd (loaded_dense u (fresh v opt)) in
  let d := set_d_boxDualOffset (Some (u_nV v)) (set_d_nDuals (Some (u_nV v + u_nC v + 2 * u_nComp v)) d) in
  let d := set_d_ub (Some (lift (bnd (u_nV v) (u_ub v) a_pinf))) (set_d_lb (Some (lift (bnd (u_nV v) (u_lb v) a_ninf))) d) in
  set_d_subsolver (Some (mkSub QPOASES_DENSE (u_nV v) (u_nA v) (SDense (lift (ud_Q u)) (lift (ud_ALR u))))) d.
(** Members after initializeSolver.  No LCQPow code. *)
Definition dense_pd (u : udense T) (opt : options T) : pdata T :=
  let d := set_d_phi_const (u_pc (ud_v u)) (set_d_g_phi (ptr_of (dense_gphi u)) (dense_pd0 u opt)) in
  set_d_ub_tmp None (set_d_lb_tmp None d).
(** No LCQPow code. *)
Definition start_it (v : uvec T) (opt : options T) (s : iter T) : iter T :=
  let s := set_stats stats_reset (set_algoStat (Some PROBLEM_NOT_SOLVED) (set_totalIter 0 (set_innerIter 0 (set_outerIter 0
             (set_rho (o_initialPenaltyParameter opt) (set_alphak a_one (set_g_tilde (Some (lift (u_g v))) s))))))) in
  match o_printLevel opt with PL_NONE => s | _ => logI EvNewline s end.

Lemma Subsolver_dense_ok nV nC (Q A : list T) : 0 <= nV -> 0 <= nC -> len Q = nV * nV -> len A = nC * nV -> nV * nV <= INT_MAX -> nC * nV <= INT_MAX ->
  Subsolver_dense nV nC (Some (lift Q)) (Some (lift A)) = Ok (mkSub QPOASES_DENSE nV nC (SDense (lift Q) (lift A))).
Proof.
  intros. unfold Subsolver_dense. rewrite !alloc_ok by nia. cbn [bind]. rewrite !memcpy_ptr_full by (rewrite ?len_fresh; nia). reflexivity.
Qed.

Lemma neg_loop (l : list T) n : n = len l ->
  for_ 0 n (fun i gp => let! v := rd gp i in wr gp i (- v)%num) (lift l) = Ok (lift (tab n (fun i => (- at_ a_zero l i)%num))).
Proof.
  intros ->. pose proof (len_nonneg l).
  rewrite (for_fill1 _ (fun i => (- at_ a_zero l i)%num)); [|lia|rewrite len_lift; lia|].
  - rewrite drop_all by (rewrite len_lift; lia). rewrite app_nil_r. reflexivity.
  - intros i C Hi Hl HC. rewrite (rd_some C i (at_ a_zero l i)); [|rewrite len_lift in Hl; lia|].
    + cbn [bind]. apply wr_ok. rewrite len_lift in Hl. lia.
    + rewrite HC by lia. apply at_lift. lia.
Qed.

Lemma init_phi_dense (u : udense T) (d : pdata T) : wf_dense u -> paired (ud_v u) -> d_sparseSolver d = false ->
  d_lbL d = ptr_of (u_lbL (ud_v u)) -> d_lbR d = ptr_of (u_lbR (ud_v u)) ->
  d_L d = Some (lift (ud_L u)) -> d_R d = Some (lift (ud_R u)) -> (u_lbL (ud_v u) = None -> u_lbR (ud_v u) = None -> d_g_phi d = None /\ d_phi_const d = a_zero) ->
  init_phi (u_nV (ud_v u)) (u_nComp (ud_v u)) d = Ok (set_d_phi_const (u_pc (ud_v u)) (set_d_g_phi (ptr_of (dense_gphi u)) d)).
Proof.
  intros W P S EL ER E1 E2 E34. pose proof (wu_v _ W) as V. pose proof (wv_nV _ V). pose proof (wv_nComp _ V). pose proof (wv_int _ V). pose proof (wv_nC _ V).
  pose proof (wv_lbL _ V) as FL. pose proof (wv_lbR _ V) as FR. pose proof (wu_L _ W). pose proof (wu_R _ W).
  unfold init_phi, dense_gphi, u_pc. rewrite EL, ER, S, E1, E2. unfold paired in P.
  destruct (u_lbL (ud_v u)) as [l|], (u_lbR (ud_v u)) as [r|]; cbn [ptr_of notNull isNull negb orb fits] in *.
  - rewrite (for_sum _ (u_nComp (ud_v u)) (fun i => (at_ a_zero l i * at_ a_zero r i)%num)); [|lia|].
    2:{ intros i s Hi. cbn [deref bind]. rewrite !rd_vec_ by lia. reflexivity. }
    cbn [bind deref]. rewrite alloc_init_ok by lia. cbn [bind]. rewrite repeat_tab.
    set (z := tab (u_nV (ud_v u)) (fun _ => a_zero)). assert (Lz : len z = u_nV (ud_v u)) by (apply len_tab; lia).
    rewrite AddTransponsedMatrixMultiplication_ok by lia. cbn [bind].
    rewrite AddTransponsedMatrixMultiplication_ok by (try lia; unfold addtmul; rewrite len_tab; lia). cbn [bind].
    rewrite neg_loop by (unfold addtmul; rewrite len_tab; lia). reflexivity.
  - exfalso. assert (C : Some l = None) by (apply P; reflexivity). discriminate.
  - exfalso. assert (C : Some r = None) by (apply P; reflexivity). discriminate.
  - destruct (E34 eq_refl eq_refl) as [E3 E4]. f_equal. destruct d; cbn in *. unfold set_d_g_phi, set_d_phi_const; cbn. congruence.
Qed.

Lemma init_phi_unpaired (nV nComp : Z) (d : pdata T) : 0 < nComp ->
  (notNull (d_lbL d) = true /\ d_lbR d = None /\ (forall a, d_lbL d = Some a -> exists x, rd a 0 = Ok x) \/ d_lbL d = None /\ notNull (d_lbR d) = true) ->
  init_phi nV nComp d = UB NullDeref.
Proof.
  intros Hn Hd. unfold init_phi.
  assert (S : forall (f : Z -> T -> res T), f 0 a_zero = UB NullDeref -> for_ 0 nComp f a_zero = UB NullDeref).
  { intros f E. unfold for_. replace (Z.to_nat (nComp - 0)) with (S (Z.to_nat (nComp - 1))) by lia. cbn. rewrite E. reflexivity. }
  destruct Hd as [(E1 & E2 & E3)|(E1 & E2)].
  - rewrite E1, E2. cbn [orb]. rewrite S; [reflexivity|]. destruct (d_lbL d) as [a|]; [|discriminate]. cbn [deref bind].
    destruct (E3 a eq_refl) as [x ->]. reflexivity.
  - rewrite E1, E2. cbn [notNull isNull negb orb]. rewrite S; reflexivity.
Qed.

Lemma start_dense_gen u opt : wf_dense u -> o_qpSolver opt = QPOASES_DENSE ->
  initializeSolver (loaded_dense u (fresh (ud_v u) opt)) =
  let! d := init_phi (u_nV (ud_v u)) (u_nComp (ud_v u)) (dense_pd0 u opt) in
  Ok (SUCCESSFUL_RETURN, mkLcqp (set_d_ub_tmp None (set_d_lb_tmp None d)) (start_it (ud_v u) (d_options d) (it (loaded_dense u (fresh (ud_v u) opt))))).
Proof.
  intros W Hq. pose proof (wu_v _ W) as V. pose proof (wv_nV _ V). pose proof (wv_nC _ V). pose proof (wv_nComp _ V). pose proof (wv_int _ V).
  pose proof (wv_sq _ V). pose proof (wv_rect _ V) as HR. pose proof (wv_lb _ V). pose proof (wv_ub _ V). unfold u_nA in HR.
  set (v := ud_v u) in *. set (o := loaded_dense u (fresh v opt)).
  unfold initializeSolver, and_then_quiet at 1. unfold init_subsolver.
  change (o_qpSolver (d_options (pd o))) with (o_qpSolver opt). rewrite Hq.
  change (d_nV (pd o)) with (Some (u_nV v)). change (d_nC (pd o)) with (Some (u_nC v)). change (d_nComp (pd o)) with (Some (u_nComp v)).
  cbn [get bind]. match goal with |- context [d_sparseSolver ?z] => change (d_sparseSolver z) with false end. cbn match.
  unfold and_then_quiet at 1. unfold setLB. cbn [pd]. match goal with |- context [d_nV ?z] => change (d_nV z) with (Some (u_nV v)) end. cbn [get bind]. replace (u_nV v =? 0) with false by lia.
  assert (K1 : forall x, keep x (@None (arr T)) = ptr_of x) by (intros []; reflexivity).
  assert (E1 : d_lb_tmp (set_d_boxDualOffset (Some (u_nV v)) (set_d_nDuals (Some (u_nV v + u_nC v + 2 * u_nComp v)) (pd o))) = ptr_of (u_lb v)).
  { change (keep (u_lb v) None = ptr_of (u_lb v)). apply K1. }
  rewrite E1. rewrite box_vec_ok by (auto; lia). cbn [bind is_success].
  unfold and_then_quiet. unfold setUB. cbn [pd]. match goal with |- context [d_nV ?z] => change (d_nV z) with (Some (u_nV v)) end. cbn [get bind]. replace (u_nV v =? 0) with false by lia.
  match goal with |- context [box_vec (u_nV v) ?b a_pinf] => assert (E2 : b = ptr_of (u_ub v)) end.
  { change (keep (u_ub v) None = ptr_of (u_ub v)). apply K1. }
  rewrite E2. rewrite box_vec_ok by (auto; lia). cbn [bind is_success].
  match goal with |- context [Subsolver_dense _ _ ?q ?a] =>
    assert (E3 : Subsolver_dense (u_nV v) (u_nC v + 2 * u_nComp v) q a = Ok (mkSub QPOASES_DENSE (u_nV v) (u_nA v) (SDense (lift (ud_Q u)) (lift (ud_ALR u))))) end.
  { apply (Subsolver_dense_ok (u_nV v) (u_nC v + 2 * u_nComp v) (ud_Q u) (ud_ALR u)); try lia; [exact (wu_Q _ W)|]. unfold ud_ALR. rewrite !len_app, (wu_A _ W), (wu_L _ W), (wu_R _ W). fold v. lia. }
  rewrite E3. cbn [bind is_success pd]. match goal with |- context [d_nV ?z] => change (d_nV z) with (Some (u_nV v)) end. match goal with |- context [d_nComp ?z] => change (d_nComp z) with (Some (u_nComp v)) end. cbn [get bind].
  match goal with |- context [memcpy_ptr _ ?g _] => change g with (Some (lift (u_g v))) end.
  rewrite memcpy_new_k by (rewrite ?(wv_g _ V); lia).
  reflexivity.
Qed.
Lemma start_dense u opt : wf_dense u -> paired (ud_v u) -> o_qpSolver opt = QPOASES_DENSE ->
  initializeSolver (loaded_dense u (fresh (ud_v u) opt)) =
  Ok (SUCCESSFUL_RETURN, mkLcqp (dense_pd u opt) (start_it (ud_v u) opt (it (loaded_dense u (fresh (ud_v u) opt))))).
Proof.
  intros W P Hq. rewrite start_dense_gen by auto.
  assert (K1 : forall x, keep x (@None (arr T)) = ptr_of x) by (intros []; reflexivity).
  rewrite init_phi_dense; auto; try reflexivity; try apply K1.
Qed.

Lemma dense_wfd u opt : wf_dense u -> wfd (dense_ops u opt) (dense_KR (u_nV (ud_v u))) (dense_pd u opt).
Proof.
  intros W. pose proof (wu_v _ W) as V. pose proof (wv_nV _ V). pose proof (wv_nC _ V). pose proof (wv_nComp _ V). pose proof (wv_int _ V).
  pose proof (wv_sq _ V). pose proof (wv_rect _ V) as HR. pose proof (wv_lb _ V). pose proof (wv_ub _ V). unfold u_nA in HR.
  pose proof (wu_Q _ W) as LQ. pose proof (wu_L _ W) as LL. pose proof (wu_R _ W) as LR. pose proof (wu_A _ W) as LA.
  set (v := ud_v u) in *.
  assert (LC : len (ud_C u) = u_nV v * u_nV v) by (unfold ud_C, symm; fold v; apply len_tab; nia).
  assert (LS : len (ud_ALR u) = u_nA v * u_nV v) by (unfold ud_ALR, u_nA; rewrite !len_app, LQ, LL, LR || rewrite !len_app; rewrite LA, LL, LR; fold v; lia).
  constructor; cbn [dense_ops p_opt p_nV p_nC p_nComp p_off p_box p_g p_gphi p_pc p_matH p_matA p_lbA p_ubA p_lb p_ub p_setH p_updH p_affH p_quadH p_affC p_quadC p_quadQ p_tA p_mulL p_mulR p_solver]; fold v.
  - reflexivity.
  - reflexivity.
  - reflexivity.
  - reflexivity.
  - unfold p_nD, p_nA. cbn. f_equal. fold v. lia.
  - reflexivity.
  - unfold p_nD, p_nA. cbn [dense_ops p_nC p_nComp p_off]. fold v. lia.
  - reflexivity.
  - split; [reflexivity|apply len_bnd; auto; lia].
  - split; [reflexivity|apply len_bnd; auto; lia].
  - reflexivity.
  - split; [reflexivity|apply (wv_g _ V)].
  - change (d_g_phi (dense_pd u opt)) with (ptr_of (dense_gphi u)). unfold dense_gphi. fold v.
    destruct (u_lbL v), (u_lbR v); cbn [optvec ptr_of]; auto. split; [reflexivity|apply len_tab; lia].
  - reflexivity.
  - split; [reflexivity|]. unfold u_lower, p_nA. cbn [dense_ops p_nC p_nComp]. fold v.
    rewrite !len_app, !len_bnd by (auto using (wv_lbA _ V), (wv_lbL _ V), (wv_lbR _ V); lia). lia.
  - split; [reflexivity|]. unfold u_upper, p_nA. cbn [dense_ops p_nC p_nComp]. fold v.
    rewrite !len_app, !len_bnd by (auto using (wv_ubA _ V), (wv_ubL _ V), (wv_ubR _ V); lia). lia.
  - eexists. split; [reflexivity|]. split; [reflexivity|]. split; [reflexivity|]. split; [reflexivity|].
    unfold rd_mats. cbn [sub_mats sub_nV sub_nC]. fold v.
    rewrite !rd_list_lift by (unfold len in LQ, LS; lia). cbn [bind].
    rewrite !firstn_all2 by (unfold len in LQ, LS; lia). reflexivity.
  - intros rho x c D Lx Lc LD. split; [|unfold affine; apply len_tab; lia].
    unfold dAffC. change (d_sparseSolver (dense_pd u opt)) with false. change (d_C (dense_pd u opt)) with (Some (lift (ud_C u))). cbn [deref bind].
    rewrite AffineLinearTransformation_ok by lia. rewrite drop_all by lia. rewrite app_nil_r. reflexivity.
  - intros x Lx. unfold dQuad. change (d_sparseSolver (dense_pd u opt)) with false. change (d_C (dense_pd u opt)) with (Some (lift (ud_C u))). cbn [deref bind].
    apply QuadraticFormProduct_ok; lia.
  - intros x Lx. unfold dQuad. change (d_sparseSolver (dense_pd u opt)) with false. change (d_Q (dense_pd u opt)) with (Some (lift (ud_Q u))). cbn [deref bind].
    apply QuadraticFormProduct_ok; lia.
  - intros y cs Ly Lc. unfold p_nA in Ly. cbn [dense_ops p_nC p_nComp] in Ly. fold v in Ly. split; [|unfold tmul; rewrite len_tab; lia].
    unfold dTA. change (d_sparseSolver (dense_pd u opt)) with false. match goal with |- context [d_nC ?z] => change (d_nC z) with (Some (u_nC v)) end. match goal with |- context [d_nComp ?z] => change (d_nComp z) with (Some (u_nComp v)) end.
    match goal with |- context [d_nV ?z] => change (d_nV z) with (Some (u_nV v)) end. change (d_A (dense_pd u opt)) with (Some (lift (ud_ALR u))). cbn [get deref bind].
    unfold u_nA in *. rewrite TransponsedMatrixMultiplication_ok by lia. rewrite drop_all by lia. rewrite app_nil_r. reflexivity.
  - intros x tmp Lx Lt. split; [|unfold mmul; rewrite len_tab; lia].
    unfold dMul. change (d_sparseSolver (dense_pd u opt)) with false. change (d_L (dense_pd u opt)) with (Some (lift (ud_L u))). cbn [deref bind].
    rewrite MatrixMultiplication_ok by (fold v in LL; lia). rewrite drop_all by lia. rewrite app_nil_r. reflexivity.
  - intros x tmp Lx Lt. split; [|unfold mmul; rewrite len_tab; lia].
    unfold dMul. change (d_sparseSolver (dense_pd u opt)) with false. change (d_R (dense_pd u opt)) with (Some (lift (ud_R u))). cbn [deref bind].
    rewrite MatrixMultiplication_ok by (fold v in LR; lia). rewrite drop_all by lia. rewrite app_nil_r. reflexivity.
  - intros h M Ms ix x c D [-> Lh] Lx Lc LD. split; [|unfold affine; apply len_tab; lia].
    unfold dAffH. change (d_sparseSolver (dense_pd u opt)) with false. cbn [deref bind].
    rewrite AffineLinearTransformation_ok by (fold v in Lh; lia). rewrite drop_all by lia. rewrite app_nil_r. reflexivity.
  - intros h M Ms ix x [-> Lh] Lx. unfold dQuad. change (d_sparseSolver (dense_pd u opt)) with false. cbn [deref bind].
    apply QuadraticFormProduct_ok; fold v in Lh; lia.
  - intros h s [E Lh]. unfold updateQk. change (d_sparseSolver (dense_pd u opt)) with false. match goal with |- context [d_nV ?z] => change (d_nV z) with (Some (u_nV v)) end.
    change (d_Q (dense_pd u opt)) with (Some (lift (ud_Q u))). change (d_C (dense_pd u opt)) with (Some (lift (ud_C u))).
    rewrite E. cbn [get deref bind].
    rewrite (WeightedMatrixAdd_ok _ _ (ud_Q u) _ _ (ud_C u) (lift h) h); try (rewrite ?len_lift; fold v in Lh; nia); try apply Src_ext; try (intros [C|C]; discriminate).
    cbn [bind]. rewrite drop_all by (rewrite len_lift; fold v in Lh; lia). rewrite app_nil_r.
    exists (Some (lift (wadd a_one (ud_Q u) (s_rho s) (ud_C u) (u_nV v * u_nV v)))), (s_Qk_sparse s). split; [reflexivity|].
    split; [reflexivity|]. unfold wadd. apply len_tab. fold v. nia.
Qed.

Lemma dense_noH u opt s : wf_dense u -> room (u_nV (ud_v u) * u_nV (ud_v u)) (s_Qk s) ->
  noH (dense_ops u opt) (dense_KR (u_nV (ud_v u))) (dense_pd u opt) s.
Proof.
  intros W (a & E & La). pose proof (wu_v _ W) as V. pose proof (wv_nV _ V). pose proof (wu_Q _ W) as LQ. set (v := ud_v u) in *.
  assert (LC : len (ud_C u) = u_nV v * u_nV v) by (unfold ud_C, symm; fold v; apply len_tab; nia).
  unfold noH, setQk. change (d_sparseSolver (dense_pd u opt)) with false. match goal with |- context [d_nV ?z] => change (d_nV z) with (Some (u_nV v)) end.
  change (d_Q (dense_pd u opt)) with (Some (lift (ud_Q u))). change (d_C (dense_pd u opt)) with (Some (lift (ud_C u))).
  rewrite E. cbn [get deref bind].
  rewrite (WeightedMatrixAdd_ok _ _ (ud_Q u) _ _ (ud_C u) a []); try (fold v in LQ; nia); try apply Src_ext; try (intros [C|C]; discriminate).
  cbn [bind]. rewrite drop_all by lia. rewrite app_nil_r.
  exists (Some (lift (wadd a_one (ud_Q u) (s_rho s) (ud_C u) (u_nV v * u_nV v)))), (s_Qk_sparse s), (s_Qk_indices_of_C s). split; [reflexivity|].
  split; [reflexivity|]. unfold wadd. apply len_tab. fold v. nia.
Qed.

(** The initial guess as the loop sees it.  No LCQPow code. *)
Definition u_x (v : uvec T) : list T := bnd (u_nV v) (u_x0 v) a_zero.

Lemma start_relB {K} (p : ops T K) (v : uvec T) (opt : options T) (s : iter T) : wf_vec v -> p_opt p = opt -> p_nV p = u_nV v -> p_nC p = u_nC v -> p_nComp p = u_nComp v ->
  p_g p = u_g v -> s = guessed v (it (fresh v opt)) -> relB p (start_it v opt s) (v_init p (u_x v)).
Proof.
  intros V Eo E1 E2 E3 Eg ->. pose proof (wv_nV _ V). pose proof (wv_nC _ V). pose proof (wv_nComp _ V).
  assert (EA : p_nA p = u_nA v) by (unfold p_nA, u_nA; congruence).
  assert (Lz : forall n, 0 <= n -> len (tab n (fun _ => @a_zero T _)) = n) by (intros; apply len_tab; auto).
  assert (G : relB p (set_stats stats_reset (set_algoStat (Some PROBLEM_NOT_SOLVED) (set_totalIter 0 (set_innerIter 0 (set_outerIter 0
             (set_rho (o_initialPenaltyParameter opt) (set_alphak a_one (set_g_tilde (Some (lift (u_g v))) (guessed v (it (fresh v opt)))))))))))
     (v_init p (u_x v))).
  { constructor; try reflexivity; unfold v_init; cbv zeta; rewrite ?E1, ?EA, ?Eo, ?Eg.
    - reflexivity.
    - split; [reflexivity|apply (wv_g _ V)].
    - split; [reflexivity|apply Lz; lia].
    - split; [reflexivity|]. apply len_bnd; [lia|apply (wv_x0 _ V)].
    - split; [reflexivity|apply Lz; unfold u_nA; lia].
    - split; [reflexivity|apply Lz; lia].
    - split; [reflexivity|apply Lz; lia].
    - eexists. split; [reflexivity|rewrite len_lift; apply Lz; lia].
    - eexists. split; [reflexivity|rewrite len_lift; apply Lz; lia].
    - eexists. split; [reflexivity|rewrite len_lift; apply Lz; lia].
    - eexists. split; [reflexivity|rewrite len_lift; apply Lz; lia]. }
  unfold start_it. destruct (o_printLevel opt); auto; destruct G; constructor; auto.
Qed.

(** The whole of a dense run is the run of [dense_ops] *)
Lemma solve_dense_ref u opt orc rand : wf_dense u -> paired (ud_v u) -> fin_lower (ud_v u) -> o_qpSolver opt = QPOASES_DENSE ->
  sim (fun a b => pd (snd a) = dense_pd u opt /\ relT (dense_ops u opt) (dense_KR (u_nV (ud_v u))) (fst a, it (snd a)) b)
    (solve_dense u opt orc rand)
    (v_run (dense_ops u opt) (Z.to_nat (o_maxIterations opt) + 2) orc rand (u_y0 (ud_v u)) (v_init (dense_ops u opt) (u_x (ud_v u)))).
Proof.
  intros W P F Hq. pose proof (wu_v _ W) as V. pose proof (wv_nV _ V).
  unfold solve_dense. rewrite new_object_ok by auto. cbn [bind]. rewrite load_dense_ok by (auto using fresh_dims). cbn [bind is_success].
  unfold runSolver, runSolver_fuel. rewrite start_dense by auto. cbn [bind is_success negb pd it].
  change (o_maxIterations (d_options (pd (loaded_dense u (fresh (ud_v u) opt))))) with (o_maxIterations opt).
  set (s := start_it _ _ _).
  pose proof (run_ref (dense_ops u opt) (dense_KR (u_nV (ud_v u))) (dense_pd u opt) (dense_wfd u opt W) (Z.to_nat (o_maxIterations opt) + 2)
    orc rand (u_y0 (ud_v u)) s (v_init (dense_ops u opt) (u_x (ud_v u)))) as R.
  match type of R with ?A -> ?B -> ?C -> _ => assert (HA : A); [|assert (HB : B); [|assert (HC : C)]] end.
  - apply start_relB; auto.
  - assert (E : s_yk s = ptr_of (u_y0 (ud_v u))) by (unfold s, start_it; destruct (o_printLevel opt); reflexivity).
    rewrite E. pose proof (wv_y0 _ V) as Fy. destruct (u_y0 (ud_v u)); cbn [ptr_of optvec fits] in *; [|reflexivity].
    split; [reflexivity|]. rewrite Fy. reflexivity.
  - intros s' _ E _ _. apply dense_noH; auto. rewrite E.
    assert (E' : s_Qk s = Some (lift (tab (u_nV (ud_v u) * u_nV (ud_v u)) (fun _ => a_zero)))) by (unfold s, start_it; destruct (o_printLevel opt); reflexivity).
    rewrite E'. eexists. split; [reflexivity|]. rewrite len_lift, len_tab; nia.
  - specialize (R HA HB HC). unfold run_after in R.
    destruct (first_solve orc (dense_pd u opt) s) as [[s1 [r|]]|e]; cbn [bind] in *.
    + destruct (v_run _ _ _ _ _ _); cbn [sim] in *; [|contradiction]. split; [reflexivity|exact R].
    + destruct (loop _ orc rand (dense_pd u opt) s1) as [[r s2]|e]; cbn [bind] in *;
        (destruct (v_run _ _ _ _ _ _); cbn [sim] in *; [|contradiction || exact R]); [split; [reflexivity|exact R]|contradiction].
    + revert R. destruct (v_run _ _ _ _ _ _); cbn [sim]; intros R; exact R.
Qed.

End StartDense.
