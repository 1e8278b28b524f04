(** * StartSparse: a freshly constructed object loaded with sparse data enters the solver loop as the problem [sparse_ops]
    (no LCQPow code). *)
From Verif Require Import Base Arith Codes Utilities Options Stats FileIO Subsolver State LCQProblem Tactics Loops Kernels SpecSparse CscKernels CscBuild CscMerge SpecLoad LoadLoops LoadDense LoadSparse Pure Refine StartDense.

Section StartSparse.
Context {T : Type} `{Arith T}.
Implicit Types (u : usparse T) (opt : options T).

(** Linear term of the penalty for nonzero lower bounds.  No LCQPow code. *)
Definition sparse_gphi (u : usparse T) : option (list T) :=
  let v := us_v u in
  match u_lbL v, u_lbR v with
  | Some l, Some r =>
      let z := tab (u_nV v) (fun _ => a_zero) in
      let a := addtmul_csc (us_L u) r (addtmul_csc (us_R u) l z (u_nV v)) (u_nV v) in
      Some (tab (u_nV v) (fun i => (- at_ a_zero a i)%num))
  | _, _ => None
  end.

(** A csc matrix as the QP library sees it.  No LCQPow code. *)
Definition csc_mat (m n : Z) (cols : list (list (Z * T))) : qp_mat T :=
  MSparse m n (tab (n + 1) (off cols)) (map fst (concat cols)) (map snd (concat cols)).
(** No LCQPow code. *)
Definition osqp (opt : options T) : bool := match o_qpSolver opt with OSQP_SPARSE => true | _ => false end.
(** The Hessian handed to the QP library: OSQP only gets the upper triangle.  No LCQPow code. *)
Definition sparse_H (u : usparse T) (opt : options T) : list (list (Z * T)) :=
  if osqp opt then upper_cols (us_Q u) (u_nV (us_v u)) else us_Q u.
(** Where the entries of Q + rho C come from.  No LCQPow code. *)
Definition us_tags (u : usparse T) : list (list (@tag T)) := mtags (us_Q u) (us_C u) (u_nV (us_v u)).

(** The problem as the solver loop sees it.  No LCQPow code. *)
Definition sparse_ops (u : usparse T) (opt : options T) : ops T (@tag T -> T) :=
  let v := us_v u in
  let n := u_nV v in
  mkOps T (@tag T -> T) opt (o_qpSolver opt) n (u_nC v) (u_nComp v) (if osqp opt then 0 else n) (negb (osqp opt)) (u_g v) (sparse_gphi u) (u_pc v)
    (csc_mat n n (sparse_H u opt)) (csc_mat (u_nA v) n (us_ALR u)) (u_lower v) (u_upper v)
    (if osqp opt then None else Some (bnd n (u_lb v) a_ninf)) (if osqp opt then None else Some (bnd n (u_ub v) a_pinf))
    (fun rho => tval rho)
    (fun rho h => bump (rho * (a_one - a_one / o_penaltyUpdateFactor opt))%num h)
    (fun h x c => affine_csc a_one (vcols h (us_tags u)) x c n)
    (fun h x => quad_csc (vcols h (us_tags u)) x n)
    (fun rho x c => affine_csc rho (us_C u) x c n)
    (fun x => quad_csc (us_C u) x n)
    (fun x => quad_csc (us_Q u) x n)
    (fun y => tmul_csc (us_ALR u) y n)
    (fun x => mul_csc (us_L u) x (u_nComp v) n)
    (fun x => mul_csc (us_R u) x (u_nComp v) n).

(** Stored form of the penalised Hessian.  No LCQPow code. *)
Definition sparse_KR (u : usparse T) (h : @tag T -> T) (_ : ptr T) (Ms : option (csc T)) (ix : list Z) : Prop :=
  let n := u_nV (us_v u) in
  exists S, Ms = Some S /\ repr S n n (vcols h (us_tags u)) /\ ix = cpos 0 (concat (us_tags u)).

(** Members when initializeSolver reaches the penalty data.  No LCQPow code. *)
Definition sparse_pd0 (u : usparse T) (opt : options T) : pdata T :=
  let v := us_v u in
  let d := pd (loaded_sparse u (fresh v opt)) in
  let n := u_nV v in
  let q := SSparse (csc_of n n (sparse_H u opt)) (csc_of (u_nA v) n (us_ALR u)) in
  if osqp opt then
      set_d_subsolver (Some (mkSub OSQP_SPARSE n (u_nA v) q)) (set_d_boxDualOffset (Some 0) (set_d_nDuals (Some (u_nC v + 2 * u_nComp v)) d))
    else
      let d := set_d_boxDualOffset (Some n) (set_d_nDuals (Some (n + u_nC v + 2 * u_nComp v)) d) in
      let d := set_d_ub (Some (lift (bnd n (u_ub v) a_pinf))) (set_d_lb (Some (lift (bnd n (u_lb v) a_ninf))) d) in
      set_d_subsolver (Some (mkSub QPOASES_SPARSE n (u_nA v) q)) d.
(** Members after initializeSolver.  No LCQPow code. *)
Definition sparse_pd (u : usparse T) (opt : options T) : pdata T :=
  let d := set_d_phi_const (u_pc (us_v u)) (set_d_g_phi (ptr_of (sparse_gphi u)) (sparse_pd0 u opt)) in
  set_d_ub_tmp None (set_d_lb_tmp None d).

Lemma us_C_len u : wf_sparse u -> len (us_C u) = u_nV (us_v u).
Proof. intros W. pose proof (wv_nV _ (ws_v _ W)). apply len_tab. lia. Qed.
Lemma us_C_nnz u : wf_sparse u -> len (concat (us_C u)) <= u_nV (us_v u) * u_nV (us_v u).
Proof.
  intros W. pose proof (wv_nV _ (ws_v _ W)). pose proof (us_C_len u W) as L. rewrite <- L at 1. apply len_concat_le.
  intros c Hc. apply in_tab in Hc. destruct Hc as (j & Hj & ->).
  match goal with |- len (tabcat _ ?f) <= _ => assert (B : forall i, len (f i) <= 1) end.
  { intros i. cbv zeta. destruct (isZero _); unfold len; simpl; lia. }
  match goal with |- len (tabcat _ ?f) <= _ => set (g := f) in * end. clearbody g.
  assert (G : forall n, 0 <= n -> len (tabcat n g) <= n); [|apply G; lia].
  intros n Hn. pattern n. apply natlike_ind; [reflexivity| |exact Hn].
  intros x Hx IH. unfold Z.succ. rewrite tabcat_succ, len_app by auto. specialize (B x). lia.
Qed.
Lemma us_C_repr u : wf_sparse u -> repr (csc_of (u_nV (us_v u)) (u_nV (us_v u)) (us_C u)) (u_nV (us_v u)) (u_nV (us_v u)) (us_C u).
Proof. intros W. constructor; auto using us_C_len. apply symm_cols_rows. Qed.
Lemma us_ALR_repr u : wf_sparse u -> repr (csc_of (u_nA (us_v u)) (u_nV (us_v u)) (us_ALR u)) (u_nA (us_v u)) (u_nV (us_v u)) (us_ALR u).
Proof.
  intros W. pose proof (ws_v _ W) as V. pose proof (wv_nV _ V). pose proof (wv_nC _ V). pose proof (wv_nComp _ V).
  destruct (ws_A _ W) as (LA & RA & _), (ws_L _ W) as (LL & RL & _), (ws_R _ W) as (LR & RR & _).
  constructor; auto; [apply len_tab; lia|]. apply stack_rows; auto; lia.
Qed.
Lemma us_ALR_nnz u : wf_sparse u -> 0 <= len (concat (us_ALR u)) <= INT_MAX.
Proof.
  intros W. pose proof (ws_v _ W) as V. pose proof (wv_nV _ V). pose proof (wv_nC _ V). pose proof (wv_nComp _ V). pose proof (wv_rect _ V) as HR. unfold u_nA in HR.
  pose proof (wf_cols_len (u_nComp (us_v u)) (u_nV (us_v u)) (us_L u) ltac:(lia) (ws_L _ W)).
  pose proof (wf_cols_len (u_nComp (us_v u)) (u_nV (us_v u)) (us_R u) ltac:(lia) (ws_R _ W)).
  pose proof (wf_cols_len (u_nC (us_v u)) (u_nV (us_v u)) (us_Acols u) ltac:(lia) (ws_A _ W)).
  split; [apply len_nonneg|].
  unfold us_ALR. rewrite len_stack; [nia|apply (ws_A _ W)|apply (ws_L _ W)|apply (ws_R _ W)].
Qed.
Lemma us_Q_nnz u : wf_sparse u -> 0 <= len (concat (us_Q u)) <= INT_MAX.
Proof. intros W. pose proof (ws_merge _ W). pose proof (wv_nV _ (ws_v _ W)). pose proof (len_nonneg (concat (us_Q u))). nia. Qed.

Lemma copy_csc_qpoases_ok nR n (S : csc T) cols : repr S nR n cols -> n + 1 <= INT_MAX -> len (concat cols) <= INT_MAX ->
  copy_csc_qpoases nR n S = Ok (csc_of nR n cols).
Proof.
  intros HR Hn Hz. pose proof (repr_n S nR n cols HR). pose proof (len_nonneg (concat cols)). unfold copy_csc_qpoases.
  rewrite (csc_p_repr S nR n cols HR) by lia. cbn [bind].
  assert (E : off cols n = len (concat cols)) by (rewrite <- (rp_len _ _ _ _ HR), off_all; reflexivity). rewrite E.
  rewrite !alloc_ok by lia. cbn [bind].
  rewrite (for_fill1 _ (fun k => off cols k)); [|lia|rewrite len_repeat; lia|].
  2:{ intros k C Hk Hl _. rewrite (csc_p_repr S nR n cols HR) by lia. cbn [bind]. apply wr_ok. rewrite len_repeat in Hl by lia. lia. }
  cbn [bind]. rewrite drop_all by (rewrite len_repeat; lia). rewrite app_nil_r.
  rewrite (for_fill1 _ (fun k => at_ 0 (map fst (concat cols)) k)); [|lia|rewrite len_repeat; lia|].
  2:{ intros k C Hk Hl _. unfold csc_i. rewrite (rp_i _ _ _ _ HR). cbn [deref bind]. rewrite (rd_lift 0) by (rewrite len_map; lia). cbn [bind]. apply wr_ok. rewrite len_repeat in Hl by lia. lia. }
  cbn [bind]. rewrite drop_all by (rewrite len_repeat; lia). rewrite app_nil_r.
  rewrite (rp_x _ _ _ _ HR). rewrite memcpy_ptr_full by (rewrite ?len_map, ?len_repeat; lia). cbn [bind].
  rewrite <- (len_map fst (concat cols)) at 1. rewrite tab_at. reflexivity.
Qed.

Lemma rd_csc_ok m n cols : 0 <= n -> len cols = n -> rd_csc (csc_of m n cols) = Ok (csc_mat m n cols).
Proof.
  intros Hn L. unfold rd_csc, csc_of, csc_mat. cbn [c_p c_n c_i c_x c_m deref bind].
  assert (LT : len (tab (n + 1) (off cols)) = n + 1) by (apply len_tab; lia).
  rewrite rd_list_lift by (unfold len in LT; lia). cbn [bind]. rewrite firstn_all2 by (unfold len in LT; lia).
  assert (E : last (tab (n + 1) (off cols)) 0 = len (concat cols)).
  { rewrite tab_succ by lia. rewrite last_last. rewrite <- L. apply off_all. }
  rewrite E. unfold len. rewrite Nat2Z.id.
  rewrite !rd_list_lift by (rewrite map_length; lia). cbn [bind]. rewrite !firstn_all2 by (rewrite map_length; lia). reflexivity.
Qed.

Lemma Subsolver_sparse_ok u opt : wf_sparse u -> o_qpSolver opt <> QPOASES_DENSE ->
  let v := us_v u in
  Subsolver_sparse (u_nV v) (u_nC v + 2 * u_nComp v) (Some (csc_of (u_nV v) (u_nV v) (us_Q u))) (Some (csc_of (u_nA v) (u_nV v) (us_ALR u))) (o_qpSolver opt) =
  Ok (mkSub (o_qpSolver opt) (u_nV v) (u_nA v) (SSparse (csc_of (u_nV v) (u_nV v) (sparse_H u opt)) (csc_of (u_nA v) (u_nV v) (us_ALR u)))).
Proof.
  intros W Hs v. pose proof (ws_v _ W) as V. fold v in V. pose proof (wv_nV _ V). pose proof (wv_nC _ V). pose proof (wv_nComp _ V). pose proof (wv_int _ V).
  pose proof (us_Q_nnz u W). pose proof (us_ALR_nnz u W). pose proof (repr_csc_of _ _ _ (ws_Q _ W)) as RQ. pose proof (us_ALR_repr u W) as RA.
  unfold Subsolver_sparse, sparse_H, osqp. fold v. fold v in RQ, RA. destruct (o_qpSolver opt); [congruence| |]; cbn [deref bind].
  - rewrite (copy_csc_qpoases_ok _ _ _ _ RQ) by lia. cbn [bind]. change (u_nC v + 2 * u_nComp v) with (u_nA v).
    rewrite (copy_csc_qpoases_ok _ _ _ _ RA) by lia. reflexivity.
  - destruct (copyCSC_upper_ok _ _ _ _ RQ) as (U & EU & RU); try lia. rewrite EU. cbn [bind].
    rewrite (copyCSC_ok _ _ _ _ RA) by lia. cbn [bind]. rewrite (csc_of_repr _ _ _ _ RU). reflexivity.
Qed.

Lemma init_phi_sparse (u : usparse T) (d : pdata T) : wf_sparse u -> paired (us_v u) -> d_sparseSolver d = true ->
  d_lbL d = ptr_of (u_lbL (us_v u)) -> d_lbR d = ptr_of (u_lbR (us_v u)) ->
  d_L_sparse d = Some (csc_of (u_nComp (us_v u)) (u_nV (us_v u)) (us_L u)) -> d_R_sparse d = Some (csc_of (u_nComp (us_v u)) (u_nV (us_v u)) (us_R u)) ->
  d_g_phi d = None -> d_phi_const d = a_zero ->
  init_phi (u_nV (us_v u)) (u_nComp (us_v u)) d = Ok (set_d_phi_const (u_pc (us_v u)) (set_d_g_phi (ptr_of (sparse_gphi u)) d)).
Proof.
  intros W P S EL ER E1 E2 E3 E4. pose proof (ws_v _ W) as V. pose proof (wv_nV _ V). pose proof (wv_nComp _ V). pose proof (wv_int _ V). pose proof (wv_nC _ V).
  pose proof (wv_lbL _ V) as FL. pose proof (wv_lbR _ V) as FR. pose proof (repr_csc_of _ _ _ (ws_L _ W)) as RL. pose proof (repr_csc_of _ _ _ (ws_R _ W)) as RR.
  unfold init_phi, sparse_gphi, u_pc. rewrite EL, ER, S, E1, E2. unfold paired in P.
  destruct (u_lbL (us_v u)) as [l|], (u_lbR (us_v u)) as [r|]; cbn [ptr_of notNull isNull negb orb fits] in *.
  - rewrite (for_sum _ (u_nComp (us_v u)) (fun i => (at_ a_zero l i * at_ a_zero r i)%num)); [|lia|].
    2:{ intros i s Hi. cbn [deref bind]. rewrite !rd_vec_ by lia. reflexivity. }
    cbn [bind deref]. rewrite alloc_init_ok by lia. cbn [bind]. rewrite repeat_tab.
    set (z := tab (u_nV (us_v u)) (fun _ => a_zero)). assert (Lz : len z = u_nV (us_v u)) by (apply len_tab; lia).
    rewrite (AddTransponsedMatrixMultiplication_csc_ok _ _ _ _ _ _ RR) by lia. cbn [bind].
    rewrite (AddTransponsedMatrixMultiplication_csc_ok _ _ _ _ _ _ RL) by (try lia; unfold addtmul_csc; rewrite len_tab; lia). cbn [bind].
    rewrite neg_loop by (unfold addtmul_csc; rewrite len_tab; lia). reflexivity.
  - exfalso. assert (C : Some l = None) by (apply P; reflexivity). discriminate.
  - exfalso. assert (C : Some r = None) by (apply P; reflexivity). discriminate.
  - f_equal. destruct d; cbn in *. unfold set_d_g_phi, set_d_phi_const; cbn. congruence.
Qed.

Lemma start_sparse_gen u opt : wf_sparse u -> o_qpSolver opt <> QPOASES_DENSE -> osqp_ok (us_v u) opt ->
  initializeSolver (loaded_sparse u (fresh (us_v u) opt)) =
  let! d := init_phi (u_nV (us_v u)) (u_nComp (us_v u)) (sparse_pd0 u opt) in
  Ok (SUCCESSFUL_RETURN, mkLcqp (set_d_ub_tmp None (set_d_lb_tmp None d)) (start_it (us_v u) (d_options d) (it (loaded_sparse u (fresh (us_v u) opt))))).
Proof.
  intros W Hq Ho. pose proof (ws_v _ W) as V. pose proof (wv_nV _ V). pose proof (wv_nC _ V). pose proof (wv_nComp _ V). pose proof (wv_int _ V).
  pose proof (wv_sq _ V). pose proof (wv_rect _ V) as HR. pose proof (wv_lb _ V). pose proof (wv_ub _ V). unfold u_nA in HR.
  pose proof (Subsolver_sparse_ok u opt W Hq) as SUB. cbv zeta in SUB.
  set (v := us_v u) in *. set (o := loaded_sparse u (fresh v opt)).
  assert (K1 : forall x, keep x (@None (arr T)) = ptr_of x) by (intros []; reflexivity).
  unfold initializeSolver, and_then_quiet at 1. unfold init_subsolver.
  change (o_qpSolver (d_options (pd o))) with (o_qpSolver opt).
  destruct (o_qpSolver opt) eqn:Es; [congruence| |].
  - change (d_nV (pd o)) with (Some (u_nV v)). change (d_nC (pd o)) with (Some (u_nC v)). change (d_nComp (pd o)) with (Some (u_nComp v)).
    cbn [get bind]. match goal with |- context [d_sparseSolver ?z] => change (d_sparseSolver z) with true end. cbn [negb].
    unfold and_then_quiet at 1. unfold setLB. cbn [pd]. match goal with |- context [d_nV ?z] => change (d_nV z) with (Some (u_nV v)) end. cbn [get bind]. replace (u_nV v =? 0) with false by lia.
    assert (E1 : d_lb_tmp (set_d_boxDualOffset (Some (u_nV v)) (set_d_nDuals (Some (u_nV v + u_nC v + 2 * u_nComp v)) (pd o))) = ptr_of (u_lb v)).
    { change (keep (u_lb v) None = ptr_of (u_lb v)). apply K1. }
    rewrite E1. rewrite box_vec_ok by (auto; lia). cbn [bind is_success].
    unfold and_then_quiet. unfold setUB. cbn [pd]. match goal with |- context [d_nV ?z] => change (d_nV z) with (Some (u_nV v)) end. cbn [get bind]. replace (u_nV v =? 0) with false by lia.
    match goal with |- context [box_vec (u_nV v) ?b a_pinf] => assert (E2 : b = ptr_of (u_ub v)) end.
    { change (keep (u_ub v) None = ptr_of (u_ub v)). apply K1. }
    rewrite E2. rewrite box_vec_ok by (auto; lia). cbn [bind is_success].
    match goal with |- context [Subsolver_sparse _ _ ?q ?a _] =>
      assert (E3 : Subsolver_sparse (u_nV v) (u_nC v + 2 * u_nComp v) q a QPOASES_SPARSE = Ok (mkSub QPOASES_SPARSE (u_nV v) (u_nA v) (SSparse (csc_of (u_nV v) (u_nV v) (sparse_H u opt)) (csc_of (u_nA v) (u_nV v) (us_ALR u))))) by exact SUB end.
    rewrite E3. cbn [bind is_success pd]. match goal with |- context [d_nV ?z] => change (d_nV z) with (Some (u_nV v)) end. match goal with |- context [d_nComp ?z] => change (d_nComp z) with (Some (u_nComp v)) end. cbn [get bind].
    match goal with |- context [memcpy_ptr _ ?g _] => change g with (Some (lift (u_g v))) end.
    rewrite memcpy_new_k by (rewrite ?(wv_g _ V); lia).
    unfold sparse_pd0. replace (osqp opt) with false by (unfold osqp; rewrite Es; reflexivity). reflexivity.
  - destruct (Ho Es) as (Hl & Hu & Hy). fold v in Hl, Hu, Hy.
    change (d_lb (pd o)) with (@None (arr T)). change (d_ub (pd o)) with (@None (arr T)). cbn [notNull isNull negb orb].
    change (d_nV (pd o)) with (Some (u_nV v)). change (d_nC (pd o)) with (Some (u_nC v)). change (d_nComp (pd o)) with (Some (u_nComp v)).
    cbn [get bind].
    assert (Ey : s_yk (it o) = None) by (change (ptr_of (u_y0 v) = None); rewrite Hy; reflexivity).
    rewrite Ey. cbn [bind]. cbv zeta.
    match goal with |- context [d_sparseSolver ?z] => change (d_sparseSolver z) with true end. cbn [negb].
    assert (E1 : d_lb_tmp (set_d_boxDualOffset (Some 0) (set_d_nDuals (Some (u_nC v + 2 * u_nComp v)) (pd o))) = None).
    { change (keep (u_lb v) (@None (arr T)) = None). rewrite Hl. reflexivity. }
    assert (E2 : d_ub_tmp (set_d_boxDualOffset (Some 0) (set_d_nDuals (Some (u_nC v + 2 * u_nComp v)) (pd o))) = None).
    { change (keep (u_ub v) (@None (arr T)) = None). rewrite Hu. reflexivity. }
    rewrite E1, E2. cbn [notNull isNull negb orb].
    match goal with |- context [Subsolver_sparse _ _ ?q ?a _] =>
      assert (E3 : Subsolver_sparse (u_nV v) (u_nC v + 2 * u_nComp v) q a OSQP_SPARSE = Ok (mkSub OSQP_SPARSE (u_nV v) (u_nA v) (SSparse (csc_of (u_nV v) (u_nV v) (sparse_H u opt)) (csc_of (u_nA v) (u_nV v) (us_ALR u))))) by exact SUB end.
    rewrite E3. cbn [bind is_success pd]. match goal with |- context [d_nV ?z] => change (d_nV z) with (Some (u_nV v)) end. match goal with |- context [d_nComp ?z] => change (d_nComp z) with (Some (u_nComp v)) end. cbn [get bind].
    match goal with |- context [memcpy_ptr _ ?g _] => change g with (Some (lift (u_g v))) end.
    rewrite memcpy_new_k by (rewrite ?(wv_g _ V); lia).
    unfold sparse_pd0. replace (osqp opt) with true by (unfold osqp; rewrite Es; reflexivity).
    cbn [it]. replace (set_yk None (it o)) with (it o) by (rewrite <- Ey; reflexivity). reflexivity.
Qed.
Lemma start_sparse u opt : wf_sparse u -> paired (us_v u) -> o_qpSolver opt <> QPOASES_DENSE -> osqp_ok (us_v u) opt ->
  initializeSolver (loaded_sparse u (fresh (us_v u) opt)) =
  Ok (SUCCESSFUL_RETURN, mkLcqp (sparse_pd u opt) (start_it (us_v u) opt (it (loaded_sparse u (fresh (us_v u) opt))))).
Proof.
  intros W P Hq Ho. rewrite start_sparse_gen by auto.
  assert (K1 : forall x, keep x (@None (arr T)) = ptr_of x) by (intros []; reflexivity).
  rewrite init_phi_sparse; auto; unfold sparse_pd, sparse_pd0; destruct (osqp opt); try reflexivity; apply K1.
Qed.

Lemma sparse_Ccsc u opt : concat (us_C u) <> [] -> d_C_sparse (sparse_pd u opt) = Some (csc_of (u_nV (us_v u)) (u_nV (us_v u)) (us_C u)).
Proof.
  intros NZ. assert (E : d_C_sparse (sparse_pd u opt) = if len (concat (us_C u)) =? 0 then None else Some (csc_of (u_nV (us_v u)) (u_nV (us_v u)) (us_C u)))
    by (unfold sparse_pd, sparse_pd0; destruct (osqp opt); reflexivity).
  rewrite E. destruct (concat (us_C u)) eqn:Ec; [congruence|]. rewrite len_cons. pose proof (len_nonneg l). replace (len l + 1 =? 0) with false by lia. reflexivity.
Qed.
Lemma sparse_flag u opt : d_sparseSolver (sparse_pd u opt) = true.
Proof. unfold sparse_pd, sparse_pd0. destruct (osqp opt); reflexivity. Qed.
Lemma sparse_H_len u opt : wf_sparse u -> len (sparse_H u opt) = u_nV (us_v u).
Proof.
  intros W. pose proof (wv_nV _ (ws_v _ W)). unfold sparse_H. destruct (osqp opt); [apply len_tab; lia|apply (ws_Q _ W)].
Qed.
Lemma len_vcols h (tg : list (list (@tag T))) : len (vcols h tg) = len tg.
Proof. unfold vcols. apply len_map. Qed.

Lemma sparse_wfd u opt : wf_sparse u -> concat (us_C u) <> [] -> o_qpSolver opt <> QPOASES_DENSE -> osqp_ok (us_v u) opt ->
  wfd (sparse_ops u opt) (sparse_KR u) (sparse_pd u opt).
Proof.
  intros W NZ Hs Ho. pose proof (ws_v _ W) as V. pose proof (wv_nV _ V). pose proof (wv_nC _ V). pose proof (wv_nComp _ V). pose proof (wv_int _ V).
  pose proof (wv_sq _ V). pose proof (wv_lb _ V). pose proof (wv_ub _ V).
  pose proof (repr_csc_of _ _ _ (ws_Q _ W)) as RQ. pose proof (repr_csc_of _ _ _ (ws_L _ W)) as RL. pose proof (repr_csc_of _ _ _ (ws_R _ W)) as RR.
  pose proof (us_C_repr u W) as RC. pose proof (us_ALR_repr u W) as RA. pose proof (sparse_Ccsc u opt NZ) as EC.
  pose proof (sparse_flag u opt) as SP. pose proof (sparse_H_len u opt W) as LH.
  assert (EL : d_L_sparse (sparse_pd u opt) = Some (csc_of (u_nComp (us_v u)) (u_nV (us_v u)) (us_L u))) by (unfold sparse_pd, sparse_pd0; destruct (osqp opt); reflexivity).
  assert (ER : d_R_sparse (sparse_pd u opt) = Some (csc_of (u_nComp (us_v u)) (u_nV (us_v u)) (us_R u))) by (unfold sparse_pd, sparse_pd0; destruct (osqp opt); reflexivity).
  assert (EA : d_A_sparse (sparse_pd u opt) = Some (csc_of (u_nA (us_v u)) (u_nV (us_v u)) (us_ALR u))) by (unfold sparse_pd, sparse_pd0; destruct (osqp opt); reflexivity).
  assert (EQ : d_Q_sparse (sparse_pd u opt) = Some (csc_of (u_nV (us_v u)) (u_nV (us_v u)) (us_Q u))) by (unfold sparse_pd, sparse_pd0; destruct (osqp opt); reflexivity).
  set (v := us_v u) in *.
  assert (Os : osqp opt = true /\ o_qpSolver opt = OSQP_SPARSE \/ osqp opt = false /\ o_qpSolver opt = QPOASES_SPARSE).
  { unfold osqp. destruct (o_qpSolver opt); [congruence|right|left]; auto. }
  constructor; cbn [sparse_ops p_opt p_nV p_nC p_nComp p_off p_box p_g p_gphi p_pc p_matH p_matA p_lbA p_ubA p_lb p_ub p_setH p_updH p_affH p_quadH p_affC p_quadC p_quadQ p_tA p_mulL p_mulR p_solver]; fold v.
  - unfold sparse_pd, sparse_pd0. destruct (osqp opt); reflexivity.
  - unfold sparse_pd, sparse_pd0. destruct (osqp opt); reflexivity.
  - unfold sparse_pd, sparse_pd0. destruct (osqp opt); reflexivity.
  - unfold sparse_pd, sparse_pd0. destruct (osqp opt); reflexivity.
  - unfold p_nD, p_nA, sparse_pd, sparse_pd0. cbn [sparse_ops p_off p_nC p_nComp]. fold v. destruct (osqp opt); cbn; f_equal; fold v; lia.
  - unfold sparse_pd, sparse_pd0. destruct Os as [[-> _]|[-> _]]; reflexivity.
  - unfold p_nD, p_nA. cbn [sparse_ops p_nC p_nComp p_off]. fold v. destruct (osqp opt); lia.
  - destruct Os as [[-> ->]|[-> ->]]; auto.
  - unfold sparse_pd, sparse_pd0. fold v. destruct (osqp opt); [reflexivity|]. split; [reflexivity|apply len_bnd; auto; lia].
  - unfold sparse_pd, sparse_pd0. fold v. destruct (osqp opt); [reflexivity|]. split; [reflexivity|apply len_bnd; auto; lia].
  - destruct (osqp opt); reflexivity.
  - split; [unfold sparse_pd, sparse_pd0; destruct (osqp opt); reflexivity|apply (wv_g _ V)].
  - assert (E : d_g_phi (sparse_pd u opt) = ptr_of (sparse_gphi u)) by (unfold sparse_pd, sparse_pd0; destruct (osqp opt); reflexivity). rewrite E. unfold sparse_gphi. fold v.
    destruct (u_lbL v), (u_lbR v); cbn [optvec ptr_of]; auto. split; [reflexivity|apply len_tab; lia].
  - unfold sparse_pd, sparse_pd0. destruct (osqp opt); reflexivity.
  - split; [unfold sparse_pd, sparse_pd0; destruct (osqp opt); reflexivity|]. unfold u_lower, p_nA. cbn [sparse_ops p_nC p_nComp]. fold v.
    rewrite !len_app, !len_bnd by (auto using (wv_lbA _ V), (wv_lbL _ V), (wv_lbR _ V); lia). lia.
  - split; [unfold sparse_pd, sparse_pd0; destruct (osqp opt); reflexivity|]. unfold u_upper, p_nA. cbn [sparse_ops p_nC p_nComp]. fold v.
    rewrite !len_app, !len_bnd by (auto using (wv_ubA _ V), (wv_ubL _ V), (wv_ubR _ V); lia). lia.
  - exists (mkSub (o_qpSolver opt) (u_nV v) (u_nA v) (SSparse (csc_of (u_nV v) (u_nV v) (sparse_H u opt)) (csc_of (u_nA v) (u_nV v) (us_ALR u)))).
    split; [unfold sparse_pd, sparse_pd0; fold v; destruct Os as [[-> ->]|[-> ->]]; reflexivity|]. split; [reflexivity|]. split; [reflexivity|]. split; [reflexivity|].
    unfold rd_mats. cbn [sub_mats]. rewrite !rd_csc_ok; [reflexivity|lia|apply (rp_len _ _ _ _ RA)|lia|auto].
  - intros rho x c D Lx Lc LD. split; [|unfold affine_csc; apply len_tab; lia].
    unfold dAffC. rewrite SP, EC. cbn [deref bind].
    rewrite (AffineLinearTransformation_csc_ok _ _ _ _ _ _ _ _ _ RC) by (fold v; lia). fold v. rewrite drop_all by lia. rewrite app_nil_r. reflexivity.
  - intros x Lx. unfold dQuad. rewrite SP, EC. cbn [deref bind]. apply (QuadraticFormProduct_csc_ok _ _ _ _ _ _ RC); fold v; lia.
  - intros x Lx. unfold dQuad. rewrite SP, EQ. cbn [deref bind]. apply (QuadraticFormProduct_csc_ok _ _ _ _ _ _ RQ); fold v; lia.
  - intros y cs Ly Lc. unfold p_nA in Ly. cbn [sparse_ops p_nC p_nComp] in Ly. fold v in Ly. split; [|unfold tmul_csc; rewrite len_tab; lia].
    unfold dTA. rewrite SP, EA. cbn [deref bind].
    rewrite (TransponsedMatrixMultiplication_csc_ok _ _ _ _ _ _ RA) by (unfold u_nA; fold v; lia). fold v. rewrite drop_all by lia. rewrite app_nil_r. reflexivity.
  - intros x tmp Lx Lt. split; [|unfold mul_csc; rewrite len_tab; lia].
    unfold dMul. rewrite SP, EL. cbn [deref bind].
    rewrite (MatrixMultiplication_csc_ok _ _ _ _ _ _ RL) by (fold v; lia). fold v. rewrite drop_all by lia. rewrite app_nil_r. reflexivity.
  - intros x tmp Lx Lt. split; [|unfold mul_csc; rewrite len_tab; lia].
    unfold dMul. rewrite SP, ER. cbn [deref bind].
    rewrite (MatrixMultiplication_csc_ok _ _ _ _ _ _ RR) by (fold v; lia). fold v. rewrite drop_all by lia. rewrite app_nil_r. reflexivity.
  - intros h M Ms ix x c D (S & -> & RS & _) Lx Lc LD. split; [|unfold affine_csc; apply len_tab; lia].
    unfold dAffH. rewrite SP. cbn [deref bind].
    rewrite (AffineLinearTransformation_csc_ok _ _ _ _ _ _ _ _ _ RS) by (fold v; lia). fold v. rewrite drop_all by lia. rewrite app_nil_r. reflexivity.
  - intros h M Ms ix x (S & -> & RS & _) Lx. unfold dQuad. rewrite SP. cbn [deref bind].
    apply (QuadraticFormProduct_csc_ok _ _ _ _ _ _ RS); fold v; lia.
  - intros h s (S & E & RS & EI). unfold updateQk. rewrite SP, E, EC, EI. cbn [deref bind].
    rewrite (rp_x _ _ _ _ RS). cbn [deref bind]. rewrite concat_vcols, map_map. cbn [fst snd].
    assert (Eo : o_penaltyUpdateFactor (d_options (sparse_pd u opt)) = o_penaltyUpdateFactor opt) by (unfold sparse_pd, sparse_pd0; destruct (osqp opt); reflexivity). rewrite Eo.
    destruct (updateQk_sparse_loop S _ (u_nV v) h (us_tags u) (us_C u) (s_rho s * (a_one - a_one / o_penaltyUpdateFactor opt))%num RS RC) as (x' & EX & _ & RX).
    { apply cpairs_mtags. apply us_C_len; auto. }
    match goal with |- context [for_ 0 ?n ?f ?a] => assert (EX' : for_ 0 n f a = Ok x') by exact EX; rewrite EX' end. cbn [bind]. exists (s_Qk s), (Some (mkCsc (c_m S) (c_n S) (c_p S) (c_i S) (Some x') (c_nzmax S))). split; [reflexivity|]. eexists. split; [reflexivity|]. split; [exact RX|reflexivity].
Qed.

Lemma sparse_noH u opt s : wf_sparse u -> concat (us_C u) <> [] -> s_Qk_indices_of_C s = [] ->
  noH (sparse_ops u opt) (sparse_KR u) (sparse_pd u opt) s.
Proof.
  intros W NZ E. pose proof (ws_v _ W) as V. pose proof (wv_nV _ V). pose proof (wv_nC _ V). pose proof (wv_nComp _ V). pose proof (wv_int _ V).
  pose proof (repr_csc_of _ _ _ (ws_Q _ W)) as RQ. pose proof (us_C_repr u W) as RC. pose proof (us_C_nnz u W). pose proof (ws_merge _ W).
  assert (EQ : d_Q_sparse (sparse_pd u opt) = Some (csc_of (u_nV (us_v u)) (u_nV (us_v u)) (us_Q u))) by (unfold sparse_pd, sparse_pd0; destruct (osqp opt); reflexivity).
  assert (EV : d_nV (sparse_pd u opt) = Some (u_nV (us_v u))) by (unfold sparse_pd, sparse_pd0; destruct (osqp opt); reflexivity).
  unfold noH, setQk. rewrite sparse_flag, EQ, EV, (sparse_Ccsc u opt NZ), E. cbn [get deref bind].
  destruct (setQk_sparse_ok (u_nV (us_v u)) _ _ (us_Q u) (us_C u) (s_rho s) [] RQ RC) as (M & EM & RM); try lia.
  rewrite EM. cbn [bind app]. exists (s_Qk s), (Some M), (cpos 0 (concat (us_tags u))). split; [reflexivity|].
  exists M. split; [reflexivity|]. split; [exact RM|reflexivity].
Qed.

(** The whole of a sparse run is the run of [sparse_ops] *)
Lemma solve_sparse_ref u opt orc rand : wf_sparse u -> paired (us_v u) -> fin_lower (us_v u) -> concat (us_C u) <> [] ->
  o_qpSolver opt <> QPOASES_DENSE -> osqp_ok (us_v u) opt ->
  sim (fun a b => pd (snd a) = sparse_pd u opt /\ relT (sparse_ops u opt) (sparse_KR u) (fst a, it (snd a)) b)
    (solve_sparse u opt orc rand)
    (v_run (sparse_ops u opt) (Z.to_nat (o_maxIterations opt) + 2) orc rand (u_y0 (us_v u)) (v_init (sparse_ops u opt) (u_x (us_v u)))).
Proof.
  intros W P F NZ Hq Ho. pose proof (ws_v _ W) as V. pose proof (wv_nV _ V).
  unfold solve_sparse. rewrite new_object_ok by auto. cbn [bind]. rewrite load_sparse_ok by (auto using fresh_dims). cbn [bind is_success].
  unfold runSolver, runSolver_fuel. rewrite start_sparse by auto. cbn [bind is_success negb pd it].
  change (o_maxIterations (d_options (pd (loaded_sparse u (fresh (us_v u) opt))))) with (o_maxIterations opt).
  set (s := start_it _ _ _).
  pose proof (run_ref (sparse_ops u opt) (sparse_KR u) (sparse_pd u opt) (sparse_wfd u opt W NZ Hq Ho) (Z.to_nat (o_maxIterations opt) + 2)
    orc rand (u_y0 (us_v u)) s (v_init (sparse_ops u opt) (u_x (us_v u)))) as R.
  match type of R with ?A -> ?B -> ?C -> _ => assert (HA : A); [|assert (HB : B); [|assert (HC : C)]] end.
  - apply start_relB; auto.
  - assert (E : s_yk s = ptr_of (u_y0 (us_v u))) by (unfold s, start_it; destruct (o_printLevel opt); reflexivity).
    rewrite E. pose proof (wv_y0 _ V) as Fy. destruct (u_y0 (us_v u)) eqn:Ey; cbn [ptr_of optvec fits] in *; [|reflexivity].
    split; [reflexivity|]. rewrite Fy. unfold p_nD, p_nA, u_nA. cbn [sparse_ops p_off p_nC p_nComp].
    unfold osqp. destruct (o_qpSolver opt) eqn:Es; try reflexivity. destruct (Ho Es) as (_ & _ & C). rewrite Ey in C. discriminate C.
  - intros s' _ _ _ E. apply sparse_noH; auto. rewrite E. unfold s, start_it. destruct (o_printLevel opt); reflexivity.
  - specialize (R HA HB HC). unfold run_after in R.
    destruct (first_solve orc (sparse_pd u opt) s) as [[s1 [r|]]|e]; cbn [bind] in *.
    + destruct (v_run _ _ _ _ _ _); cbn [sim] in *; [|contradiction]. split; [reflexivity|exact R].
    + destruct (loop _ orc rand (sparse_pd u opt) s1) as [[r s2]|e]; cbn [bind] in *;
        (destruct (v_run _ _ _ _ _ _); cbn [sim] in *; [|contradiction || exact R]); [split; [reflexivity|exact R]|contradiction].
    + exact R.
Qed.
End StartSparse.
