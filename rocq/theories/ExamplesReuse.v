(** * ExamplesReuse: one object used for several problems (examples, not LCQPow code). *)
From Coq Require Import QArith Qcanon.
From Verif Require Import Base Arith Codes Utilities Options Stats FileIO Subsolver State LCQProblem Loops SpecSparse SpecMath SpecLoad LoadSparse SpecExact SpecRun SpecReuse SpecApi
  Examples ExamplesKernels ExamplesExact ExamplesHistory.
Open Scope Z_scope.

(** The example problem with or without the box 0 <= x1 <= 1, 0 <= x2 <= 3.  No LCQPow code. *)
Definition exr_u (boxed : bool) : udense xq :=
  to_dense (mkQdense (mkQvec 2 0 1 (zq [-2; -4]) None None None None None None (if boxed then Some (fz [0; 0]) else None) (if boxed then Some (fz [1; 3]) else None) None None)
    (zq [2; 0; 0; 2]) (zq [1; 0]) (zq [0; 1]) []).
(** Options without the dynamic rule.  No LCQPow code. *)
Definition exr_opt : options xq := snd (setNDynamicPenalty 0 o_dense).
(** A new object.  No LCQPow code. *)
Definition exr_new : lcqp xq := ok_or LCQProblem_default (LCQProblem_ctor 2 0 1).
(** With options and the boxed problem.  No LCQPow code. *)
Definition exr_o1 : lcqp xq := obj (load_dense (exr_u true) (setOptions exr_opt exr_new)).
(** After a run.  No LCQPow code. *)
Definition exr_o2 : lcqp xq := obj (runSolver ex_oracle no_rand exr_o1).
(** Its history.  No LCQPow code. *)
Definition exr_h1 : list (use xq) := [ULoad (exr_u true); UOptions exr_opt].
(** And with the run.  No LCQPow code. *)
Definition exr_h2 : list (use xq) := URun (d_options (pd exr_o1)) :: exr_h1.

Lemma exr_wf b : wf_dense (exr_u b).
Proof. destruct b; (constructor; [constructor; vm_compute; try reflexivity; try discriminate; exact I|reflexivity..]). Qed.
Lemma exr_new_ok : LCQProblem_ctor 2 0 1 = Ok exr_new.
Proof. vm_compute. reflexivity. Qed.
Lemma exr_load_ok : load_dense (exr_u true) (setOptions exr_opt exr_new) = Ok (SUCCESSFUL_RETURN, exr_o1).
Proof. vm_compute. reflexivity. Qed.
Lemma exr_run_ok : runSolver ex_oracle no_rand exr_o1 = Ok (SUCCESSFUL_RETURN, exr_o2).
Proof. vm_compute. reflexivity. Qed.
Lemma exr_used1 : used 2 0 1 exr_h1 exr_o1.
Proof. eapply used_load; [apply used_options, used_new, exr_new_ok|apply exr_wf|reflexivity..|exact exr_load_ok]. Qed.
Lemma exr_used2 : used 2 0 1 exr_h2 exr_o2.
Proof. eapply used_run; [exact exr_used1|reflexivity|exact exr_run_ok]. Qed.
Lemma exr_qp : o_qpSolver (d_options (pd exr_o1)) = QPOASES_DENSE.
Proof. vm_compute. reflexivity. Qed.
Lemma exr_dyn : forall opt, In (URun opt) exr_h2 -> o_nDynamicPenalty opt = 0.
Proof. intros opt [E|[E|[E|[]]]]; try discriminate E. injection E as <-. vm_compute. reflexivity. Qed.
Lemma exr_conditions : let u := exr_u false in
  fin_lower (ud_v u) /\ paired (ud_v u) /\ renewed u_lbL (ud_v u) exr_h2 /\ renewed u_lbR (ud_v u) exr_h2 /\ renewed u_lb (ud_v u) (since_run exr_h2) /\ renewed u_ub (ud_v u) (since_run exr_h2).
Proof.
  cbv zeta. split; [split; exact I|]. split; [split; reflexivity|].
  split; [right; intros w [E|[E|[E|[]]]]; subst w; reflexivity|].
  split; [right; intros w [E|[E|[E|[]]]]; subst w; reflexivity|].
  assert (E : since_run exr_h2 = []) by (unfold exr_h2; cbn [since_run]; rewrite exr_qp; reflexivity).
  rewrite E. split; right; intros w [].
Qed.
Lemma exr_calls : length (s_calls (it exr_o2)) = 36%nat /\ latest u_ub (since_run exr_h1) = Some (fz [1; 3]) /\ latest u_ub (since_run exr_h2) = None.
Proof. split; [vm_compute; reflexivity|]. split; [reflexivity|]. unfold exr_h2. cbn [since_run]. rewrite exr_qp. reflexivity. Qed.
Lemma exr_conditions1 : let u := exr_u false in
  fin_lower (ud_v u) /\ paired (ud_v u) /\ renewed u_lbL (ud_v u) exr_h1 /\ renewed u_lbR (ud_v u) exr_h1 /\ u_ub (ud_v u) = None /\ u_ub (ud_v (with_boxes exr_h1 u)) = Some (fz [1; 3]).
Proof.
  cbv zeta. split; [split; exact I|]. split; [split; reflexivity|].
  split; [right; intros w [E|[E|[]]]; subst w; reflexivity|].
  split; [right; intros w [E|[E|[]]]; subst w; reflexivity|]. split; reflexivity.
Qed.
Lemma exr_conditions2 : let u := exr_u true in
  last_load exr_h1 = Some u /\ fin_lower (ud_v u) /\ paired (ud_v u) /\ renewed u_lbL (ud_v u) exr_h1 /\ renewed u_lbR (ud_v u) exr_h1.
Proof.
  cbv zeta. split; [reflexivity|]. split; [split; exact I|]. split; [split; reflexivity|].
  split; (right; intros w [E|[E|[]]]; subst w; reflexivity).
Qed.
(** The example problem as sparse data.  No LCQPow code. *)
Definition exr_s : usparse xq := to_sparse (mkQsparse (mkQvec 2 0 1 (zq [-2; -4]) None None None None None None None None None None)
  [zcol [(0, 2)]; zcol [(1, 2)]] [zcol [(0, 1)]; []] [[]; zcol [(0, 1)]] None).
(** Sparse data loaded after the dense run.  No LCQPow code. *)
Definition exr_o3 : lcqp xq := obj (load_sparse exr_s exr_o2).
(** Its history.  No LCQPow code. *)
Definition exr_h3 : list (use xq) := USparse exr_s :: exr_h2.
Lemma exr_s_wf : wf_sparse exr_s.
Proof. exact (exh_s_wf None I). Qed.
Lemma exr_load_ok3 : load_sparse exr_s exr_o2 = Ok (SUCCESSFUL_RETURN, exr_o3).
Proof. vm_compute. reflexivity. Qed.
Lemma exr_used3 : used 2 0 1 exr_h3 exr_o3.
Proof. eapply used_sparse; [exact exr_used2|exact exr_s_wf|reflexivity..|exact exr_load_ok3]. Qed.
Lemma exr_dyn3 : forall opt, In (URun opt) exr_h3 -> o_nDynamicPenalty opt = 0.
Proof. intros opt [E|E]; [discriminate E|exact (exr_dyn opt E)]. Qed.
Lemma exr_conditions3 : let v := us_v exr_s in
  (fin_lower v /\ paired v /\ concat (us_C exr_s) <> []) /\
  renewed u_lbL v exr_h3 /\ renewed u_lbR v exr_h3 /\ renewed u_lb v (since_run exr_h3) /\ renewed u_ub v (since_run exr_h3).
Proof.
  cbv zeta. split; [split; [split; exact I|]; split; [split; reflexivity|vm_compute; discriminate]|].
  split; [right; intros w [E|[E|[E|[E|[]]]]]; subst w; reflexivity|].
  split; [right; intros w [E|[E|[E|[E|[]]]]]; subst w; reflexivity|].
  assert (E : since_run exr_h3 = [USparse exr_s]) by (unfold exr_h3, exr_h2; cbn [since_run]; rewrite exr_qp; reflexivity).
  rewrite E. split; right; intros w [<-|[]]; reflexivity.
Qed.
Lemma exr_conditions4 : let v := us_v exr_s in
  (fin_lower v /\ paired v /\ concat (us_C exr_s) <> []) /\ renewed u_lbL v exr_h1 /\ renewed u_lbR v exr_h1 /\
  u_ub v = None /\ u_ub (us_v (with_boxes_sparse exr_h1 exr_s)) = Some (fz [1; 3]).
Proof.
  cbv zeta. split; [split; [split; exact I|]; split; [split; reflexivity|vm_compute; discriminate]|].
  split; [right; intros w [E|[E|[]]]; subst w; reflexivity|].
  split; [right; intros w [E|[E|[]]]; subst w; reflexivity|]. split; reflexivity.
Qed.
