(** * ExactProps: what a trace implies (no LCQPow code). *)
From Coq Require Import QArith Qcanon Lqa.
From Verif Require Import Base Arith Codes Utilities Options Stats FileIO Subsolver State LCQProblem Tactics Loops Kernels Exact SpecSparse CscKernels CscBuild SpecMath QSum
  KernelProps2 SpecLoad SpecExact SpecRun SpecTrace SpecSolve Spec RunControl RunFacts RunProps PenaltyExact LoadDense LoadSparse StartDense StartSparse ExactOps ExactDense ExactRun.
Open Scope Z_scope.

Local Arguments Qc_ltb : simpl never.
Local Arguments Qc_leb : simpl never.

(** ** Getters *)
Lemma copy_all (l : list xq) (buf : arr xq) n : len l = n -> len buf = n ->
  for_ 0 n (fun i out => let! v := rd (lift l) i in wr out i v) buf = Ok (lift l).
Proof.
  intros H1 H2. pose proof (len_nonneg l).
  rewrite (for_fill1 _ (at_ (Fin 0) l) n) by (try lia; intros i a Hi Ha _; rewrite (rd_lift (Fin 0)) by lia; cbn [bind]; apply wr_ok; lia).
  rewrite drop_all, app_nil_r by lia. rewrite <- H1, tab_at. reflexivity.
Qed.
Lemma primal_of o x n a : d_nV (pd o) = Some n -> s_xk (it o) = Some (lift (fins x)) -> len x = n -> s_algoStat (it o) = Some a -> returns_primal o x.
Proof.
  intros H1 H2 H3 H4 buf Hb. exists a. unfold getPrimalSolution. rewrite H2, H1, H4. cbn [get bind].
  rewrite copy_all by (rewrite ?len_fins; lia). reflexivity.
Qed.
Lemma dual_of o y n a : d_nDuals (pd o) = Some n -> s_yk (it o) = Some (lift (fins y)) -> len y = n -> s_algoStat (it o) = Some a -> returns_dual o y.
Proof.
  intros H1 H2 H3 H4. split; [unfold getNumberOfDuals; rewrite H1, H3; reflexivity|].
  intros buf Hb. exists a. unfold getDualSolution. rewrite H2, H1, H4. cbn [get bind].
  rewrite copy_all by (rewrite ?len_fins; lia). reflexivity.
Qed.

(** ** The run inside *)
Lemma pr_run pr opt orc rand r o : admissible pr opt -> pr_solve pr opt orc rand = Ok (r, o) ->
  exists o1, runSolver orc rand o1 = Ok (r, o) /\ d_options (pd o1) = opt /\ s_calls (it o1) = [].
Proof.
  destruct pr as [u|u]; cbn [pr_solve].
  - intros (P & W & Hq) E. unfold solve_dense in E. rewrite new_object_ok in E by apply (wu_v _ W). cbn [bind] in E.
    rewrite load_dense_ok in E by (first [exact W|apply fresh_dims|apply fin_lower_q]). cbn [bind is_success] in E. eexists. split; [exact E|]. split; [reflexivity|].
    reflexivity.
  - intros (P & W & Hq & Ho & Sy & NT & NZ) E. pose proof (sparse_nonzero u W NT NZ) as NZ'. unfold solve_sparse in E. rewrite new_object_ok in E by apply (ws_v _ W). cbn [bind] in E.
    rewrite load_sparse_ok in E by (first [exact W|apply fresh_dims|apply fin_lower_q|exact NZ']). cbn [bind is_success] in E. eexists. split; [exact E|]. split; [reflexivity|].
    reflexivity.
Qed.

(** ** Traces seen from the start *)
Section View.
Variables (e : qdata) (r0 fac : Qc) (off : Z) (zf pt : bool) (sol : QPSolver) (x0 : list Qc).
Let n := e_nV e.
Let tr_ := trace e r0 fac off zf pt sol x0.

(** Frame [f] belongs to QP [c] with answer [a] and follows frame [f0] *)
Definition follows (f0 f : frame) (c : qp_call xq) : Prop :=
  (f_k f0 <= f_k f <= f_k f0 + 2)%nat /\ f_prev f = f_x e f0 /\
  (if pt then perturbed e (f_x e f0) (f_base f) else f_base f = f_x e f0) /\
  f_a f = t_len e r0 fac (f_k f) (f_base f) (f_d e f) /\
  qc_g c = fins (tab n (fun i => t_rho r0 fac (f_k f) * mv (e_C e) n (f_x e f0) i + t_lin e r0 fac (f_k f) i)%Qc).
(** The first frame and the first QP. No LCQPow code. *)
Definition begins (f : frame) (c : qp_call xq) : Prop :=
  f_k f = O /\ f_prev f = x0 /\ f_base f = x0 /\ f_a f = 1%Qc /\
  qc_g c = fins (tab n (fun i => if zf then qat (e_g e) i else t_rho r0 fac 0 * mv (e_C e) n x0 i + qat (e_g e) i)%Qc).

Lemma nth_rev {X} (x : X) l j : nth_error (rev (x :: l)) j = (if Nat.ltb j (length l) then nth_error (rev l) j else if Nat.eqb j (length l) then Some x else None).
Proof.
  cbn [rev]. destruct (Nat.ltb_spec j (length l)).
  - rewrite nth_error_app1; [reflexivity|rewrite rev_length; auto].
  - rewrite nth_error_app2 by (rewrite rev_length; auto). rewrite rev_length. destruct (Nat.eqb_spec j (length l)) as [->|].
    + rewrite Nat.sub_diag. reflexivity.
    + destruct (j - length l)%nat as [|k] eqn:E; [lia|]. cbn. destruct k; reflexivity.
Qed.
Lemma trace_length tr cs : tr_ tr cs -> length tr = length cs.
Proof. induction 1; cbn in *; congruence. Qed.
Lemma trace_nth tr cs : tr_ tr cs -> forall j f, nth_error (rev tr) j = Some f ->
  exists c a, nth_error (rev cs) j = Some (c, a) /\ f_answer e off sol f a /\ qp_error c a = None /\
    match j with
    | O => begins f c
    | S i => exists f0, nth_error (rev tr) i = Some f0 /\ follows f0 f c
    end.
Proof.
  intros T. induction T as [f c a H1 H2 H3 H4 H5 H6 H7|f tr cs f' c a T IH Hk Hp Hb Ha Han Hq Hg]; intros j g E.
  - destruct j as [|[|j]]; cbn in E; try discriminate. injection E as <-. exists c, a. cbn. split; [reflexivity|]. split; [auto|]. split; [auto|]. repeat split; auto.
  - pose proof (trace_length _ _ T) as L. rewrite nth_rev in E. destruct (Nat.ltb_spec j (length (f :: tr))) as [Hj|Hj].
    + destruct (IH j g E) as (c1 & a1 & E1 & A1 & Q1 & M). exists c1, a1. rewrite nth_rev. rewrite <- L. destruct (Nat.ltb_spec j (length (f :: tr))); [|lia].
      split; [auto|]. split; [auto|]. split; [auto|]. destruct j as [|i]; [auto|]. destruct M as (f0 & E0 & M). exists f0. split; [|auto].
      rewrite nth_rev. destruct (Nat.ltb_spec i (length (f :: tr))); [auto|lia].
    + destruct (Nat.eqb_spec j (length (f :: tr))) as [->|]; [|discriminate]. injection E as <-. exists c, a.
      rewrite nth_rev, <- L. rewrite Nat.ltb_irrefl, Nat.eqb_refl. split; [auto|]. split; [auto|]. split; [auto|]. cbn [length].
      exists f. split; [|unfold follows; auto]. rewrite nth_rev. cbn [length]. destruct (Nat.ltb_spec (length tr) (S (length tr))); [|lia].
      rewrite nth_rev, Nat.ltb_irrefl, Nat.eqb_refl. reflexivity.
Qed.

Lemma len_fx f : 0 <= n -> len (f_x e f) = n.
Proof. intros. apply len_tab. auto. Qed.

(** Step lengths lie in [0,1] *)
Lemma t_len_range k x d : (0 <= t_len e r0 fac k x d <= 1)%Qc.
Proof.
  unfold t_len. destruct (Qc_ltb 0 (t_curv e r0 fac k d)) eqn:E1; cbn [andb]; [|split; discriminate].
  destruct (Qc_ltb (t_slope e r0 fac k x d) 0) eqn:E2; [|split; discriminate]. apply Qc_ltb_spec in E1, E2.
  set (c := t_curv _ _ _ _ _) in *. set (s := t_slope _ _ _ _ _ _) in *.
  assert (P : (0 < - s / c)%Qc).
  { apply Qcnot_le_lt. intros C. assert (- s / c * c <= 0 * c)%Qc by (apply Qcmult_le_compat_r; [auto|apply Qclt_le_weak; auto]).
    assert (E : (- s / c * c = - s)%Qc) by (field; intros C2; rewrite C2 in E1; apply (Qclt_not_eq _ _ E1); reflexivity).
    rewrite E in H. qc. }
  destruct (Qc_ltb 1 (- s / c)) eqn:E3; [split; discriminate|]. apply Qc_ltb_false in E3. split; [apply Qclt_le_weak|]; auto.
Qed.

(** Feasible answers give feasible iterates *)
Lemma between_mix l u a b t : between l a u -> between l b u -> (0 <= t <= 1)%Qc -> between l (a + t * (b - a))%Qc u.
Proof.
  intros [A1 A2] [B1 B2] [T1 T2]. split.
  - destruct l; cbn in *; auto; try discriminate. apply Qc_leb_spec in A1, B1. apply Qc_leb_spec. qc.
  - destruct u; cbn in *; auto; try discriminate. apply Qc_leb_spec in A2, B2. apply Qc_leb_spec. qc.
Qed.
End View.

(** ** Quadratic functions on lines *)
Section Quad.
Variable n : Z.
Lemma qat_line b x z t i : 0 <= i < n -> qat (on_line n b x z t) i = (qat b i + t * (qat z i - qat x i))%Qc.
Proof. intros. unfold on_line. apply qat_tab. auto. Qed.
(** Difference of vectors. No LCQPow code. *)
Definition vsub (z x : list Qc) : list Qc := tab n (fun i => qat z i - qat x i)%Qc.
Lemma mv_line M b x z t i : mv M n (on_line n b x z t) i = (mv M n b i + t * mv M n (vsub z x) i)%Qc.
Proof.
  unfold mv. rewrite <- qsum_scale, <- qsum_add. apply qsum_ext. intros j Hj. rewrite qat_line by auto. unfold vsub. rewrite qat_tab by auto. ring.
Qed.
Lemma mv_sub M z x i : mv M n (vsub z x) i = (mv M n z i - mv M n x i)%Qc.
Proof. unfold mv. rewrite <- qsum_sub. apply qsum_ext. intros j Hj. unfold vsub. rewrite qat_tab by auto. ring. Qed.
Lemma form_sym M b d : (forall i j, 0 <= i < n -> 0 <= j < n -> M i j = M j i) ->
  qsum n (fun i => qat b i * mv M n d i)%Qc = qsum n (fun i => qat d i * mv M n b i)%Qc.
Proof.
  intros S. unfold mv. rewrite (qsum_ext n _ (fun i => qsum n (fun j => qat b i * (M i j * qat d j))%Qc)) by (intros; rewrite qsum_scale; reflexivity).
  rewrite qsum_swap. apply qsum_ext. intros j Hj. rewrite <- qsum_scale. apply qsum_ext. intros i Hi. rewrite (S i j) by auto. ring.
Qed.
Lemma qform_line M b x z t : (forall i j, 0 <= i < n -> 0 <= j < n -> M i j = M j i) ->
  qform M n (on_line n b x z t) = (qform M n b + (1 + 1) * t * qsum n (fun i => qat (vsub z x) i * mv M n b i) + t * t * qform M n (vsub z x))%Qc.
Proof.
  intros S. set (d := vsub z x). unfold qform.
  rewrite (qsum_ext n _ (fun i => qat b i * mv M n b i + (t * (qat b i * mv M n d i) + (t * (qat d i * mv M n b i) + t * t * (qat d i * mv M n d i))))%Qc).
  - rewrite !qsum_add, !qsum_scale, (form_sym M b d) by auto. ring.
  - intros i Hi. rewrite mv_line, qat_line by auto. fold d.
    assert (E : qat d i = (qat z i - qat x i)%Qc) by (unfold d, vsub; apply qat_tab; auto). rewrite E. ring.
Qed.
Lemma lin_line c b x z t : qsum n (fun i => c i * qat (on_line n b x z t) i)%Qc = (qsum n (fun i => c i * qat b i) + t * qsum n (fun i => qat (vsub z x) i * c i))%Qc.
Proof.
  rewrite <- qsum_scale, <- qsum_add. apply qsum_ext. intros i Hi. rewrite qat_line by auto. unfold vsub. rewrite qat_tab by auto. ring.
Qed.
End Quad.

Lemma half2 a : ((1 + 1) * a * qhalf = a)%Qc.
Proof. assert (E : ((1 + 1) * qhalf = 1)%Qc) by (apply Qc_is_canon; reflexivity). transitivity ((1 + 1) * qhalf * a)%Qc; [ring|]. rewrite E. ring. Qed.

(** The penalised objective as a quadratic function *)
Definition pen_quad (e : qdata) (rho : Qc) (x : list Qc) : Qc :=
  (qsum (e_nV e) (fun i => (qat (e_g e) i + rho * e_gphi e i) * qat x i) + qform (e_H e rho) (e_nV e) x * qhalf)%Qc.
Lemma qform_H e rho x : qform (e_H e rho) (e_nV e) x = (qform (e_Q e) (e_nV e) x + rho * qform (e_C e) (e_nV e) x)%Qc.
Proof.
  unfold qform. rewrite <- qsum_scale, <- qsum_add. apply qsum_ext. intros i Hi. unfold mv, e_H.
  rewrite (qsum_ext _ _ (fun j => e_Q e i j * qat x j + rho * (e_C e i j * qat x j))%Qc) by (intros; ring).
  rewrite qsum_add, qsum_scale. ring.
Qed.
Lemma mv_H e rho x i : mv (e_H e rho) (e_nV e) x i = (mv (e_Q e) (e_nV e) x i + rho * mv (e_C e) (e_nV e) x i)%Qc.
Proof. unfold mv, e_H. rewrite <- qsum_scale, <- qsum_add. apply qsum_ext. intros; ring. Qed.
Lemma pen_quad_eq e rho x : e_pen e rho x = (pen_quad e rho x + rho * qsum (e_nComp e) (fun k => lo (e_lbL e) k * lo (e_lbR e) k))%Qc.
Proof.
  unfold e_pen, pen_quad, e_obj. rewrite <- phi_fn, qform_H.
  rewrite (qsum_ext (e_nV e) (fun i => (qat (e_g e) i + rho * e_gphi e i) * qat x i)%Qc (fun i => qat (e_g e) i * qat x i + rho * (e_gphi e i * qat x i))%Qc) by (intros; ring).
  rewrite qsum_add, qsum_scale. fold (qdot (e_nV e) (e_g e) x). ring.
Qed.
Lemma H_sym e rho i j : e_symmetric e -> 0 <= i < e_nV e -> 0 <= j < e_nV e -> e_H e rho i j = e_H e rho j i.
Proof. intros S Hi Hj. unfold e_H. rewrite (S i j), (e_C_sym e i j) by auto. reflexivity. Qed.
Lemma pen_line e rho b x z t : e_symmetric e ->
  e_pen e rho (on_line (e_nV e) b x z t) =
  (e_pen e rho b + t * qsum (e_nV e) (fun i => (qat z i - qat x i) * e_pengrad e rho b i) + t * t * (qform (e_H e rho) (e_nV e) (vsub (e_nV e) z x) * qhalf))%Qc.
Proof.
  intros S. rewrite !pen_quad_eq. unfold pen_quad. rewrite lin_line, qform_line by (intros; apply H_sym; auto).
  rewrite (qsum_ext _ (fun i => (qat z i - qat x i) * e_pengrad e rho b i)%Qc (fun i => qat (vsub (e_nV e) z x) i * (qat (e_g e) i + rho * e_gphi e i) + qat (vsub (e_nV e) z x) i * mv (e_H e rho) (e_nV e) b i)%Qc).
  - rewrite qsum_add. set (A := qsum _ (fun i => qat (vsub _ z x) i * mv _ _ _ i)%Qc).
    transitivity (qsum (e_nV e) (fun i => (qat (e_g e) i + rho * e_gphi e i) * qat b i)%Qc + t * qsum (e_nV e) (fun i => qat (vsub (e_nV e) z x) i * (qat (e_g e) i + rho * e_gphi e i)%Qc) +
      (qform (e_H e rho) (e_nV e) b * qhalf + ((1 + 1) * (t * A) * qhalf) + t * t * (qform (e_H e rho) (e_nV e) (vsub (e_nV e) z x) * qhalf)) + rho * qsum (e_nComp e) (fun k => lo (e_lbL e) k * lo (e_lbR e) k)%Qc)%Qc; [ring|].
    rewrite half2. ring.
  - intros i Hi. unfold vsub. rewrite qat_tab by auto. unfold e_pengrad. ring.
Qed.

Lemma Qcmul_nonneg a b : (0 <= a)%Qc -> (0 <= b)%Qc -> (0 <= a * b)%Qc.
Proof. intros. qc. Qed.
Lemma Qcadd_nonneg a b : (0 <= a)%Qc -> (0 <= b)%Qc -> (0 <= a + b)%Qc.
Proof. intros. qc. Qed.
Lemma Qcsq_nonneg a : (0 <= a * a)%Qc.
Proof. unfold Qcle. rewrite this_mul, this_0. nra. Qed.
Lemma le_by a b c : (0 <= c)%Qc -> (b - a = c)%Qc -> (a <= b)%Qc.
Proof. intros H <-. qc. Qed.
(** The minimum of [t s + t^2 c / 2] on [0,1] for [s < 0] *)
Lemma best_step s c t : (s < 0)%Qc -> (0 <= t <= 1)%Qc ->
  let a := if Qc_ltb 0 c && Qc_ltb s 0 then let q := (- s / c)%Qc in if Qc_ltb 1 q then 1%Qc else q else 1%Qc in
  (a * s + a * a * (c * qhalf) <= t * s + t * t * (c * qhalf))%Qc.
Proof.
  intros Hs [T1 T2]. cbv zeta. assert (Hh : (qhalf + qhalf = 1)%Qc) by (apply Qc_is_canon; reflexivity).
  assert (E2 : Qc_ltb s 0 = true) by (apply Qc_ltb_spec; auto). rewrite E2, andb_true_r.
  set (h := (c * qhalf)%Qc). assert (Hc : c = (h + h)%Qc) by (unfold h; transitivity (c * (qhalf + qhalf))%Qc; [rewrite Hh; ring|ring]).
  destruct (Qc_ltb 0 c) eqn:E1.
  - apply Qc_ltb_spec in E1. set (q := (- s / c)%Qc). assert (Hq : (s = - (q * c))%Qc).
    { unfold q. field. intros C. rewrite C in E1. apply (Qclt_not_eq _ _ E1); reflexivity. }
    destruct (Qc_ltb 1 q) eqn:E3.
    + apply Qc_ltb_spec in E3. clearbody q h. subst s c. clear E2 Hh.
      apply (le_by _ _ ((1 - t) * ((h + h) * (q - 1)) + (1 - t) * (h * (1 - t)))%Qc); [|ring].
      apply Qcadd_nonneg; (apply Qcmul_nonneg; [qc|apply Qcmul_nonneg; qc]).
    + clearbody q h. subst s c. clear E2 Hh. apply (le_by _ _ (h * ((t - q) * (t - q)))%Qc); [|ring].
      apply Qcmul_nonneg; [qc|apply Qcsq_nonneg].
  - apply Qc_ltb_false in E1. clearbody h. subst c.
    apply (le_by _ _ ((1 - t) * (- s) + (1 - t) * ((1 + t) * (- h)))%Qc); [|ring].
    apply Qcadd_nonneg; (apply Qcmul_nonneg; [qc|try apply Qcmul_nonneg; qc]).
Qed.
