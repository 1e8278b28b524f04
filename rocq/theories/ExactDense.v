(** * ExactDense: dense rational data as operations of the list-level loop (no LCQPow code). *)
From Coq Require Import QArith Qcanon.
From Verif Require Import Base Arith Codes Utilities Options Stats FileIO Subsolver State LCQProblem Tactics Loops Kernels Exact SpecSparse CscKernels SpecMath QSum
  Pure PureFacts SpecLoad SpecExact SpecRun SpecTrace StartDense ExactOps.
Open Scope Z_scope.

(** The penalty function is the complementarity product *)
Lemma phi_fn (e : qdata) x :
  (qsum (e_nComp e) (fun k => lo (e_lbL e) k * lo (e_lbR e) k) + qsum (e_nV e) (fun j => e_gphi e j * qat x j) + qform (e_C e) (e_nV e) x * qhalf)%Qc = e_phi e x.
Proof.
  set (m := e_nComp e). set (n := e_nV e). set (mL := mv (e_L e) n x). set (mR := mv (e_R e) n x).
  assert (E1 : qsum n (fun j => e_gphi e j * qat x j)%Qc = (- qsum m (fun k => lo (e_lbL e) k * mR k) - qsum m (fun k => lo (e_lbR e) k * mL k))%Qc).
  { assert (S : forall (M : Z -> Z -> Qc) (l : Z -> Qc), qsum n (fun j => qsum m (fun i => M i j * l i) * qat x j)%Qc = qsum m (fun k => l k * mv M n x k)%Qc).
    { intros M l. rewrite (qsum_ext n _ (fun j => qsum m (fun i => M i j * l i * qat x j)%Qc)) by (intros; rewrite qsum_scale_r; reflexivity).
      rewrite qsum_swap. apply qsum_ext. intros k Hk. unfold mv. rewrite <- qsum_scale. apply qsum_ext. intros; ring. }
    unfold mR, mL. rewrite <- !S. rewrite <- qsum_opp, <- qsum_sub. apply qsum_ext. intros j Hj. unfold e_gphi. fold m. ring. }
  assert (E2 : qform (e_C e) n x = (qsum m (fun k => mL k * mR k) + qsum m (fun k => mL k * mR k))%Qc).
  { unfold qform. unfold mv at 1.
    rewrite (qsum_ext n _ (fun i => qsum n (fun j => qsum m (fun k => qat x i * (e_L e k i * e_R e k j + e_R e k i * e_L e k j) * qat x j)%Qc))).
    2: { intros i Hi. rewrite <- qsum_scale. apply qsum_ext. intros j Hj. unfold e_C. fold m.
         rewrite <- qsum_scale_r, <- qsum_scale. apply qsum_ext. intros; ring. }
    rewrite (qsum_ext n _ (fun i => qsum m (fun k => qat x i * (e_L e k i * mR k + e_R e k i * mL k))%Qc)).
    2: { intros i Hi. rewrite qsum_swap. apply qsum_ext. intros k Hk. unfold mL, mR, mv. rewrite <- !qsum_scale, <- qsum_add, <- qsum_scale.
         apply qsum_ext. intros; ring. }
    rewrite qsum_swap. rewrite <- qsum_add. apply qsum_ext. intros k Hk.
    rewrite (qsum_ext n _ (fun i => e_L e k i * qat x i * mR k + e_R e k i * qat x i * mL k)%Qc) by (intros; ring).
    rewrite qsum_add, !qsum_scale_r. unfold mL, mR, mv. ring. }
  rewrite E1, E2. unfold e_phi. fold n m mL mR.
  rewrite (qsum_ext m (fun i => (mL i - lo (e_lbL e) i) * (mR i - lo (e_lbR e) i))%Qc
     (fun i => mL i * mR i - lo (e_lbL e) i * mR i - lo (e_lbR e) i * mL i + lo (e_lbL e) i * lo (e_lbR e) i)%Qc) by (intros; ring).
  rewrite qsum_add, !qsum_sub.
  set (P := qsum m (fun i => mL i * mR i)%Qc).
  assert (Hh : ((P + P) * qhalf = P)%Qc). { replace (P + P)%Qc with (P * (1 + 1))%Qc by ring. rewrite <- Qcmult_assoc.
    replace ((1 + 1) * qhalf)%Qc with 1%Qc by (apply Qc_is_canon; reflexivity). ring. }
  rewrite Hh. ring.
Qed.

Lemma fins_app a b : fins (a ++ b) = fins a ++ fins b. Proof. apply map_app. Qed.
Lemma qat_app a b i : 0 <= i -> qat (a ++ b) i = if i <? len a then qat a i else qat b (i - len a).
Proof. intros Hi. unfold qat. destruct (Z.ltb_spec i (len a)); [apply at_app_l|apply at_app_r]; lia. Qed.
Lemma mv_ext M N n x i : (forall j, 0 <= j < n -> M i j = N i j) -> mv M n x i = mv N n x i.
Proof. intros E. unfold mv. apply qsum_ext. intros j Hj. rewrite E by auto. reflexivity. Qed.
Lemma qform_ext M N n x : (forall i j, 0 <= i < n -> 0 <= j < n -> M i j = N i j) -> qform M n x = qform N n x.
Proof. intros E. unfold qform. apply qsum_ext. intros i Hi. f_equal. apply mv_ext. auto. Qed.
Lemma tv_ext M N m y j : (forall i, 0 <= i < m -> M i j = N i j) -> tv M m y j = tv N m y j.
Proof. intros E. unfold tv. apply qsum_ext. intros i Hi. rewrite E by auto. reflexivity. Qed.
Lemma e_C_sym (e : qdata) i j : e_C e i j = e_C e j i.
Proof. unfold e_C. apply qsum_ext. intros. ring. Qed.

Section Dense.
Variable u : qdense.
Let v := qd_v u.
Let n := qv_nV v.
Let m := qv_nComp v.
Let e := dense_data u.
Hypothesis W : wf_dense (to_dense u).
Hypothesis P : paired (to_vec v).
Variable opt : options xq.
Let p := dense_ops (to_dense u) opt.

Let Wv : wf_vec (to_vec v) := wu_v _ W.
Let Hn : 0 < n := wv_nV _ Wv.
Let Hm : 0 < m := wv_nComp _ Wv.
Let HC : 0 <= qv_nC v := wv_nC _ Wv.
Let LA : len (qd_A u) = qv_nC v * n. Proof. pose proof (wu_A _ W) as E. cbn in E. rewrite len_fins in E. exact E. Qed.
Let LL : len (qd_L u) = m * n. Proof. pose proof (wu_L _ W) as E. cbn in E. rewrite len_fins in E. exact E. Qed.
Let LR : len (qd_R u) = m * n. Proof. pose proof (wu_R _ W) as E. cbn in E. rewrite len_fins in E. exact E. Qed.

(** C as a row-major list. No LCQPow code. *)
Definition dense_Cm : list Qc := tab (n * n) (fun k => e_C e (k / n) (k mod n)).
(** The stored Hessian is Q + r C. No LCQPow code. *)
Definition dense_EH (h : list xq) (r : Qc) : Prop := h = fins (tab (n * n) (fun k => qat (qd_Q u) k + r * qat dense_Cm k)%Qc).

Lemma dense_C_fin : ud_C (to_dense u) = fins dense_Cm.
Proof. unfold ud_C. cbn [to_dense ud_L ud_R ud_v]. rewrite symm_fin. reflexivity. Qed.
Lemma dense_C_ent i j : 0 <= i < n -> 0 <= j < n -> qent dense_Cm n i j = e_C e i j.
Proof. intros Hi Hj. unfold dense_Cm. rewrite qent_tab by auto. rewrite div_idx, mod_idx by auto. reflexivity. Qed.
Lemma dense_H_ent r i j : 0 <= i < n -> 0 <= j < n -> qent (tab (n * n) (fun k => qat (qd_Q u) k + r * qat dense_Cm k)%Qc) n i j = e_H e r i j.
Proof. intros Hi Hj. rewrite qent_tab by auto. unfold e_H. rewrite <- dense_C_ent by auto. reflexivity. Qed.
Lemma dense_rows i j : 0 <= i < e_nA e -> 0 <= j < n -> qent (qd_A u ++ qd_L u ++ qd_R u) n i j = e_rows e i j.
Proof.
  intros Hi Hj. unfold qent, e_rows. cbn [e dense_data e_nC e_nComp e_A e_L e_R]. fold v. fold n. fold m. unfold e_nA in Hi. cbn in Hi. fold v in Hi. fold m in Hi. rewrite qat_app by nia. rewrite LA.
  destruct (Z.ltb_spec i (qv_nC v)).
  - destruct (Z.ltb_spec (i * n + j) (qv_nC v * n)); [reflexivity|nia].
  - destruct (Z.ltb_spec (i * n + j) (qv_nC v * n)); [nia|]. rewrite qat_app by lia. rewrite LL. destruct (Z.ltb_spec i (qv_nC v + m)).
    + destruct (Z.ltb_spec (i * n + j - qv_nC v * n) (m * n)); [|nia]. unfold qent. f_equal. lia.
    + destruct (Z.ltb_spec (i * n + j - qv_nC v * n) (m * n)); [nia|]. unfold qent. f_equal. lia.
Qed.

Lemma dense_gphi_fin : match dense_gphi (to_dense u) with
  | None => (forall k, lo (qv_lbL v) k = 0%Qc) /\ (forall k, lo (qv_lbR v) k = 0%Qc) /\ u_pc (to_vec v) = Fin 0
  | Some l => l = fins (tab n (e_gphi e)) /\ u_pc (to_vec v) = Fin (qsum m (fun k => lo (qv_lbL v) k * lo (qv_lbR v) k)%Qc)
  end.
Proof.
  unfold dense_gphi, u_pc. destruct P as [P1 P2]. cbn [to_dense ud_v]. fold v. cbn [to_vec u_lbL u_lbR] in *.
  destruct (qv_lbL v) as [l|] eqn:EL, (qv_lbR v) as [r|] eqn:ER; cbn [option_map] in *.
  - split.
    + cbn [to_vec u_nV u_nComp ud_L ud_R to_dense]. fold v. fold n. fold m. change (@a_zero xq _) with (Fin 0). rewrite (tab_fins n (fun _ => 0%Qc)).
      rewrite addtmul_fin, addtmul_fin, <- (tab_fins n (e_gphi e)). apply tab_ext. intros i Hi. rewrite at_fins, fin_neg, qat_tab by auto. f_equal.
      rewrite qat_tab, qat_tab by auto. unfold e_gphi, qtmul, e. cbn [dense_data e_nComp e_L e_R e_lbL e_lbR]. fold v. rewrite EL, ER. fold m n. cbn [lo]. ring.
    + cbn [to_vec u_nComp]. fold m. apply fsum_fin. intros i Hi. change (@a_zero xq _) with (Fin 0). rewrite !at_fins. reflexivity.
  - exfalso. discriminate (P2 eq_refl).
  - exfalso. discriminate (P1 eq_refl).
  - cbn. auto.
Qed.

Lemma dense_exops : exops p e dense_EH.
Proof.
  pose proof dense_gphi_fin as G. constructor; cbn [p dense_ops p_opt p_nV p_nC p_nComp p_off p_box p_g p_gphi p_pc p_setH p_updH p_affH p_quadH p_affC p_quadC p_quadQ p_tA p_mulL p_mulR]; auto.
  - apply Z.lt_le_incl. exact Hm.
  - pose proof (wv_g _ Wv) as E. cbn in E. rewrite len_fins in E. exact E.
  - symmetry. apply Z.ltb_lt. exact Hn.
  - destruct (dense_gphi (to_dense u)); [apply G|]. intros i Hi. unfold e_gphi. destruct G as (G1 & G2 & _).
    cbn [e dense_data e_lbL e_lbR]. fold v.
    rewrite (qsum_ext _ _ (fun _ => 0%Qc)), (qsum_ext _ (fun k => _ * lo (qv_lbR v) k)%Qc (fun _ => 0%Qc)), qsum_zero; [ring| |]; intros k _; rewrite ?G1, ?G2; ring.
  - intros x Lx. rewrite dense_C_fin, quad_fin, fin_half. rewrite <- phi_fn.
    change (u_nV (ud_v (to_dense u))) with n. cbn [e dense_data e_nComp e_lbL e_lbR e_nV]. fold v. fold n. fold m.
    assert (EQ : qquad dense_Cm n x = qform (e_C e) n x) by (apply (qform_ext (qent dense_Cm n)); intros; apply dense_C_ent; auto). rewrite EQ.
    change (ud_v (to_dense u)) with (to_vec v).
    destruct (dense_gphi (to_dense u)) as [l|].
    + destruct G as (-> & ->). rewrite dot_fin. change (@a_zero xq _) with (Fin 0). rewrite !fin_add. do 3 f_equal.
      rewrite Qcplus_0_l. unfold qdot. apply qsum_ext. intros i Hi. rewrite qat_tab by auto. reflexivity.
    + destruct G as (G1 & G2 & ->). change (@a_zero xq _) with (Fin 0). rewrite !fin_add. do 3 f_equal.
      * rewrite (qsum_ext m _ (fun _ => 0%Qc)), qsum_zero; [reflexivity|]. intros k _. rewrite G1. ring.
      * rewrite (qsum_ext n _ (fun _ => 0%Qc)), qsum_zero; [reflexivity|]. intros j Hj. unfold e_gphi. cbn [e dense_data e_lbL e_lbR]. fold v.
        rewrite (qsum_ext _ (fun k => _ * lo (qv_lbL v) k)%Qc (fun _ => 0%Qc)), (qsum_ext _ (fun k => _ * lo (qv_lbR v) k)%Qc (fun _ => 0%Qc)), qsum_zero; [ring| |]; intros k _; rewrite ?G1, ?G2; ring.
  - intros r. unfold dense_EH. rewrite dense_C_fin. change (@a_one xq _) with (Fin 1). cbn [to_dense ud_Q ud_v]. rewrite wadd_fin. f_equal. apply tab_ext. intros; ring.
  - intros h r f _ _ _. unfold dense_EH. rewrite dense_C_fin. change (@a_one xq _) with (Fin 1). cbn [to_dense ud_Q ud_v]. rewrite wadd_fin. f_equal. apply tab_ext. intros; ring.
  - intros h r x c -> Lx Lc. change (@a_one xq _) with (Fin 1). rewrite affine_fin. f_equal. apply tab_ext. intros i Hi. rewrite Qcmult_1_l. f_equal.
    apply (mv_ext (qent _ n)). intros j Hj. apply dense_H_ent; auto.
  - intros h r x -> Lx. rewrite quad_fin. f_equal. apply (qform_ext (qent _ n)). intros; apply dense_H_ent; auto.
  - intros r x c Lx Lc. rewrite dense_C_fin, affine_fin. f_equal. apply tab_ext. intros i Hi. do 2 f_equal.
    apply (mv_ext (qent _ n)). intros j Hj. apply dense_C_ent; auto.
  - intros x Lx. cbn [to_dense ud_Q]. rewrite quad_fin. reflexivity.
  - intros y Ly. unfold ud_ALR. cbn [to_dense ud_A ud_L ud_R ud_v]. rewrite <- !fins_app, tmul_fin. f_equal. apply tab_ext. intros j Hj.
    apply (tv_ext (qent _ n)). intros i Hi. apply dense_rows; auto.
  - intros x Lx. cbn [to_dense ud_L ud_v]. rewrite mmul_fin by (apply Z.lt_le_incl; exact Hm). reflexivity.
  - intros x Lx. cbn [to_dense ud_R ud_v]. rewrite mmul_fin by (apply Z.lt_le_incl; exact Hm). reflexivity.
Qed.
End Dense.
