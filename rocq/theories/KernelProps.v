(** * KernelProps: proofs of the statements about the linear algebra kernels. *)
From Coq Require Import QArith Qcanon Lqa.
From Verif Require Import Base Arith Codes Utilities Tactics Loops Exact Kernels SpecSparse SpecMath CscKernels CscBuild CscDense CscMerge QSum.
Open Scope Z_scope.

Section Any.
Context {T : Type} `{Arith T}.
Implicit Types la lb lc : list T.

Lemma mmul_any la lb (C : arr T) m n p : 0 <= m -> 0 <= n -> 0 <= p ->
  m * n <= len la -> n * p <= len lb -> m * p <= len C ->
  exists l, MatrixMultiplication (lift la) (lift lb) C m n p = Ok (lift l ++ drop (m * p) C) /\ len l = m * p /\
    forall i j, 0 <= i < m -> 0 <= j < p ->
      at_ a_zero l (i * p + j) = fsum n (fun k => (at_ a_zero la (i * n + k) * at_ a_zero lb (k * p + j))%num).
Proof.
  intros. exists (mmul la lb m n p). rewrite MatrixMultiplication_ok by auto. repeat split.
  - unfold mmul. apply len_tab. nia.
  - intros i j Hi Hj. unfold mmul. rewrite at_tab by nia. rewrite div_idx, mod_idx by lia. reflexivity.
Qed.
Lemma tmul_any la lb (C : arr T) m n p : 0 <= m -> 0 <= n -> 0 <= p ->
  m * n <= len la -> m * p <= len lb -> n * p <= len C ->
  exists l, TransponsedMatrixMultiplication (lift la) (lift lb) C m n p = Ok (lift l ++ drop (n * p) C) /\ len l = n * p /\
    forall i j, 0 <= i < n -> 0 <= j < p ->
      at_ a_zero l (i * p + j) = fsum m (fun k => (at_ a_zero la (k * n + i) * at_ a_zero lb (k * p + j))%num).
Proof.
  intros. exists (tmul la lb m n p). rewrite TransponsedMatrixMultiplication_ok by auto. repeat split.
  - unfold tmul. apply len_tab. nia.
  - intros i j Hi Hj. unfold tmul. rewrite at_tab by nia. rewrite div_idx, mod_idx by lia. reflexivity.
Qed.
Lemma addtmul_any la lb lc m n p : 0 <= m -> 0 <= n -> 0 <= p ->
  m * n <= len la -> m * p <= len lb -> n * p = len lc ->
  exists l, AddTransponsedMatrixMultiplication (lift la) (lift lb) (lift lc) m n p = Ok (lift l) /\ len l = n * p /\
    forall i j, 0 <= i < n -> 0 <= j < p ->
      at_ a_zero l (i * p + j) =
      fsum_from (at_ a_zero lc (i * p + j)) m (fun k => (at_ a_zero la (k * n + i) * at_ a_zero lb (k * p + j))%num).
Proof.
  intros. exists (addtmul la lb lc m n p). rewrite AddTransponsedMatrixMultiplication_ok by auto. repeat split.
  - unfold addtmul. apply len_tab. nia.
  - intros i j Hi Hj. unfold addtmul. rewrite at_tab by nia. rewrite div_idx, mod_idx by lia. reflexivity.
Qed.
Lemma affine_any alpha la lb lc (D : arr T) m n : 0 <= m -> 0 <= n ->
  m * n <= len la -> n <= len lb -> m <= len lc -> m <= len D ->
  exists l, AffineLinearTransformation alpha (lift la) (lift lb) (lift lc) D m n = Ok (lift l ++ drop m D) /\ len l = m /\
    forall i, 0 <= i < m ->
      at_ a_zero l i = (alpha * fsum n (fun k => at_ a_zero la (i * n + k) * at_ a_zero lb k) + at_ a_zero lc i)%num.
Proof.
  intros. exists (affine alpha la lb lc m n). rewrite AffineLinearTransformation_ok by auto. repeat split.
  - unfold affine. apply len_tab. lia.
  - intros i Hi. unfold affine. rewrite at_tab by lia. reflexivity.
Qed.
Lemma wadd_any alpha A la beta B lb (c : arr T) lc m n : 0 <= m -> 0 <= n ->
  (A = Ext (lift la) \/ A = Same /\ la = lc) -> (B = Ext (lift lb) \/ B = Same /\ lb = lc) -> (A = Same \/ B = Same -> c = lift lc) ->
  m * n <= len la -> m * n <= len lb -> m * n <= len c ->
  exists l, WeightedMatrixAdd alpha A beta B c m n = Ok (lift l ++ drop (m * n) c) /\ len l = m * n /\
    forall k, 0 <= k < m * n -> at_ a_zero l k = (alpha * at_ a_zero la k + beta * at_ a_zero lb k)%num.
Proof.
  intros Hm Hn HA HB Hs La Lb Lc. exists (wadd alpha la beta lb (m * n)). rewrite (WeightedMatrixAdd_ok alpha A la beta B lb c lc m n); auto.
  - repeat split; [unfold wadd; apply len_tab; nia|]. intros k Hk. unfold wadd. rewrite at_tab by lia. reflexivity.
  - destruct HA as [->|[-> ->]]; constructor.
  - destruct HB as [->|[-> ->]]; constructor.
Qed.
Lemma quad_any lq lp m : 0 <= m -> m * m <= len lq -> m <= len lp ->
  QuadraticFormProduct (lift lq) (lift lp) m =
  Ok (fsum m (fun i => fsum m (fun j => at_ a_zero lq (i * m + j) * at_ a_zero lp j) * at_ a_zero lp i)%num).
Proof. exact (QuadraticFormProduct_ok lq lp m). Qed.
Lemma dot_any la lb m : 0 <= m -> m <= len la -> m <= len lb ->
  DotProduct (lift la) (lift lb) m = Ok (fsum m (fun i => at_ a_zero la i * at_ a_zero lb i)%num).
Proof. exact (DotProduct_ok la lb m). Qed.
End Any.

(** ** Exact corollaries *)
Lemma mmul_exact la lb C m n p : 0 <= m -> 0 <= n -> 0 <= p -> m * n <= len la -> n * p <= len lb -> len C = m * p ->
  exists l, MatrixMultiplication (lift (fins la)) (lift (fins lb)) C m n p = Ok (lift (fins l)) /\ len l = m * p /\
    forall i j, 0 <= i < m -> 0 <= j < p -> qent l p i j = qsum n (fun k => qent la n i k * qent lb p k j)%Qc.
Proof.
  intros. exists (tab (m * p) (fun k => qsum n (fun t => qent la n (k / p) t * qent lb p t (k mod p))%Qc)).
  rewrite MatrixMultiplication_ok by (rewrite ?len_fins; auto; lia). repeat split.
  - rewrite drop_all by lia. rewrite app_nil_r. apply (f_equal (fun t => Ok (lift t))). unfold mmul. rewrite <- tab_fins. apply tab_ext. intros k Hk.
    apply fsum_fin. intros. rewrite !ent_fins. reflexivity.
  - apply len_tab. nia.
  - intros i j Hi Hj. rewrite qent_tab by lia. rewrite div_idx, mod_idx by lia. reflexivity.
Qed.
Lemma tmul_exact la lb C m n p : 0 <= m -> 0 <= n -> 0 <= p -> m * n <= len la -> m * p <= len lb -> len C = n * p ->
  exists l, TransponsedMatrixMultiplication (lift (fins la)) (lift (fins lb)) C m n p = Ok (lift (fins l)) /\ len l = n * p /\
    forall i j, 0 <= i < n -> 0 <= j < p -> qent l p i j = qsum m (fun k => qent la n k i * qent lb p k j)%Qc.
Proof.
  intros. exists (tab (n * p) (fun k => qsum m (fun t => qent la n t (k / p) * qent lb p t (k mod p))%Qc)).
  rewrite TransponsedMatrixMultiplication_ok by (rewrite ?len_fins; auto; lia). repeat split.
  - rewrite drop_all by lia. rewrite app_nil_r. apply (f_equal (fun t => Ok (lift t))). unfold tmul. rewrite <- tab_fins. apply tab_ext. intros k Hk.
    apply fsum_fin. intros. rewrite !ent_fins. reflexivity.
  - apply len_tab. nia.
  - intros i j Hi Hj. rewrite qent_tab by lia. rewrite div_idx, mod_idx by lia. reflexivity.
Qed.
Lemma addtmul_exact la lb lc m n p : 0 <= m -> 0 <= n -> 0 <= p -> m * n <= len la -> m * p <= len lb -> len lc = n * p ->
  exists l, AddTransponsedMatrixMultiplication (lift (fins la)) (lift (fins lb)) (lift (fins lc)) m n p = Ok (lift (fins l)) /\ len l = n * p /\
    forall i j, 0 <= i < n -> 0 <= j < p -> qent l p i j = (qent lc p i j + qsum m (fun k => qent la n k i * qent lb p k j))%Qc.
Proof.
  intros. exists (tab (n * p) (fun k => qat lc k + qsum m (fun t => qent la n t (k / p) * qent lb p t (k mod p)))%Qc).
  rewrite AddTransponsedMatrixMultiplication_ok by (rewrite ?len_fins; auto; lia). repeat split.
  - apply (f_equal (fun t => Ok (lift t))). unfold addtmul. rewrite <- tab_fins. apply tab_ext. intros k Hk. rewrite at_fins.
    apply fsum_from_fin. intros. rewrite !ent_fins. reflexivity.
  - apply len_tab. nia.
  - intros i j Hi Hj. rewrite qent_tab by lia. rewrite div_idx, mod_idx by lia. reflexivity.
Qed.
Lemma affine_exact a la lb lc D m n : 0 <= m -> 0 <= n -> m * n <= len la -> n <= len lb -> m <= len lc -> len D = m ->
  exists l, AffineLinearTransformation (Fin a) (lift (fins la)) (lift (fins lb)) (lift (fins lc)) D m n = Ok (lift (fins l)) /\ len l = m /\
    forall i, 0 <= i < m -> qat l i = (a * qmul la n lb i + qat lc i)%Qc.
Proof.
  intros. eexists. rewrite AffineLinearTransformation_ok by (rewrite ?len_fins; auto; lia). rewrite drop_all, app_nil_r by lia.
  rewrite affine_fin. repeat split; [apply len_tab; lia|]. intros. rewrite qat_tab by lia. reflexivity.
Qed.
Lemma quad_exact lq lp m : 0 <= m -> m * m <= len lq -> m <= len lp ->
  QuadraticFormProduct (lift (fins lq)) (lift (fins lp)) m = Ok (Fin (qquad lq m lp)).
Proof. intros. rewrite QuadraticFormProduct_ok by (rewrite ?len_fins; auto). rewrite quad_fin. reflexivity. Qed.
Lemma dot_exact la lb m : 0 <= m -> m <= len la -> m <= len lb ->
  DotProduct (lift (fins la)) (lift (fins lb)) m = Ok (Fin (qdot m la lb)).
Proof. intros. rewrite DotProduct_ok by (rewrite ?len_fins; auto). rewrite dot_fin. reflexivity. Qed.

(** ** L'R + R'L *)
Lemma symm_exact la lb C m n : 0 <= m -> 0 <= n -> m * n <= len la -> m * n <= len lb -> len C = n * n ->
  exists l, MatrixSymmetrizationProduct (lift (fins la)) (lift (fins lb)) C m n = Ok (lift (fins l)) /\ len l = n * n /\
    (forall i j, 0 <= i < n -> 0 <= j < n ->
      qent l n i j = (qsum m (fun k => qent la n k i * qent lb n k j) + qsum m (fun k => qent lb n k i * qent la n k j))%Qc) /\
    qsymmetric l n.
Proof.
  intros. exists (tab (n * n) (fun k => qsym la lb m n (k / n) (k mod n))).
  rewrite MatrixSymmetrizationProduct_ok by (rewrite ?len_fins; auto). rewrite symm_fin.
  repeat split; [apply len_tab; nia| |].
  - intros i j Hi Hj. rewrite qent_tab by lia. rewrite div_idx, mod_idx by lia. unfold qsym. apply qsum_add.
  - intros i j Hi Hj. rewrite !qent_tab by lia. rewrite !div_idx, !mod_idx by lia. apply qsym_comm.
Qed.

(** The penalty function is the complementarity product.  [C] is L'R + R'L, [gp] the vector -(R'lbL + L'lbR). *)
Lemma phi_identity (Lm Rm C gp lbL lbR x : list Qc) m n :
  (forall i j, 0 <= i < n -> 0 <= j < n -> qent C n i j = qsym Lm Rm m n i j) ->
  (forall j, 0 <= j < n -> qat gp j = (- (qtmul Rm m n lbL j + qtmul Lm m n lbR j))%Qc) ->
  (qdot m lbL lbR + qdot n gp x + qquad C n x * Q2Qc (1 # 2))%Qc =
  qsum m (fun i => (qmul Lm n x i - qat lbL i) * (qmul Rm n x i - qat lbR i))%Qc.
Proof.
  intros HC Hg.
  assert (E1 : qdot n gp x = (- qsum m (fun k => qat lbL k * qmul Rm n x k) - qsum m (fun k => qat lbR k * qmul Lm n x k))%Qc).
  { assert (S : forall (M l : list Qc), qsum n (fun j => qtmul M m n l j * qat x j)%Qc = qsum m (fun k => qat l k * qmul M n x k)%Qc).
    { intros M l. unfold qtmul, qmul.
      rewrite (qsum_ext n _ (fun j => qsum m (fun i => qent M n i j * qat l i * qat x j)%Qc)) by (intros; rewrite qsum_scale_r; reflexivity).
      rewrite qsum_swap. apply qsum_ext. intros k Hk. rewrite <- qsum_scale. apply qsum_ext. intros; ring. }
    rewrite <- !S. rewrite <- qsum_opp, <- qsum_sub. unfold qdot. apply qsum_ext. intros j Hj. rewrite Hg by auto. ring. }
  assert (E2 : qquad C n x = (qsum m (fun k => qmul Lm n x k * qmul Rm n x k) + qsum m (fun k => qmul Lm n x k * qmul Rm n x k))%Qc).
  { unfold qquad. unfold qmul at 1.
    rewrite (qsum_ext n _ (fun i => qsum n (fun j => qsum m (fun k => qat x i * (qent Lm n k i * qent Rm n k j + qent Rm n k i * qent Lm n k j) * qat x j)%Qc))).
    2: { intros i Hi. rewrite <- qsum_scale. apply qsum_ext. intros j Hj. rewrite HC by auto. unfold qsym.
         rewrite <- qsum_scale_r, <- qsum_scale. apply qsum_ext. intros; ring. }
    rewrite (qsum_ext n _ (fun i => qsum m (fun k => qat x i * (qent Lm n k i * qmul Rm n x k + qent Rm n k i * qmul Lm n x k))%Qc)).
    2: { intros i Hi. rewrite qsum_swap. apply qsum_ext. intros k Hk. unfold qmul. rewrite <- !qsum_scale, <- qsum_add, <- qsum_scale.
         apply qsum_ext. intros; ring. }
    rewrite qsum_swap. rewrite <- qsum_add. apply qsum_ext. intros k Hk.
    rewrite (qsum_ext n _ (fun i => qent Lm n k i * qat x i * qmul Rm n x k + qent Rm n k i * qat x i * qmul Lm n x k)%Qc) by (intros; ring).
    rewrite qsum_add, !qsum_scale_r. unfold qmul. ring. }
  rewrite E1, E2. unfold qdot.
  rewrite (qsum_ext m (fun i => (qmul Lm n x i - qat lbL i) * (qmul Rm n x i - qat lbR i))%Qc
     (fun i => qmul Lm n x i * qmul Rm n x i - qat lbL i * qmul Rm n x i - qat lbR i * qmul Lm n x i + qat lbL i * qat lbR i)%Qc) by (intros; ring).
  rewrite qsum_add, !qsum_sub.
  set (P := qsum m (fun i => qmul Lm n x i * qmul Rm n x i)%Qc). set (h := Q2Qc (1 # 2)).
  assert (Hh : ((P + P) * h = P)%Qc). { replace (P + P)%Qc with (P * (1 + 1))%Qc by ring. rewrite <- Qcmult_assoc.
    replace ((1 + 1) * h)%Qc with 1%Qc by (apply Qc_is_canon; reflexivity). ring. }
  rewrite Hh. ring.
Qed.

(** ** Sparse kernels against dense ones *)
Section Agree.
Variables (S : csc xq) (m n : Z) (cols : list (list (Z * Qc))) (l : list Qc).
Hypothesis HR : repr S m n (fincols cols).
Hypothesis HM : same_matrix l cols m n.
Hypothesis HL : len l = m * n.
Hypothesis Hm : 0 <= m.
Let Hn : 0 <= n := repr_n S m n _ HR.
Let Hrows j : 0 <= j < n -> forall e, In e (col cols j) -> 0 <= fst e < m.
Proof.
  intros Hj e He. apply (repr_rows S m n cols HR (col cols j)); auto. apply col_in.
  pose proof (rp_len _ _ _ _ HR) as L. rewrite len_fincols in L. lia.
Qed.

Lemma agree_mul b c : n <= len b -> m <= len c ->
  MatrixMultiplication_csc S (lift (fins b)) c = MatrixMultiplication (lift (fins l)) (lift (fins b)) c m n 1.
Proof.
  intros Hb Hc. rewrite (MatrixMultiplication_csc_ok S m n _ _ _ HR) by (rewrite ?len_fins; auto).
  rewrite MatrixMultiplication_ok by (rewrite ?len_fins, ?Z.mul_1_r; auto; lia). rewrite mmul_fin, Z.mul_1_r by auto. do 3 f_equal.
  unfold mul_csc. rewrite <- tab_fins. apply tab_ext. intros i Hi. rewrite rowsum_fin. f_equal. unfold qmul. apply qsum_ext. intros j Hj.
  rewrite HM by auto. reflexivity.
Qed.
Lemma tcol_agree b j : 0 <= j < n -> qsum m (fun i => qcol (col cols j) i * qat b i)%Qc = qtmul l m n b j.
Proof. intros Hj. unfold qtmul. apply qsum_ext. intros i Hi. rewrite HM by auto. reflexivity. Qed.
Lemma agree_tmul b c : m <= len b -> n <= len c ->
  TransponsedMatrixMultiplication_csc S (lift (fins b)) c = TransponsedMatrixMultiplication (lift (fins l)) (lift (fins b)) c m n 1.
Proof.
  intros Hb Hc. rewrite (TransponsedMatrixMultiplication_csc_ok S m n _ _ _ HR) by (rewrite ?len_fins; auto).
  rewrite TransponsedMatrixMultiplication_ok by (rewrite ?len_fins, ?Z.mul_1_r; auto; lia). rewrite tmul_fin, Z.mul_1_r. apply (f_equal (fun t => Ok (lift t ++ drop _ _))).
  unfold tmul_csc. rewrite <- tab_fins. apply tab_ext. intros j Hj. rewrite col_fincols. change (@a_zero xq _) with (Fin 0).
  rewrite (tcolsum_fin _ _ _ m) by (apply Hrows; auto). rewrite tcol_agree by auto. f_equal. ring.
Qed.
Lemma agree_addtmul b c : m <= len b -> len c = n ->
  AddTransponsedMatrixMultiplication_csc S (lift (fins b)) (lift (fins c)) =
  AddTransponsedMatrixMultiplication (lift (fins l)) (lift (fins b)) (lift (fins c)) m n 1.
Proof.
  intros Hb Hc. rewrite (AddTransponsedMatrixMultiplication_csc_ok S m n _ _ _ HR) by (rewrite ?len_fins; auto).
  rewrite AddTransponsedMatrixMultiplication_ok by (rewrite ?len_fins, ?Z.mul_1_r; auto; lia). rewrite addtmul_fin. apply (f_equal (fun t => Ok (lift t))).
  unfold addtmul_csc. rewrite <- tab_fins. apply tab_ext. intros j Hj. rewrite col_fincols, at_fins.
  rewrite (tcolsum_fin _ _ _ m) by (apply Hrows; auto). rewrite tcol_agree by auto. reflexivity.
Qed.
Lemma agree_quad p : m = n -> n <= len p -> QuadraticFormProduct_csc S (lift (fins p)) n = QuadraticFormProduct (lift (fins l)) (lift (fins p)) n.
Proof.
  intros Em Hp. rewrite (QuadraticFormProduct_csc_ok S m n _ _ n HR) by (rewrite ?len_fins; lia).
  rewrite QuadraticFormProduct_ok by (rewrite ?len_fins; lia). rewrite quad_fin. f_equal. unfold quad_csc.
  rewrite (fsum_fin n _ (fun j => qat p j * qtmul l n n p j)%Qc).
  - f_equal. unfold qquad, qtmul, qmul.
    rewrite (qsum_ext n _ (fun j => qsum n (fun i => qat p j * (qent l n i j * qat p i))%Qc)) by (intros; rewrite qsum_scale; reflexivity).
    rewrite qsum_swap. apply qsum_ext. intros i Hi. rewrite <- qsum_scale. apply qsum_ext. intros; ring.
  - intros j Hj. rewrite at_fins, col_fincols. rewrite (colsum_fin _ _ m) by (apply Hrows; auto). rewrite tcol_agree by auto. rewrite Em. reflexivity.
Qed.
Lemma agree_affine a b c d : m = n -> qsymmetric l n -> n <= len b -> n <= len c -> n <= len d ->
  AffineLinearTransformation_csc (Fin a) S (lift (fins b)) (lift (fins c)) d n =
  AffineLinearTransformation (Fin a) (lift (fins l)) (lift (fins b)) (lift (fins c)) d n n.
Proof.
  intros Em Hsy Hb Hc Hd. rewrite (AffineLinearTransformation_csc_ok _ S m n _ _ _ _ n HR) by (rewrite ?len_fins; lia).
  rewrite AffineLinearTransformation_ok by (rewrite ?len_fins; lia). rewrite affine_fin. apply (f_equal (fun t => Ok (lift t ++ drop _ _))).
  unfold affine_csc. rewrite <- tab_fins. apply tab_ext. intros j Hj. rewrite at_fins, col_fincols. rewrite (colsum_fin _ _ m) by (apply Hrows; auto).
  rewrite tcol_agree by auto. rewrite fin_mul, fin_add. do 3 f_equal. unfold qtmul, qmul. rewrite Em. apply qsum_ext. intros i Hi.
  rewrite Hsy by auto. reflexivity.
Qed.
End Agree.
