(** * Properties_Kernels: the theorems about the linear algebra kernels (C33-C38, C40, C41, C68).

    [lift l] is a fully initialised array with the values [l]; [fins l] are finite exact numbers;
    [drop n c] is the part of an output array behind the first n cells (left untouched).
    [fsum n f] adds f 0, ..., f (n-1) from left to right starting at 0, in the arithmetic at hand. *)
From Coq Require Import QArith Qcanon SpecFloat.
From Verif Require Import Base Arith Utilities Loops SpecSparse SpecMath KernelProps KernelProps2 CscBuild CscMerge OrderFacts ExamplesKernels.
Open Scope Z_scope.

(** ** C33: dense kernels, in any arithmetic (IEEE doubles included) *)
Theorem C33_matrix_product : forall T (A : Arith T) (la lb : list T) (C : arr T) m n p, 0 <= m -> 0 <= n -> 0 <= p ->
  m * n <= len la -> n * p <= len lb -> m * p <= len C ->
  exists l, MatrixMultiplication (lift la) (lift lb) C m n p = Ok (lift l ++ drop (m * p) C) /\ len l = m * p /\
    forall i j, 0 <= i < m -> 0 <= j < p ->
      at_ a_zero l (i * p + j) = fsum n (fun k => (at_ a_zero la (i * n + k) * at_ a_zero lb (k * p + j))%num).
Proof. exact @mmul_any. Qed.
Print Assumptions C33_matrix_product.

Theorem C33_transposed_product : forall T (A : Arith T) (la lb : list T) (C : arr T) m n p, 0 <= m -> 0 <= n -> 0 <= p ->
  m * n <= len la -> m * p <= len lb -> n * p <= len C ->
  exists l, TransponsedMatrixMultiplication (lift la) (lift lb) C m n p = Ok (lift l ++ drop (n * p) C) /\ len l = n * p /\
    forall i j, 0 <= i < n -> 0 <= j < p ->
      at_ a_zero l (i * p + j) = fsum m (fun k => (at_ a_zero la (k * n + i) * at_ a_zero lb (k * p + j))%num).
Proof. exact @tmul_any. Qed.
Print Assumptions C33_transposed_product.

Theorem C33_add_transposed_product : forall T (A : Arith T) (la lb lc : list T) m n p, 0 <= m -> 0 <= n -> 0 <= p ->
  m * n <= len la -> m * p <= len lb -> n * p = len lc ->
  exists l, AddTransponsedMatrixMultiplication (lift la) (lift lb) (lift lc) m n p = Ok (lift l) /\ len l = n * p /\
    forall i j, 0 <= i < n -> 0 <= j < p ->
      at_ a_zero l (i * p + j) =
      fsum_from (at_ a_zero lc (i * p + j)) m (fun k => (at_ a_zero la (k * n + i) * at_ a_zero lb (k * p + j))%num).
Proof. exact @addtmul_any. Qed.
Print Assumptions C33_add_transposed_product.

Theorem C33_affine : forall T (A : Arith T) alpha (la lb lc : list T) (D : arr T) m n, 0 <= m -> 0 <= n ->
  m * n <= len la -> n <= len lb -> m <= len lc -> m <= len D ->
  exists l, AffineLinearTransformation alpha (lift la) (lift lb) (lift lc) D m n = Ok (lift l ++ drop m D) /\ len l = m /\
    forall i, 0 <= i < m ->
      at_ a_zero l i = (alpha * fsum n (fun k => at_ a_zero la (i * n + k) * at_ a_zero lb k) + at_ a_zero lc i)%num.
Proof. exact @affine_any. Qed.
Print Assumptions C33_affine.

(** Each operand may be an array of its own ([Ext]) or the output array itself ([Same], initially [lc]). *)
Theorem C33_weighted_add : forall T (A : Arith T) alpha X (la : list T) beta Y lb (c : arr T) lc m n, 0 <= m -> 0 <= n ->
  (X = Ext (lift la) \/ X = Same /\ la = lc) -> (Y = Ext (lift lb) \/ Y = Same /\ lb = lc) -> (X = Same \/ Y = Same -> c = lift lc) ->
  m * n <= len la -> m * n <= len lb -> m * n <= len c ->
  exists l, WeightedMatrixAdd alpha X beta Y c m n = Ok (lift l ++ drop (m * n) c) /\ len l = m * n /\
    forall k, 0 <= k < m * n -> at_ a_zero l k = (alpha * at_ a_zero la k + beta * at_ a_zero lb k)%num.
Proof. exact @wadd_any. Qed.
Print Assumptions C33_weighted_add.

Theorem C33_quadratic_form : forall T (A : Arith T) (lq lp : list T) m, 0 <= m -> m * m <= len lq -> m <= len lp ->
  QuadraticFormProduct (lift lq) (lift lp) m =
  Ok (fsum m (fun i => fsum m (fun j => at_ a_zero lq (i * m + j) * at_ a_zero lp j) * at_ a_zero lp i)%num).
Proof. exact @quad_any. Qed.
Print Assumptions C33_quadratic_form.

Theorem C33_dot_product : forall T (A : Arith T) (la lb : list T) m, 0 <= m -> m <= len la -> m <= len lb ->
  DotProduct (lift la) (lift lb) m = Ok (fsum m (fun i => at_ a_zero la i * at_ a_zero lb i)%num).
Proof. exact @dot_any. Qed.
Print Assumptions C33_dot_product.

(** The same for finite data in exact arithmetic, with mathematical sums *)
Theorem C33_matrix_product_exact : forall la lb C m n p, 0 <= m -> 0 <= n -> 0 <= p -> m * n <= len la -> n * p <= len lb -> len C = m * p ->
  exists l, MatrixMultiplication (lift (fins la)) (lift (fins lb)) C m n p = Ok (lift (fins l)) /\ len l = m * p /\
    forall i j, 0 <= i < m -> 0 <= j < p -> qent l p i j = qsum n (fun k => qent la n i k * qent lb p k j)%Qc.
Proof. exact mmul_exact. Qed.
Print Assumptions C33_matrix_product_exact.

Theorem C33_transposed_product_exact : forall la lb C m n p, 0 <= m -> 0 <= n -> 0 <= p -> m * n <= len la -> m * p <= len lb -> len C = n * p ->
  exists l, TransponsedMatrixMultiplication (lift (fins la)) (lift (fins lb)) C m n p = Ok (lift (fins l)) /\ len l = n * p /\
    forall i j, 0 <= i < n -> 0 <= j < p -> qent l p i j = qsum m (fun k => qent la n k i * qent lb p k j)%Qc.
Proof. exact tmul_exact. Qed.
Print Assumptions C33_transposed_product_exact.

Theorem C33_add_transposed_product_exact : forall la lb lc m n p, 0 <= m -> 0 <= n -> 0 <= p -> m * n <= len la -> m * p <= len lb -> len lc = n * p ->
  exists l, AddTransponsedMatrixMultiplication (lift (fins la)) (lift (fins lb)) (lift (fins lc)) m n p = Ok (lift (fins l)) /\ len l = n * p /\
    forall i j, 0 <= i < n -> 0 <= j < p -> qent l p i j = (qent lc p i j + qsum m (fun k => qent la n k i * qent lb p k j))%Qc.
Proof. exact addtmul_exact. Qed.
Print Assumptions C33_add_transposed_product_exact.

Theorem C33_affine_exact : forall a la lb lc D m n, 0 <= m -> 0 <= n -> m * n <= len la -> n <= len lb -> m <= len lc -> len D = m ->
  exists l, AffineLinearTransformation (Fin a) (lift (fins la)) (lift (fins lb)) (lift (fins lc)) D m n = Ok (lift (fins l)) /\ len l = m /\
    forall i, 0 <= i < m -> qat l i = (a * qmul la n lb i + qat lc i)%Qc.
Proof. exact affine_exact. Qed.
Print Assumptions C33_affine_exact.

Theorem C33_quadratic_form_exact : forall lq lp m, 0 <= m -> m * m <= len lq -> m <= len lp ->
  QuadraticFormProduct (lift (fins lq)) (lift (fins lp)) m = Ok (Fin (qquad lq m lp)).
Proof. exact quad_exact. Qed.
Print Assumptions C33_quadratic_form_exact.

Theorem C33_dot_product_exact : forall la lb m, 0 <= m -> m <= len la -> m <= len lb ->
  DotProduct (lift (fins la)) (lift (fins lb)) m = Ok (Fin (qdot m la lb)).
Proof. exact dot_exact. Qed.
Print Assumptions C33_dot_product_exact.

(** The sizes are met, e.g., by a 2x3 times 3x2 product; its value, and an aliased sum. *)
Example C33_product_case : MatrixMultiplication (lift (fins ex_M)) (lift (fins (zq [1; 2; 3; 4; 5; 6]))) (repeat None 4) 2 3 2
  = Ok (lift (fins (zq [-1; 0; 14; 18]))).
Proof. vm_compute. reflexivity. Qed.
Example C33_alias_case : WeightedMatrixAdd (Fin 1) Same (Fin 1) (Ext (lift (fins (zq [1; 2; 3])))) (lift (fins (zq [4; 5; 6]))) 3 1
  = Ok (lift (fins (zq [5; 7; 9]))).
Proof. vm_compute. reflexivity. Qed.

(** ** C34: the matrix built from L and R (the penalty value is in Properties_Exact) *)
Theorem C34_symmetrised_product : forall la lb C m n, 0 <= m -> 0 <= n -> m * n <= len la -> m * n <= len lb -> len C = n * n ->
  exists l, MatrixSymmetrizationProduct (lift (fins la)) (lift (fins lb)) C m n = Ok (lift (fins l)) /\ len l = n * n /\
    (forall i j, 0 <= i < n -> 0 <= j < n ->
      qent l n i j = (qsum m (fun k => qent la n k i * qent lb n k j) + qsum m (fun k => qent lb n k i * qent la n k j))%Qc) /\
    qsymmetric l n.
Proof. exact symm_exact. Qed.
Print Assumptions C34_symmetrised_product.

Example C34_symmetrised_case : MatrixSymmetrizationProduct (lift (fins ex_M)) (lift (fins ex_N)) (repeat None 9) 2 3
  = Ok (lift (fins (zq [4; -1; 8; -1; 0; 11; 8; 11; 10]))).
Proof. vm_compute. reflexivity. Qed.

(** ** C35: sparse kernels return exactly what the dense kernels return *)
Theorem C35_matrix_vector : forall S m n cols l, repr S m n (fincols cols) -> same_matrix l cols m n -> len l = m * n -> 0 <= m ->
  forall b c, n <= len b -> m <= len c ->
  MatrixMultiplication_csc S (lift (fins b)) c = MatrixMultiplication (lift (fins l)) (lift (fins b)) c m n 1.
Proof. exact agree_mul. Qed.
Print Assumptions C35_matrix_vector.

Theorem C35_transposed : forall S m n cols l, repr S m n (fincols cols) -> same_matrix l cols m n -> len l = m * n -> 0 <= m ->
  forall b c, m <= len b -> n <= len c ->
  TransponsedMatrixMultiplication_csc S (lift (fins b)) c = TransponsedMatrixMultiplication (lift (fins l)) (lift (fins b)) c m n 1.
Proof. exact agree_tmul. Qed.
Print Assumptions C35_transposed.

Theorem C35_add_transposed : forall S m n cols l, repr S m n (fincols cols) -> same_matrix l cols m n -> len l = m * n -> 0 <= m ->
  forall b c, m <= len b -> len c = n ->
  AddTransponsedMatrixMultiplication_csc S (lift (fins b)) (lift (fins c)) =
  AddTransponsedMatrixMultiplication (lift (fins l)) (lift (fins b)) (lift (fins c)) m n 1.
Proof. exact agree_addtmul. Qed.
Print Assumptions C35_add_transposed.

Theorem C35_quadratic_form : forall S m n cols l, repr S m n (fincols cols) -> same_matrix l cols m n -> len l = m * n ->
  forall p, m = n -> n <= len p ->
  QuadraticFormProduct_csc S (lift (fins p)) n = QuadraticFormProduct (lift (fins l)) (lift (fins p)) n.
Proof. exact agree_quad. Qed.
Print Assumptions C35_quadratic_form.

Theorem C35_affine_symmetric : forall S m n cols l, repr S m n (fincols cols) -> same_matrix l cols m n -> len l = m * n ->
  forall a b c d, m = n -> qsymmetric l n -> n <= len b -> n <= len c -> n <= len d ->
  AffineLinearTransformation_csc (Fin a) S (lift (fins b)) (lift (fins c)) d n =
  AffineLinearTransformation (Fin a) (lift (fins l)) (lift (fins b)) (lift (fins c)) d n n.
Proof. exact agree_affine. Qed.
Print Assumptions C35_affine_symmetric.

Example C35_case : repr (mk_csc 2 3 (fincols ex_Mc)) 2 3 (fincols ex_Mc) /\ same_matrix ex_M ex_Mc 2 3.
Proof. exact (conj ex_M_repr ex_M_same). Qed.
Example C35_case_symmetric : repr (mk_csc 2 2 (fincols ex_Sc)) 2 2 (fincols ex_Sc) /\ same_matrix ex_S ex_Sc 2 2 /\ qsymmetric ex_S 2.
Proof. exact (conj ex_S_repr (conj ex_S_same ex_S_sym)). Qed.

(** For a matrix that is not symmetric the sparse affine kernel multiplies with the transpose: [[0,1],[0,0]] times (0,1). *)
Theorem C35_affine_unsymmetric_refuted : exists S cols l b, repr S 2 2 (fincols cols) /\ same_matrix l cols 2 2 /\ len l = 4 /\ len b = 2 /\
  AffineLinearTransformation_csc (Fin 1) S (lift (fins b)) (lift (fins (zq [0; 0]))) (repeat None 2) 2 <>
  AffineLinearTransformation (Fin 1) (lift (fins l)) (lift (fins b)) (lift (fins (zq [0; 0]))) (repeat None 2) 2 2.
Proof. exact affine_unsymmetric. Qed.
Print Assumptions C35_affine_unsymmetric_refuted.

(** ** C36: sparse L'R + R'L *)
Theorem C36_sparse_symmetrised_product : forall Lm Rm m n cL cR, repr Lm m n (fincols cL) -> repr Rm m n (fincols cR) ->
  (forall c, In c cL -> sorted c) -> (forall c, In c cR -> sorted c) -> n + 1 <= INT_MAX -> n * n <= INT_MAX ->
  exists cols, len cols = n /\ (forall c, In c cols -> sorted c) /\
    (forall i j, 0 <= i < n -> 0 <= j < n ->
       let v := (qsum m (fun k => qentry cL k i * qentry cR k j) + qsum m (fun k => qentry cR k i * qentry cL k j))%Qc in
       ((- Qc_lit 1 (-25) <= v)%Qc /\ (v <= Qc_lit 1 (-25))%Qc -> qentry cols i j = 0%Qc) /\
       (~ ((- Qc_lit 1 (-25) <= v)%Qc /\ (v <= Qc_lit 1 (-25))%Qc) -> qentry cols i j = v)) /\
    ((exists M, MatrixSymmetrizationProduct_csc Lm Rm = Ok (Some M) /\ repr M n n (fincols cols) /\ concat cols <> []) \/
     (MatrixSymmetrizationProduct_csc Lm Rm = Ok None /\ concat cols = [])).
Proof. exact symm_csc_exact. Qed.
Print Assumptions C36_sparse_symmetrised_product.

Example C36_case : repr (mk_csc 2 3 (fincols ex_Mc)) 2 3 (fincols ex_Mc) /\ repr (mk_csc 2 3 (fincols ex_Nc)) 2 3 (fincols ex_Nc) /\
  (forall c, In c ex_Mc -> sorted c) /\ (forall c, In c ex_Nc -> sorted c).
Proof. exact (conj ex_M_repr (conj ex_N_repr ex_sorted)). Qed.

(** Unsorted columns silently give a wrong product (3 instead of 4). *)
Theorem C36_unsorted_refuted : exists Lm Rm cL cR M, repr Lm 2 1 (fincols cL) /\ repr Rm 2 1 (fincols cR) /\
  MatrixSymmetrizationProduct_csc Lm Rm = Ok (Some M) /\ c_x M = Some (lift (fins (zq [3]))) /\
  (qsum 2 (fun k => qentry cL k 0 * qentry cR k 0) + qsum 2 (fun k => qentry cR k 0 * qentry cL k 0))%Qc = Q2Qc (inject_Z 4).
Proof. exact unsorted_product. Qed.
Print Assumptions C36_unsorted_refuted.

(** ** C37: csc_to_dns (row indices so large that row*n overflows are excluded, see C37_overflow_refuted) *)
Theorem C37_to_dense_partial : forall T (A : Arith T) (S : csc T) m n cols, stored S m n cols -> 0 <= m -> m * n <= INT_MAX ->
  (forall c e, In c cols -> In e c -> INT_MIN <= fst e * n /\ fst e * n + n <= INT_MAX) ->
  ((forall c e, In c cols -> In e c -> 0 <= fst e < m) ->
     exists l, csc_to_dns (Some S) = Ok (Some (lift l)) /\ len l = m * n /\
       forall i j, 0 <= i < m -> 0 <= j < n ->
         (forall x, (forall e e', In e (col cols j) -> In e' (col cols j) -> fst e = fst e' -> e = e') ->
            In (i, x) (col cols j) -> at_ a_zero l (i * n + j) = x) /\
         ((forall x, ~ In (i, x) (col cols j)) -> at_ a_zero l (i * n + j) = a_zero)) /\
  ((exists c e, In c cols /\ In e c /\ ~ 0 <= fst e < m) -> csc_to_dns (Some S) = Ok None).
Proof. exact @to_dns_any. Qed.
Print Assumptions C37_to_dense_partial.

Example C37_case_good : csc_to_dns (Some (mk_csc 2 3 (fincols ex_Mc))) = Ok (Some (lift (fins ex_M))).
Proof. vm_compute. reflexivity. Qed.
Example C37_case_bad : csc_to_dns (Some (mk_csc 1 3 (fincols ex_Mc))) = Ok None.
Proof. vm_compute. reflexivity. Qed.

(** A row index far outside the matrix makes the index computation overflow before it is checked. *)
Theorem C37_overflow_refuted : exists (S : csc f64) cols, stored S 1 2 cols /\ csc_to_dns (Some S) = UB IntOverflow.
Proof. exact to_dns_overflow. Qed.
Print Assumptions C37_overflow_refuted.

(** ** C38: dns_to_csc *)
Theorem C38_to_sparse : forall T (A : Arith T) (l : list T) m n, 0 <= m -> 0 <= n -> m * n <= len l -> n + 1 <= INT_MAX -> m * n <= INT_MAX ->
  exists S cols, dns_to_csc (Some (lift l)) m n = Ok S /\ repr S m n cols /\ (forall c, In c cols -> sorted c) /\
    forall i j x, 0 <= j < n -> (In (i, x) (col cols j) <->
       0 <= i < m /\ x = at_ a_zero l (i * n + j) /\ (a_lt a_zero x = true \/ a_lt x a_zero = true)).
Proof. exact @of_dns_any. Qed.
Print Assumptions C38_to_sparse.

(** Converting to sparse and back restores the matrix, in any arithmetic, if every entry is zero or compares with zero (so NaN
    and, in floating point, -0 are excluded: they are lost, see the refutation below). *)
Theorem C38_round_trip : forall T (A : Arith T) (l : list T) m n, 0 <= m -> 0 <= n -> len l = m * n -> n + 1 <= INT_MAX -> m * n <= INT_MAX ->
  (forall x, In x l -> a_lt a_zero x = true \/ a_lt x a_zero = true \/ x = a_zero) ->
  exists S, dns_to_csc (Some (lift l)) m n = Ok S /\ csc_to_dns (Some S) = Ok (Some (lift l)).
Proof. exact @round_any. Qed.
Print Assumptions C38_round_trip.

Example C38_case : dns_to_csc (Some (lift (fins ex_M))) 2 3 = Ok (mk_csc 2 3 (fincols ex_Mc)) /\
  csc_to_dns (Some (mk_csc 2 3 (fincols ex_Mc))) = Ok (Some (lift (fins ex_M))).
Proof. split; vm_compute; reflexivity. Qed.

Theorem C38_nan_refuted : exists (l : list f64) S, len l = 1 /\ l = [S754_nan] /\
  dns_to_csc (Some (lift l)) 1 1 = Ok S /\ csc_to_dns (Some S) = Ok (Some (lift [S754_zero false])).
Proof. exact nan_lost. Qed.
Print Assumptions C38_nan_refuted.

(** ** C40: the upper triangle handed to OSQP *)
Theorem C40_upper_triangle : forall T (A : Arith T) (S : csc T) m n cols, repr S m n cols -> n + 1 <= INT_MAX -> len (concat cols) <= INT_MAX ->
  exists U ucols, copyCSC_upper (Some S) = Ok U /\ repr U m n ucols /\
    forall j, 0 <= j < n -> col ucols j = filter (fun e => fst e <=? j) (col cols j).
Proof. exact @upper_any. Qed.
Print Assumptions C40_upper_triangle.

Example C40_case : copyCSC_upper (Some (mk_csc 2 2 (fincols ex_Sc))) = Ok (mk_csc 2 2 (fincols [zcol [(0, 2)]; zcol [(0, -1); (1, 3)]])).
Proof. vm_compute. reflexivity. Qed.

(** ** C41: MaxAbs, for vectors without NaN *)
Theorem C41_max_abs_partial : forall (l : list xq) m, 0 <= m <= len l -> (forall i, 0 <= i < m -> at_ a_zero l i <> NaN) ->
  exists v, MaxAbs (lift l) m = Ok v /\
    (forall i, 0 <= i < m -> a_le (a_abs (at_ a_zero l i)) v = true) /\
    (v = a_zero \/ exists i, 0 <= i < m /\ v = a_abs (at_ a_zero l i)).
Proof. exact max_abs. Qed.
Print Assumptions C41_max_abs_partial.

Example C41_case : MaxAbs (lift (fins (zq [1; -7; 3]))) 3 = Ok (Fin (Q2Qc (inject_Z 7))).
Proof. vm_compute. reflexivity. Qed.

(** A NaN entry is ignored: the "norm" of (NaN) is -0. *)
Theorem C41_nan_refuted : exists l : list f64, In S754_nan l /\ MaxAbs (lift l) (len l) = Ok (S754_zero true).
Proof. exact max_abs_nan. Qed.
Print Assumptions C41_nan_refuted.

(** In IEEE double arithmetic, for vectors without NaN (infinities and signed zeros included) *)
Theorem C41_doubles_partial : forall (l : list f64) m, 0 <= m <= len l -> (forall i, 0 <= i < m -> at_ a_zero l i <> S754_nan) ->
  exists v, MaxAbs (lift l) m = Ok v /\
    (forall i, 0 <= i < m -> SFleb (SFabs (at_ a_zero l i)) v = true) /\
    (SFeqb v (S754_zero false) = true \/ exists i, 0 <= i < m /\ SFeqb v (SFabs (at_ a_zero l i)) = true).
Proof. exact p_C41_f64. Qed.
Print Assumptions C41_doubles_partial.

Example C41_doubles_case : let l := [S754_zero true; f64_of_Z 2; S754_infinity true; f64_of_Z (-5)] in
  MaxAbs (lift l) 4 = Ok (S754_infinity false) /\ forall i, 0 <= i < 4 -> at_ a_zero l i <> S754_nan.
Proof.
  split; [vm_compute; reflexivity|]. intros i Hi. assert (E : i = 0 \/ i = 1 \/ i = 2 \/ i = 3) by lia.
  destruct E as [->|[->|[->| ->]]]; vm_compute; discriminate.
Qed.

(** ** C68: the scalar helpers, in exact arithmetic and in IEEE double arithmetic *)
Theorem C68_max_min : forall x y : xq, x <> NaN -> y <> NaN ->
  (getMax x y = x \/ getMax x y = y) /\ a_le x (getMax x y) = true /\ a_le y (getMax x y) = true /\
  (getMin x y = x \/ getMin x y = y) /\ a_le (getMin x y) x = true /\ a_le (getMin x y) y = true.
Proof. exact p_C68_max. Qed.
Print Assumptions C68_max_min.

Theorem C68_max_min_doubles : forall x y : f64, x <> S754_nan -> y <> S754_nan ->
  (getMax x y = x \/ getMax x y = y) /\ SFleb x (getMax x y) = true /\ SFleb y (getMax x y) = true /\
  (getMin x y = x \/ getMin x y = y) /\ SFleb (getMin x y) x = true /\ SFleb (getMin x y) y = true.
Proof. exact p_C68_max_f64. Qed.
Print Assumptions C68_max_min_doubles.

Theorem C68_equal : forall x y tol : Qc, isEqual (Fin x) (Fin y) (Fin tol) = true <-> (- tol <= x - y <= tol)%Qc.
Proof. exact p_C68_equal. Qed.
Print Assumptions C68_equal.

Theorem C68_zero : forall x : Qc, isZero (Fin x) = true <-> (- Qc_lit 1 (-25) <= x <= Qc_lit 1 (-25))%Qc.
Proof. exact p_C68_zero. Qed.
Print Assumptions C68_zero.

Example C68_case : getMax (Fin (Q2Qc 2)) (Fin (Q2Qc (-3))) = Fin (Q2Qc 2) /\ getMin (Fin (Q2Qc 2)) (Fin (Q2Qc (-3))) = Fin (Q2Qc (-3)) /\
  getMax (f64_of_Z 2) (S754_infinity false) = S754_infinity false /\ getMin (f64_of_Z 2) (S754_infinity false) = f64_of_Z 2 /\
  isEqual (Fin (Q2Qc 2)) (Fin (Q2Qc 3)) (Fin (Q2Qc 1)) = true /\ isEqual (Fin (Q2Qc 2)) (Fin (Q2Qc 4)) (Fin (Q2Qc 1)) = false /\
  isZero (Fin (Q2Qc 0)) = true /\ isZero (Fin (Q2Qc 1)) = false.
Proof. repeat split; vm_compute; reflexivity. Qed.
