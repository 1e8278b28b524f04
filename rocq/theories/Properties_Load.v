(** * Properties_Load: theorems about loading data and about undefined behaviour of whole calls.

    [solve_dense u opt orc rand] and [solve_sparse ...] (SpecLoad.v) construct an object, set the options, load the data [u]
    and run the solver.  Every theorem holds for every arithmetic unless it mentions [f64]. *)
From Coq Require Import QArith Qcanon SpecFloat.
From Verif Require Import Base Arith Codes Utilities Options Stats FileIO Subsolver State LCQProblem Loops SpecSparse SpecMath SpecLoad SpecExact
  LoadSparse StartSparse NoUB Safety LoadFacts Examples ExamplesKernels ExamplesExact.
Open Scope Z_scope.

(** C19: every QP of a dense run has the Hessian Q, the matrix (A;L;R) and the user's bounds or their defaults. *)
Theorem C19_dense_system : forall T (A : Arith T) (u : udense T) opt orc rand r o,
  wf_dense u -> o_qpSolver opt = QPOASES_DENSE -> fin_lower (ud_v u) ->
  solve_dense u opt orc rand = Ok (r, o) ->
  exists gs g0, let v := ud_v u in
    let call ini g x y := mkCall QPOASES_DENSE ini (MDense (ud_Q u)) (MDense (ud_A u ++ ud_L u ++ ud_R u)) g (u_lower v) (u_upper v)
      (Some (bnd (u_nV v) (u_lb v) a_ninf)) (Some (bnd (u_nV v) (u_ub v) a_pinf)) x y in
    s_calls (it o) = map (fun g => call false g None None) gs ++ [call true g0 (Some (bnd (u_nV v) (u_x0 v) a_zero)) (u_y0 v)].
Proof. exact @dense_calls. Qed.
Print Assumptions C19_dense_system.
Example C19_example : forall b, wf_dense (to_dense (exq_d b)) /\ fin_lower (to_vec (exq_v b)) /\
  solve_dense (to_dense (exq_d b)) (ex_options QPOASES_DENSE) (exq_orc QPOASES_DENSE) no_rand = Ok (SUCCESSFUL_RETURN, exq_done b QPOASES_DENSE).
Proof. intros b. split; [apply exq_wf_d|split; [apply exq_fin_lower|exact (exq_runs b QPOASES_DENSE)]]. Qed.

(** C20: the same for sparse runs; OSQP gets the upper triangle of Q and no box bounds. *)
Theorem C20_sparse_system : forall T (A : Arith T) (u : usparse T) opt orc rand r o,
  wf_sparse u -> o_qpSolver opt <> QPOASES_DENSE -> osqp_ok (us_v u) opt -> fin_lower (us_v u) -> concat (us_C u) <> [] ->
  solve_sparse u opt orc rand = Ok (r, o) ->
  exists gs g0, let v := us_v u in
    let box (l : option (list T)) d := if osqp opt then None else Some (bnd (u_nV v) l d) in
    let call ini g x y := mkCall (o_qpSolver opt) ini (csc_mat (u_nV v) (u_nV v) (sparse_H u opt))
      (csc_mat (u_nA v) (u_nV v) (stack_cols (u_nC v) (u_nComp v) (u_nV v) (us_Acols u) (us_L u) (us_R u))) g (u_lower v) (u_upper v)
      (box (u_lb v) a_ninf) (box (u_ub v) a_pinf) x y in
    s_calls (it o) = map (fun g => call false g None None) gs ++ [call true g0 (Some (bnd (u_nV v) (u_x0 v) a_zero)) (u_y0 v)].
Proof. exact @sparse_calls. Qed.
Print Assumptions C20_sparse_system.
(** The entries of that matrix are those of A, L and R at their places. *)
Theorem C20_stacked_entries : forall T nC nComp n (cA cL cR : list (list (Z * T))) j r x, 0 <= j < n ->
  In (r, x) (col (stack_cols nC nComp n cA cL cR) j) <->
  In (r, x) (col cA j) \/ In (r - nC, x) (col cL j) \/ In (r - nC - nComp, x) (col cR j).
Proof. exact @stack_cols_entries. Qed.
Print Assumptions C20_stacked_entries.
Example C20_example : forall b, wf_sparse (to_sparse (exq_s b)) /\ fin_lower (to_vec (exq_v b)) /\ concat (us_C (to_sparse (exq_s b))) <> [] /\
  (forall opt, osqp_ok (to_vec (exq_v b)) opt) /\
  solve_sparse (to_sparse (exq_s b)) (ex_options OSQP_SPARSE) (exq_orc OSQP_SPARSE) no_rand = Ok (SUCCESSFUL_RETURN, exq_done b OSQP_SPARSE).
Proof. intros b. split; [apply exq_wf_s|split; [apply exq_fin_lower|split; [apply exq_C|split; [apply exq_osqp|exact (exq_runs b OSQP_SPARSE)]]]]. Qed.

(** C22: for well-sized data the code INVALID_LOWER_COMPLEMENTARITY_BOUND means exactly that some given entry is -infinity;
    otherwise loading succeeds. *)
Theorem C22_dense : forall T (A : Arith T) (u : udense T) opt o r o',
  wf_dense u -> new_object (ud_v u) opt = Ok o -> load_dense u o = Ok (r, o') ->
  (r = INVALID_LOWER_COMPLEMENTARITY_BOUND <-> has_ninf (u_lbL (ud_v u)) \/ has_ninf (u_lbR (ud_v u))) /\
  (r <> INVALID_LOWER_COMPLEMENTARITY_BOUND -> r = SUCCESSFUL_RETURN).
Proof. exact @dense_load_code. Qed.
Print Assumptions C22_dense.
Theorem C22_sparse : forall T (A : Arith T) (u : usparse T) opt o r o',
  wf_sparse u -> new_object (us_v u) opt = Ok o -> load_sparse u o = Ok (r, o') -> concat (us_C u) <> [] ->
  (r = INVALID_LOWER_COMPLEMENTARITY_BOUND <-> has_ninf (u_lbL (us_v u)) \/ has_ninf (u_lbR (us_v u))) /\
  (r <> INVALID_LOWER_COMPLEMENTARITY_BOUND -> r = SUCCESSFUL_RETURN).
Proof. exact @sparse_load_code. Qed.
Print Assumptions C22_sparse.
(** In IEEE arithmetic [has_ninf] is: the bit pattern -infinity occurs (NaN is not rejected). *)
Theorem C22_f64 : forall l : option (list f64), has_ninf l <-> exists l', l = Some l' /\ In (S754_infinity true) l'.
Proof. exact below_f64. Qed.
Print Assumptions C22_f64.

(** C22: in sparse mode a vanishing product L'R + R'L is reported first. *)
Theorem C22_sparse_zero_product : forall T (A : Arith T) (u : usparse T) opt o,
  wf_sparse u -> new_object (us_v u) opt = Ok o -> concat (us_C u) = [] ->
  exists o', load_sparse u o = Ok (FAILED_SYM_COMPLEMENTARITY_MATRIX, o').
Proof. exact @sparse_load_zero. Qed.
Print Assumptions C22_sparse_zero_product.

(** C24 is false: with exactly one of lbL, lbR given, every run dereferences NULL, whatever the data and the QP solver do. *)
Theorem C24_dense_refuted : forall T (A : Arith T) (u : udense T) opt orc rand,
  wf_dense u -> ~ paired (ud_v u) -> fin_lower (ud_v u) -> o_qpSolver opt = QPOASES_DENSE ->
  solve_dense u opt orc rand = UB NullDeref.
Proof. exact @thm_dense_unpaired. Qed.
Print Assumptions C24_dense_refuted.
Theorem C24_sparse_refuted : forall T (A : Arith T) (u : usparse T) opt orc rand,
  wf_sparse u -> ~ paired (us_v u) -> fin_lower (us_v u) -> concat (us_C u) <> [] -> o_qpSolver opt <> QPOASES_DENSE -> osqp_ok (us_v u) opt ->
  solve_sparse u opt orc rand = UB NullDeref.
Proof. exact @thm_sparse_unpaired. Qed.
Print Assumptions C24_sparse_refuted.
Example C24_example : wf_dense exq_unpaired /\ ~ paired (ud_v exq_unpaired) /\ fin_lower (ud_v exq_unpaired).
Proof. exact exq_unpaired_ok. Qed.

(** C28 for qpOASES: the first QP is warm started with the complete y0.  For OSQP the code copies bytes instead of
    doubles, see C28_osqp_refuted. *)
Theorem C28_dense_guess_partial : forall T (A : Arith T) (u : udense T) opt orc rand r o,
  wf_dense u -> o_qpSolver opt = QPOASES_DENSE -> fin_lower (ud_v u) -> solve_dense u opt orc rand = Ok (r, o) ->
  exists later first, s_calls (it o) = later ++ [first] /\ qc_initial first = true /\ qc_y0 first = u_y0 (ud_v u).
Proof. exact @dense_guess. Qed.
Print Assumptions C28_dense_guess_partial.
Theorem C28_sparse_guess_partial : forall T (A : Arith T) (u : usparse T) opt orc rand r o,
  wf_sparse u -> o_qpSolver opt = QPOASES_SPARSE -> fin_lower (us_v u) -> concat (us_C u) <> [] ->
  solve_sparse u opt orc rand = Ok (r, o) ->
  exists later first, s_calls (it o) = later ++ [first] /\ qc_initial first = true /\ qc_y0 first = u_y0 (us_v u).
Proof. exact @sparse_guess. Qed.
Print Assumptions C28_sparse_guess_partial.

(** C30, for problems that give both or none of lbL, lbR (see C24), a QP solver reporting iteration counts in [0, B] and
    iteration limits for which B * (maxIterations + 2) and 2 * (maxIterations + 1) fit into an int. *)
Theorem C30_dense_no_ub_partial : forall T (A : Arith T) (u : udense T) opt orc rand B,
  wf_dense u -> paired (ud_v u) -> o_qpSolver opt = QPOASES_DENSE -> small_counts opt orc B ->
  exists r o, solve_dense u opt orc rand = Ok (r, o).
Proof. exact @thm_dense_safe. Qed.
Print Assumptions C30_dense_no_ub_partial.
Example C30_example : forall b, wf_dense (to_dense (exq_d b)) /\ paired (to_vec (exq_v b)) /\ small_counts (ex_options QPOASES_DENSE) (exq_orc QPOASES_DENSE) 1.
Proof. intros b. split; [apply exq_wf_d|split; [apply exq_paired|apply exq_counts]]. Qed.

(** C31, under the same restrictions; for OSQP also: no box constraints, no dual guess (see C28), and a successful setup. *)
Theorem C31_sparse_no_ub_partial : forall T (A : Arith T) (u : usparse T) opt orc rand B,
  wf_sparse u -> paired (us_v u) -> o_qpSolver opt <> QPOASES_DENSE -> osqp_ok (us_v u) opt -> setup_works opt orc -> small_counts opt orc B ->
  exists r o, solve_sparse u opt orc rand = Ok (r, o).
Proof. exact @thm_sparse_safe. Qed.
Print Assumptions C31_sparse_no_ub_partial.
Example C31_example : forall b qs, wf_sparse (to_sparse (exq_s b)) /\ paired (to_vec (exq_v b)) /\ osqp_ok (to_vec (exq_v b)) (ex_options qs) /\
  setup_works (ex_options qs) (exq_orc qs) /\ small_counts (ex_options qs) (exq_orc qs) 1.
Proof. intros b qs. split; [apply exq_wf_s|split; [apply exq_paired|split; [apply exq_osqp|split; [apply exq_setup|apply exq_counts]]]]. Qed.
