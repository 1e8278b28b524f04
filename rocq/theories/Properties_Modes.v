(** * Properties_Modes: dense and sparse mode. *)
From Coq Require Import QArith Qcanon Floats.SpecFloat.
From Verif Require Import Base Arith Codes Utilities Options Stats FileIO Subsolver State LCQProblem Loops SpecSparse SpecMath SpecLoad SpecExact SpecRun SpecTrace SpecSolve SpecModes
  LockstepFacts ModeFacts Examples ExamplesKernels ExamplesExact ExamplesExact2 ExamplesModes.
Open Scope Z_scope.

(** ** C53: mode switches *)

(** Switching to the mode the object is in changes nothing (any object, any arithmetic). *)
Theorem C53_idle : forall T (A : Arith T) (o : lcqp T),
  (d_sparseSolver (pd o) = true -> switchToSparseMode o = Ok (SUCCESSFUL_RETURN, o)) /\
  (d_sparseSolver (pd o) = false -> switchToDenseMode o = Ok (SUCCESSFUL_RETURN, o)).
Proof. exact @switch_idle. Qed.
Print Assumptions C53_idle.
Example C53_idle_example : d_sparseSolver (pd (exq_obj true QPOASES_DENSE)) = false /\ d_sparseSolver (pd (exq_obj true QPOASES_SPARSE)) = true.
Proof. split; vm_compute; reflexivity. Qed.

(** Any arithmetic (so floating point included), any object in dense mode with completely initialised matrices of the right
    sizes (before or after runs): switching to sparse and back gives back exactly the same object, if every matrix entry is
    zero or compares with zero (no NaN, no -0: see C53_nan_refuted). *)
Theorem C53_round_trip : forall T (AR : Arith T) (o : lcqp T) n nC m Q A L R C, d_sparseSolver (pd o) = false ->
  d_nV (pd o) = Some n -> d_nC (pd o) = Some nC -> d_nComp (pd o) = Some m -> 0 <= n -> 0 <= nC -> 0 <= m -> n + 1 <= INT_MAX -> n * n <= INT_MAX -> (nC + 2 * m) * n <= INT_MAX ->
  d_Q (pd o) = Some (lift Q) -> d_A (pd o) = Some (lift A) -> d_L (pd o) = Some (lift L) -> d_R (pd o) = Some (lift R) -> d_C (pd o) = Some (lift C) ->
  len Q = n * n -> len A = (nC + 2 * m) * n -> len L = m * n -> len R = m * n -> len C = n * n ->
  d_Q_sparse (pd o) = None -> d_A_sparse (pd o) = None -> d_L_sparse (pd o) = None -> d_R_sparse (pd o) = None -> d_C_sparse (pd o) = None ->
  (forall x, In x (Q ++ A ++ L ++ R ++ C) -> a_lt a_zero x = true \/ a_lt x a_zero = true \/ x = a_zero) ->
  exists o1, switchToSparseMode o = Ok (SUCCESSFUL_RETURN, o1) /\ d_sparseSolver (pd o1) = true /\ switchToDenseMode o1 = Ok (SUCCESSFUL_RETURN, o).
Proof. exact @switch_round. Qed.
Print Assumptions C53_round_trip.
(** A loaded floating-point problem with A = (3 1). *)
Example C53_round_trip_example : let o := f64_obj (a_of_Z 3) in let z l := map (a_of_Z (T := f64)) l in
  d_sparseSolver (pd o) = false /\ d_nV (pd o) = Some 2 /\ d_nC (pd o) = Some 1 /\ d_nComp (pd o) = Some 1 /\
  d_Q (pd o) = Some (lift (z [2; 0; 0; 2])) /\ d_A (pd o) = Some (lift (z [3; 1; 1; 0; 0; 1])) /\ d_L (pd o) = Some (lift (z [1; 0])) /\ d_R (pd o) = Some (lift (z [0; 1])) /\ d_C (pd o) = Some (lift (z [0; 1; 1; 0])) /\
  forallb (fun x => a_lt a_zero x || a_lt x a_zero || match x with S754_zero false => true | _ => false end)
    (z [2; 0; 0; 2] ++ z [3; 1; 1; 0; 0; 1] ++ z [1; 0] ++ z [0; 1] ++ z [0; 1; 1; 0]) = true.
Proof. exact f64_round. Qed.

(** In exact arithmetic: every densely loaded problem with rational data. *)
Theorem C53_loaded : forall d opt o0 r o, wf_dense (to_dense d) -> new_object (to_vec (qd_v d)) opt = Ok o0 -> load_dense (to_dense d) o0 = Ok (r, o) ->
  exists o1, switchToSparseMode o = Ok (SUCCESSFUL_RETURN, o1) /\ d_sparseSolver (pd o1) = true /\ switchToDenseMode o1 = Ok (SUCCESSFUL_RETURN, o).
Proof. exact c53_loaded. Qed.
Print Assumptions C53_loaded.

(** In exact arithmetic: the same problem loaded densely and sparsely.  Switching the sparse object to dense mode gives the
    densely loaded object.  Switching the dense object to sparse mode gives the sparsely loaded one, if that stores no zeros.
    So a run after the switch is the run after loading in the other format. *)
Theorem C53_formats : forall d s opt o0 r r' od os, wf_dense (to_dense d) -> wf_sparse (to_sparse s) -> same_problem d s -> no_tiny (sparse_data s) ->
  (exists i j, 0 <= i < qv_nV (qs_v s) /\ 0 <= j < qv_nV (qs_v s) /\ e_C (sparse_data s) i j <> 0%Qc) ->
  new_object (to_vec (qd_v d)) opt = Ok o0 -> load_dense (to_dense d) o0 = Ok (r, od) -> load_sparse (to_sparse s) o0 = Ok (r', os) ->
  switchToDenseMode os = Ok (SUCCESSFUL_RETURN, od) /\ (stores_no_zeros s -> switchToSparseMode od = Ok (SUCCESSFUL_RETURN, os)).
Proof. exact c53_formats. Qed.
Print Assumptions C53_formats.
Example C53_formats_example : forall b, wf_dense (to_dense (exq_d b)) /\ wf_sparse (to_sparse (exq_s b)) /\ same_problem (exq_d b) (exq_s b) /\ no_tiny (sparse_data (exq_s b)) /\
  (exists i j, 0 <= i < qv_nV (qs_v (exq_s b)) /\ 0 <= j < qv_nV (qs_v (exq_s b)) /\ e_C (sparse_data (exq_s b)) i j <> 0%Qc) /\
  new_object (to_vec (qd_v (exq_d b))) (ex_options QPOASES_DENSE) = Ok (exq_new b QPOASES_DENSE) /\
  (exists o, load_dense (to_dense (exq_d b)) (exq_new b QPOASES_DENSE) = Ok (SUCCESSFUL_RETURN, o)) /\
  (exists o, load_sparse (to_sparse (exq_s b)) (exq_new b QPOASES_DENSE) = Ok (SUCCESSFUL_RETURN, o)) /\ stores_no_zeros (exq_s b).
Proof.
  intros b. split; [apply exq_wf_d|]. split; [apply exq_wf_s|]. split; [apply exq_same|]. split; [exact (exq_no_tiny b QPOASES_SPARSE)|]. split; [apply exq_C_entry|].
  split; [apply (exq_loads b)|]. split; [apply (exq_loads b)|]. split; [apply (exq_loads b)|apply exq_no_zeros].
Qed.

(** A failed switch to dense mode says so, and no later run can tell the difference (any object, any arithmetic).  (The switch
    to sparse mode has no failure path: dns_to_csc never returns NULL.) *)
Theorem C53_failure : forall T (A : Arith T) (o : lcqp T) r o', switchToDenseMode o = Ok (r, o') -> r <> SUCCESSFUL_RETURN -> r = FAILED_SWITCH_TO_DENSE /\
  forall orc rand, same_outcome (runSolver orc rand o) (runSolver orc rand o').
Proof. exact @failed_run. Qed.
Print Assumptions C53_failure.
(** Reachable: Q has a row index outside the matrix, which loading accepts. *)
Example C53_failure_example : (let! o := LCQProblem_ctor 2 0 1 in
    loadLCQP_csc (Some (csc_of 2 2 [[(0, a_one)]; [(5, a_one)]])) (zvec [-2; -4]) (Some (csc_of 1 2 [[(0, a_one)]; []])) (Some (csc_of 1 2 [[]; [(0, a_one)]]))
      None None None None None None None None None None None o) = Ok (SUCCESSFUL_RETURN, bad_obj) /\
  switchToDenseMode bad_obj = Ok (FAILED_SWITCH_TO_DENSE, snd (ok_or (SUCCESSFUL_RETURN, LCQProblem_default) (switchToDenseMode bad_obj))).
Proof. exact bad_switch. Qed.

(** A NaN entry (here in A) becomes zero in the round trip. *)
Theorem C53_nan_refuted : exists o o1 o2 : lcqp f64,
  (let! o := LCQProblem_ctor 2 1 1 in
   loadLCQP (zvec [2; 0; 0; 2]) (zvec [-2; -4]) (zvec [1; 0]) (zvec [0; 1]) None None None None (Some (lift [S754_nan; a_one])) None None None None None None o) = Ok (SUCCESSFUL_RETURN, o) /\
  switchToSparseMode o = Ok (SUCCESSFUL_RETURN, o1) /\ switchToDenseMode o1 = Ok (SUCCESSFUL_RETURN, o2) /\
  d_A (pd o) = Some (lift [S754_nan; a_one; a_one; a_zero; a_zero; a_one]) /\ d_A (pd o2) = Some (lift [a_zero; a_one; a_one; a_zero; a_zero; a_one]).
Proof. exact f64_lost. Qed.
Print Assumptions C53_nan_refuted.

(** ** C54: a dense run and a sparse run of the same problem

    Partial: for the two qpOASES modes (OSQP gets another QP: no box, halved matrix), rational answers of the QP library, and
    with the restrictions of [admissible] (symmetric Q, C without entries in (0, 1e-25], lbL and lbR both or neither). *)
Theorem C54_partial : forall d s opt orc orc' rand r0 fac r o,
  admissible (PDense d) (with_solver QPOASES_DENSE opt) -> admissible (PSparse s) (with_solver QPOASES_SPARSE opt) -> same_problem d s ->
  same_answers (qv_nV (qd_v d)) (e_nA (dense_data d)) orc orc' ->
  pr_solve (PDense d) (with_solver QPOASES_DENSE opt) orc rand = Ok (r, o) -> rational_run (PDense d) (with_solver QPOASES_DENSE opt) orc o r0 fac ->
  exists o', pr_solve (PSparse s) (with_solver QPOASES_SPARSE opt) orc' rand = Ok (r, o') /\
    Forall2 (same_qp (qv_nV (qd_v d)) (e_nA (dense_data d))) (s_calls (it o)) (s_calls (it o')) /\
    getOutputStatistics o' = getOutputStatistics o /\ (forall buf, getPrimalSolution buf o' = getPrimalSolution buf o) /\
    (r = SUCCESSFUL_RETURN -> forall buf, getDualSolution buf o' = getDualSolution buf o).
Proof. exact modes_agree. Qed.
Print Assumptions C54_partial.
Example C54_example : forall b, let opt := ex_options QPOASES_DENSE in
  admissible (PDense (exq_d b)) (with_solver QPOASES_DENSE opt) /\ admissible (PSparse (exq_s b)) (with_solver QPOASES_SPARSE opt) /\ same_problem (exq_d b) (exq_s b) /\
  same_answers 2 3 (exq_orc QPOASES_DENSE) (exq_orc QPOASES_SPARSE) /\
  pr_solve (PDense (exq_d b)) (with_solver QPOASES_DENSE opt) (exq_orc QPOASES_DENSE) no_rand = Ok (SUCCESSFUL_RETURN, exq_done b QPOASES_DENSE) /\
  rational_run (PDense (exq_d b)) (with_solver QPOASES_DENSE opt) (exq_orc QPOASES_DENSE) (exq_done b QPOASES_DENSE) 1 (1 + 1).
Proof.
  intros b opt. unfold opt. rewrite !exq_with. split; [exact (exq_admissible b QPOASES_DENSE)|]. split; [exact (exq_admissible b QPOASES_SPARSE)|]. split; [apply exq_same|].
  split; [apply exq_same_answers|]. split; [exact (exq_solves b QPOASES_DENSE)|exact (exq_rational b QPOASES_DENSE)].
Qed.
