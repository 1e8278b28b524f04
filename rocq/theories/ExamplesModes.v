(** * ExamplesModes: the examples of Properties_Modes.v (no LCQPow code). *)
From Coq Require Import QArith Qcanon Floats.SpecFloat.
From Verif Require Import Base Arith Codes Utilities Options Stats FileIO Subsolver State LCQProblem Loops SpecSparse SpecMath SpecLoad SpecExact SpecRun SpecTrace SpecSolve SpecModes
  Exact LoadSparse StartSparse NoUB ModeFacts Examples ExamplesKernels ExamplesExact ExamplesExact2.
Open Scope Z_scope.

Lemma exq_same b : same_problem (exq_d b) (exq_s b).
Proof.
  split; [reflexivity|]. split; [|split; [|split]]; intros i j Hi Hj; change (qv_nV (qd_v (exq_d b))) with 2 in *; change (qv_nComp (qd_v (exq_d b))) with 1 in *; change (qv_nC (qd_v (exq_d b))) with 1 in *;
    (apply two_cases in Hj); apply Qc_is_canon.
  - apply two_cases in Hi. destruct b, Hi as [->| ->], Hj as [->| ->]; reflexivity.
  - assert (i = 0) as -> by lia. destruct b, Hj as [->| ->]; reflexivity.
  - assert (i = 0) as -> by lia. destruct b, Hj as [->| ->]; reflexivity.
  - assert (i = 0) as -> by lia. destruct b, Hj as [->| ->]; reflexivity.
Qed.
Lemma exq_with qs : with_solver qs (ex_options QPOASES_DENSE) = ex_options (T := xq) qs.
Proof. destruct qs; reflexivity. Qed.
Lemma exq_same_answers n m : same_answers n m (exq_orc QPOASES_DENSE) (exq_orc QPOASES_SPARSE).
Proof.
  intros h h' F. destruct F as [|c d h h' Hc F]; [reflexivity|]. destruct Hc as (_ & _ & _ & Eg & _). unfold exq_orc. cbv zeta. rewrite Eg. reflexivity.
Qed.
Lemma exq_no_zeros b : stores_no_zeros (exq_s b).
Proof.
  assert (G : forall cols, forallb (forallb (fun e => negb (Qc_eqb (snd e) 0))) cols = true -> no_zeros cols).
  { intros cols E c e Hc He. rewrite forallb_forall in E. specialize (E c Hc). rewrite forallb_forall in E. specialize (E e He). apply Bool.negb_true_iff in E. intros C. rewrite C in E. discriminate E. }
  repeat split; apply G; destruct b; vm_compute; reflexivity.
Qed.
Lemma exq_C_entry b : exists i j, 0 <= i < qv_nV (qs_v (exq_s b)) /\ 0 <= j < qv_nV (qs_v (exq_s b)) /\ e_C (sparse_data (exq_s b)) i j <> 0%Qc.
Proof. exists 0, 1. split; [cbn; lia|]. split; [cbn; lia|]. intros C. apply (f_equal this) in C. destruct b; vm_compute in C; discriminate C. Qed.

(** A loaded object in exact arithmetic.  No LCQPow code. *)
Definition exq_obj (b : bool) (qs : QPSolver) : lcqp xq :=
  ok_or LCQProblem_default (let! o := new_object (to_vec (exq_v b)) (ex_options qs) in
    let! '(_, o) := match qs with QPOASES_DENSE => load_dense (to_dense (exq_d b)) o | _ => load_sparse (to_sparse (exq_s b)) o end in Ok o).
(** The object before loading.  No LCQPow code. *)
Definition exq_new (b : bool) (qs : QPSolver) : lcqp xq := ok_or LCQProblem_default (new_object (to_vec (exq_v b)) (ex_options qs)).
Lemma exq_loads b : new_object (to_vec (exq_v b)) (ex_options QPOASES_DENSE) = Ok (exq_new b QPOASES_DENSE) /\
  (exists o, load_dense (to_dense (exq_d b)) (exq_new b QPOASES_DENSE) = Ok (SUCCESSFUL_RETURN, o)) /\
  (exists o, load_sparse (to_sparse (exq_s b)) (exq_new b QPOASES_DENSE) = Ok (SUCCESSFUL_RETURN, o)).
Proof.
  split; [destruct b; vm_compute; reflexivity|]. split.
  - exists (snd (ok_or (SUCCESSFUL_RETURN, LCQProblem_default) (load_dense (to_dense (exq_d b)) (exq_new b QPOASES_DENSE)))). destruct b; vm_compute; reflexivity.
  - exists (snd (ok_or (SUCCESSFUL_RETURN, LCQProblem_default) (load_sparse (to_sparse (exq_s b)) (exq_new b QPOASES_DENSE)))). destruct b; vm_compute; reflexivity.
Qed.

(** A floating-point problem with two variables, one pair and one constraint whose matrix A is given.  No LCQPow code. *)
Definition f64_obj (a : f64) : lcqp f64 :=
  ok_or LCQProblem_default (let! o := LCQProblem_ctor 2 1 1 in
    let! '(_, o) := loadLCQP (zvec [2; 0; 0; 2]) (zvec [-2; -4]) (zvec [1; 0]) (zvec [0; 1]) None None None None (Some (lift [a; a_one])) None None None None None None o in Ok o).
(** The floating-point object after a switch to sparse and back.  No LCQPow code. *)
Definition f64_back (a : f64) : lcqp f64 :=
  snd (ok_or (SUCCESSFUL_RETURN, LCQProblem_default) (let! '(_, o1) := switchToSparseMode (f64_obj a) in switchToDenseMode o1)).
Lemma f64_lost : exists o o1 o2 : lcqp f64,
  (let! o := LCQProblem_ctor 2 1 1 in
   loadLCQP (zvec [2; 0; 0; 2]) (zvec [-2; -4]) (zvec [1; 0]) (zvec [0; 1]) None None None None (Some (lift [S754_nan; a_one])) None None None None None None o) = Ok (SUCCESSFUL_RETURN, o) /\
  switchToSparseMode o = Ok (SUCCESSFUL_RETURN, o1) /\ switchToDenseMode o1 = Ok (SUCCESSFUL_RETURN, o2) /\
  d_A (pd o) = Some (lift [S754_nan; a_one; a_one; a_zero; a_zero; a_one]) /\ d_A (pd o2) = Some (lift [a_zero; a_one; a_one; a_zero; a_zero; a_one]).
Proof.
  exists (f64_obj S754_nan), (snd (ok_or (SUCCESSFUL_RETURN, LCQProblem_default) (switchToSparseMode (f64_obj S754_nan)))), (f64_back S754_nan).
  split; [vm_compute; reflexivity|]. split; [vm_compute; reflexivity|]. split; [vm_compute; reflexivity|]. split; vm_compute; reflexivity.
Qed.
(** An ordinary floating-point object meets the hypotheses of the general round trip.  No LCQPow code. *)
Lemma f64_round : let o := f64_obj (a_of_Z 3) in let z l := map (a_of_Z (T := f64)) l in
  d_sparseSolver (pd o) = false /\ d_nV (pd o) = Some 2 /\ d_nC (pd o) = Some 1 /\ d_nComp (pd o) = Some 1 /\
  d_Q (pd o) = Some (lift (z [2; 0; 0; 2])) /\ d_A (pd o) = Some (lift (z [3; 1; 1; 0; 0; 1])) /\ d_L (pd o) = Some (lift (z [1; 0])) /\ d_R (pd o) = Some (lift (z [0; 1])) /\ d_C (pd o) = Some (lift (z [0; 1; 1; 0])) /\
  forallb (fun x => a_lt a_zero x || a_lt x a_zero || match x with S754_zero false => true | _ => false end)
    (z [2; 0; 0; 2] ++ z [3; 1; 1; 0; 0; 1] ++ z [1; 0] ++ z [0; 1] ++ z [0; 1; 1; 0]) = true.
Proof. cbv zeta. repeat match goal with |- _ /\ _ => split; [vm_compute; reflexivity|] end. vm_compute. reflexivity. Qed.

(** A sparsely loaded object whose Q has a row index outside the matrix.  No LCQPow code. *)
Definition bad_obj : lcqp f64 :=
  ok_or LCQProblem_default (let! o := LCQProblem_ctor 2 0 1 in
    let! '(_, o) := loadLCQP_csc (Some (csc_of 2 2 [[(0, a_one)]; [(5, a_one)]])) (zvec [-2; -4]) (Some (csc_of 1 2 [[(0, a_one)]; []])) (Some (csc_of 1 2 [[]; [(0, a_one)]]))
      None None None None None None None None None None None o in Ok o).
Lemma bad_switch : (let! o := LCQProblem_ctor 2 0 1 in
    loadLCQP_csc (Some (csc_of 2 2 [[(0, a_one)]; [(5, a_one)]])) (zvec [-2; -4]) (Some (csc_of 1 2 [[(0, a_one)]; []])) (Some (csc_of 1 2 [[]; [(0, a_one)]]))
      None None None None None None None None None None None o) = Ok (SUCCESSFUL_RETURN, bad_obj) /\
  switchToDenseMode bad_obj = Ok (FAILED_SWITCH_TO_DENSE, snd (ok_or (SUCCESSFUL_RETURN, LCQProblem_default) (switchToDenseMode bad_obj))).
Proof. split; vm_compute; reflexivity. Qed.
