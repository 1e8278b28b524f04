(** * ExamplesExact2: the examples of Properties_Exact.v (no LCQPow code). *)
From Coq Require Import QArith Qcanon Lqa.
From Verif Require Import Base Arith Codes Utilities Options Stats FileIO Subsolver State LCQProblem Loops SpecSparse SpecMath SpecLoad SpecExact SpecRun SpecTrace SpecSolve
  Exact QSum PenaltyExact LoadSparse StartSparse NoUB ExactProps Examples ExamplesKernels ExamplesExact.
Open Scope Z_scope.

(** The example problem in the format of a QP solver.  No LCQPow code. *)
Definition exq_pr (b : bool) (qs : QPSolver) : problem := match qs with QPOASES_DENSE => PDense (exq_d b) | _ => PSparse (exq_s b) end.

Lemma two_cases n : 0 <= n < 2 -> n = 0 \/ n = 1.
Proof. lia. Qed.
Lemma exq_solves b qs : pr_solve (exq_pr b qs) (ex_options qs) (exq_orc qs) no_rand = Ok (SUCCESSFUL_RETURN, exq_done b qs).
Proof. rewrite <- exq_runs. destruct qs; reflexivity. Qed.
Lemma exq_nV b qs : e_nV (pr_data (exq_pr b qs)) = 2.
Proof. destruct qs; reflexivity. Qed.
Lemma exq_symmetric b qs : e_symmetric (pr_data (exq_pr b qs)).
Proof.
  intros i j Hi Hj. rewrite exq_nV in *. apply two_cases in Hi, Hj. apply Qc_is_canon. destruct b, qs, Hi as [->| ->], Hj as [->| ->]; reflexivity.
Qed.
Lemma exq_no_tiny b qs : no_tiny (pr_data (exq_pr b qs)).
Proof.
  intros i j Hi Hj. rewrite exq_nV in *. apply two_cases in Hi, Hj.
  destruct Hi as [->| ->], Hj as [->| ->]; (left; apply Qc_is_canon; destruct b, qs; reflexivity) || (right; left; destruct b, qs; reflexivity).
Qed.
Lemma exq_admissible b qs : admissible (exq_pr b qs) (ex_options qs).
Proof.
  split; [destruct qs; apply exq_paired|].
  assert (NC : exists i j, 0 <= i < qv_nV (qs_v (exq_s b)) /\ 0 <= j < qv_nV (qs_v (exq_s b)) /\ e_C (sparse_data (exq_s b)) i j <> 0%Qc).
  { exists 0, 1. split; [cbn; lia|]. split; [cbn; lia|]. intros C. apply (f_equal this) in C. destruct b; vm_compute in C; discriminate C. }
  destruct qs; cbn [exq_pr].
  - split; [apply exq_wf_d|reflexivity].
  - split; [apply exq_wf_s|]. split; [discriminate|]. split; [apply exq_osqp|]. split; [apply (exq_symmetric b QPOASES_SPARSE)|]. split; [apply (exq_no_tiny b QPOASES_SPARSE)|exact NC].
  - split; [apply exq_wf_s|]. split; [discriminate|]. split; [apply exq_osqp|]. split; [apply (exq_symmetric b OSQP_SPARSE)|]. split; [apply (exq_no_tiny b OSQP_SPARSE)|exact NC].
Qed.
Lemma exq_rational b qs : rational_run (exq_pr b qs) (ex_options qs) (exq_orc qs) (exq_done b qs) 1 (1 + 1).
Proof.
  split.
  - split; [destruct qs; vm_compute; reflexivity|]. split; [destruct qs; vm_compute; reflexivity|discriminate].
  - apply exq_finite. destruct b, qs; vm_compute; reflexivity.
Qed.
Lemma exq_no_shift b qs : no_shift (pr_data (exq_pr b qs)).
Proof. intros i Hi. rewrite exq_nV in Hi. apply two_cases in Hi. apply Qc_is_canon. destruct b, qs, Hi as [->| ->]; reflexivity. Qed.
(** Tolerances of the example: 1e3 EPS and 1e6 EPS.  No LCQPow code. *)
Definition exq_ctol : Qc := Qc_lit 2221 (-16).
(** A stationarity tolerance. No LCQPow code. *)
Definition exq_stol : Qc := Qc_lit 2221 (-13).
Lemma exq_tols qs : o_complementarityTolerance (ex_options (T := xq) qs) = Fin exq_ctol /\ o_stationarityTolerance (ex_options (T := xq) qs) = Fin exq_stol.
Proof. destruct qs; split; cbn; f_equal; apply Qc_is_canon; reflexivity. Qed.
Lemma exq_store qs : o_storeSteps (ex_options (T := xq) qs) = true /\ o_perturbStep (ex_options (T := xq) qs) = false.
Proof. destruct qs; auto. Qed.

(** Entries of the example *)
Lemma exq_entries b qs : let e := pr_data (exq_pr b qs) in
  e_A e 0 0 = 1%Qc /\ e_A e 0 1 = 1%Qc /\ e_L e 0 0 = 1%Qc /\ e_L e 0 1 = 0%Qc /\ e_R e 0 0 = 0%Qc /\ e_R e 0 1 = 1%Qc /\
  e_Q e 0 0 = (1 + 1)%Qc /\ e_Q e 0 1 = 0%Qc /\ e_Q e 1 0 = 0%Qc /\ e_Q e 1 1 = (1 + 1)%Qc.
Proof. cbv zeta. repeat match goal with |- _ /\ _ => split end; apply Qc_is_canon; destruct b, qs; reflexivity. Qed.
Lemma qsum_2 f : qsum 2 f = (f 0%Z + f 1%Z)%Qc.
Proof. change (qsum 2 f) with (0 + f 0%Z + f 1%Z)%Qc. ring. Qed.
Lemma exq_feasible_iff b qs x : feasible (exq_pr b qs) x <-> (qat x 0 + qat x 1 <= Q2Qc 10 /\ 0 <= qat x 0 /\ 0 <= qat x 1)%Qc.
Proof.
  destruct (exq_entries b qs) as (A0 & A1 & L0 & L1 & R0 & R1 & _). unfold feasible. cbv zeta. rewrite exq_nV.
  assert (EA : mv (e_A (pr_data (exq_pr b qs))) 2 x 0 = (qat x 0 + qat x 1)%Qc) by (unfold mv; rewrite qsum_2, A0, A1; ring).
  assert (EL : mv (e_L (pr_data (exq_pr b qs))) 2 x 0 = qat x 0) by (unfold mv; rewrite qsum_2, L0, L1; ring).
  assert (ER : mv (e_R (pr_data (exq_pr b qs))) 2 x 0 = qat x 1) by (unfold mv; rewrite qsum_2, R0, R1; ring).
  assert (EV : pr_vec (exq_pr b qs) = exq_v b) by (destruct qs; reflexivity). rewrite EV.
  assert (EC : e_nC (pr_data (exq_pr b qs)) = 1 /\ e_nComp (pr_data (exq_pr b qs)) = 1) by (destruct qs; split; reflexivity). destruct EC as [-> ->].
  assert (EB : lo (qv_lbL (exq_v b)) 0 = 0%Qc /\ lo (qv_lbR (exq_v b)) 0 = 0%Qc) by (destruct b; split; apply Qc_is_canon; reflexivity). destruct EB as [B1 B2].
  split.
  - intros (F1 & F2 & F3 & _). specialize (F1 0 ltac:(lia)). specialize (F2 0 ltac:(lia)). specialize (F3 0 ltac:(lia)).
    rewrite EA in F1. rewrite EL, B1 in F2. rewrite ER, B2 in F3. destruct F1 as [_ F1]. destruct F2 as [F2 _]. destruct F3 as [F3 _]. apply fin_le in F1, F2, F3. auto.
  - intros (G1 & G2 & G3). split; [|split; [|split]]; intros i Hi; try replace i with 0 by lia.
    + rewrite EA. split; [reflexivity|]. apply fin_le. exact G1.
    + rewrite EL, B1. split; [apply fin_le; exact G2|reflexivity].
    + rewrite ER, B2. split; [apply fin_le; exact G3|reflexivity].
    + split; reflexivity.
Qed.
(** All answers of the run satisfy the constraints and the optimality conditions of their QPs.  No LCQPow code. *)
Definition exq_kkt (ca : qp_call xq * qp_raw xq) : bool :=
  match qc_g (fst ca), q_x (snd ca) 0, q_x (snd ca) 1 with
  | [Fin g0; Fin g1], Fin z0, Fin z1 =>
      Qc_leb (z0 + z1) (Q2Qc 10) && Qc_leb 0 z0 && Qc_leb 0 z1 && Qc_leb 0 ((1 + 1) * z0 + g0) && Qc_leb 0 ((1 + 1) * z1 + g1) &&
      Qc_eqb (z0 * ((1 + 1) * z0 + g0)) 0 && Qc_eqb (z1 * ((1 + 1) * z1 + g1)) 0
  | _, _, _ => false
  end%Qc.
Lemma exq_kkt_all b qs : forallb exq_kkt (answers (exq_orc qs) (s_calls (it (exq_done b qs))) []) = true.
Proof. destruct b, qs; vm_compute; reflexivity. Qed.
Lemma exq_kkt_of b qs c a z : In (c, a) (answers (exq_orc qs) (s_calls (it (exq_done b qs))) []) -> primal_answer 2 a z ->
  exists g0 g1, qc_g c = [Fin g0; Fin g1] /\ (qat z 0 + qat z 1 <= Q2Qc 10 /\ 0 <= qat z 0 /\ 0 <= qat z 1 /\ 0 <= (1 + 1) * qat z 0 + g0 /\ 0 <= (1 + 1) * qat z 1 + g1 /\
    qat z 0 * ((1 + 1) * qat z 0 + g0) = 0 /\ qat z 1 * ((1 + 1) * qat z 1 + g1) = 0)%Qc.
Proof.
  intros I (L & E). pose proof (exq_kkt_all b qs) as K. rewrite forallb_forall in K. specialize (K _ I). unfold exq_kkt in K. cbn [fst snd] in K.
  rewrite (E 0), (E 1) in K by lia. destruct (qc_g c) as [|[g0| | |] [|[g1| | |] [|]]]; try discriminate. exists g0, g1. split; [reflexivity|].
  rewrite !andb_true_iff, !Qc_leb_spec, !Qc_eqb_spec in K. tauto.
Qed.
Lemma exq_feasible b qs : feasible_answers (exq_pr b qs) (exq_orc qs) (exq_done b qs).
Proof.
  intros c a z I _ P. rewrite exq_nV in P. destruct (exq_kkt_of b qs c a z I P) as (g0 & g1 & _ & K). apply exq_feasible_iff. tauto.
Qed.
Lemma exq_value b qs g z : qp_value (pr_data (exq_pr b qs)) g z = (qat z 0 * qat z 0 + qat z 1 * qat z 1 + qat g 0 * qat z 0 + qat g 1 * qat z 1)%Qc.
Proof.
  destruct (exq_entries b qs) as (_ & _ & _ & _ & _ & _ & Q0 & Q1 & Q2 & Q3). unfold qp_value, qform, qdot, mv. rewrite exq_nV, !qsum_2, Q0, Q1, Q2, Q3.
  set (z0 := qat z 0). set (z1 := qat z 1). transitivity ((1 + 1) * (z0 * z0) * qhalf + (1 + 1) * (z1 * z1) * qhalf + qat g 0 * z0 + qat g 1 * z1)%Qc; [ring|]. rewrite !half2. ring.
Qed.
Lemma exq_optimal b qs : optimal_answers (exq_pr b qs) (exq_orc qs) (exq_done b qs).
Proof.
  intros c a z g z' I _ P Eg Lz Fz. rewrite exq_nV in P. destruct (exq_kkt_of b qs c a z I P) as (g0 & g1 & Ec & K). apply exq_feasible_iff in Fz.
  rewrite !exq_value. rewrite Ec in Eg. destruct g as [|h0 [|h1 [|]]]; try discriminate. injection Eg as E0 E1. change (qat [h0; h1] 0) with h0. change (qat [h0; h1] 1) with h1. subst h0 h1.
  destruct K as (_ & K1 & K2 & K3 & K4 & K5 & K6). destruct Fz as (_ & F1 & F2). set (z0 := qat z 0) in *. set (z1 := qat z 1) in *. set (w0 := qat z' 0) in *. set (w1 := qat z' 1) in *. clearbody z0 z1 w0 w1.
  set (m0 := ((1 + 1) * z0 + g0)%Qc) in *. set (m1 := ((1 + 1) * z1 + g1)%Qc) in *.
  apply (le_by _ _ ((w0 - z0) * (w0 - z0) + (w1 - z1) * (w1 - z1) + (w0 * m0 + w1 * m1))%Qc).
  - apply Qcadd_nonneg; [apply Qcadd_nonneg; apply Qcsq_nonneg|apply Qcadd_nonneg; apply Qcmul_nonneg; auto].
  - transitivity ((w0 - z0) * (w0 - z0) + (w1 - z1) * (w1 - z1) + (w0 * m0 + w1 * m1) - (z0 * m0) - (z1 * m1))%Qc; [unfold m0, m1; ring|]. rewrite K5, K6. ring.
Qed.
Lemma exq_pos_def b qs : pos_def (pr_data (exq_pr b qs)).
Proof.
  intros x _ (i & Hi & Nz). rewrite exq_nV in *. destruct (exq_entries b qs) as (_ & _ & _ & _ & _ & _ & Q0 & Q1 & Q2 & Q3). unfold qform, mv. rewrite !qsum_2, Q0, Q1, Q2, Q3.
  set (x0 := qat x 0) in *. set (x1 := qat x 1) in *.
  assert (Sq : forall q : Qc, q <> 0%Qc -> (0 < q * q)%Qc).
  { intros q N. destruct (Qcle_lt_or_eq _ _ (Qcsq_nonneg q)) as [H|H]; [exact H|]. exfalso. apply N. symmetry in H. apply Qcmult_integral in H. tauto. }
  assert (H : (0 < x0 * x0 + x1 * x1)%Qc).
  { pose proof (Qcsq_nonneg x0) as N0. pose proof (Qcsq_nonneg x1) as N1. apply two_cases in Hi. destruct Hi as [->| ->]; specialize (Sq _ Nz); fold x0 x1 in Sq;
      set (p := (x0 * x0)%Qc) in *; set (q := (x1 * x1)%Qc) in *; clearbody p q; qc. }
  replace (x0 * ((1 + 1) * x0 + 0 * x1) + x1 * (0 * x0 + (1 + 1) * x1))%Qc with ((1 + 1) * (x0 * x0 + x1 * x1))%Qc by ring.
  set (p := (x0 * x0 + x1 * x1)%Qc) in *. clearbody p. replace ((1 + 1) * p)%Qc with (p + p)%Qc by ring. clear - H. qc.
Qed.

(** Options with perturbStep.  No LCQPow code. *)
Definition exq_perturb (qs : QPSolver) : options xq := snd (setMaxIterations 4 (snd (setPerturbStep true (ex_options qs)))).
(** The object after such a run.  No LCQPow code. *)
Definition exq_pdone (b : bool) (qs : QPSolver) : lcqp xq :=
  snd (ok_or (SUCCESSFUL_RETURN, LCQProblem_default) (pr_solve (exq_pr b qs) (exq_perturb qs) (exq_orc qs) (fun k => Z.of_nat k))).
Lemma exq_perturbed b qs : exists o,
  admissible (exq_pr b qs) (exq_perturb qs) /\
  pr_solve (exq_pr b qs) (exq_perturb qs) (exq_orc qs) (fun k => Z.of_nat k) = Ok (MAX_ITERATIONS_REACHED, o) /\
  rational_run (exq_pr b qs) (exq_perturb qs) (exq_orc qs) o 1 (1 + 1) /\ o_perturbStep (exq_perturb qs) = true /\ (3 < length (st_xSteps (getOutputStatistics o)))%nat.
Proof.
  exists (exq_pdone b qs). split; [exact (exq_admissible b qs)|]. split; [destruct b, qs; vm_compute; reflexivity|]. split; [|split; [destruct qs; reflexivity|destruct b, qs; vm_compute; repeat constructor]].
  split.
  - split; [destruct qs; vm_compute; reflexivity|]. split; [destruct qs; vm_compute; reflexivity|discriminate].
  - apply exq_finite. destruct b, qs; vm_compute; reflexivity.
Qed.
