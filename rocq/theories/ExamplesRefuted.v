(** * ExamplesRefuted: concrete runs that refute properties (no LCQPow code). *)
From Coq Require Import QArith Qcanon.
From Verif Require Import Base Arith Codes Utilities Options Stats FileIO Subsolver State LCQProblem Loops SpecSparse SpecMath SpecLoad SpecExact SpecRun SpecTrace SpecSolve
  Exact QSum PenaltyExact LoadSparse StartSparse ExactProps Examples ExamplesKernels ExamplesExact ExamplesExact2.
Open Scope Z_scope.

(** The rational number in a cell, 0 for anything else.  No LCQPow code. *)
Definition cell_q (v : option xq) : Qc := match v with Some (Fin q) => q | _ => 0%Qc end.
(** The primal point and the multipliers an object holds, as rational numbers.  No LCQPow code. *)
Definition got_x (o : lcqp xq) : list Qc := match s_xk (it o) with Some a => map cell_q a | None => [] end.
(** The multipliers.  No LCQPow code. *)
Definition got_y (o : lcqp xq) : list Qc := match s_yk (it o) with Some a => map cell_q a | None => [] end.
Lemma got_primal o n a : d_nV (pd o) = Some n -> s_xk (it o) = Some (lift (fins (got_x o))) -> len (got_x o) = n -> s_algoStat (it o) = Some a ->
  returns_primal o (got_x o).
Proof. apply primal_of. Qed.
Lemma got_dual o n a : d_nDuals (pd o) = Some n -> s_yk (it o) = Some (lift (fins (got_y o))) -> len (got_y o) = n -> s_algoStat (it o) = Some a ->
  returns_dual o (got_y o).
Proof. apply dual_of. Qed.

(** All answers are rational.  No LCQPow code. *)
Definition fin_answers (n m : Z) (l : list (qp_call xq * qp_raw xq)) : bool :=
  forallb (fun ca => all_fin (tab n (q_x (snd ca))) && all_fin (tab m (q_y (snd ca)))) l.
Lemma all_fin_tab n (f : Z -> xq) : all_fin (tab n f) = true -> forall i, 0 <= i < n -> exists q, f i = Fin q.
Proof.
  intros E i Hi. unfold all_fin in E. rewrite forallb_forall in E. specialize (E (f i)).
  assert (I : In (f i) (tab n f)) by (unfold tab; apply in_map_iff; exists (Z.to_nat i); split; [f_equal; lia|]; apply in_seq; lia).
  specialize (E I). destruct (f i); try discriminate. eauto.
Qed.
Lemma fin_answers_ok n m l : fin_answers n m l = true -> Forall (fun ca => finite_answer n m (snd ca)) l.
Proof.
  induction l as [|ca l IH]; intros E; [constructor|]. cbn in E. apply andb_prop in E. destruct E as [E E2]. apply andb_prop in E. destruct E as [E0 E1].
  constructor; [|apply IH; exact E2]. split; apply all_fin_tab; assumption.
Qed.

(** The object after solving [pr].  No LCQPow code. *)
Definition done (pr : problem) (opt : options xq) (orc : oracle xq) : lcqp xq :=
  snd (ok_or (SUCCESSFUL_RETURN, LCQProblem_default) (pr_solve pr opt orc no_rand)).
(** A two-dimensional problem with one pair x1, x2, lower bounds [lbL], [lbR] and  Q = 2I.  No LCQPow code. *)
Definition exr_pr (g : list Qc) (lbL lbR : option (list Qc)) : problem :=
  PDense (mkQdense (mkQvec 2 0 1 g lbL None lbR None None None None None None None) (zq [2; 0; 0; 2]) (zq [1; 0]) (zq [0; 1]) []).
(** The exact minimiser of x'x + g'x with x >= (l1, l2) and its multipliers.  No LCQPow code. *)
Definition exr_orc (l1 l2 : xq) : oracle xq := fun calls =>
  let g := match calls with [] => [] | c :: _ => qc_g c end in
  let gi i := nth (Z.to_nat i) g (Fin 0) in
  let lb i := if i =? 0 then l1 else l2 in
  let x i := let v := ((- gi i) / a_of_Z 2)%num in if a_lt (lb i) v then v else lb i in
  let y i := if i <? 2 then Fin 0 else (a_of_Z 2 * x (i - 2)%Z + gi (i - 2)%Z)%num in
  mkRaw 0 1 1 true false false x y.
(** A QP library that always gives the same answer.  No LCQPow code. *)
Definition exr_const (x y : list Qc) : oracle xq := fun _ =>
  mkRaw 0 1 1 true false false (fun i => Fin (qat x i)) (fun i => Fin (qat y i)).
(** Options with a large complementarity tolerance.  No LCQPow code. *)
Definition exr_opt (tol : Qc) : options xq := snd (setComplementarityTolerance (Fin tol) (ex_options QPOASES_DENSE)).

Lemma exr_admissible g lbL lbR opt : length g = 2%nat -> (lbL = None <-> lbR = None) -> fits 1 lbL -> fits 1 lbR -> o_qpSolver opt = QPOASES_DENSE ->
  admissible (exr_pr g lbL lbR) opt.
Proof.
  intros Hg P F1 F2 Eq. split.
  - destruct lbL, lbR; split; cbn; intros E; try reflexivity; try discriminate E; exfalso; destruct P as [P1 P2]; (discriminate (P1 eq_refl) || discriminate (P2 eq_refl)).
  - split; [|exact Eq]. destruct g as [|g0 [|g1 [|]]]; try discriminate Hg. constructor; [|vm_compute; reflexivity..].
    constructor; try (vm_compute; (reflexivity || discriminate)); try exact I.
    + destruct lbL as [l|]; [|exact I]. change (len (fins l) = 1). change (len l = 1) in F1. unfold len, fins in *. rewrite map_length. exact F1.
    + destruct lbR as [l|]; [|exact I]. change (len (fins l) = 1). change (len l = 1) in F2. unfold len, fins in *. rewrite map_length. exact F2.
Qed.

(** Lower bound x2 >= -1, exact QP solutions.  No LCQPow code. *)
Definition exb_pr : problem := exr_pr (zq [-2; -4]) (Some (zq [0])) (Some (zq [-1])).
(** Its QP library.  No LCQPow code. *)
Definition exb_orc : oracle xq := exr_orc (Fin 0) (a_of_Z (-1)).
(** The object after the run.  No LCQPow code. *)
Definition exb_done : lcqp xq := done exb_pr (ex_options QPOASES_DENSE) exb_orc.
Lemma exb_run : admissible exb_pr (ex_options QPOASES_DENSE) /\
  pr_solve exb_pr (ex_options QPOASES_DENSE) exb_orc no_rand = Ok (SUCCESSFUL_RETURN, exb_done) /\
  rational_run exb_pr (ex_options QPOASES_DENSE) exb_orc exb_done 1 (1 + 1).
Proof.
  split; [apply exr_admissible; try reflexivity; split; intros C; discriminate C|]. split; [vm_compute; reflexivity|].
  split; [split; [vm_compute; reflexivity|split; [vm_compute; reflexivity|discriminate]]|]. apply fin_answers_ok. vm_compute. reflexivity.
Qed.
Lemma exb_primal : returns_primal exb_done (got_x exb_done).
Proof. apply (got_primal _ 2 S_STATIONARY_SOLUTION); vm_compute; reflexivity. Qed.
Lemma exb_dual : returns_dual exb_done (got_y exb_done).
Proof. apply (got_dual _ 4 S_STATIONARY_SOLUTION); vm_compute; reflexivity. Qed.
Lemma exb_lagrangian : (e_lagrangian (pr_data exb_pr) (box_duals exb_pr (ex_options QPOASES_DENSE)) (got_x exb_done) (got_y exb_done) 0 < - (1))%Qc.
Proof. vm_compute. reflexivity. Qed.

(** The same problem with at most one iteration: no penalty update takes place.  No LCQPow code. *)
Definition exc_opt : options xq := snd (setMaxIterations 1 (ex_options QPOASES_DENSE)).
(** Lower bound x2 >= -1.  No LCQPow code. *)
Definition exc_done : lcqp xq := done exb_pr exc_opt exb_orc.
(** Lower bound x2 >= 1: x1 (x2 - 1) does not increase in the first step.  No LCQPow code. *)
Definition exd_pr : problem := exr_pr (zq [-2; -2]) (Some (zq [0])) (Some (zq [1])).
(** Its QP library.  No LCQPow code. *)
Definition exd_orc : oracle xq := exr_orc (Fin 0) (Fin 1).
(** Its run.  No LCQPow code. *)
Definition exd_done : lcqp xq := done exd_pr exc_opt exd_orc.
Lemma exc_run : admissible exb_pr exc_opt /\ pr_solve exb_pr exc_opt exb_orc no_rand = Ok (MAX_ITERATIONS_REACHED, exc_done) /\
  rational_run exb_pr exc_opt exb_orc exc_done 1 (1 + 1).
Proof.
  split; [apply exr_admissible; try reflexivity; split; intros C; discriminate C|]. split; [vm_compute; reflexivity|].
  split; [split; [vm_compute; reflexivity|split; [vm_compute; reflexivity|discriminate]]|]. apply fin_answers_ok. vm_compute. reflexivity.
Qed.
Lemma exd_run : admissible exd_pr exc_opt /\ pr_solve exd_pr exc_opt exd_orc no_rand = Ok (MAX_ITERATIONS_REACHED, exd_done) /\
  rational_run exd_pr exc_opt exd_orc exd_done 1 (1 + 1).
Proof.
  split; [apply exr_admissible; try reflexivity; split; intros C; discriminate C|]. split; [vm_compute; reflexivity|].
  split; [split; [vm_compute; reflexivity|split; [vm_compute; reflexivity|discriminate]]|]. apply fin_answers_ok. vm_compute. reflexivity.
Qed.
(** Recorded iterate [j], step length [j] and call [j] as values.  No LCQPow code. *)
Definition got_step (o : lcqp xq) (j : nat) : list Qc := map (fun v => cell_q (Some v)) (nth j (st_xSteps (getOutputStatistics o)) []).
(** Step length.  No LCQPow code. *)
Definition got_len (o : lcqp xq) (j : nat) : Qc := cell_q (Some (nth j (st_stepLength (getOutputStatistics o)) NaN)).
(** Call and answer.  No LCQPow code. *)
Definition got_call (orc : oracle xq) (o : lcqp xq) (j : nat) : qp_call xq * qp_raw xq :=
  nth j (rev (answers orc (s_calls (it o)) [])) (mkCall QPOASES_DENSE true (MDense []) (MDense []) [] [] [] None None None None, orc []).
(** Primal part of the answer.  No LCQPow code. *)
Definition got_z (orc : oracle xq) (o : lcqp xq) (j : nat) : list Qc := tab 2 (fun i => cell_q (Some (q_x (snd (got_call orc o j)) i))).

Lemma exc_pass : recorded_pass exb_pr exb_orc exc_done 0 (got_step exc_done 0) (got_step exc_done 1) (got_z exb_orc exc_done 1) (got_len exc_done 1) (fst (got_call exb_orc exc_done 1)).
Proof.
  split; [vm_compute; reflexivity..|]. exists (snd (got_call exb_orc exc_done 1)). split; [vm_compute; reflexivity|]. split; [vm_compute; reflexivity|].
  split; [reflexivity|]. intros i Hi. change (e_nV (pr_data exb_pr)) with 2 in Hi. apply two_cases in Hi. destruct Hi as [->| ->]; vm_compute; reflexivity.
Qed.
Lemma exd_pass : recorded_pass exd_pr exd_orc exd_done 0 (got_step exd_done 0) (got_step exd_done 1) (got_z exd_orc exd_done 1) (got_len exd_done 1) (fst (got_call exd_orc exd_done 1)).
Proof.
  split; [vm_compute; reflexivity..|]. exists (snd (got_call exd_orc exd_done 1)). split; [vm_compute; reflexivity|]. split; [vm_compute; reflexivity|].
  split; [reflexivity|]. intros i Hi. change (e_nV (pr_data exd_pr)) with 2 in Hi. apply two_cases in Hi. destruct Hi as [->| ->]; vm_compute; reflexivity.
Qed.
Lemma exb_term rho : qc_g (fst (got_call exb_orc exc_done 1)) <> penalised_term (pr_data exb_pr) rho (got_step exc_done 0).
Proof.
  intros E. set (x := got_step exc_done 0) in *. set (e := pr_data exb_pr) in *.
  assert (E0 : Fin (Q2Qc 0) = Fin (qat (e_g e) 0 + rho * (mv (e_C e) 2 x 0 + e_gphi e 0))%Qc) by (apply (f_equal (fun l => nth 0 l NaN)) in E; etransitivity; [|exact E]; vm_compute; reflexivity).
  assert (E1 : Fin (Q2Qc (-3)) = Fin (qat (e_g e) 1 + rho * (mv (e_C e) 2 x 1 + e_gphi e 1))%Qc) by (apply (f_equal (fun l => nth 1 l NaN)) in E; etransitivity; [|exact E]; vm_compute; reflexivity).
  assert (F0 : (mv (e_C e) 2 x 0 + e_gphi e 0 = 1 + 1 + 1)%Qc) by (apply Qc_is_canon; vm_compute; reflexivity).
  assert (F1 : (mv (e_C e) 2 x 1 + e_gphi e 1 = 1)%Qc) by (apply Qc_is_canon; vm_compute; reflexivity).
  rewrite F0 in E0. rewrite F1 in E1. apply (f_equal (fun v => cell_q (Some v))) in E0, E1. cbn [cell_q] in E0, E1.
  assert (G : (Q2Qc 0 - (1 + 1 + 1) * Q2Qc (-3) = qat (e_g e) 0 - (1 + 1 + 1) * qat (e_g e) 1)%Qc) by (clear - E0 E1; set (p := qat (e_g e) 0) in *; set (q := qat (e_g e) 1) in *; clearbody p q; rewrite E0, E1; ring).
  apply (f_equal this) in G. vm_compute in G. discriminate G.
Qed.
Lemma exb_not_min : (e_pen (pr_data exb_pr) 1 (on_line 2 (got_step exc_done 0) (got_step exc_done 0) (got_z exb_orc exc_done 1) 1) <
  e_pen (pr_data exb_pr) 1 (got_step exc_done 1))%Qc.
Proof. vm_compute. reflexivity. Qed.
Lemma exb_slope : (qsum 2 (fun i => (qat (got_z exb_orc exc_done 1) i - qat (got_step exc_done 0) i) * e_pengrad (pr_data exb_pr) 1 (got_step exc_done 0) i) < 0)%Qc.
Proof. vm_compute. reflexivity. Qed.
Lemma exd_increases : (e_pen (pr_data exd_pr) 1 (got_step exd_done 0) < e_pen (pr_data exd_pr) 1 (got_step exd_done 1))%Qc.
Proof. vm_compute. reflexivity. Qed.

(** Data of the problems [exr_pr] *)
Lemma exr_entries g lL lR : let e := pr_data (exr_pr g lL lR) in
  e_L e 0 0 = 1%Qc /\ e_L e 0 1 = 0%Qc /\ e_R e 0 0 = 0%Qc /\ e_R e 0 1 = 1%Qc /\
  e_Q e 0 0 = (1 + 1)%Qc /\ e_Q e 0 1 = 0%Qc /\ e_Q e 1 0 = 0%Qc /\ e_Q e 1 1 = (1 + 1)%Qc.
Proof. cbv zeta. repeat match goal with |- _ /\ _ => split end; apply Qc_is_canon; reflexivity. Qed.
Lemma exr_symmetric g lL lR : e_symmetric (pr_data (exr_pr g lL lR)).
Proof. intros i j Hi Hj. apply two_cases in Hi, Hj. apply Qc_is_canon. destruct Hi as [->| ->], Hj as [->| ->]; reflexivity. Qed.
Lemma exr_pos_def g lL lR : pos_def (pr_data (exr_pr g lL lR)).
Proof.
  intros x Hx Ni. pose proof (exq_pos_def false QPOASES_DENSE x) as P. cbv [exq_pr] in P. exact (P Hx Ni).
Qed.
Lemma exr_feasible_iff g l1 l2 x : feasible (exr_pr g (Some [l1]) (Some [l2])) x <-> (l1 <= qat x 0 /\ l2 <= qat x 1)%Qc.
Proof.
  destruct (exr_entries g (Some [l1]) (Some [l2])) as (L0 & L1 & R0 & R1 & _). unfold feasible. cbv zeta. change (e_nV (pr_data (exr_pr g (Some [l1]) (Some [l2])))) with 2.
  assert (EL : mv (e_L (pr_data (exr_pr g (Some [l1]) (Some [l2])))) 2 x 0 = qat x 0) by (unfold mv; rewrite qsum_2, L0, L1; ring).
  assert (ER : mv (e_R (pr_data (exr_pr g (Some [l1]) (Some [l2])))) 2 x 0 = qat x 1) by (unfold mv; rewrite qsum_2, R0, R1; ring).
  split.
  - intros (_ & F2 & F3 & _). specialize (F2 0 ltac:(cbn; lia)). specialize (F3 0 ltac:(cbn; lia)). rewrite EL in F2. rewrite ER in F3.
    destruct F2 as [F2 _]. destruct F3 as [F3 _]. apply fin_le in F2, F3. auto.
  - intros (G1 & G2). split; [intros i Hi; exfalso; cbn in Hi; lia|]. split; [|split]; intros i Hi.
    + change (0 <= i < 1) in Hi. replace i with 0 by lia. rewrite EL. split; [apply fin_le; exact G1|reflexivity].
    + change (0 <= i < 1) in Hi. replace i with 0 by lia. rewrite ER. split; [apply fin_le; exact G2|reflexivity].
    + split; reflexivity.
Qed.
Lemma exr_value g lL lR h z : qp_value (pr_data (exr_pr g lL lR)) h z = (qat z 0 * qat z 0 + qat z 1 * qat z 1 + qat h 0 * qat z 0 + qat h 1 * qat z 1)%Qc.
Proof. exact (exq_value false QPOASES_DENSE h z). Qed.
(** The answers satisfy the constraints and the optimality conditions of their QPs.  No LCQPow code. *)
Definition exr_kkt (l1 l2 : Qc) (ca : qp_call xq * qp_raw xq) : bool :=
  match qc_g (fst ca), q_x (snd ca) 0, q_x (snd ca) 1 with
  | [Fin g0; Fin g1], Fin z0, Fin z1 =>
      Qc_leb l1 z0 && Qc_leb l2 z1 && Qc_leb 0 ((1 + 1) * z0 + g0) && Qc_leb 0 ((1 + 1) * z1 + g1) &&
      Qc_eqb ((z0 - l1) * ((1 + 1) * z0 + g0)) 0 && Qc_eqb ((z1 - l2) * ((1 + 1) * z1 + g1)) 0
  | _, _, _ => false
  end%Qc.
Lemma exr_kkt_of l1 l2 l c a z : forallb (exr_kkt l1 l2) l = true -> In (c, a) l -> primal_answer 2 a z ->
  exists g0 g1, qc_g c = [Fin g0; Fin g1] /\ (l1 <= qat z 0 /\ l2 <= qat z 1 /\ 0 <= (1 + 1) * qat z 0 + g0 /\ 0 <= (1 + 1) * qat z 1 + g1 /\
    (qat z 0 - l1) * ((1 + 1) * qat z 0 + g0) = 0 /\ (qat z 1 - l2) * ((1 + 1) * qat z 1 + g1) = 0)%Qc.
Proof.
  intros K I (L & E). rewrite forallb_forall in K. specialize (K _ I). unfold exr_kkt in K. cbn [fst snd] in K.
  rewrite (E 0), (E 1) in K by lia. destruct (qc_g c) as [|[g0| | |] [|[g1| | |] [|]]]; try discriminate. exists g0, g1. split; [reflexivity|].
  rewrite !andb_true_iff, !Qc_leb_spec, !Qc_eqb_spec in K. tauto.
Qed.
Lemma exr_answers g l1 l2 orc o : forallb (exr_kkt l1 l2) (answers orc (s_calls (it o)) []) = true ->
  feasible_answers (exr_pr g (Some [l1]) (Some [l2])) orc o /\ optimal_answers (exr_pr g (Some [l1]) (Some [l2])) orc o.
Proof.
  intros KK. split.
  - intros c a z I _ P. destruct (exr_kkt_of _ _ _ c a z KK I P) as (g0 & g1 & _ & K). apply exr_feasible_iff. tauto.
  - intros c a z h z' I _ P Eg Lz Fz. destruct (exr_kkt_of _ _ _ c a z KK I P) as (g0 & g1 & Ec & K). apply exr_feasible_iff in Fz.
    rewrite !exr_value. rewrite Ec in Eg. destruct h as [|h0 [|h1 [|]]]; try discriminate. injection Eg as E0 E1. change (qat [h0; h1] 0) with h0. change (qat [h0; h1] 1) with h1. subst h0 h1.
    destruct K as (_ & _ & K3 & K4 & K5 & K6). destruct Fz as (F1 & F2). set (z0 := qat z 0) in *. set (z1 := qat z 1) in *. set (w0 := qat z' 0) in *. set (w1 := qat z' 1) in *. clearbody z0 z1 w0 w1.
    set (m0 := ((1 + 1) * z0 + g0)%Qc) in *. set (m1 := ((1 + 1) * z1 + g1)%Qc) in *.
    assert (S1 : (0 <= w0 - l1)%Qc) by (clear - F1; qc). assert (S2 : (0 <= w1 - l2)%Qc) by (clear - F2; qc).
    apply (le_by _ _ ((w0 - z0) * (w0 - z0) + (w1 - z1) * (w1 - z1) + ((w0 - l1) * m0 + (w1 - l2) * m1))%Qc).
    + apply Qcadd_nonneg; [apply Qcadd_nonneg; apply Qcsq_nonneg|apply Qcadd_nonneg; apply Qcmul_nonneg; auto].
    + transitivity ((w0 - z0) * (w0 - z0) + (w1 - z1) * (w1 - z1) + ((w0 - l1) * m0 + (w1 - l2) * m1) - ((z0 - l1) * m0) - ((z1 - l2) * m1))%Qc; [unfold m0, m1; ring|]. rewrite K5, K6. ring.
Qed.
Lemma exd_answers : feasible_answers exd_pr exd_orc exd_done /\ optimal_answers exd_pr exd_orc exd_done.
Proof. apply exr_answers. vm_compute. reflexivity. Qed.
Lemma exc_answers : feasible_answers exb_pr exb_orc exc_done /\ optimal_answers exb_pr exb_orc exc_done.
Proof. apply exr_answers. vm_compute. reflexivity. Qed.

(** ** Stationarity types *)
(** Both multipliers are -1/2, so that their product is the tolerance 1/4.  No LCQPow code. *)
Definition exe_pr : problem := exr_pr [- qhalf; - qhalf]%Qc None None.
(** Its QP library.  No LCQPow code. *)
Definition exe_orc : oracle xq := exr_const [0; 0]%Qc [0; 0; - qhalf; - qhalf]%Qc.
(** Tolerance 1/4.  No LCQPow code. *)
Definition exe_tol : Qc := (qhalf * qhalf)%Qc.
(** Its run.  No LCQPow code. *)
Definition exe_done : lcqp xq := done exe_pr (exr_opt exe_tol) exe_orc.
Lemma exe_run : admissible exe_pr (exr_opt exe_tol) /\ pr_solve exe_pr (exr_opt exe_tol) exe_orc no_rand = Ok (SUCCESSFUL_RETURN, exe_done) /\
  rational_run exe_pr (exr_opt exe_tol) exe_orc exe_done 1 (1 + 1).
Proof.
  split; [apply exr_admissible; try reflexivity; try exact I; split; intros; reflexivity|]. split; [vm_compute; reflexivity|].
  split; [split; [vm_compute; reflexivity|split; [vm_compute; reflexivity|discriminate]]|]. apply fin_answers_ok. vm_compute. reflexivity.
Qed.
Lemma exe_primal : returns_primal exe_done (got_x exe_done).
Proof. apply (got_primal _ 2 W_STATIONARY_SOLUTION); vm_compute; reflexivity. Qed.
Lemma exe_dual : returns_dual exe_done (got_y exe_done).
Proof. apply (got_dual _ 4 W_STATIONARY_SOLUTION); vm_compute; reflexivity. Qed.

(** x = (0, 1/4) is within the tolerance 1/4 of both bounds; the QP multipliers vanish, the returned y_L is -1/4.  No LCQPow code. *)
Definition exf_pr : problem := exr_pr [- (qhalf * qhalf); - qhalf]%Qc None None.
(** Its QP library.  No LCQPow code. *)
Definition exf_orc : oracle xq := exr_const [0; qhalf * qhalf]%Qc [0; 0; 0; 0]%Qc.
(** Its run.  No LCQPow code. *)
Definition exf_done : lcqp xq := done exf_pr (exr_opt exe_tol) exf_orc.
Lemma exf_run : admissible exf_pr (exr_opt exe_tol) /\ pr_solve exf_pr (exr_opt exe_tol) exf_orc no_rand = Ok (SUCCESSFUL_RETURN, exf_done) /\
  rational_run exf_pr (exr_opt exe_tol) exf_orc exf_done 1 (1 + 1).
Proof.
  split; [apply exr_admissible; try reflexivity; try exact I; split; intros; reflexivity|]. split; [vm_compute; reflexivity|].
  split; [split; [vm_compute; reflexivity|split; [vm_compute; reflexivity|discriminate]]|]. apply fin_answers_ok. vm_compute. reflexivity.
Qed.
Lemma exf_primal : returns_primal exf_done (got_x exf_done).
Proof. apply (got_primal _ 2 S_STATIONARY_SOLUTION); vm_compute; reflexivity. Qed.
Lemma exf_dual : returns_dual exf_done (got_y exf_done).
Proof. apply (got_dual _ 4 S_STATIONARY_SOLUTION); vm_compute; reflexivity. Qed.

(** x = (1, 1) lies on both lower bounds 1; both multipliers are negative.  No LCQPow code. *)
Definition exg_pr : problem := exr_pr (zq [-4; -4]) (Some (zq [1])) (Some (zq [1])).
(** Its QP library.  No LCQPow code. *)
Definition exg_orc : oracle xq := exr_const (zq [1; 1]) (zq [0; 0; -1; -1]).
(** Its run.  No LCQPow code. *)
Definition exg_done : lcqp xq := done exg_pr (ex_options QPOASES_DENSE) exg_orc.
Lemma exg_run : admissible exg_pr (ex_options QPOASES_DENSE) /\ pr_solve exg_pr (ex_options QPOASES_DENSE) exg_orc no_rand = Ok (SUCCESSFUL_RETURN, exg_done) /\
  rational_run exg_pr (ex_options QPOASES_DENSE) exg_orc exg_done 1 (1 + 1).
Proof.
  split; [apply exr_admissible; try reflexivity; split; intros C; discriminate C|]. split; [vm_compute; reflexivity|].
  split; [split; [vm_compute; reflexivity|split; [vm_compute; reflexivity|discriminate]]|]. apply fin_answers_ok. vm_compute. reflexivity.
Qed.
Lemma exg_primal : returns_primal exg_done (got_x exg_done).
Proof. apply (got_primal _ 2 S_STATIONARY_SOLUTION); vm_compute; reflexivity. Qed.
Lemma exg_dual : returns_dual exg_done (got_y exg_done).
Proof. apply (got_dual _ 4 S_STATIONARY_SOLUTION); vm_compute; reflexivity. Qed.
