(** * Properties_Exact: theorems about whole runs on rational data in exact arithmetic.

    [pr_solve pr opt orc rand] (SpecSolve.v) constructs an object, sets the options [opt], loads the problem [pr] (dense or
    sparse) and runs the solver with the QP library [orc] and the random stream [rand].  [rational_run] says that the penalty
    parameters (initial value [r0], factor [fac]) and the answers of the QP library are rational numbers.  [pr_data pr] is the
    mathematical problem; its functions [e_phi], [e_lagrangian], ... are in SpecExact.v. *)
From Coq Require Import QArith Qcanon.
From Verif Require Import Base Arith Codes Utilities Options Stats FileIO Subsolver State LCQProblem Loops SpecSparse SpecMath SpecLoad SpecExact SpecRun SpecTrace SpecSolve
  SpecSchedule ExactSolve ExactPasses Examples ExamplesExact ExamplesExact2.
Open Scope Z_scope.

(** The hypotheses shared by all theorems hold for the example in all three modes. *)
Example exact_example : forall b qs, admissible (exq_pr b qs) (ex_options qs) /\
  pr_solve (exq_pr b qs) (ex_options qs) (exq_orc qs) no_rand = Ok (SUCCESSFUL_RETURN, exq_done b qs) /\
  rational_run (exq_pr b qs) (ex_options qs) (exq_orc qs) (exq_done b qs) 1 (1 + 1).
Proof. intros b qs. split; [apply exq_admissible|split; [apply exq_solves|apply exq_rational]]. Qed.

(** C03: on success the returned point has (Lx - lbL)'(Rx - lbR) < complementarityTolerance. *)
Theorem C03_complementarity : forall pr opt orc rand r0 fac r o,
  admissible pr opt -> pr_solve pr opt orc rand = Ok (r, o) -> rational_run pr opt orc o r0 fac ->
  forall tol, r = SUCCESSFUL_RETURN -> o_complementarityTolerance opt = Fin tol ->
  exists x, returns_primal o x /\ (e_phi (pr_data pr) x < tol)%Qc.
Proof. exact c03. Qed.
Print Assumptions C03_complementarity.
Example C03_example : forall qs, o_complementarityTolerance (ex_options (T := xq) qs) = Fin exq_ctol.
Proof. intros qs. apply exq_tols. Qed.

(** C04: on success the returned pair is stationary.  Full claim if lbL and lbR do not shift the gradient of the penalty
    (in particular if they are absent or zero). *)
Theorem C04_no_shift : forall pr opt orc rand r0 fac r o,
  admissible pr opt -> pr_solve pr opt orc rand = Ok (r, o) -> rational_run pr opt orc o r0 fac ->
  forall tol, r = SUCCESSFUL_RETURN -> o_stationarityTolerance opt = Fin tol -> no_shift (pr_data pr) ->
  exists x y, returns_primal o x /\ returns_dual o y /\ forall j, 0 <= j < e_nV (pr_data pr) ->
    (- tol < e_lagrangian (pr_data pr) (box_duals pr opt) x y j /\ e_lagrangian (pr_data pr) (box_duals pr opt) x y j < tol)%Qc.
Proof. exact c04_plain. Qed.
Print Assumptions C04_no_shift.
(** Partial: with lower complementarity bounds and at least one penalty update the gradient of the Lagrangian is off by
    rho * g_phi.  (That this is not zero in general is C04_bounds_refuted.) *)
Theorem C04_partial : forall pr opt orc rand r0 fac r o,
  admissible pr opt -> pr_solve pr opt orc rand = Ok (r, o) -> rational_run pr opt orc o r0 fac ->
  forall tol, r = SUCCESSFUL_RETURN -> o_stationarityTolerance opt = Fin tol ->
  exists x y k, returns_primal o x /\ returns_dual o y /\ st_iterOuter (getOutputStatistics o) = Z.of_nat k /\
    forall j, 0 <= j < e_nV (pr_data pr) ->
    let v := (e_lagrangian (pr_data pr) (box_duals pr opt) x y j + match k with O => 0 | _ => r0 * fac ^ k * e_gphi (pr_data pr) j end)%Qc in
    (- tol < v /\ v < tol)%Qc.
Proof. exact c04. Qed.
Print Assumptions C04_partial.
Example C04_example : forall b qs, o_stationarityTolerance (ex_options (T := xq) qs) = Fin exq_stol /\ no_shift (pr_data (exq_pr b qs)).
Proof. intros b qs. split; [apply exq_tols|apply exq_no_shift]. Qed.

(** C12, C13: on success the reported status is the stationarity type of the multipliers y_L + rho Rx, y_R + rho Lx and the
    pairs with Lx <= tol, Rx <= tol, for the returned x and y.  Partial: these are not the returned multipliers and lbL, lbR
    are ignored (C13_refuted), and pairs of negative multipliers with product exactly tol are excluded (C12_boundary_refuted). *)
Theorem C12_partial : forall pr opt orc rand r0 fac r o,
  admissible pr opt -> pr_solve pr opt orc rand = Ok (r, o) -> rational_run pr opt orc o r0 fac ->
  forall tol, r = SUCCESSFUL_RETURN -> o_complementarityTolerance opt = Fin tol -> (0 < tol)%Qc -> (0 < r0)%Qc -> (0 < fac)%Qc ->
  let e := pr_data pr in
  exists x y rho, returns_primal o x /\ returns_dual o y /\ st_rhoOpt (getOutputStatistics o) = Fin rho /\
    let a i := (qat y (box_duals pr opt + e_nC e + i) + rho * mv (e_R e) (e_nV e) x i)%Qc in
    let b i := (qat y (box_duals pr opt + e_nC e + e_nComp e + i) + rho * mv (e_L e) (e_nV e) x i)%Qc in
    ((forall i, 0 <= i < e_nComp e -> small_pair e tol x i -> ~ (a i < 0 /\ b i < 0 /\ a i * b i = tol)%Qc) ->
     stationarity_type tol (e_nComp e) (small_pair e tol x) a b (st_status (getOutputStatistics o))).
Proof. exact c12. Qed.
Print Assumptions C12_partial.
Example C12_example : (0 < exq_ctol)%Qc /\ (0 < 1)%Qc /\ (0 < 1 + 1)%Qc.
Proof. repeat split. Qed.

(** C14: if the QP library returns feasible points and perturbStep is off, the returned point is feasible, unless the very
    first QP failed. *)
Theorem C14_feasible : forall pr opt orc rand r0 fac r o,
  admissible pr opt -> pr_solve pr opt orc rand = Ok (r, o) -> rational_run pr opt orc o r0 fac ->
  o_perturbStep opt = false -> feasible_answers pr orc o ->
  exists x, returns_primal o x /\ (feasible pr x \/ (x = pr_x0 pr /\ exists c, s_calls (it o) = [c] /\ qp_error c (orc [c]) <> None)).
Proof. exact c14. Qed.
Print Assumptions C14_feasible.
Example C14_example : forall b qs, o_perturbStep (ex_options (T := xq) qs) = false /\ feasible_answers (exq_pr b qs) (exq_orc qs) (exq_done b qs).
Proof. intros b qs. split; [apply exq_store|apply exq_feasible]. Qed.

(** Every pass shows up in the statistics. *)
Theorem C16_passes_recorded : forall pr opt orc rand r0 fac r o,
  admissible pr opt -> pr_solve pr opt orc rand = Ok (r, o) -> rational_run pr opt orc o r0 fac -> o_storeSteps opt = true ->
  forall j, (S j < length (st_xSteps (getOutputStatistics o)))%nat -> exists x x' z al c, recorded_pass pr orc o j x x' z al c.
Proof. exact c_seen. Qed.
Print Assumptions C16_passes_recorded.
Example C16_passes_example : forall b qs, o_storeSteps (ex_options (T := xq) qs) = true /\ (10 < length (st_xSteps (getOutputStatistics (exq_done b qs))))%nat.
Proof. intros b qs. split; [apply exq_store|destruct b, qs; vm_compute; repeat constructor]. Qed.

(** C15: each pass moves each coordinate by the line-search step and by -EPS, 0 or EPS, the latter only with perturbStep. *)
Theorem C15_perturbation : forall pr opt orc rand r0 fac r o,
  admissible pr opt -> pr_solve pr opt orc rand = Ok (r, o) -> rational_run pr opt orc o r0 fac -> o_storeSteps opt = true ->
  forall j x x' z al c, recorded_pass pr orc o j x x' z al c ->
  exists s : Z -> Z, (forall i, s i = -1 \/ s i = 0 \/ s i = 1) /\ (o_perturbStep opt = false -> forall i, s i = 0) /\
    forall i, 0 <= i < e_nV (pr_data pr) ->
      qat x' i = (qat x i + Q2Qc (inject_Z (s i)) * Qc_lit 2221 (-19) + al * (qat z i - qat x i))%Qc.
Proof. exact c15. Qed.
Print Assumptions C15_perturbation.
(** An example with perturbStep. *)
Example C15_perturbation_example : forall b qs, exists o,
  admissible (exq_pr b qs) (exq_perturb qs) /\
  pr_solve (exq_pr b qs) (exq_perturb qs) (exq_orc qs) (fun k => Z.of_nat k) = Ok (MAX_ITERATIONS_REACHED, o) /\
  rational_run (exq_pr b qs) (exq_perturb qs) (exq_orc qs) o 1 (1 + 1) /\ o_perturbStep (exq_perturb qs) = true /\ (3 < length (st_xSteps (getOutputStatistics o)))%nat.
Proof. exact exq_perturbed. Qed.

(** C16: in every pass the step length lies in [0,1], and it is the exact minimiser of the penalised objective
    f + rho phi on the segment if that decreases at the start of the segment.  [b] is the iterate x after the optional
    perturbation; [ks j] is the number of penalty updates that the documented rule (SpecSchedule) makes
    in the first [j] passes.  Partial: before the first update only if lbL, lbR do not
    shift the gradient of the penalty (C16_bounds_refuted). *)
Theorem C16_partial : forall pr opt orc rand r0 fac r o,
  admissible pr opt -> pr_solve pr opt orc rand = Ok (r, o) -> rational_run pr opt orc o r0 fac -> o_storeSteps opt = true ->
  INT_MIN <= o_nDynamicPenalty opt <= INT_MAX ->
  let e := pr_data pr in let n := e_nV e in
  let ks := updates_after opt (getOutputStatistics o) in
  (forall j, (ks j <= ks (S j) <= ks j + 2)%nat) /\
  forall j x x' z al c, recorded_pass pr orc o j x x' z al c ->
  let rho := (r0 * fac ^ ks (S j))%Qc in
  (0 <= al <= 1)%Qc /\
  exists b, (o_perturbStep opt = false -> b = x) /\
    (forall i, 0 <= i < n -> (qat x i - Qc_lit 2221 (-19) <= qat b i <= qat x i + Qc_lit 2221 (-19))%Qc) /\
    x' = on_line n b x z al /\
    (e_symmetric e -> (0 < ks (S j))%nat \/ no_shift e -> (qsum n (fun i => (qat z i - qat x i) * e_pengrad e rho b i) < 0)%Qc ->
     forall t, (0 <= t <= 1)%Qc -> (e_pen e rho x' <= e_pen e rho (on_line n b x z t))%Qc).
Proof. exact c16. Qed.
Print Assumptions C16_partial.
Example C16_example : forall b qs, let opt := ex_options (T := xq) qs in INT_MIN <= o_nDynamicPenalty opt <= INT_MAX /\
  (updates_after opt (getOutputStatistics (exq_done b qs)) 32 < updates_after opt (getOutputStatistics (exq_done b qs)) 33)%nat.
Proof. intros b qs. destruct b, qs; vm_compute; (split; [split; discriminate|repeat constructor]). Qed.

(** C17: with exact QP solutions and positive definite Q the penalised objective does not increase in any pass. *)
Theorem C17_partial : forall pr opt orc rand r0 fac r o,
  admissible pr opt -> pr_solve pr opt orc rand = Ok (r, o) -> rational_run pr opt orc o r0 fac -> o_storeSteps opt = true ->
  INT_MIN <= o_nDynamicPenalty opt <= INT_MAX ->
  let e := pr_data pr in
  let ks := updates_after opt (getOutputStatistics o) in
  o_perturbStep opt = false -> e_symmetric e -> pos_def e -> feasible_answers pr orc o -> optimal_answers pr orc o ->
  forall j x x' z al c, recorded_pass pr orc o j x x' z al c -> (0 < ks (S j))%nat \/ no_shift e ->
    (e_pen e (r0 * fac ^ ks (S j)) x' <= e_pen e (r0 * fac ^ ks (S j)) x)%Qc.
Proof. exact c17. Qed.
Print Assumptions C17_partial.
Example C17_example : forall b qs, e_symmetric (pr_data (exq_pr b qs)) /\ pos_def (pr_data (exq_pr b qs)) /\
  feasible_answers (exq_pr b qs) (exq_orc qs) (exq_done b qs) /\ optimal_answers (exq_pr b qs) (exq_orc qs) (exq_done b qs) /\ no_shift (pr_data (exq_pr b qs)).
Proof. intros b qs. split; [apply exq_symmetric|split; [apply exq_pos_def|split; [apply exq_feasible|split; [apply exq_optimal|apply exq_no_shift]]]]. Qed.

(** C18: every QP has the linear term g + rho (C x + g_phi) at the current iterate and penalty; the first one has the plain g with
    solveZeroPenaltyFirst.  (Matrix and bounds: C19, C20.)  Partial as C16. *)
Theorem C18_partial : forall pr opt orc rand r0 fac r o,
  admissible pr opt -> pr_solve pr opt orc rand = Ok (r, o) -> rational_run pr opt orc o r0 fac -> o_storeSteps opt = true ->
  INT_MIN <= o_nDynamicPenalty opt <= INT_MAX ->
  let e := pr_data pr in
  let ks := updates_after opt (getOutputStatistics o) in
  (forall c, nth_error (rev (s_calls (it o))) O = Some c ->
     if o_solveZeroPenaltyFirst opt then qc_g c = fins (e_g e) else no_shift e -> qc_g c = penalised_term e r0 (pr_x0 pr)) /\
  (forall j c x, nth_error (rev (s_calls (it o))) (S j) = Some c -> nth_error (st_xSteps (getOutputStatistics o)) j = Some (fins x) ->
     (0 < ks (S j))%nat \/ no_shift e -> qc_g c = penalised_term e (r0 * fac ^ ks (S j)) x).
Proof. exact c18. Qed.
Print Assumptions C18_partial.
Example C18_example : forall b qs, (10 < length (s_calls (it (exq_done b qs))))%nat /\ no_shift (pr_data (exq_pr b qs)).
Proof. intros b qs. split; [destruct b, qs; vm_compute; repeat constructor|apply exq_no_shift]. Qed.

(** C34 in runs: the recorded objective and penalty values are f(x) and (Lx - lbL)'(Rx - lbR) at the recorded iterates. *)
Theorem C34_recorded : forall pr opt orc rand r0 fac r o,
  admissible pr opt -> pr_solve pr opt orc rand = Ok (r, o) -> rational_run pr opt orc o r0 fac -> o_storeSteps opt = true ->
  forall j x, nth_error (st_xSteps (getOutputStatistics o)) j = Some (fins x) ->
  nth_error (st_objVals (getOutputStatistics o)) j = Some (Fin (e_obj (pr_data pr) x)) /\
  nth_error (st_phiVals (getOutputStatistics o)) j = Some (Fin (e_phi (pr_data pr) x)).
Proof. exact c34. Qed.
Print Assumptions C34_recorded.

(** C39: the recorded merit values are g'x + x'(Q + rho C)x/2 with the current penalty, after any number of updates.  (The step
    length and the stationarity check use the same matrix: C16_partial, C04_partial.) *)
Theorem C39_merit_hessian : forall pr opt orc rand r0 fac r o,
  admissible pr opt -> pr_solve pr opt orc rand = Ok (r, o) -> rational_run pr opt orc o r0 fac -> o_storeSteps opt = true ->
  INT_MIN <= o_nDynamicPenalty opt <= INT_MAX ->
  let e := pr_data pr in let n := e_nV e in
  let ks := updates_after opt (getOutputStatistics o) in
  forall j x, nth_error (st_xSteps (getOutputStatistics o)) j = Some (fins x) ->
    nth_error (st_meritVals (getOutputStatistics o)) j =
      Some (Fin (qdot n (e_g e) x + qform (fun a b => e_Q e a b + r0 * fac ^ ks j * e_C e a b) n x * qhalf)%Qc).
Proof. exact c39. Qed.
Print Assumptions C39_merit_hessian.
Example C39_example : forall b qs, exists k x, (10 < k)%nat /\ nth_error (st_xSteps (getOutputStatistics (exq_done b qs))) k = Some (fins x).
Proof.
  intros b qs.
  destruct (C16_passes_recorded _ _ _ _ _ _ _ _ (exq_admissible b qs) (exq_solves b qs) (exq_rational b qs) (proj1 (exq_store qs)) 10) as (x & x' & z & al & c & R).
  - apply (Nat.lt_trans _ 12); [repeat constructor|]. destruct b, qs; vm_compute; repeat constructor.
  - exists 11%nat, x'. split; [repeat constructor|exact (rp_to _ _ _ _ _ _ _ _ _ R)].
Qed.

(** C67: the recorded step size of a pass is the largest absolute component of z - x, where z is the QP solution and x the iterate
    before the pass (the initial guess for the first one).  The recorded stationarity value is the largest absolute component of the
    gradient of the Lagrangian of the penalised problem at the new iterate, for the duals of the QP. *)
Theorem C67_step_size : forall pr opt orc rand r0 fac r o,
  admissible pr opt -> pr_solve pr opt orc rand = Ok (r, o) -> rational_run pr opt orc o r0 fac -> o_storeSteps opt = true ->
  let st := getOutputStatistics o in let n := e_nV (pr_data pr) in
  forall j c a z, nth_error (rev (answers orc (s_calls (it o)) [])) j = Some (c, a) -> qp_error c a = None -> primal_answer n a z ->
  forall x, match j with O => x = pr_x0 pr | S i => nth_error (st_xSteps st) i = Some (fins x) end -> (j < length (st_xSteps st))%nat ->
  exists v, nth_error (st_stepSize st) j = Some (Fin v) /\ max_norm n (fun i => qat z i - qat x i)%Qc v.
Proof. exact c67_size. Qed.
Print Assumptions C67_step_size.
(** Partial as C16: before the first update only without a shift of the gradient by lbL, lbR. *)
Theorem C67_stationarity_partial : forall pr opt orc rand r0 fac r o,
  admissible pr opt -> pr_solve pr opt orc rand = Ok (r, o) -> rational_run pr opt orc o r0 fac -> o_storeSteps opt = true ->
  INT_MIN <= o_nDynamicPenalty opt <= INT_MAX ->
  let st := getOutputStatistics o in let e := pr_data pr in let n := e_nV e in let off := box_duals pr opt in
  let ks := updates_after opt st in
  forall j x c a y, nth_error (st_xSteps st) j = Some (fins x) -> nth_error (rev (answers orc (s_calls (it o)) [])) j = Some (c, a) ->
  dual_answer (o_qpSolver opt) (off + e_nA e) a y -> (0 < ks j)%nat \/ no_shift e ->
  exists v, nth_error (st_statVals st) j = Some (Fin v) /\
    max_norm n (fun i => e_lagrangian e off x y i + r0 * fac ^ ks j * (mv (e_C e) n x i + e_gphi e i))%Qc v.
Proof. exact c67_stat. Qed.
Print Assumptions C67_stationarity_partial.
(** The hypotheses hold for every recorded pass. *)
Theorem C67_recorded : forall pr opt orc rand r0 fac r o,
  admissible pr opt -> pr_solve pr opt orc rand = Ok (r, o) -> rational_run pr opt orc o r0 fac -> o_storeSteps opt = true ->
  let st := getOutputStatistics o in
  forall j, (j < length (st_xSteps st))%nat ->
  exists x x' c a z y, match j with O => x = pr_x0 pr | S i => nth_error (st_xSteps st) i = Some (fins x) end /\
    nth_error (st_xSteps st) j = Some (fins x') /\ nth_error (rev (answers orc (s_calls (it o)) [])) j = Some (c, a) /\ qp_error c a = None /\
    primal_answer (e_nV (pr_data pr)) a z /\ dual_answer (o_qpSolver opt) (box_duals pr opt + e_nA (pr_data pr)) a y.
Proof. exact c67_seen. Qed.
Print Assumptions C67_recorded.
Example C67_example : forall b qs, let st := getOutputStatistics (exq_done b qs) in
  (33 < length (st_xSteps st))%nat /\ (0 < updates_after (ex_options (T := xq) qs) st 33)%nat /\
  exists v, nth_error (st_stepSize st) 33 = Some (Fin v) /\ (0 < v)%Qc.
Proof.
  intros b qs. split; [destruct b, qs; vm_compute; repeat constructor|]. split; [destruct b, qs; vm_compute; repeat constructor|].
  exists (match nth_error (st_stepSize (getOutputStatistics (exq_done b qs))) 33 with Some (Fin v) => v | _ => 0%Qc end). destruct b, qs; vm_compute; split; reflexivity.
Qed.
