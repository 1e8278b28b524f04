(** * Properties_Swap: exchanging the two sides of the complementarity constraint. *)
From Coq Require Import QArith Qcanon.
From Verif Require Import Base Arith Codes Utilities Options Stats FileIO Subsolver State LCQProblem Loops SpecSparse SpecMath SpecLoad SpecExact SpecRun
  LoadSparse SpecSwap SwapFacts Examples ExamplesKernels ExamplesExact ExamplesSwap.
Open Scope Z_scope.

(** ** C73: L and R play the same role

    Pass R, lbR, ubR for L, lbL, ubL and vice versa (and exchange the two blocks of the dual guess).  If the QP library does not
    care about the order of constraints, then everything stays the same: code, statistics, status, primal solution; the
    multipliers of L and R change places.

    Partial: exact arithmetic (in doubles the order of summation matters), the problem is accepted, no multiplier of the QP
    library is NaN (see C73_nan_refuted).  Data may contain infinities and NaN. *)
Theorem C73_dense_partial : forall u y0 opt orc orc' rand, wf_dense u -> paired (ud_v u) -> fin_lower (ud_v u) -> o_qpSolver opt = QPOASES_DENSE ->
  exchanged_opt (u_nV (ud_v u) + u_nC (ud_v u)) (u_nComp (ud_v u)) (u_y0 (ud_v u)) y0 ->
  indifferent (u_nV (ud_v u)) (u_nV (ud_v u)) (u_nC (ud_v u)) (u_nComp (ud_v u)) orc orc' -> (forall h k, q_y (orc h) k <> NaN) ->
  exchanged_runs (u_nV (ud_v u)) (u_nV (ud_v u)) (u_nC (ud_v u)) (u_nComp (ud_v u)) (solve_dense u opt orc rand) (solve_dense (swap_dense y0 u) opt orc' rand).
Proof. exact p_C73_dense. Qed.
Print Assumptions C73_dense_partial.
Example C73_dense_example : forall b, let u := to_dense (exq_d b) in let qs := QPOASES_DENSE in
  wf_dense u /\ paired (ud_v u) /\ fin_lower (ud_v u) /\ o_qpSolver (ex_options qs : options xq) = qs /\ exchanged_opt 3 1 (u_y0 (ud_v u)) None /\
  indifferent 2 2 1 1 (exq_orc qs) (exw_orc qs) /\ (forall h k, q_y (exq_orc qs h) k <> NaN) /\ ud_L (swap_dense None u) <> ud_L u /\
  (exists o, solve_dense u (ex_options qs) (exq_orc qs) no_rand = Ok (SUCCESSFUL_RETURN, o)) /\
  (exists o, solve_dense (swap_dense None u) (ex_options qs) (exw_orc qs) no_rand = Ok (SUCCESSFUL_RETURN, o)).
Proof.
  intros b u qs. split; [apply exq_wf_d|]. split; [apply exq_paired|]. split; [apply exq_fin_lower|]. split; [reflexivity|]. split; [destruct b; exact I|].
  split; [exact (exw_indifferent QPOASES_DENSE)|]. split; [apply exw_no_nan|]. split; [apply (exw_differs b)|]. split; [eexists; exact (exq_runs b QPOASES_DENSE)|exact (exw_succeeds b QPOASES_DENSE)].
Qed.

(** The same in sparse mode with qpOASES and with OSQP (no box multipliers there). *)
Theorem C73_sparse_partial : forall u y0 opt orc orc' rand b, wf_sparse u -> paired (us_v u) -> fin_lower (us_v u) -> concat (us_C u) <> [] ->
  o_qpSolver opt <> QPOASES_DENSE -> osqp_ok (us_v u) opt -> b = (match o_qpSolver opt with OSQP_SPARSE => 0 | _ => u_nV (us_v u) end) ->
  exchanged_opt (b + u_nC (us_v u)) (u_nComp (us_v u)) (u_y0 (us_v u)) y0 ->
  indifferent (u_nV (us_v u)) b (u_nC (us_v u)) (u_nComp (us_v u)) orc orc' -> (forall h k, q_y (orc h) k <> NaN) ->
  exchanged_runs (u_nV (us_v u)) b (u_nC (us_v u)) (u_nComp (us_v u)) (solve_sparse u opt orc rand) (solve_sparse (swap_sparse y0 u) opt orc' rand).
Proof. exact p_C73_sparse. Qed.
Print Assumptions C73_sparse_partial.
Example C73_sparse_example : forall b qs, qs <> QPOASES_DENSE -> let u := to_sparse (exq_s b) in
  wf_sparse u /\ paired (us_v u) /\ fin_lower (us_v u) /\ concat (us_C u) <> [] /\ o_qpSolver (ex_options qs : options xq) = qs /\ osqp_ok (us_v u) (ex_options qs) /\
  exw_b qs = (match qs with OSQP_SPARSE => 0 | _ => u_nV (us_v u) end) /\ exchanged_opt (exw_b qs + 1) 1 (u_y0 (us_v u)) None /\
  indifferent 2 (exw_b qs) 1 1 (exq_orc qs) (exw_orc qs) /\ (forall h k, q_y (exq_orc qs h) k <> NaN) /\ us_L (swap_sparse None u) <> us_L u /\
  (exists o, solve_sparse u (ex_options qs) (exq_orc qs) no_rand = Ok (SUCCESSFUL_RETURN, o)) /\
  (exists o, solve_sparse (swap_sparse None u) (ex_options qs) (exw_orc qs) no_rand = Ok (SUCCESSFUL_RETURN, o)).
Proof.
  intros b qs Hq u. split; [apply exq_wf_s|]. split; [apply exq_paired|]. split; [apply exq_fin_lower|]. split; [apply exq_C|]. split; [reflexivity|]. split; [apply exq_osqp|].
  split; [destruct qs; reflexivity|]. split; [destruct b; exact I|]. split; [apply exw_indifferent|]. split; [apply exw_no_nan|]. split; [apply (exw_differs b)|].
  split; [|pose proof (exw_succeeds b qs) as E; destruct qs; [contradiction|exact E..]]. pose proof (exq_runs b qs) as E. exists (exq_done b qs). destruct qs; [contradiction|exact E..].
Qed.

(** FINDING: a QP library that reports success with a NaN multiplier.  The stationarity check ignores NaN, the run succeeds, and
    the status of the same point depends on which side carries the NaN: S-stationary if it is L, M-stationary if it is R. *)
Theorem C73_nan_refuted : exists (u : udense xq) (opt : options xq) (orc orc' : oracle xq) (rand : nat -> Z) (o o' : lcqp xq) (x : arr xq),
  wf_dense u /\ paired (ud_v u) /\ fin_lower (ud_v u) /\ o_qpSolver opt = QPOASES_DENSE /\ u_y0 (ud_v u) = None /\ indifferent 2 2 1 1 orc orc' /\
  solve_dense u opt orc rand = Ok (SUCCESSFUL_RETURN, o) /\ solve_dense (swap_dense None u) opt orc' rand = Ok (SUCCESSFUL_RETURN, o') /\
  getPrimalSolution (Some (repeat None 2)) o = Ok (S_STATIONARY_SOLUTION, Some x) /\ getPrimalSolution (Some (repeat None 2)) o' = Ok (M_STATIONARY_SOLUTION, Some x).
Proof. exact nan_differs. Qed.
Print Assumptions C73_nan_refuted.
