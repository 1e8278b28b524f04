(** * Properties_Renumber: the order of constraints and complementarity pairs. *)
From Coq Require Import QArith Qcanon.
From Verif Require Import Base Arith Codes Utilities Options Stats FileIO Subsolver State LCQProblem Loops SpecSparse SpecMath SpecLoad SpecExact SpecRun
  LoadSparse StartSparse SpecRenumber RenumberFacts RenumberSparse Examples ExamplesKernels ExamplesExact ExamplesSwap ExamplesRenumber.
Open Scope Z_scope.

(** ** C74: the order of constraints and of complementarity pairs does not matter

    List the linear constraints in another order, list the complementarity pairs in another order, and exchange the sides of some
    of the pairs.  If the QP library does not care about the order of constraints, then code, statistics, status and primal
    solution stay the same, and the multipliers are renumbered in the same way.

    Partial: exact arithmetic (in doubles the order of summation matters), the problem is accepted, and if sides are exchanged no
    multiplier of the QP library is NaN (see C73_nan_refuted).  Data may contain infinities and NaN. *)
Theorem C74_dense_partial : forall nu u u' opt orc orc' rand, wf_dense u -> wf_dense u' -> paired (ud_v u) -> paired (ud_v u') -> fin_lower (ud_v u) -> o_qpSolver opt = QPOASES_DENSE ->
  renumbers (u_nC (ud_v u)) (u_nComp (ud_v u)) nu -> renum_dense nu u u' ->
  order_blind (u_nV (ud_v u)) (u_nV (ud_v u)) (u_nC (ud_v u) + 2 * u_nComp (ud_v u)) (place (u_nC (ud_v u)) (u_nComp (ud_v u)) nu) orc orc' -> good_for (u_nComp (ud_v u)) nu orc ->
  renum_runs (u_nV (ud_v u)) (u_nV (ud_v u)) (u_nC (ud_v u) + 2 * u_nComp (ud_v u)) (place (u_nC (ud_v u)) (u_nComp (ud_v u)) nu) (solve_dense u opt orc rand) (solve_dense u' opt orc' rand).
Proof. exact p_C74_dense. Qed.
Print Assumptions C74_dense_partial.
Example C74_dense_example : let u := to_dense (exo_d false) in let u' := to_dense (exo_d true) in let qs := QPOASES_DENSE in
  wf_dense u /\ wf_dense u' /\ paired (ud_v u) /\ paired (ud_v u') /\ fin_lower (ud_v u) /\ o_qpSolver (ex_options qs : options xq) = qs /\
  renumbers 2 2 exo_nu /\ renum_dense exo_nu u u' /\ order_blind 4 4 6 (place 2 2 exo_nu) (exo_orc false qs) (exo_orc true qs) /\ good_for 2 exo_nu (exo_orc false qs) /\
  ud_L u' <> ud_L u /\ (forall b, exists o, exo_run b qs = Ok (SUCCESSFUL_RETURN, o)).
Proof.
  split; [apply exo_wf_d|]. split; [apply exo_wf_d|]. split; [apply exo_paired|]. split; [apply exo_paired|]. split; [apply exo_fin_lower|]. split; [reflexivity|].
  split; [apply exo_renumbers|]. split; [apply exo_dense|]. split; [exact (exo_order_blind QPOASES_DENSE)|]. split; [apply exo_no_nan|]. split; [apply exo_differs|].
  intros b. apply exo_succeeds.
Qed.

(** The same in sparse mode with qpOASES and with OSQP (no box multipliers there). *)
Theorem C74_sparse_partial : forall nu u u' opt orc orc' rand b, wf_sparse u -> wf_sparse u' -> paired (us_v u) -> paired (us_v u') -> fin_lower (us_v u) -> concat (us_C u) <> [] ->
  o_qpSolver opt <> QPOASES_DENSE -> osqp_ok (us_v u) opt -> b = (match o_qpSolver opt with OSQP_SPARSE => 0 | _ => u_nV (us_v u) end) ->
  renumbers (u_nC (us_v u)) (u_nComp (us_v u)) nu -> renum_sparse b nu u u' ->
  order_blind (u_nV (us_v u)) b (u_nC (us_v u) + 2 * u_nComp (us_v u)) (place (u_nC (us_v u)) (u_nComp (us_v u)) nu) orc orc' -> good_for (u_nComp (us_v u)) nu orc ->
  renum_runs (u_nV (us_v u)) b (u_nC (us_v u) + 2 * u_nComp (us_v u)) (place (u_nC (us_v u)) (u_nComp (us_v u)) nu) (solve_sparse u opt orc rand) (solve_sparse u' opt orc' rand).
Proof. exact p_C74_sparse. Qed.
Print Assumptions C74_sparse_partial.
Example C74_sparse_example : forall qs, qs <> QPOASES_DENSE -> let u := to_sparse (exo_s false) in let u' := to_sparse (exo_s true) in
  wf_sparse u /\ wf_sparse u' /\ paired (us_v u) /\ paired (us_v u') /\ fin_lower (us_v u) /\ concat (us_C u) <> [] /\ o_qpSolver (ex_options qs : options xq) = qs /\
  osqp_ok (us_v u) (ex_options qs) /\ exo_b qs = (match qs with OSQP_SPARSE => 0 | _ => u_nV (us_v u) end) /\
  renumbers 2 2 exo_nu /\ renum_sparse (exo_b qs) exo_nu u u' /\ order_blind 4 (exo_b qs) 6 (place 2 2 exo_nu) (exo_orc false qs) (exo_orc true qs) /\
  good_for 2 exo_nu (exo_orc false qs) /\ us_L u' <> us_L u /\ (forall b, exists o, exo_run b qs = Ok (SUCCESSFUL_RETURN, o)).
Proof.
  intros qs Hq u u'. split; [apply exo_wf_s|]. split; [apply exo_wf_s|]. split; [apply exo_paired|]. split; [apply exo_paired|]. split; [apply exo_fin_lower|]. split; [apply exo_C|]. split; [reflexivity|].
  split; [apply exo_osqp|]. split; [destruct qs; reflexivity|]. split; [apply exo_renumbers|]. split; [apply exo_sparse|]. split; [apply exo_order_blind|]. split; [apply exo_no_nan|]. split; [apply exo_differs|].
  intros b. apply exo_succeeds.
Qed.
