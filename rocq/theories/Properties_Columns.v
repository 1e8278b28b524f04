(** * Properties_Columns: the order of the variables. *)
From Coq Require Import QArith Qcanon.
From Verif Require Import Base Arith Codes Utilities Options Stats FileIO Subsolver State LCQProblem Loops SpecSparse SpecMath SpecLoad SpecExact SpecRun
  LoadSparse StartSparse SpecRenumber SpecColumns ColumnsFacts ColumnsSparse Examples ExamplesKernels ExamplesExact ExamplesSwap ExamplesRenumber ExamplesColumns.
Open Scope Z_scope.

(** ** C75: the order of the variables does not matter

    Number the variables in another way: variable i of the new problem is variable f i of the old one, in the objective, the
    constraints, the complementarity pairs, the boxes and the guesses.  If the QP library does not care about the order of variables,
    then the return value, the status and the statistics are the same, and solution, stored iterates and box multipliers
    come out in the new order; the other multipliers are the same.

    Partial: exact arithmetic (in doubles the order of summation matters, see C75_doubles_refuted), and the problem is accepted.
    Data may contain infinities and NaN.  With random perturbations the draws of a step are in the new order, too. *)
Theorem C75_dense_partial : forall f (u u' : udense xq) opt orc orc' rand rand', wf_dense u -> wf_dense u' -> paired (ud_v u) -> fin_lower (ud_v u) -> o_qpSolver opt = QPOASES_DENSE ->
  permutes (u_nV (ud_v u)) f -> moved_dense f u u' ->
  names_blind (u_nV (ud_v u)) (u_nV (ud_v u)) (u_nC (ud_v u) + 2 * u_nComp (ud_v u)) f orc orc' -> (o_perturbStep opt = true -> moved_draws (u_nV (ud_v u)) f rand rand') ->
  moved_runs (u_nV (ud_v u)) (u_nV (ud_v u)) (u_nC (ud_v u) + 2 * u_nComp (ud_v u)) f (solve_dense u opt orc rand) (solve_dense u' opt orc' rand').
Proof. exact p_C75_dense. Qed.
Print Assumptions C75_dense_partial.
Example C75_dense_example : let u := to_dense (exk_d false) in let u' := to_dense (exk_d true) in let qs := QPOASES_DENSE in
  wf_dense u /\ wf_dense u' /\ paired (ud_v u) /\ fin_lower (ud_v u) /\ o_qpSolver (ex_options qs : options xq) = qs /\
  permutes 4 exk_f /\ moved_dense exk_f u u' /\ names_blind 4 4 6 exk_f (exk_orc false qs) (exk_orc true qs) /\ moved_draws 4 exk_f no_rand no_rand /\
  ud_L u' <> ud_L u /\ (forall b, exists o, exk_run b qs = Ok (SUCCESSFUL_RETURN, o)).
Proof.
  split; [apply exk_wf_d|]. split; [apply exk_wf_d|]. split; [apply exk_paired|]. split; [apply exk_fin_lower|]. split; [reflexivity|].
  split; [apply exk_permutes|]. split; [apply exk_dense|]. split; [exact (exk_names_blind QPOASES_DENSE)|]. split; [apply exk_draws|]. split; [exact (proj1 (exk_differs true))|].
  intros b. apply exk_succeeds.
Qed.

(** The same in sparse mode with qpOASES and with OSQP.  OSQP has no boxes and reads the upper triangle of Q, so Q stores both triangles. *)
Theorem C75_sparse_partial : forall f (u u' : usparse xq) opt orc orc' rand rand' b, wf_sparse u -> wf_sparse u' -> paired (us_v u) -> fin_lower (us_v u) -> concat (us_C u) <> [] ->
  o_qpSolver opt <> QPOASES_DENSE -> osqp_ok (us_v u) opt -> osqp_ok (us_v u') opt -> b = (match o_qpSolver opt with OSQP_SPARSE => 0 | _ => u_nV (us_v u) end) ->
  (o_qpSolver opt = OSQP_SPARSE -> two_sided (u_nV (us_v u)) (us_Q u)) -> permutes (u_nV (us_v u)) f -> moved_sparse b f u u' ->
  names_blind (u_nV (us_v u)) b (u_nC (us_v u) + 2 * u_nComp (us_v u)) f orc orc' -> (o_perturbStep opt = true -> moved_draws (u_nV (us_v u)) f rand rand') ->
  moved_runs (u_nV (us_v u)) b (u_nC (us_v u) + 2 * u_nComp (us_v u)) f (solve_sparse u opt orc rand) (solve_sparse u' opt orc' rand').
Proof. exact p_C75_sparse. Qed.
Print Assumptions C75_sparse_partial.
Example C75_sparse_example : forall qs, qs <> QPOASES_DENSE -> let u := to_sparse (exk_s (exk_box qs) false) in let u' := to_sparse (exk_s (exk_box qs) true) in
  wf_sparse u /\ wf_sparse u' /\ paired (us_v u) /\ fin_lower (us_v u) /\ concat (us_C u) <> [] /\ o_qpSolver (ex_options qs : options xq) = qs /\
  osqp_ok (us_v u) (ex_options qs) /\ osqp_ok (us_v u') (ex_options qs) /\ exo_b qs = (match qs with OSQP_SPARSE => 0 | _ => u_nV (us_v u) end) /\
  two_sided 4 (us_Q u) /\ permutes 4 exk_f /\ moved_sparse (exo_b qs) exk_f u u' /\ names_blind 4 (exo_b qs) 6 exk_f (exk_orc false qs) (exk_orc true qs) /\
  moved_draws 4 exk_f no_rand no_rand /\ us_L u' <> us_L u /\ (forall b, exists o, exk_run b qs = Ok (SUCCESSFUL_RETURN, o)).
Proof.
  intros qs Hq u u'. split; [apply exk_wf_s|]. split; [apply exk_wf_s|]. split; [apply exk_paired|]. split; [apply exk_fin_lower|]. split; [apply exk_C|]. split; [reflexivity|].
  split; [apply exk_osqp|]. split; [apply exk_osqp|]. split; [destruct qs; reflexivity|]. split; [apply exk_two_sided|]. split; [apply exk_permutes|]. split; [apply exk_sparse|]. split; [apply exk_names_blind|].
  split; [apply exk_draws|]. split; [apply exk_differs|]. intros b. apply exk_succeeds.
Qed.
