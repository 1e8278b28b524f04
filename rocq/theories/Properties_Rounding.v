(** * Properties_Rounding: C73, C74 and C75 are false in doubles. *)
From Coq Require Import SpecFloat.
From Verif Require Import Base Arith Codes Utilities Options Stats FileIO Subsolver State LCQProblem Loops SpecSparse SpecMath SpecLoad SpecRun
  SpecSwap SpecRenumber SpecColumns ExamplesRounding.
Open Scope Z_scope.

(** FINDING: in doubles the outcome depends on which side is called L.  The products A'y, L'y, R'y are summed up in that order; with
    multipliers 1e16, -5e15, 1 (integers) one order gives 1 and the other 0.  One run ends successfully, the other one runs into
    the iteration limit. *)
Theorem C73_doubles_refuted : exists (u : udense f64) opt orc orc' rand o o',
  wf_dense u /\ paired (ud_v u) /\ fin_lower (ud_v u) /\ o_qpSolver opt = QPOASES_DENSE /\ exchanged_opt 2 1 (u_y0 (ud_v u)) None /\ indifferent 1 1 1 1 orc orc' /\
  (forall h k, exists z, q_y (orc h) k = a_of_Z z) /\
  solve_dense u opt orc rand = Ok (SUCCESSFUL_RETURN, o) /\ solve_dense (swap_dense None u) opt orc' rand = Ok (MAX_ITERATIONS_REACHED, o').
Proof. exact exr_side_ok. Qed.
Print Assumptions C73_doubles_refuted.

(** FINDING: in doubles the outcome depends on the order of the linear constraints: two of three constraints change places. *)
Theorem C74_doubles_refuted : exists nu (u u' : udense f64) opt orc orc' rand o o',
  wf_dense u /\ wf_dense u' /\ paired (ud_v u) /\ paired (ud_v u') /\ fin_lower (ud_v u) /\ o_qpSolver opt = QPOASES_DENSE /\
  renumbers 3 1 nu /\ renum_dense nu u u' /\ order_blind 1 1 5 (place 3 1 nu) orc orc' /\ (forall i, nb_flip nu i = false) /\ (forall h k, exists z, q_y (orc h) k = a_of_Z z) /\
  solve_dense u opt orc rand = Ok (SUCCESSFUL_RETURN, o) /\ solve_dense u' opt orc' rand = Ok (MAX_ITERATIONS_REACHED, o').
Proof. exact exr_rows_ok. Qed.
Print Assumptions C74_doubles_refuted.

(** FINDING: in doubles the outcome depends on the order of the variables.  The objective (x0 + x1 + x2 - 1)^2 / 2 + x3^2 / 2 - 1/2 is the same for both
    orders, and the QP library delivers the same minimiser 1e16, -1e16, 1, 0 (integers) in both orders.  In one order the run ends
    successfully, in the other one it runs into the iteration limit. *)
Theorem C75_doubles_refuted : exists f (u u' : udense f64) opt orc orc' rand o o' x,
  wf_dense u /\ wf_dense u' /\ paired (ud_v u) /\ fin_lower (ud_v u) /\ o_qpSolver opt = QPOASES_DENSE /\ o_perturbStep opt = false /\
  permutes 4 f /\ moved_dense f u u' /\ names_blind 4 4 2 f orc orc' /\ ud_Q u = dz [1; 1; 1; 0;  1; 1; 1; 0;  1; 1; 1; 0;  0; 0; 0; 1] /\ u_g (ud_v u) = dz [-1; -1; -1; 0] /\
  (forall h k, 0 <= k < 4 -> q_x (orc h) k = a_of_Z (at_ 0 x k)) /\ at_ 0 x 0 + at_ 0 x 1 + at_ 0 x 2 = 1 /\ at_ 0 x 3 = 0 /\
  solve_dense u opt orc rand = Ok (SUCCESSFUL_RETURN, o) /\ solve_dense u' opt orc' rand = Ok (MAX_ITERATIONS_REACHED, o').
Proof. exact exr_cols_ok. Qed.
Print Assumptions C75_doubles_refuted.
