(** * SpecSeries: the QPs of one run. *)
From Verif Require Import Base Arith Codes Subsolver.

(** A QP handed over after [a] in the same run: same solver, matrices and bounds, no initial solve and no guesses.  Only the gradient may differ.  No LCQPow code. *)
Record hotstart_of {T} (a b : qp_call T) : Prop := {
  hs_solver : qc_solver b = qc_solver a;
  hs_H : qc_H b = qc_H a;
  hs_A : qc_A b = qc_A a;
  hs_lbA : qc_lbA b = qc_lbA a;
  hs_ubA : qc_ubA b = qc_ubA a;
  hs_lb : qc_lb b = qc_lb a;
  hs_ub : qc_ub b = qc_ub a;
  hs_initial : qc_initial b = false;
  hs_x0 : qc_x0 b = None;
  hs_y0 : qc_y0 b = None }.
