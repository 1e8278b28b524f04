(** * Properties_Series: the QPs of one run. *)
From Coq Require Import QArith Qcanon.
From Verif Require Import Base Arith Codes Utilities Options Stats FileIO Subsolver State LCQProblem SpecRun Spec Examples RunFacts ExamplesRun SpecSeries SeriesFacts.
Open Scope Z_scope.

(** ** C83: the QPs of a run go to the chosen solver and differ in the gradient only; the first one alone is an initial solve

    The QPs are kept newest first.  From any state of the object, so also for runs after loads, mode switches, option changes and other
    runs: the solver is the one in the options at the time of the run, whatever solver was used before.  In every arithmetic and for
    every QP library. *)
Theorem C83_series : forall T (A : Arith T) (orc : oracle T) rand (o : lcqp T) r o', runSolver orc rand o = Ok (r, o') -> started o o' ->
  exists later first, s_calls (it o') = later ++ first :: s_calls (it o) /\ qc_initial first = true /\ qc_solver first = o_qpSolver (d_options (pd o)) /\
    forall c, In c later -> hotstart_of first c.
Proof. exact @thm_series. Qed.
Print Assumptions C83_series.
(** Runs of the example with each solver, with several QPs. *)
Example C83_example : forall qs, runSolver (ex_orc qs) no_rand (ex_o qs) = Ok (SUCCESSFUL_RETURN, ex_done (ex_orc qs) (ex_o qs)) /\
  started (ex_o qs) (ex_done (ex_orc qs) (ex_o qs)) /\ (3 < length (s_calls (it (ex_done (ex_orc qs) (ex_o qs)))))%nat.
Proof. intros qs. split; [exact (ex_runs qs)|]. split; [exact (ex_started qs)|]. destruct qs; vm_compute; lia. Qed.
