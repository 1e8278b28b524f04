(** * Properties_Count: one QP per iteration. *)
From Coq Require Import QArith Qcanon.
From Verif Require Import Base Arith Codes Utilities Options Stats FileIO Subsolver State LCQProblem SpecRun Spec Examples RunFacts ExamplesRun SpecCount CountFacts.
Open Scope Z_scope.

(** ** C82: a run solves exactly as many QPs as it reports iterations, and one more if that one failed

    [l] are the QPs passed to the QP solver in this run.  In every arithmetic and for every QP library, from any state of the object,
    so also for runs after other runs. *)
Theorem C82_one_qp_per_iteration : forall T (A : Arith T) (orc : oracle T) rand (o : lcqp T) r o', runSolver orc rand o = Ok (r, o') -> started o o' ->
  exists l, s_calls (it o') = l ++ s_calls (it o) /\ Z.of_nat (length l) = st_iterTotal (getOutputStatistics o') + failed_qps r.
Proof. exact @thm_count. Qed.
Print Assumptions C82_one_qp_per_iteration.
(** A successful run with OSQP of more than one iteration, and a run whose second QP fails. *)
Example C82_example :
  (runSolver (ex_orc OSQP_SPARSE) no_rand (ex_o OSQP_SPARSE) = Ok (SUCCESSFUL_RETURN, ex_done (ex_orc OSQP_SPARSE) (ex_o OSQP_SPARSE)) /\
   started (ex_o OSQP_SPARSE) (ex_done (ex_orc OSQP_SPARSE) (ex_o OSQP_SPARSE)) /\
   1 < st_iterTotal (getOutputStatistics (ex_done (ex_orc OSQP_SPARSE) (ex_o OSQP_SPARSE)))) /\
  (runSolver (failing 2 ex_oracle) no_rand (ex_o QPOASES_DENSE) = Ok (SUBPROBLEM_SOLVER_ERROR, ex_done (failing 2 ex_oracle) (ex_o QPOASES_DENSE)) /\
   started (ex_o QPOASES_DENSE) (ex_done (failing 2 ex_oracle) (ex_o QPOASES_DENSE)) /\
   st_iterTotal (getOutputStatistics (ex_done (failing 2 ex_oracle) (ex_o QPOASES_DENSE))) = 1 /\ failed_qps SUBPROBLEM_SOLVER_ERROR = 1).
Proof.
  split.
  - split; [exact (ex_runs OSQP_SPARSE)|]. split; [exact (ex_started OSQP_SPARSE)|]. vm_compute. reflexivity.
  - split; [vm_compute; reflexivity|]. split; [exact ex_fails_started|]. split; vm_compute; reflexivity.
Qed.
