(** * ExamplesSolvers: the example of Properties_Solvers.v (no LCQPow code). *)
From Coq Require Import QArith Qcanon.
From Verif Require Import Base Arith Codes Utilities Options Stats FileIO Subsolver State LCQProblem Loops SpecSparse SpecLoad SpecSolvers Examples ExamplesExact.
Open Scope Z_scope.

Lemma exq_boxless : same_solutions 2 3 (exq_orc QPOASES_SPARSE) (exq_orc OSQP_SPARSE).
Proof.
  intros h h' F.
  assert (G : match h' with [] => [] | c :: _ => qc_g c end = match h with [] => [] | c :: _ => qc_g c end) by (destruct F as [|c d h h' B F]; [reflexivity|apply B]).
  constructor; unfold exq_orc; cbv zeta; rewrite ?G; cbn [q_ret q_status q_iter q_work q_wsx_fails q_x q_y].
  - split; [intros _; split; [reflexivity|lia]|reflexivity].
  - reflexivity.
  - reflexivity.
  - reflexivity.
  - reflexivity.
  - intros i Hi. rewrite (proj2 (Z.ltb_lt i 3)) by lia. reflexivity.
  - intros i Hi. rewrite (Z.add_comm i 2). reflexivity.
Qed.
