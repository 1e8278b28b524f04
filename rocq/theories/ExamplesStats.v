(** * ExamplesStats: an example for Properties_Stats. *)
From Coq Require Import QArith Qcanon.
From Verif Require Import Base Arith Codes Stats StatGetters Loops Spec SpecStats.
Open Scope Z_scope.

(** A use with a reset, a refused count, a refused penalty parameter and two steps.  No LCQPow code. *)
Definition exs_calls : list (scall xq) :=
  [CTotal 5; CReset; CTotal 2; CTotal (-1); CRho (Fin (Q2Qc 0)); CRho (Fin (Q2Qc 4)); CStatus S_STATIONARY_SOLUTION; CFlag 3;
   CStep (mkStep [Fin (Q2Qc 1); Fin (Q2Qc 2)] 1 4 (Fin (Q2Qc 1)) (Fin (Q2Qc 1)) (Fin (Q2Qc 1)) (Fin (Q2Qc 1)) (Fin (Q2Qc 1)) (Fin (Q2Qc 1)));
   CStep (mkStep [Fin (Q2Qc 3); Fin (Q2Qc 4)] 2 6 (Fin (Q2Qc 1)) (Fin (Q2Qc 1)) (Fin (Q2Qc 1)) (Fin (Q2Qc 1)) (Fin (Q2Qc 1)) (Fin (Q2Qc 1)))].
