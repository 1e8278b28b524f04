(** * Properties_Stats: what an OutputStatistics object shows. *)
From Coq Require Import String QArith Qcanon.
From Verif Require Import Base Arith Codes Stats StatGetters Loops Spec SpecStats StatsFacts ExamplesStats.
Open Scope Z_scope.

(** ** C77: an OutputStatistics object shows exactly what was recorded in it since the last reset

    Counts are the sums of the non-negative increments, penalty parameter, status and exit flag are the ones given last, and each list
    has one entry per recorded step, oldest first (the accumulated iterations are the running sums).  The return code of each call
    says whether it was accepted.  For every sequence of calls on a new object, in every arithmetic. *)
Theorem C77_history : forall T (A : Arith T) (h : list (scall T)) rs s, len h <= INT_MAX -> do_calls h stats_reset = Ok (rs, s) ->
  rs = map code_of h /\ shows s (since_reset h).
Proof. exact @p_C77_history. Qed.
Print Assumptions C77_history.
(** No call sequence has undefined behaviour as long as the counts stay within int. *)
Theorem C77_defined : forall T (A : Arith T) (h : list (scall T)), added weight h <= INT_MAX -> exists r, do_calls h stats_reset = Ok r.
Proof. exact @p_C77_defined. Qed.
Print Assumptions C77_defined.
(** A refused call changes nothing. *)
Theorem C77_refused : forall T (A : Arith T) (c : scall T) s r s', do_call c s = Ok (r, s') -> r <> SUCCESSFUL_RETURN -> s' = s.
Proof. exact @p_C77_refused. Qed.
Print Assumptions C77_refused.
(** Assigning the object to another one, as getOutputStatistics does, shows the same. *)
Theorem C77_assign : forall T (A : Arith T) (s : stats T) l, shows s l -> shows (stats_assign s) l.
Proof. exact @p_C77_assign. Qed.
Print Assumptions C77_assign.
(** For any object, also one returned by a run, the array getters deliver the same numbers as the vector getters. *)
Theorem C77_forms : forall T (A : Arith T) (s : stats T),
  (len (getInnerItersStdVec s) <= INT_MAX -> delivers (getInnerIters s) (getInnerItersStdVec s) (getInnerItersStdVec s)) /\
  (len (getSubproblemItersStdVec s) <= INT_MAX -> delivers (getSubproblemIters s) (getSubproblemItersStdVec s) (getSubproblemItersStdVec s)) /\
  (len (getAccuSubproblemItersStdVec s) <= INT_MAX -> delivers (getAccuSubproblemIters s) (getAccuSubproblemItersStdVec s) (getAccuSubproblemItersStdVec s)) /\
  (len (getStepLengthStdVec s) <= INT_MAX -> delivers (getStepLength s) (getStepLengthStdVec s) (getStepLengthStdVec s)) /\
  (len (getStepSizeStdVec s) <= INT_MAX -> delivers (getStepSize s) (getStepSizeStdVec s) (getStepSizeStdVec s)) /\
  (len (getStatValsStdVec s) <= INT_MAX -> delivers (getStatVals s) (getStatValsStdVec s) (getStatValsStdVec s)) /\
  (len (getObjValsStdVec s) <= INT_MAX -> delivers (getObjVals s) (getObjValsStdVec s) (getObjValsStdVec s)) /\
  (len (getPhiValsStdVec s) <= INT_MAX -> delivers (getPhiVals s) (getPhiValsStdVec s) (getPhiValsStdVec s)) /\
  (len (getMeritValsStdVec s) <= INT_MAX -> delivers (getMeritVals s) (getMeritValsStdVec s) (getMeritValsStdVec s)).
Proof. exact p_C77_forms. Qed.
Print Assumptions C77_forms.
(** The Python methods show the same values as the C++ getters of that name; the recorded points are not available there. *)
Theorem C77_python : forall T (A : Arith T) (s : stats T) l, shows s l ->
  py_get "getIterTotal" s = Some (PyInt (added (fun c => match c with CTotal d => Z.max 0 d | _ => 0 end) l)) /\
  py_get "getIterOuter" s = Some (PyInt (added (fun c => match c with COuter d => Z.max 0 d | _ => 0 end) l)) /\
  py_get "getSubproblemIter" s = Some (PyInt (added (fun c => match c with CSub d => Z.max 0 d | _ => 0 end) l)) /\
  py_get "getRhoOpt" s = Some (PyFloat (given_last (fun c => match c with CRho r => if a_le r a_zero then None else Some r | _ => None end) a_zero l)) /\
  py_get "getSolutionStatus" s = Some (PyStatus (given_last (fun c => match c with CStatus a => Some a | _ => None end) PROBLEM_NOT_SOLVED l)) /\
  py_get "getQPSolverExitFlag" s = Some (PyInt (given_last (fun c => match c with CFlag f => Some f | _ => None end) 0 l)) /\
  py_get "getInnerIters" s = Some (PyInts (map si_inner (steps l))) /\
  py_get "getSubproblemIters" s = Some (PyInts (map si_sub (steps l))) /\
  py_get "getAccuSubproblemIters" s = Some (PyInts (prefix_sums 0 (map si_sub (steps l)))) /\
  py_get "getStepLength" s = Some (PyFloats (map si_length (steps l))) /\
  py_get "getStepSize" s = Some (PyFloats (map si_size (steps l))) /\
  py_get "getStatVals" s = Some (PyFloats (map si_stat (steps l))) /\
  py_get "getObjVals" s = Some (PyFloats (map si_obj (steps l))) /\
  py_get "getPhiVals" s = Some (PyFloats (map si_phi (steps l))) /\
  py_get "getMeritVals" s = Some (PyFloats (map si_merit (steps l))) /\
  py_get "getxSteps" s = None.
Proof. exact @p_C77_python. Qed.
Print Assumptions C77_python.

Example C77_example : added weight exs_calls <= INT_MAX /\ len exs_calls <= INT_MAX /\ len (since_reset exs_calls) = 8 /\
  map code_of exs_calls <> repeat SUCCESSFUL_RETURN 10 /\ len (steps (since_reset exs_calls)) = 2 /\
  (exists rs s, do_calls exs_calls stats_reset = Ok (rs, s) /\ shows s (since_reset exs_calls) /\ getIterTotal s = 2 /\ getAccuSubproblemItersStdVec s = [4; 10]) /\
  (exists r, do_call (CTotal (-1)) (@stats_reset xq _) = Ok (r, stats_reset) /\ r <> SUCCESSFUL_RETURN).
Proof.
  split; [vm_compute; discriminate|]. split; [vm_compute; discriminate|]. split; [reflexivity|]. split; [discriminate|]. split; [reflexivity|]. split.
  - destruct (C77_defined xq _ exs_calls) as ([rs s] & E); [vm_compute; discriminate|]. exists rs, s. split; [exact E|].
    apply C77_history in E; [|vm_compute; discriminate]. destruct E as [_ E]. split; [exact E|]. split.
    + rewrite (sh_total _ _ E). reflexivity.
    + rewrite (proj1 (sh_accu _ _ E)). reflexivity.
  - exists INVALID_TOTAL_ITER_COUNT. split; [reflexivity|discriminate].
Qed.
