(** * SpecLife: any sequence of calls on one object (specification, not LCQPow code). *)
From Verif Require Import Base Arith Codes Utilities Options Stats FileIO Subsolver State LCQProblem.

Section Life.
Context {T : Type} `{Arith T}.

(** A call on an object, with its arguments.  No LCQPow code. *)
Inductive call : Type :=
| KOptions (opt : options T)
| KLoad (Q g L R lbL ubL lbR ubR A lbA ubA lb ub x0 y0 : ptr T)
| KLoadSparse (Q : option (csc T)) (g : ptr T) (L R : option (csc T)) (lbL ubL lbR ubR : ptr T) (A : option (csc T)) (lbA ubA lb ub x0 y0 : ptr T)
| KLoadFiles (Q g L R : file (T := T)) (lbL ubL lbR ubR A lbA ubA lb ub x0 y0 : option (file (T := T)))
| KToSparse
| KToDense
| KRun.

(** What the call returns (setOptions returns nothing, shown as success) and the object afterwards.  No LCQPow code. *)
Definition perform (orc : oracle T) (rand : nat -> Z) (c : call) (o : lcqp T) : res (ReturnValue * lcqp T) :=
  match c with
  | KOptions opt => Ok (SUCCESSFUL_RETURN, setOptions opt o)
  | KLoad Q g L R lbL ubL lbR ubR A lbA ubA lb ub x0 y0 => loadLCQP Q g L R lbL ubL lbR ubR A lbA ubA lb ub x0 y0 o
  | KLoadSparse Q g L R lbL ubL lbR ubR A lbA ubA lb ub x0 y0 => loadLCQP_csc Q g L R lbL ubL lbR ubR A lbA ubA lb ub x0 y0 o
  | KLoadFiles Q g L R lbL ubL lbR ubR A lbA ubA lb ub x0 y0 => loadLCQP_files Q g L R lbL ubL lbR ubR A lbA ubA lb ub x0 y0 o
  | KToSparse => switchToSparseMode o
  | KToDense => switchToDenseMode o
  | KRun => runSolver orc rand o
  end.

(** The return values of a sequence of calls, and the object afterwards.  No LCQPow code. *)
Fixpoint perform_all (orc : oracle T) (rand : nat -> Z) (l : list call) (o : lcqp T) : res (list ReturnValue * lcqp T) :=
  match l with
  | [] => Ok ([], o)
  | c :: l =>
      let! '(r, o) := perform orc rand c o in
      let! '(rs, o) := perform_all orc rand l o in
      Ok (r :: rs, o)
  end.

(** Options that differ at most in the print level and in whether steps are stored.  No LCQPow code. *)
Definition same_work (a b : options T) : Prop :=
  o_stationarityTolerance a = o_stationarityTolerance b /\ o_complementarityTolerance a = o_complementarityTolerance b /\
  o_initialPenaltyParameter a = o_initialPenaltyParameter b /\ o_penaltyUpdateFactor a = o_penaltyUpdateFactor b /\
  o_solveZeroPenaltyFirst a = o_solveZeroPenaltyFirst b /\ o_perturbStep a = o_perturbStep b /\ o_maxIterations a = o_maxIterations b /\
  o_maxPenaltyParameter a = o_maxPenaltyParameter b /\ o_nDynamicPenalty a = o_nDynamicPenalty b /\
  o_etaDynamicPenalty a = o_etaDynamicPenalty b /\ o_qpSolver a = o_qpSolver b.
(** Calls that differ at most in these two options.  No LCQPow code. *)
Definition same_call (a b : call) : Prop :=
  match a, b with KOptions x, KOptions y => same_work x y | _, _ => a = b end.
(** The options with all output switched off.  No LCQPow code. *)
Definition silent (a : options T) : options T :=
  mkOptions (o_stationarityTolerance a) (o_complementarityTolerance a) (o_initialPenaltyParameter a) (o_penaltyUpdateFactor a)
    (o_solveZeroPenaltyFirst a) (o_perturbStep a) (o_maxIterations a) (o_maxPenaltyParameter a) (o_nDynamicPenalty a)
    (o_etaDynamicPenalty a) PL_NONE false (o_qpSolver a).
(** The call with all output switched off.  No LCQPow code. *)
Definition silent_call (c : call) : call := match c with KOptions a => KOptions (silent a) | _ => c end.

(** The counters, the final penalty, the status and the exit flag of the statistics.  No LCQPow code. *)
Definition summary (st : stats T) : Z * Z * Z * T * AlgorithmStatus * Z :=
  (st_iterTotal st, st_iterOuter st, st_subproblemIter st, st_rhoOpt st, st_status st, st_exit_flag st).
(** Two objects that no getter can tell apart, apart from the recorded steps.  No LCQPow code. *)
Definition same_results (a b : lcqp T) : Prop :=
  (forall buf, getPrimalSolution buf a = getPrimalSolution buf b) /\ (forall buf, getDualSolution buf a = getDualSolution buf b) /\
  getNumberOfPrimals a = getNumberOfPrimals b /\ getNumberOfDuals a = getNumberOfDuals b /\
  summary (getOutputStatistics a) = summary (getOutputStatistics b) /\ s_calls (it a) = s_calls (it b).

End Life.
Arguments call T : clear implicits.
