(** * Stats: model of src/OutputStatistics.cpp. *)
From Verif Require Import Base Arith Codes.

Section Stats.
Context {T : Type} `{Arith T}.

Local Set Primitive Projections.
(** Members of class OutputStatistics, include/OutputStatistics.hpp:209-226 *)
Record stats : Type := mkStats {
  st_iterTotal : Z;
  st_iterOuter : Z;
  st_subproblemIter : Z;
  st_rhoOpt : T;
  st_status : AlgorithmStatus;
  st_exit_flag : Z;
  st_xSteps : list (list T);
  st_innerIters : list Z;
  st_subproblemIters : list Z;
  st_accuSubproblemIters : list Z;
  st_stepLength : list T;
  st_stepSize : list T;
  st_statVals : list T;
  st_objVals : list T;
  st_phiVals : list T;
  st_meritVals : list T }.

(** Constructor with the member initialisers, src/OutputStatistics.cpp:28, and [reset], src/OutputStatistics.cpp:56-78 *)
Definition stats_reset : stats :=
  mkStats 0 0 0 a_zero PROBLEM_NOT_SOLVED 0 [] [] [] [] [] [] [] [] [] [].

(** [updateIterTotal], src/OutputStatistics.cpp:81-87 *)
Definition updateIterTotal (delta : Z) (s : stats) : res (ReturnValue * stats) :=
  if delta <? 0 then Ok (INVALID_TOTAL_ITER_COUNT, s) else
  let! v := chk_int (st_iterTotal s + delta) in
  Ok (SUCCESSFUL_RETURN,
      mkStats v (st_iterOuter s) (st_subproblemIter s) (st_rhoOpt s) (st_status s) (st_exit_flag s)
        (st_xSteps s) (st_innerIters s) (st_subproblemIters s) (st_accuSubproblemIters s) (st_stepLength s)
        (st_stepSize s) (st_statVals s) (st_objVals s) (st_phiVals s) (st_meritVals s)).

(** [updateIterOuter], src/OutputStatistics.cpp:90-96 *)
Definition updateIterOuter (delta : Z) (s : stats) : res (ReturnValue * stats) :=
  if delta <? 0 then Ok (INVALID_TOTAL_OUTER_ITER, s) else
  let! v := chk_int (st_iterOuter s + delta) in
  Ok (SUCCESSFUL_RETURN,
      mkStats (st_iterTotal s) v (st_subproblemIter s) (st_rhoOpt s) (st_status s) (st_exit_flag s)
        (st_xSteps s) (st_innerIters s) (st_subproblemIters s) (st_accuSubproblemIters s) (st_stepLength s)
        (st_stepSize s) (st_statVals s) (st_objVals s) (st_phiVals s) (st_meritVals s)).

(** [updateSubproblemIter], src/OutputStatistics.cpp:99-105 *)
Definition updateSubproblemIter (delta : Z) (s : stats) : res (ReturnValue * stats) :=
  if delta <? 0 then Ok (IVALID_SUBPROBLEM_ITER, s) else
  let! v := chk_int (st_subproblemIter s + delta) in
  Ok (SUCCESSFUL_RETURN,
      mkStats (st_iterTotal s) (st_iterOuter s) v (st_rhoOpt s) (st_status s) (st_exit_flag s)
        (st_xSteps s) (st_innerIters s) (st_subproblemIters s) (st_accuSubproblemIters s) (st_stepLength s)
        (st_stepSize s) (st_statVals s) (st_objVals s) (st_phiVals s) (st_meritVals s)).

(** [updateRhoOpt], src/OutputStatistics.cpp:108-114 *)
Definition updateRhoOpt (rho : T) (s : stats) : ReturnValue * stats :=
  if a_le rho a_zero then (INVALID_RHO_OPT, s) else
  (SUCCESSFUL_RETURN,
   mkStats (st_iterTotal s) (st_iterOuter s) (st_subproblemIter s) rho (st_status s) (st_exit_flag s)
     (st_xSteps s) (st_innerIters s) (st_subproblemIters s) (st_accuSubproblemIters s) (st_stepLength s)
     (st_stepSize s) (st_statVals s) (st_objVals s) (st_phiVals s) (st_meritVals s)).

(** [updateSolutionStatus], src/OutputStatistics.cpp:117-121 *)
Definition updateSolutionStatus (a : AlgorithmStatus) (s : stats) : stats :=
  mkStats (st_iterTotal s) (st_iterOuter s) (st_subproblemIter s) (st_rhoOpt s) a (st_exit_flag s)
    (st_xSteps s) (st_innerIters s) (st_subproblemIters s) (st_accuSubproblemIters s) (st_stepLength s)
    (st_stepSize s) (st_statVals s) (st_objVals s) (st_phiVals s) (st_meritVals s).

(** [updateQPSolverExitFlag], src/OutputStatistics.cpp:124-128 *)
Definition updateQPSolverExitFlag (f : Z) (s : stats) : stats :=
  mkStats (st_iterTotal s) (st_iterOuter s) (st_subproblemIter s) (st_rhoOpt s) (st_status s) f
    (st_xSteps s) (st_innerIters s) (st_subproblemIters s) (st_accuSubproblemIters s) (st_stepLength s)
    (st_stepSize s) (st_statVals s) (st_objVals s) (st_phiVals s) (st_meritVals s).

(** [updateTrackingVectors], src/OutputStatistics.cpp:131-164 *)
Definition updateTrackingVectors (thisxSteps : ptr T) (thisInnerIter thisSubproblemIter : Z)
    (thisStepLength thisStepSize statVal objVal phiVal meritVal : T) (nV : Z) (s : stats) : res stats :=
  let! xkStored := for_ 0 nV (fun i xs => let! a := deref thisxSteps in let! v := rd a i in Ok (xs ++ [v])) [] in
  let! accu :=
    match st_accuSubproblemIters s with
    | [] => Ok thisSubproblemIter
    | l => chk_int (last l 0 + thisSubproblemIter)
    end in
  Ok (mkStats (st_iterTotal s) (st_iterOuter s) (st_subproblemIter s) (st_rhoOpt s) (st_status s) (st_exit_flag s)
        (st_xSteps s ++ [xkStored]) (st_innerIters s ++ [thisInnerIter])
        (st_subproblemIters s ++ [thisSubproblemIter]) (st_accuSubproblemIters s ++ [accu])
        (st_stepLength s ++ [thisStepLength]) (st_stepSize s ++ [thisStepSize]) (st_statVals s ++ [statVal])
        (st_objVals s ++ [objVal]) (st_phiVals s ++ [phiVal]) (st_meritVals s ++ [meritVal])).

(** [operator=], src/OutputStatistics.cpp:31-53 *)
Definition stats_assign (rhs : stats) : stats :=
  mkStats (st_iterTotal rhs) (st_iterOuter rhs) (st_subproblemIter rhs) (st_rhoOpt rhs) (st_status rhs)
    (st_exit_flag rhs) (st_xSteps rhs) (st_innerIters rhs) (st_subproblemIters rhs) (st_accuSubproblemIters rhs)
    (st_stepLength rhs) (st_stepSize rhs) (st_statVals rhs) (st_objVals rhs) (st_phiVals rhs) (st_meritVals rhs).

(** The array getters ([getInnerIters] ... [getMeritVals]), src/OutputStatistics.cpp:203-369: NULL if empty, otherwise a
    fresh array with the elements *)
Definition vec_getter {X} (v : list X) : option (arr X) :=
  match v with [] => None | _ => Some (lift v) end.

End Stats.
Arguments stats T : clear implicits.
