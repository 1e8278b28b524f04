(** * Options: model of src/Options.cpp (the numeric and enumeration options).

    The qpOASES option object is copied verbatim by the code and the OSQP settings pointer is modelled in
    [OwnOptions.v]; both are left out here. *)
From Verif Require Import Base Arith Codes.

Section Opt.
Context {T : Type} `{Arith T}.

Local Set Primitive Projections.
(** Members of class Options, include/Options.hpp:192-213 *)
Record options : Type := mkOptions {
  o_stationarityTolerance : T;
  o_complementarityTolerance : T;
  o_initialPenaltyParameter : T;
  o_penaltyUpdateFactor : T;
  o_solveZeroPenaltyFirst : bool;
  o_perturbStep : bool;
  o_maxIterations : Z;
  o_maxPenaltyParameter : T;
  o_nDynamicPenalty : Z;
  o_etaDynamicPenalty : T;
  o_printLevel : PrintLevel;
  o_storeSteps : bool;
  o_qpSolver : QPSolver }.

(** [Options::setToDefault], src/Options.cpp:296-333 *)
Definition setToDefault : options :=
  {| o_complementarityTolerance := (a_lit 1 3 * EPS)%num;
     o_stationarityTolerance := (a_lit 1 6 * EPS)%num;
     o_initialPenaltyParameter := a_lit 1 (-2);
     o_penaltyUpdateFactor := a_of_Z 2;
     o_solveZeroPenaltyFirst := true;
     o_perturbStep := true;
     o_maxIterations := 1000;
     o_maxPenaltyParameter := a_lit 1 8;
     o_nDynamicPenalty := 3;
     o_etaDynamicPenalty := a_lit 9 (-1);
     o_printLevel := INNER_LOOP_ITERATES;
     o_storeSteps := false;
     o_qpSolver := QPOASES_DENSE |}.

(** [Options::setStationarityTolerance], src/Options.cpp:85-91 *)
Definition setStationarityTolerance (v : T) (o : options) : ReturnValue * options :=
  if a_le v EPS then (INVALID_STATIONARITY_TOLERANCE, o) else
  (SUCCESSFUL_RETURN,
   mkOptions v (o_complementarityTolerance o) (o_initialPenaltyParameter o) (o_penaltyUpdateFactor o)
     (o_solveZeroPenaltyFirst o) (o_perturbStep o) (o_maxIterations o) (o_maxPenaltyParameter o)
     (o_nDynamicPenalty o) (o_etaDynamicPenalty o) (o_printLevel o) (o_storeSteps o) (o_qpSolver o)).

(** [Options::setComplementarityTolerance], src/Options.cpp:99-105 *)
Definition setComplementarityTolerance (v : T) (o : options) : ReturnValue * options :=
  if a_le v EPS then (INVALID_COMPLEMENTARITY_TOLERANCE, o) else
  (SUCCESSFUL_RETURN,
   mkOptions (o_stationarityTolerance o) v (o_initialPenaltyParameter o) (o_penaltyUpdateFactor o)
     (o_solveZeroPenaltyFirst o) (o_perturbStep o) (o_maxIterations o) (o_maxPenaltyParameter o)
     (o_nDynamicPenalty o) (o_etaDynamicPenalty o) (o_printLevel o) (o_storeSteps o) (o_qpSolver o)).

(** [Options::setInitialPenaltyParameter], src/Options.cpp:113-119 *)
Definition setInitialPenaltyParameter (v : T) (o : options) : ReturnValue * options :=
  if a_le v ZERO then (INVALID_INITIAL_PENALTY_VALUE, o) else
  (SUCCESSFUL_RETURN,
   mkOptions (o_stationarityTolerance o) (o_complementarityTolerance o) v (o_penaltyUpdateFactor o)
     (o_solveZeroPenaltyFirst o) (o_perturbStep o) (o_maxIterations o) (o_maxPenaltyParameter o)
     (o_nDynamicPenalty o) (o_etaDynamicPenalty o) (o_printLevel o) (o_storeSteps o) (o_qpSolver o)).

(** [Options::setPenaltyUpdateFactor], src/Options.cpp:127-133 *)
Definition setPenaltyUpdateFactor (v : T) (o : options) : ReturnValue * options :=
  if a_le v a_one then (INVALID_PENALTY_UPDATE_VALUE, o) else
  (SUCCESSFUL_RETURN,
   mkOptions (o_stationarityTolerance o) (o_complementarityTolerance o) (o_initialPenaltyParameter o) v
     (o_solveZeroPenaltyFirst o) (o_perturbStep o) (o_maxIterations o) (o_maxPenaltyParameter o)
     (o_nDynamicPenalty o) (o_etaDynamicPenalty o) (o_printLevel o) (o_storeSteps o) (o_qpSolver o)).

(** [Options::setSolveZeroPenaltyFirst], src/Options.cpp:141-144 *)
Definition setSolveZeroPenaltyFirst (v : bool) (o : options) : ReturnValue * options :=
  (SUCCESSFUL_RETURN,
   mkOptions (o_stationarityTolerance o) (o_complementarityTolerance o) (o_initialPenaltyParameter o)
     (o_penaltyUpdateFactor o) v (o_perturbStep o) (o_maxIterations o) (o_maxPenaltyParameter o)
     (o_nDynamicPenalty o) (o_etaDynamicPenalty o) (o_printLevel o) (o_storeSteps o) (o_qpSolver o)).

(** [Options::setPerturbStep], src/Options.cpp:152-155 *)
Definition setPerturbStep (v : bool) (o : options) : ReturnValue * options :=
  (SUCCESSFUL_RETURN,
   mkOptions (o_stationarityTolerance o) (o_complementarityTolerance o) (o_initialPenaltyParameter o)
     (o_penaltyUpdateFactor o) (o_solveZeroPenaltyFirst o) v (o_maxIterations o) (o_maxPenaltyParameter o)
     (o_nDynamicPenalty o) (o_etaDynamicPenalty o) (o_printLevel o) (o_storeSteps o) (o_qpSolver o)).

(** [Options::setMaxIterations], src/Options.cpp:163-169 *)
Definition setMaxIterations (v : Z) (o : options) : ReturnValue * options :=
  if v <=? 0 then (INVALID_MAX_ITERATIONS_VALUE, o) else
  (SUCCESSFUL_RETURN,
   mkOptions (o_stationarityTolerance o) (o_complementarityTolerance o) (o_initialPenaltyParameter o)
     (o_penaltyUpdateFactor o) (o_solveZeroPenaltyFirst o) (o_perturbStep o) v (o_maxPenaltyParameter o)
     (o_nDynamicPenalty o) (o_etaDynamicPenalty o) (o_printLevel o) (o_storeSteps o) (o_qpSolver o)).

(** [Options::setMaxPenaltyParameter], src/Options.cpp:177-183 *)
Definition setMaxPenaltyParameter (v : T) (o : options) : ReturnValue * options :=
  if a_le v a_zero then (INVALID_MAX_RHO_VALUE, o) else
  (SUCCESSFUL_RETURN,
   mkOptions (o_stationarityTolerance o) (o_complementarityTolerance o) (o_initialPenaltyParameter o)
     (o_penaltyUpdateFactor o) (o_solveZeroPenaltyFirst o) (o_perturbStep o) (o_maxIterations o) v
     (o_nDynamicPenalty o) (o_etaDynamicPenalty o) (o_printLevel o) (o_storeSteps o) (o_qpSolver o)).

(** [Options::setNDynamicPenalty], src/Options.cpp:190-193 *)
Definition setNDynamicPenalty (v : Z) (o : options) : ReturnValue * options :=
  (SUCCESSFUL_RETURN,
   mkOptions (o_stationarityTolerance o) (o_complementarityTolerance o) (o_initialPenaltyParameter o)
     (o_penaltyUpdateFactor o) (o_solveZeroPenaltyFirst o) (o_perturbStep o) (o_maxIterations o)
     (o_maxPenaltyParameter o) v (o_etaDynamicPenalty o) (o_printLevel o) (o_storeSteps o) (o_qpSolver o)).

(** [Options::setEtaDynamicPenalty], src/Options.cpp:201-207 *)
Definition setEtaDynamicPenalty (v : T) (o : options) : ReturnValue * options :=
  if a_le v EPS || a_le a_one v then (INVALID_ETA_VALUE, o) else
  (SUCCESSFUL_RETURN,
   mkOptions (o_stationarityTolerance o) (o_complementarityTolerance o) (o_initialPenaltyParameter o)
     (o_penaltyUpdateFactor o) (o_solveZeroPenaltyFirst o) (o_perturbStep o) (o_maxIterations o)
     (o_maxPenaltyParameter o) (o_nDynamicPenalty o) v (o_printLevel o) (o_storeSteps o) (o_qpSolver o)).

(** [Options::setPrintLevel(PrintLevel)], src/Options.cpp:215-218 *)
Definition setPrintLevel_enum (v : PrintLevel) (o : options) : ReturnValue * options :=
  (SUCCESSFUL_RETURN,
   mkOptions (o_stationarityTolerance o) (o_complementarityTolerance o) (o_initialPenaltyParameter o)
     (o_penaltyUpdateFactor o) (o_solveZeroPenaltyFirst o) (o_perturbStep o) (o_maxIterations o)
     (o_maxPenaltyParameter o) (o_nDynamicPenalty o) (o_etaDynamicPenalty o) v (o_storeSteps o) (o_qpSolver o)).

(** The cast [(PrintLevel)val] for a value in range, include/Utilities.hpp:115-119 *)
Definition pl_of_code (z : Z) : PrintLevel :=
  if z =? 0 then PL_NONE else if z =? 1 then OUTER_LOOP_ITERATES else INNER_LOOP_ITERATES.

(** [Options::setPrintLevel(int)], src/Options.cpp:221-228 *)
Definition setPrintLevel (v : Z) (o : options) : ReturnValue * options :=
  if (v <? pl_code PL_NONE) || (pl_code INNER_LOOP_ITERATES <? v) then (INVALID_PRINT_LEVEL_VALUE, o) else
  setPrintLevel_enum (pl_of_code v) o.

(** [Options::setStoreSteps], src/Options.cpp:236-239 *)
Definition setStoreSteps (v : bool) (o : options) : ReturnValue * options :=
  (SUCCESSFUL_RETURN,
   mkOptions (o_stationarityTolerance o) (o_complementarityTolerance o) (o_initialPenaltyParameter o)
     (o_penaltyUpdateFactor o) (o_solveZeroPenaltyFirst o) (o_perturbStep o) (o_maxIterations o)
     (o_maxPenaltyParameter o) (o_nDynamicPenalty o) (o_etaDynamicPenalty o) (o_printLevel o) v (o_qpSolver o)).

(** [Options::setQPSolver(QPSolver)], src/Options.cpp:247-250 *)
Definition setQPSolver_enum (v : QPSolver) (o : options) : ReturnValue * options :=
  (SUCCESSFUL_RETURN,
   mkOptions (o_stationarityTolerance o) (o_complementarityTolerance o) (o_initialPenaltyParameter o)
     (o_penaltyUpdateFactor o) (o_solveZeroPenaltyFirst o) (o_perturbStep o) (o_maxIterations o)
     (o_maxPenaltyParameter o) (o_nDynamicPenalty o) (o_etaDynamicPenalty o) (o_printLevel o) (o_storeSteps o) v).

(** The cast [(QPSolver)val] for a value in range, include/Utilities.hpp:125-129 *)
Definition qs_of_code (z : Z) : QPSolver :=
  if z =? 0 then QPOASES_DENSE else if z =? 1 then QPOASES_SPARSE else OSQP_SPARSE.

(** [Options::setQPSolver(int)], src/Options.cpp:253-259 *)
Definition setQPSolver (v : Z) (o : options) : ReturnValue * options :=
  if (v <? qs_code QPOASES_DENSE) || (qs_code OSQP_SPARSE <? v) then (INVALID_QPSOLVER, o) else
  setQPSolver_enum (qs_of_code v) o.

(** [Options::copy], src/Options.cpp:60-77 (the OSQP settings copy of line 76 is modelled in [OwnOptions.v]) *)
Definition copyOptions (rhs : options) : options :=
  {| o_stationarityTolerance := o_stationarityTolerance rhs;
     o_complementarityTolerance := o_complementarityTolerance rhs;
     o_initialPenaltyParameter := o_initialPenaltyParameter rhs;
     o_penaltyUpdateFactor := o_penaltyUpdateFactor rhs;
     o_solveZeroPenaltyFirst := o_solveZeroPenaltyFirst rhs;
     o_perturbStep := o_perturbStep rhs;
     o_maxIterations := o_maxIterations rhs;
     o_maxPenaltyParameter := o_maxPenaltyParameter rhs;
     o_nDynamicPenalty := o_nDynamicPenalty rhs;
     o_etaDynamicPenalty := o_etaDynamicPenalty rhs;
     o_printLevel := o_printLevel rhs;
     o_storeSteps := o_storeSteps rhs;
     o_qpSolver := o_qpSolver rhs |}.

End Opt.
Arguments options T : clear implicits.
