(** * StatGetters: model of the getters of src/OutputStatistics.cpp and of their Python names. *)
From Coq Require Import String.
From Verif Require Import Base Arith Codes Stats.
Local Open Scope string_scope.
Local Open Scope list_scope.
Local Open Scope Z_scope.

Section Getters.
Context {T : Type} `{Arith T}.

(** [getIterTotal], src/OutputStatistics.cpp:167-170 *)
Definition getIterTotal (s : stats T) : Z := st_iterTotal s.
(** [getIterOuter], src/OutputStatistics.cpp:173-176 *)
Definition getIterOuter (s : stats T) : Z := st_iterOuter s.
(** [getSubproblemIter], src/OutputStatistics.cpp:179-182 *)
Definition getSubproblemIter (s : stats T) : Z := st_subproblemIter s.
(** [getRhoOpt], src/OutputStatistics.cpp:185-188 *)
Definition getRhoOpt (s : stats T) : T := st_rhoOpt s.
(** [getSolutionStatus], src/OutputStatistics.cpp:191-194 *)
Definition getSolutionStatus (s : stats T) : AlgorithmStatus := st_status s.
(** [getQPSolverExitFlag], src/OutputStatistics.cpp:197-200 *)
Definition getQPSolverExitFlag (s : stats T) : Z := st_exit_flag s.

(** The common body of the array getters, src/OutputStatistics.cpp:205-212, 224-231, 242-249, 260-267, 279-286, 298-305, 317-324, 336-343,
    355-362: NULL for an empty vector, otherwise a new array filled in a loop.  Sizes up to INT_MAX; nobody frees the array here. *)
Definition vals_of {X} (v : list X) : res (ptr X) :=
  if Z.of_nat (length v) =? 0 then Ok None else
  let! vals := alloc (Z.of_nat (length v)) in
  let! vals := for_ 0 (Z.of_nat (length v)) (fun i vals => let! x := vrd v i in wr vals i x) vals in
  Ok (Some vals).
(** [getInnerIters], src/OutputStatistics.cpp:203-213 *)
Definition getInnerIters (s : stats T) : res (ptr Z) := vals_of (st_innerIters s).
(** [getInnerItersStdVec], src/OutputStatistics.cpp:216-219 *)
Definition getInnerItersStdVec (s : stats T) : list Z := st_innerIters s.
(** [getSubproblemIters], src/OutputStatistics.cpp:222-232 *)
Definition getSubproblemIters (s : stats T) : res (ptr Z) := vals_of (st_subproblemIters s).
(** [getSubproblemItersStdVec], src/OutputStatistics.cpp:234-237 *)
Definition getSubproblemItersStdVec (s : stats T) : list Z := st_subproblemIters s.
(** [getAccuSubproblemIters], src/OutputStatistics.cpp:240-250 *)
Definition getAccuSubproblemIters (s : stats T) : res (ptr Z) := vals_of (st_accuSubproblemIters s).
(** [getAccuSubproblemItersStdVec], src/OutputStatistics.cpp:252-255 *)
Definition getAccuSubproblemItersStdVec (s : stats T) : list Z := st_accuSubproblemIters s.
(** [getStepLength], src/OutputStatistics.cpp:258-268 *)
Definition getStepLength (s : stats T) : res (ptr T) := vals_of (st_stepLength s).
(** [getStepLengthStdVec], src/OutputStatistics.cpp:271-274 *)
Definition getStepLengthStdVec (s : stats T) : list T := st_stepLength s.
(** [getStepSize], src/OutputStatistics.cpp:277-287 *)
Definition getStepSize (s : stats T) : res (ptr T) := vals_of (st_stepSize s).
(** [getStepSizeStdVec], src/OutputStatistics.cpp:290-293 *)
Definition getStepSizeStdVec (s : stats T) : list T := st_stepSize s.
(** [getStatVals], src/OutputStatistics.cpp:296-306 *)
Definition getStatVals (s : stats T) : res (ptr T) := vals_of (st_statVals s).
(** [getStatValsStdVec], src/OutputStatistics.cpp:309-312 *)
Definition getStatValsStdVec (s : stats T) : list T := st_statVals s.
(** [getObjVals], src/OutputStatistics.cpp:315-325 *)
Definition getObjVals (s : stats T) : res (ptr T) := vals_of (st_objVals s).
(** [getObjValsStdVec], src/OutputStatistics.cpp:328-331 *)
Definition getObjValsStdVec (s : stats T) : list T := st_objVals s.
(** [getPhiVals], src/OutputStatistics.cpp:334-344 *)
Definition getPhiVals (s : stats T) : res (ptr T) := vals_of (st_phiVals s).
(** [getPhiValsStdVec], src/OutputStatistics.cpp:347-350 *)
Definition getPhiValsStdVec (s : stats T) : list T := st_phiVals s.
(** [getMeritVals], src/OutputStatistics.cpp:353-363 *)
Definition getMeritVals (s : stats T) : res (ptr T) := vals_of (st_meritVals s).
(** [getMeritValsStdVec], src/OutputStatistics.cpp:366-369 *)
Definition getMeritValsStdVec (s : stats T) : list T := st_meritVals s.
(** [getxStepsStdVec], src/OutputStatistics.cpp:372-375 *)
Definition getxStepsStdVec (s : stats T) : list (list T) := st_xSteps s.

(** A Python value as converted by pybind11 (int, float, enum, lists).  The conversion itself is not modelled. *)
Inductive py_value : Type := PyInt (z : Z) | PyFloat (x : T) | PyStatus (a : AlgorithmStatus) | PyInts (l : list Z) | PyFloats (l : list T).
(** The methods of the Python class OutputStatistics, interfaces/python/lcqpow/OutputStatistics.cpp:17-31 *)
Definition py_statistics : list (string * (stats T -> py_value)) :=
  [ ("getIterTotal", fun s => PyInt (getIterTotal s));
    ("getIterOuter", fun s => PyInt (getIterOuter s));
    ("getSubproblemIter", fun s => PyInt (getSubproblemIter s));
    ("getRhoOpt", fun s => PyFloat (getRhoOpt s));
    ("getSolutionStatus", fun s => PyStatus (getSolutionStatus s));
    ("getQPSolverExitFlag", fun s => PyInt (getQPSolverExitFlag s));
    ("getInnerIters", fun s => PyInts (getInnerItersStdVec s));
    ("getSubproblemIters", fun s => PyInts (getSubproblemItersStdVec s));
    ("getAccuSubproblemIters", fun s => PyInts (getAccuSubproblemItersStdVec s));
    ("getStepLength", fun s => PyFloats (getStepLengthStdVec s));
    ("getStepSize", fun s => PyFloats (getStepSizeStdVec s));
    ("getStatVals", fun s => PyFloats (getStatValsStdVec s));
    ("getObjVals", fun s => PyFloats (getObjValsStdVec s));
    ("getPhiVals", fun s => PyFloats (getPhiValsStdVec s));
    ("getMeritVals", fun s => PyFloats (getMeritValsStdVec s)) ].
End Getters.
Arguments py_value T : clear implicits.
