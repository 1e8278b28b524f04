(** * Codes: the enumerations of include/Utilities.hpp. *)
From Verif Require Import Base.

(** [enum ReturnValue], include/Utilities.hpp:37-87 *)
Inductive ReturnValue : Type :=
| NOT_YET_IMPLEMENTED
| SUCCESSFUL_RETURN
| INVALID_ARGUMENT
| INVALID_PENALTY_UPDATE_VALUE
| INVALID_COMPLEMENTARITY_TOLERANCE
| INVALID_INITIAL_PENALTY_VALUE
| INVALID_MAX_ITERATIONS_VALUE
| INVALID_STATIONARITY_TOLERANCE
| INVALID_NUMBER_OF_OPTIM_VARS
| INVALID_NUMBER_OF_COMP_VARS
| INVALID_NUMBER_OF_CONSTRAINT_VARS
| INVALID_QPSOLVER
| INVALID_OSQP_BOX_CONSTRAINTS
| INVALID_TOTAL_ITER_COUNT
| INVALID_TOTAL_OUTER_ITER
| IVALID_SUBPROBLEM_ITER
| INVALID_RHO_OPT
| INVALID_PRINT_LEVEL_VALUE
| INVALID_OBJECTIVE_LINEAR_TERM
| INVALID_CONSTRAINT_MATRIX
| INVALID_COMPLEMENTARITY_MATRIX
| INVALID_ETA_VALUE
| INVALID_LOWER_COMPLEMENTARITY_BOUND
| INVALID_MAX_RHO_VALUE
| MAX_ITERATIONS_REACHED
| MAX_PENALTY_REACHED
| INITIAL_SUBPROBLEM_FAILED
| SUBPROBLEM_SOLVER_ERROR
| FAILED_SYM_COMPLEMENTARITY_MATRIX
| FAILED_SWITCH_TO_SPARSE
| FAILED_SWITCH_TO_DENSE
| OSQP_WORKSPACE_NOT_SET_UP
| OSQP_INITIAL_PRIMAL_GUESS_FAILED
| OSQP_INITIAL_DUAL_GUESS_FAILED
| LCQPOBJECT_NOT_SETUP
| INDEX_OUT_OF_BOUNDS
| UNABLE_TO_READ_FILE
| INVALID_INDEX_POINTER
| INVALID_INDEX_ARRAY
| DENSE_SPARSE_MISSMATCH.

(** Numeric values, include/Utilities.hpp:39-86 *)
Definition rv_code (r : ReturnValue) : Z :=
  match r with
  | NOT_YET_IMPLEMENTED => -1
  | SUCCESSFUL_RETURN => 0
  | INVALID_ARGUMENT => 100
  | INVALID_PENALTY_UPDATE_VALUE => 101
  | INVALID_COMPLEMENTARITY_TOLERANCE => 102
  | INVALID_INITIAL_PENALTY_VALUE => 103
  | INVALID_MAX_ITERATIONS_VALUE => 104
  | INVALID_STATIONARITY_TOLERANCE => 105
  | INVALID_NUMBER_OF_OPTIM_VARS => 106
  | INVALID_NUMBER_OF_COMP_VARS => 107
  | INVALID_NUMBER_OF_CONSTRAINT_VARS => 108
  | INVALID_QPSOLVER => 109
  | INVALID_OSQP_BOX_CONSTRAINTS => 110
  | INVALID_TOTAL_ITER_COUNT => 111
  | INVALID_TOTAL_OUTER_ITER => 112
  | IVALID_SUBPROBLEM_ITER => 113
  | INVALID_RHO_OPT => 114
  | INVALID_PRINT_LEVEL_VALUE => 115
  | INVALID_OBJECTIVE_LINEAR_TERM => 116
  | INVALID_CONSTRAINT_MATRIX => 117
  | INVALID_COMPLEMENTARITY_MATRIX => 118
  | INVALID_ETA_VALUE => 119
  | INVALID_LOWER_COMPLEMENTARITY_BOUND => 120
  | INVALID_MAX_RHO_VALUE => 121
  | MAX_ITERATIONS_REACHED => 200
  | MAX_PENALTY_REACHED => 201
  | INITIAL_SUBPROBLEM_FAILED => 202
  | SUBPROBLEM_SOLVER_ERROR => 203
  | FAILED_SYM_COMPLEMENTARITY_MATRIX => 204
  | FAILED_SWITCH_TO_SPARSE => 205
  | FAILED_SWITCH_TO_DENSE => 206
  | OSQP_WORKSPACE_NOT_SET_UP => 207
  | OSQP_INITIAL_PRIMAL_GUESS_FAILED => 208
  | OSQP_INITIAL_DUAL_GUESS_FAILED => 209
  | LCQPOBJECT_NOT_SETUP => 300
  | INDEX_OUT_OF_BOUNDS => 301
  | UNABLE_TO_READ_FILE => 302
  | INVALID_INDEX_POINTER => 400
  | INVALID_INDEX_ARRAY => 401
  | DENSE_SPARSE_MISSMATCH => 402
  end.

(** [ret == SUCCESSFUL_RETURN] as tested throughout, e.g. src/LCQProblem.cpp:391 *)
Definition is_success (r : ReturnValue) : bool :=
  match r with SUCCESSFUL_RETURN => true | _ => false end.

(** [enum AlgorithmStatus], include/Utilities.hpp:103-109 *)
Inductive AlgorithmStatus : Type :=
| PROBLEM_NOT_SOLVED
| W_STATIONARY_SOLUTION
| C_STATIONARY_SOLUTION
| M_STATIONARY_SOLUTION
| S_STATIONARY_SOLUTION.

(** [enum PrintLevel], include/Utilities.hpp:115-119 *)
Inductive PrintLevel : Type := PL_NONE | OUTER_LOOP_ITERATES | INNER_LOOP_ITERATES.
(** Values of the enumerators, include/Utilities.hpp:115-119 *)
Definition pl_code (p : PrintLevel) : Z :=
  match p with PL_NONE => 0 | OUTER_LOOP_ITERATES => 1 | INNER_LOOP_ITERATES => 2 end.

(** [enum QPSolver], include/Utilities.hpp:125-129 *)
Inductive QPSolver : Type := QPOASES_DENSE | QPOASES_SPARSE | OSQP_SPARSE.
(** Values of the enumerators, include/Utilities.hpp:125-129 *)
Definition qs_code (q : QPSolver) : Z :=
  match q with QPOASES_DENSE => 0 | QPOASES_SPARSE => 1 | OSQP_SPARSE => 2 end.

(** What the library prints (the layout of the text is abstracted): PrintMessage and PrintSolution of src/MessageHandler.cpp, the newline of
    initializeSolver (src/LCQProblem.cpp:1030-1031), printHeader (src/LCQProblem.cpp:1579-1608) and the lines of printIteration
    (src/LCQProblem.cpp:1544-1575): outer iterate, stationarity, complementarity, penalty and step norm, and at level INNER_LOOP_ITERATES
    also inner iterate, step length and QP iterations *)
Inductive print_event (T : Type) : Type :=
| EvMessage (r : ReturnValue)
| EvSolution (s : AlgorithmStatus)
| EvNewline
| EvHeader
| EvIter (outer : Z) (stat compl rho step : T) (more : option (Z * T * Z)).
Arguments EvMessage {T} r.
Arguments EvSolution {T} s.
Arguments EvNewline {T}.
Arguments EvHeader {T}.
Arguments EvIter {T} outer stat compl rho step more.
