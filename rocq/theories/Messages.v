(** * Messages: model of MessageHandler, src/MessageHandler.cpp.

    A call is modelled by the text it prints and the value it returns; fflush is not modelled. *)
From Coq Require Import String Ascii.
From Verif Require Import Base Codes.
Local Open Scope string_scope.

(** A text ended by the newline escape of a C format string.  No LCQPow code. *)
Definition line (s : string) : string := s ++ String (ascii_of_nat 10) "".

(** [enum MessageType], include/Utilities.hpp:93-97 *)
Inductive MessageType : Type := MESSAGE | WARNING | ERROR.

(** The first switch of PrintMessage, src/MessageHandler.cpp:31-45 *)
Definition type_text (t : MessageType) : string := match t with MESSAGE => "" | WARNING => "WARNING: " | ERROR => "ERROR: " end.

(** The second switch of PrintMessage, src/MessageHandler.cpp:47-206 *)
Definition message_text (r : ReturnValue) : string :=
  match r with
  | SUCCESSFUL_RETURN => ""
  | NOT_YET_IMPLEMENTED => line "This method has not yet been implemented."
  | LCQPOBJECT_NOT_SETUP => line "The LCQP object has not been set up correctly."
  | INDEX_OUT_OF_BOUNDS => line "Index out of bounds."
  | SUBPROBLEM_SOLVER_ERROR => line "The subproblem solver produced an error."
  | UNABLE_TO_READ_FILE => line "Unable to read file."
  | MAX_ITERATIONS_REACHED => line "Maximum number of iterations reached."
  | MAX_PENALTY_REACHED => line "Maxium penalty value reached."
  | INITIAL_SUBPROBLEM_FAILED => line "Failed to solve initial QP."
  | INVALID_ARGUMENT => line "Invalid argument passed."
  | INVALID_NUMBER_OF_OPTIM_VARS => line "Invalid optimization variable dimension passed (required to be > 0)."
  | INVALID_NUMBER_OF_COMP_VARS => line "Invalid complementarity dimension passed (required to be > 0)."
  | INVALID_NUMBER_OF_CONSTRAINT_VARS => line "Invalid number of optimization variables passed (required to be >= 0)."
  | INVALID_QPSOLVER => line "Invalid QPSolver passed."
  | INVALID_COMPLEMENTARITY_TOLERANCE => line "Ignoring invalid complementarity tolerance."
  | INVALID_INITIAL_PENALTY_VALUE => line "Invalid argument passed (initial penalty value)."
  | INVALID_PENALTY_UPDATE_VALUE => line "Ignoring invalid penalty update value."
  | INVALID_MAX_ITERATIONS_VALUE => line "Ignoring invalid number of maximum iterations."
  | INVALID_MAX_RHO_VALUE => line "Ignoring invalid number of maximum penalty value."
  | DENSE_SPARSE_MISSMATCH => line "The solver was initialized with dense (sparse) matrices but a sparse (dense) method was chosen."
  | INVALID_STATIONARITY_TOLERANCE => line "Ignoring invalid stationarity tolerance."
  | INVALID_INDEX_POINTER => line "Invalid index pointer passed in csc format."
  | INVALID_INDEX_ARRAY => line "Invalid index array passed in csc format."
  | INVALID_OSQP_BOX_CONSTRAINTS => line "Invalid constraints passed to OSQP solver: This solver does not handle box constraints, please pass them through linear constraints."
  | INVALID_TOTAL_ITER_COUNT => line "Invalid total number of iterations delta passed to output statistics (must be non-negative integer)."
  | INVALID_TOTAL_OUTER_ITER => line "Invalid total number of outer iterations delta passed to output statistics (must be non-negative integer)."
  | IVALID_SUBPROBLEM_ITER => line "Invalid total number of subproblem solver iterates delta passed to output statistics (must be non-negative integer)."
  | INVALID_RHO_OPT => line "Invalid rho value at solution passed to output statistics (must be positive double)."
  | INVALID_PRINT_LEVEL_VALUE => line "Ignoring invalid integer to be parsed to print level passed (must be in range of enum)."
  | INVALID_OBJECTIVE_LINEAR_TERM => line "Invalid objective linear term passed (must be a double array of length n)."
  | INVALID_CONSTRAINT_MATRIX => line "Invalid constraint matrix passed (matrix was null pointer but number of constraints is positive)."
  | INVALID_COMPLEMENTARITY_MATRIX => line "Invalid complementarity matrix passed (can not be null pointer)."
  | INVALID_ETA_VALUE => "Invalid etaDynamicPenalty value, which describes the fraction of loss required for complementarity progress (must be in (0,1))."
  | OSQP_INITIAL_PRIMAL_GUESS_FAILED => line "OSQP failed to use the primal initial guess."
  | OSQP_INITIAL_DUAL_GUESS_FAILED => line "OSQP failed to use the dual initial guess."
  | INVALID_LOWER_COMPLEMENTARITY_BOUND => line "Lower complementarity bound must be bounded below."
  | FAILED_SYM_COMPLEMENTARITY_MATRIX => line "Failed to compute the symmetric complementarity matrix C."
  | FAILED_SWITCH_TO_SPARSE => line "Failed to switch to sparse mode (a to be created sparse matrix was nullpointer)."
  | FAILED_SWITCH_TO_DENSE => line "Failed to switch to dense mode (an array to be created was nullpointer)."
  | OSQP_WORKSPACE_NOT_SET_UP => line "OSQP Workspace is not set up (please check for OSQP errors)."
  end.

(** [MessageHandler::PrintMessage], src/MessageHandler.cpp:28-211 *)
Definition PrintMessage (r : ReturnValue) (t : MessageType) : string * ReturnValue := (type_text t ++ message_text r, r).

(** The switch of PrintSolution, src/MessageHandler.cpp:219-239 *)
Definition solution_text (s : AlgorithmStatus) : string :=
  match s with
  | PROBLEM_NOT_SOLVED => line "The LCQP has not been solved."
  | W_STATIONARY_SOLUTION => line "## W-Stationary solution found ##"
  | C_STATIONARY_SOLUTION => line "## C-Stationary solution found ##"
  | M_STATIONARY_SOLUTION => line "## M-Stationary solution found ##"
  | S_STATIONARY_SOLUTION => line "## S-Stationary solution found ##"
  end.
(** [MessageHandler::PrintSolution], src/MessageHandler.cpp:214-245 *)
Definition PrintSolution (s : AlgorithmStatus) : string * AlgorithmStatus :=
  (match s with
   | PROBLEM_NOT_SOLVED => solution_text s
   | _ => line "" ++ line "" ++ line "#################################" ++ solution_text s ++ line "#################################" ++ line ""
   end, s).

(** Name of the enumerators of ReturnValue as written in include/Utilities.hpp:39-86.  Used to compare with other tables. *)
Definition cpp_name (r : ReturnValue) : string :=
  match r with
  | NOT_YET_IMPLEMENTED => "NOT_YET_IMPLEMENTED"
  | SUCCESSFUL_RETURN => "SUCCESSFUL_RETURN"
  | INVALID_ARGUMENT => "INVALID_ARGUMENT"
  | INVALID_PENALTY_UPDATE_VALUE => "INVALID_PENALTY_UPDATE_VALUE"
  | INVALID_COMPLEMENTARITY_TOLERANCE => "INVALID_COMPLEMENTARITY_TOLERANCE"
  | INVALID_INITIAL_PENALTY_VALUE => "INVALID_INITIAL_PENALTY_VALUE"
  | INVALID_MAX_ITERATIONS_VALUE => "INVALID_MAX_ITERATIONS_VALUE"
  | INVALID_STATIONARITY_TOLERANCE => "INVALID_STATIONARITY_TOLERANCE"
  | INVALID_NUMBER_OF_OPTIM_VARS => "INVALID_NUMBER_OF_OPTIM_VARS"
  | INVALID_NUMBER_OF_COMP_VARS => "INVALID_NUMBER_OF_COMP_VARS"
  | INVALID_NUMBER_OF_CONSTRAINT_VARS => "INVALID_NUMBER_OF_CONSTRAINT_VARS"
  | INVALID_QPSOLVER => "INVALID_QPSOLVER"
  | INVALID_OSQP_BOX_CONSTRAINTS => "INVALID_OSQP_BOX_CONSTRAINTS"
  | INVALID_TOTAL_ITER_COUNT => "INVALID_TOTAL_ITER_COUNT"
  | INVALID_TOTAL_OUTER_ITER => "INVALID_TOTAL_OUTER_ITER"
  | IVALID_SUBPROBLEM_ITER => "IVALID_SUBPROBLEM_ITER"
  | INVALID_RHO_OPT => "INVALID_RHO_OPT"
  | INVALID_PRINT_LEVEL_VALUE => "INVALID_PRINT_LEVEL_VALUE"
  | INVALID_OBJECTIVE_LINEAR_TERM => "INVALID_OBJECTIVE_LINEAR_TERM"
  | INVALID_CONSTRAINT_MATRIX => "INVALID_CONSTRAINT_MATRIX"
  | INVALID_COMPLEMENTARITY_MATRIX => "INVALID_COMPLEMENTARITY_MATRIX"
  | INVALID_ETA_VALUE => "INVALID_ETA_VALUE"
  | INVALID_LOWER_COMPLEMENTARITY_BOUND => "INVALID_LOWER_COMPLEMENTARITY_BOUND"
  | INVALID_MAX_RHO_VALUE => "INVALID_MAX_RHO_VALUE"
  | MAX_ITERATIONS_REACHED => "MAX_ITERATIONS_REACHED"
  | MAX_PENALTY_REACHED => "MAX_PENALTY_REACHED"
  | INITIAL_SUBPROBLEM_FAILED => "INITIAL_SUBPROBLEM_FAILED"
  | SUBPROBLEM_SOLVER_ERROR => "SUBPROBLEM_SOLVER_ERROR"
  | FAILED_SYM_COMPLEMENTARITY_MATRIX => "FAILED_SYM_COMPLEMENTARITY_MATRIX"
  | FAILED_SWITCH_TO_SPARSE => "FAILED_SWITCH_TO_SPARSE"
  | FAILED_SWITCH_TO_DENSE => "FAILED_SWITCH_TO_DENSE"
  | OSQP_WORKSPACE_NOT_SET_UP => "OSQP_WORKSPACE_NOT_SET_UP"
  | OSQP_INITIAL_PRIMAL_GUESS_FAILED => "OSQP_INITIAL_PRIMAL_GUESS_FAILED"
  | OSQP_INITIAL_DUAL_GUESS_FAILED => "OSQP_INITIAL_DUAL_GUESS_FAILED"
  | LCQPOBJECT_NOT_SETUP => "LCQPOBJECT_NOT_SETUP"
  | INDEX_OUT_OF_BOUNDS => "INDEX_OUT_OF_BOUNDS"
  | UNABLE_TO_READ_FILE => "UNABLE_TO_READ_FILE"
  | INVALID_INDEX_POINTER => "INVALID_INDEX_POINTER"
  | INVALID_INDEX_ARRAY => "INVALID_INDEX_ARRAY"
  | DENSE_SPARSE_MISSMATCH => "DENSE_SPARSE_MISSMATCH"
  end.
