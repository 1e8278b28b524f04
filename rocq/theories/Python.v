(** * Python: model of the Python interface, interfaces/python/lcqpow.

    Only the functions written in LCQProblem.cpp and the table of return codes in Utilities.cpp are modelled; pybind11's conversion of Python objects to
    Eigen objects is not. *)
From Coq Require Import String.
From Verif Require Import Base Arith Codes Utilities Options Stats FileIO Subsolver State LCQProblem.
Local Open Scope string_scope.
Local Open Scope list_scope.
Local Open Scope Z_scope.

(** The exported return codes, interfaces/python/lcqpow/Utilities.cpp:14-56 *)
Definition py_return_values : list (string * ReturnValue) :=
  [ ("NOT_YET_IMPLEMENTED", NOT_YET_IMPLEMENTED);
    ("SUCCESSFUL_RETURN", SUCCESSFUL_RETURN);
    ("INVALID_ARGUMENT", INVALID_ARGUMENT);
    ("INVALID_PENALTY_UPDATE_VALUE", INVALID_PENALTY_UPDATE_VALUE);
    ("INVALID_COMPLEMENTARITY_TOLERANCE", INVALID_COMPLEMENTARITY_TOLERANCE);
    ("INVALID_INITIAL_PENALTY_VALUE", INVALID_INITIAL_PENALTY_VALUE);
    ("INVALID_MAX_ITERATIONS_VALUE", INVALID_MAX_ITERATIONS_VALUE);
    ("INVALID_STATIONARITY_TOLERANCE", INVALID_STATIONARITY_TOLERANCE);
    ("INVALID_NUMBER_OF_OPTIM_VARS", INVALID_NUMBER_OF_OPTIM_VARS);
    ("INVALID_NUMBER_OF_COMP_VARS ", INVALID_NUMBER_OF_COMP_VARS);
    ("INVALID_NUMBER_OF_CONSTRAINT_VARS", INVALID_NUMBER_OF_CONSTRAINT_VARS);
    ("INVALID_QPSOLVER", INVALID_QPSOLVER);
    ("INVALID_OSQP_BOX_CONSTRAINTS", INVALID_OSQP_BOX_CONSTRAINTS);
    ("INVALID_TOTAL_ITER_COUNT", INVALID_TOTAL_ITER_COUNT);
    ("INVALID_TOTAL_OUTER_ITER", INVALID_TOTAL_OUTER_ITER);
    ("IVALID_SUBPROBLEM_ITER", IVALID_SUBPROBLEM_ITER);
    ("INVALID_RHO_OPT", INVALID_RHO_OPT);
    ("INVALID_PRINT_LEVEL_VALUE", INVALID_PRINT_LEVEL_VALUE);
    ("INVALID_OBJECTIVE_LINEAR_TERM", INVALID_OBJECTIVE_LINEAR_TERM);
    ("INVALID_CONSTRAINT_MATRIX", INVALID_CONSTRAINT_MATRIX);
    ("INVALID_COMPLEMENTARITY_MATRIX", INVALID_COMPLEMENTARITY_MATRIX);
    ("INVALID_ETA_VALUE", INVALID_ETA_VALUE);
    ("OSQP_INITIAL_PRIMAL_GUESS_FAILED", OSQP_INITIAL_PRIMAL_GUESS_FAILED);
    ("OSQP_INITIAL_DUAL_GUESS_FAILED", OSQP_INITIAL_DUAL_GUESS_FAILED);
    ("INVALID_LOWER_COMPLEMENTARITY_BOUND", INVALID_LOWER_COMPLEMENTARITY_BOUND);
    ("INVALID_MAX_RHO_VALUE", INVALID_MAX_RHO_VALUE);
    ("MAX_ITERATIONS_REACHED", MAX_ITERATIONS_REACHED);
    ("MAX_PENALTY_REACHED", MAX_PENALTY_REACHED);
    ("INITIAL_SUBPROBLEM_FAILED", INITIAL_SUBPROBLEM_FAILED);
    ("SUBPROBLEM_SOLVER_ERROR", SUBPROBLEM_SOLVER_ERROR);
    ("FAILED_SYM_COMPLEMENTARITY_MATRIX", FAILED_SYM_COMPLEMENTARITY_MATRIX);
    ("FAILED_SWITCH_TO_SPARSE", FAILED_SWITCH_TO_SPARSE);
    ("FAILED_SWITCH_TO_DENSE", FAILED_SWITCH_TO_DENSE);
    ("OSQP_WORKSPACE_NOT_SET_UP", OSQP_WORKSPACE_NOT_SET_UP);
    ("LCQPOBJECT_NOT_SETUP", LCQPOBJECT_NOT_SETUP);
    ("INDEX_OUT_OF_BOUNDS ", INDEX_OUT_OF_BOUNDS);
    ("UNABLE_TO_READ_FILE ", UNABLE_TO_READ_FILE);
    ("INVALID_INDEX_POINTER ", INVALID_INDEX_POINTER);
    ("INVALID_INDEX_ARRAY ", INVALID_INDEX_ARRAY) ].

Section Python.
Context {T : Type} `{Arith T}.

(** Eigen::MatrixXd: sizes and entries, column by column (Eigen's default order).  Model of Eigen, no LCQPow code. *)
Record MatrixXd : Type := mkMatrixXd { m_rows : Z; m_cols : Z; m_data : list T }.

(** [getRawPtrFromEigenVectorXd], interfaces/python/lcqpow/LCQProblem.cpp:58-61 *)
Definition rawVector (v : list T) : ptr T := match v with [] => None | _ => Some (lift v) end.
(** [getRawPtrFromEigenMatrixXd], interfaces/python/lcqpow/LCQProblem.cpp:64-67 *)
Definition rawMatrix (M : MatrixXd) : ptr T := if (0 <? m_cols M) && (0 <? m_rows M) then Some (lift (m_data M)) else None.
(** [data()] of a matrix or vector, used at interfaces/python/lcqpow/LCQProblem.cpp:90: NULL for an object without entries *)
Definition data (l : list T) : ptr T := rawVector l.

(** The dense [loadLCQP], interfaces/python/lcqpow/LCQProblem.cpp:81-113 *)
Definition py_loadLCQP (Q : MatrixXd) (g : list T) (L R : MatrixXd) (lbL ubL lbR ubR : list T) (A : MatrixXd) (lbA ubA lb ub x0 y0 : list T) (o : lcqp T)
    : res (ReturnValue * lcqp T) :=
  loadLCQP (data (m_data Q)) (data g) (data (m_data L)) (data (m_data R)) (rawVector lbL) (rawVector ubL) (rawVector lbR) (rawVector ubR)
    (rawMatrix A) (rawVector lbA) (rawVector ubA) (rawVector lb) (rawVector ub) (rawVector x0) (rawVector y0) o.

(** Class cscWrapper with its constructors, interfaces/python/lcqpow/LCQProblem.cpp:22-34: [None] is the default constructor *)
Definition cscWrapper (a : option (Z * Z * Z * list T * list Z * list Z)) : option (csc T) :=
  match a with Some (m, n, nnx, x, i, p) => Some (createCSC m n nnx (lift x) (lift i) (lift p)) | None => None end.
(** The sparse [loadLCQP], interfaces/python/lcqpow/LCQProblem.cpp:114-146 *)
Definition py_loadLCQP_csc (Q : option (csc T)) (g : list T) (L R : option (csc T)) (lbL ubL lbR ubR : list T) (A : option (csc T)) (lbA ubA lb ub x0 y0 : list T)
    (o : lcqp T) : res (ReturnValue * lcqp T) :=
  loadLCQP_csc Q (data g) L R (rawVector lbL) (rawVector ubL) (rawVector lbR) (rawVector ubR) A (rawVector lbA) (rawVector ubA) (rawVector lb) (rawVector ub)
    (rawVector x0) (rawVector y0) o.

(** Eigen::VectorXd::Zero(n): asserts (undefined if assertions are off) that n is not negative *)
Definition vzero (n : Z) : res (arr T) := if n <? 0 then UB BadAlloc else alloc_init n a_zero.
(** [getPrimalSolution], interfaces/python/lcqpow/LCQProblem.cpp:163-167 *)
Definition py_getPrimalSolution (o : lcqp T) : res (ptr T) :=
  let! n := getNumberOfPrimals o in let! x := vzero n in let! '(_, x) := getPrimalSolution (Some x) o in Ok x.
(** [getDualSolution], interfaces/python/lcqpow/LCQProblem.cpp:168-172 *)
Definition py_getDualSolution (o : lcqp T) : res (ptr T) :=
  let! n := getNumberOfDuals o in let! y := vzero n in let! '(_, y) := getDualSolution (Some y) o in Ok y.
End Python.
Arguments MatrixXd T : clear implicits.
