(** * SpecOptions: sequences of calls of option setters and the documented domains (specification, not LCQPow code). *)
From Verif Require Import Base Arith Codes Options OptionsGet.

(** The options a user can set.  No LCQPow code. *)
Inductive opt_field : Type :=
| FStat | FCompl | FRho0 | FBeta | FZeroFirst | FPerturb | FMaxIter | FMaxRho | FNDyn | FEta | FPrint | FStore | FSolver.
(** A call of a setter with its argument; print level and QP solver have an overload for int and one for the enumeration.  No LCQPow code. *)
Inductive setter (T : Type) : Type :=
| SStat (v : T) | SCompl (v : T) | SRho0 (v : T) | SBeta (v : T) | SZeroFirst (v : bool) | SPerturb (v : bool) | SMaxIter (v : Z) | SMaxRho (v : T)
| SNDyn (v : Z) | SEta (v : T) | SPrint (v : Z) | SPrintEnum (v : PrintLevel) | SStore (v : bool) | SSolver (v : Z) | SSolverEnum (v : QPSolver).
Arguments SStat {T} v. Arguments SCompl {T} v. Arguments SRho0 {T} v. Arguments SBeta {T} v. Arguments SZeroFirst {T} v. Arguments SPerturb {T} v.
Arguments SMaxIter {T} v. Arguments SMaxRho {T} v. Arguments SNDyn {T} v. Arguments SEta {T} v. Arguments SPrint {T} v. Arguments SPrintEnum {T} v.
Arguments SStore {T} v. Arguments SSolver {T} v. Arguments SSolverEnum {T} v.
(** Values of options; enumerators by their number.  No LCQPow code. *)
Inductive opt_value (T : Type) : Type := VNum (v : T) | VInt (v : Z) | VBool (v : bool).
Arguments VNum {T} v. Arguments VInt {T} v. Arguments VBool {T} v.

Section SpecOptions.
Context {T : Type} `{Arith T}.
(** The call.  No LCQPow code. *)
Definition call (s : setter T) (o : options T) : ReturnValue * options T :=
  match s with
  | SStat v => setStationarityTolerance v o | SCompl v => setComplementarityTolerance v o | SRho0 v => setInitialPenaltyParameter v o
  | SBeta v => setPenaltyUpdateFactor v o | SZeroFirst v => setSolveZeroPenaltyFirst v o | SPerturb v => setPerturbStep v o
  | SMaxIter v => setMaxIterations v o | SMaxRho v => setMaxPenaltyParameter v o | SNDyn v => setNDynamicPenalty v o
  | SEta v => setEtaDynamicPenalty v o | SPrint v => setPrintLevel v o | SPrintEnum v => setPrintLevel_enum v o
  | SStore v => setStoreSteps v o | SSolver v => setQPSolver v o | SSolverEnum v => setQPSolver_enum v o
  end.
(** A sequence of calls.  No LCQPow code. *)
Definition after (l : list (setter T)) (o : options T) : options T := fold_left (fun o s => snd (call s o)) l o.
(** The getter.  No LCQPow code. *)
Definition read (f : opt_field) (o : options T) : opt_value T :=
  match f with
  | FStat => VNum (getStationarityTolerance o) | FCompl => VNum (getComplementarityTolerance o) | FRho0 => VNum (getInitialPenaltyParameter o)
  | FBeta => VNum (getPenaltyUpdateFactor o) | FZeroFirst => VBool (getSolveZeroPenaltyFirst o) | FPerturb => VBool (getPerturbStep o)
  | FMaxIter => VInt (getMaxIterations o) | FMaxRho => VNum (getMaxPenaltyParameter o) | FNDyn => VInt (getNDynamicPenalty o)
  | FEta => VNum (getEtaDynamicPenalty o) | FPrint => VInt (pl_code (getPrintLevel o)) | FStore => VBool (getStoreSteps o) | FSolver => VInt (qs_code (getQPSolver o))
  end.
(** The option a call is about.  No LCQPow code. *)
Definition target (s : setter T) : opt_field :=
  match s with
  | SStat _ => FStat | SCompl _ => FCompl | SRho0 _ => FRho0 | SBeta _ => FBeta | SZeroFirst _ => FZeroFirst | SPerturb _ => FPerturb | SMaxIter _ => FMaxIter
  | SMaxRho _ => FMaxRho | SNDyn _ => FNDyn | SEta _ => FEta | SPrint _ | SPrintEnum _ => FPrint | SStore _ => FStore | SSolver _ | SSolverEnum _ => FSolver
  end.
(** The value it asks for.  No LCQPow code. *)
Definition wanted (s : setter T) : opt_value T :=
  match s with
  | SStat v | SCompl v | SRho0 v | SBeta v | SMaxRho v | SEta v => VNum v
  | SZeroFirst v | SPerturb v | SStore v => VBool v
  | SMaxIter v | SNDyn v | SPrint v | SSolver v => VInt v
  | SPrintEnum v => VInt (pl_code v) | SSolverEnum v => VInt (qs_code v)
  end.
(** The documented domain of an option, include/Options.hpp.  No LCQPow code. *)
Definition allowed (f : opt_field) (v : opt_value T) : Prop :=
  match f, v with
  | (FStat | FCompl), VNum v => a_lt EPS v = true
  | FRho0, VNum v => a_lt ZERO v = true
  | FBeta, VNum v => a_lt a_one v = true
  | FMaxRho, VNum v => a_lt a_zero v = true
  | FEta, VNum v => a_lt EPS v = true /\ a_lt v a_one = true
  | FMaxIter, VInt v => 0 < v
  | (FPrint | FSolver), VInt v => 0 <= v <= 2
  | FNDyn, VInt _ => True
  | (FZeroFirst | FPerturb | FStore), VBool _ => True
  | _, _ => False
  end.
(** All options are in their domain.  No LCQPow code. *)
Definition in_domain (o : options T) : Prop := forall f, allowed f (read f o).
(** The documented error code for a value outside.  No LCQPow code. *)
Definition error_of (f : opt_field) : ReturnValue :=
  match f with
  | FStat => INVALID_STATIONARITY_TOLERANCE | FCompl => INVALID_COMPLEMENTARITY_TOLERANCE | FRho0 => INVALID_INITIAL_PENALTY_VALUE
  | FBeta => INVALID_PENALTY_UPDATE_VALUE | FMaxIter => INVALID_MAX_ITERATIONS_VALUE | FMaxRho => INVALID_MAX_RHO_VALUE | FEta => INVALID_ETA_VALUE
  | FPrint => INVALID_PRINT_LEVEL_VALUE | FSolver => INVALID_QPSOLVER | _ => SUCCESSFUL_RETURN
  end.
(** The argument is not NaN (NaN is not equal to itself).  No LCQPow code. *)
Definition is_number (v : T) : Prop := a_le v v = true.
(** The argument of the call is not NaN.  No LCQPow code. *)
Definition number_arg (s : setter T) : Prop := match wanted s with VNum v => is_number v | _ => True end.
End SpecOptions.
