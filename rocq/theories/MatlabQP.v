(** * MatlabQP: the option structs of the QP solvers in the MATLAB interface, interfaces/matlab/LCQPow.cpp:281-565 and 825-838.

    A settings object (qpOASES::Options, OSQPSettings) is a map from the names of its members to their values.  Warnings (mexWarnMsgTxt) are collected
    in the order in which they are given; their texts are abstracted. *)
From Coq Require Import String.
From Verif Require Import Base Arith Codes Utilities Matlab.
Local Open Scope string_scope.
Local Open Scope list_scope.
Local Open Scope Z_scope.

Section MatlabQP.
Context {T : Type} `{Arith T}.
(** The conversions of a double to int and to OSQP's long long: undefined if the value does not fit. *)
Variables dtoi dtol : T -> res Z.

(** The value of a member: an integer (or enumerator, or truth value) or a double.  Model of the data of the QP solver libraries. *)
Inductive ovalue : Type := OInt (z : Z) | ONum (v : T).
(** A settings object by the names of its members.  Model of the data of the QP solver libraries. *)
Definition settings : Type := string -> ovalue.
(** Assignment to one member, e.g. interfaces/matlab/LCQPow.cpp:408 *)
Definition assign (name : string) (v : ovalue) (s : settings) : settings := fun n => if String.eqb name n then v else s n.
(** The warnings of interfaces/matlab/LCQPow.cpp:296, 308, 325, 337, 355, 495, 539 *)
Inductive warning : Type := WFields | WMissing (name : string) | WNoValue (name : string) | WUnsupported.

(** mxGetNumberOfFields of the MEX API; 0 if the argument is not a struct. *)
Definition mxGetNumberOfFields (a : mxArray T) : Z := match a with MxStruct f => Z.of_nat (length f) | _ => 0 end.
(** mxIsScalar of the MEX API: a 1 x 1 array of any type. *)
Definition mxIsScalar (a : mxArray T) : bool := (mxGetM a =? 1) && (mxGetN a =? 1).

(** [hasOptionsValue] for numbers, interfaces/matlab/LCQPow.cpp:289-313: a warning, or what [*optionValue] points to.  The data of a scalar that is not a
    double are not doubles: mxGetPr is modelled by NULL then, and reading a double through it is undefined in any case. *)
Definition hasOptionsValue (p : mxArray T) (name : string) : warning + ptr T :=
  match mxGetField p name with
  | None => inl (WMissing name)
  | Some f => if negb (mxIsEmpty f) && mxIsScalar f then inr (mxGetPr f) else inl (WNoValue name)
  end.
(** [hasOptionsValue] for strings, interfaces/matlab/LCQPow.cpp:318-342.  A string is an array of type [MxOther]: what else is summed up by that type is
    not distinguished from it. *)
Definition hasOptionsString (p : mxArray T) (name : string) : option warning :=
  match mxGetField p name with
  | None => Some (WMissing name)
  | Some f => if negb (mxIsEmpty f) && match f with MxOther _ _ => true | _ => false end then None else Some (WNoValue name)
  end.

(** The conversions of a value: none, as in interfaces/matlab/LCQPow.cpp:420 ... *)
Definition as_num (v : T) : res ovalue := Ok (ONum v).
(** ... to an integer type, as in interfaces/matlab/LCQPow.cpp:373-374, 408, 505 ... *)
Definition as_int (conv : T -> res Z) (v : T) : res ovalue := let! z := conv v in Ok (OInt z).
(** ... and to an int limited to a range, interfaces/matlab/LCQPow.cpp:362-367 and 454-459.  Simplified: the intermediate value of an enumeration type
    (line 363) is taken to hold any int; __SUPPRESSANYOUTPUT__ is not defined. *)
Definition as_clamped (lo hi : Z) (v : T) : res ovalue :=
  let! z := dtoi v in
  let z := if z <? lo then lo else z in
  let z := if hi <? z then hi else z in
  Ok (OInt z).

(** One option, e.g. interfaces/matlab/LCQPow.cpp:407-408 *)
Definition option_value (p : mxArray T) (name : string) (conv : T -> res ovalue) (r : settings * list warning) : res (settings * list warning) :=
  match hasOptionsValue p name with
  | inl w => Ok (fst r, snd r ++ [w])
  | inr q => let! a := deref q in let! v := rd a 0 in let! x := conv v in Ok (assign name x (fst r), snd r)
  end.
(** The option of type string, interfaces/matlab/LCQPow.cpp:537-540: its value is not used *)
Definition string_option (p : mxArray T) (name : string) (r : settings * list warning) : res (settings * list warning) :=
  match hasOptionsString p name with
  | Some w => Ok (fst r, snd r ++ [w])
  | None => Ok (fst r, snd r ++ [WUnsupported])
  end.

(** [setupqpOASESOptions], interfaces/matlab/LCQPow.cpp:347-482 *)
Definition setupqpOASESOptions (s : settings) (p : mxArray T) : res (settings * list warning) :=
  let r := (s, if negb (mxGetNumberOfFields p =? 31) then [WFields] else []) in
  let! r := option_value p "printLevel" (as_clamped (-2) 3) r in
  let! r := option_value p "enableRamping" (as_int dtoi) r in
  let! r := option_value p "enableFarBounds" (as_int dtoi) r in
  let! r := option_value p "enableFlippingBounds" (as_int dtoi) r in
  let! r := option_value p "enableRegularisation" (as_int dtoi) r in
  let! r := option_value p "enableFullLITests" (as_int dtoi) r in
  let! r := option_value p "enableNZCTests" (as_int dtoi) r in
  let! r := option_value p "enableDriftCorrection" (as_int dtoi) r in
  let! r := option_value p "enableCholeskyRefactorisation" (as_int dtoi) r in
  let! r := option_value p "enableEqualities" (as_int dtoi) r in
  let! r := option_value p "terminationTolerance" (as_num) r in
  let! r := option_value p "boundTolerance" (as_num) r in
  let! r := option_value p "boundRelaxation" (as_num) r in
  let! r := option_value p "epsNum" (as_num) r in
  let! r := option_value p "epsDen" (as_num) r in
  let! r := option_value p "maxPrimalJump" (as_num) r in
  let! r := option_value p "maxDualJump" (as_num) r in
  let! r := option_value p "initialRamping" (as_num) r in
  let! r := option_value p "finalRamping" (as_num) r in
  let! r := option_value p "initialFarBounds" (as_num) r in
  let! r := option_value p "growFarBounds" (as_num) r in
  let! r := option_value p "initialStatusBounds" (as_clamped (-1) 1) r in
  let! r := option_value p "epsFlipping" (as_num) r in
  let! r := option_value p "numRegularisationSteps" (as_int dtoi) r in
  let! r := option_value p "epsRegularisation" (as_num) r in
  let! r := option_value p "numRefinementSteps" (as_int dtoi) r in
  let! r := option_value p "epsIterRef" (as_num) r in
  let! r := option_value p "epsLITests" (as_num) r in
  let! r := option_value p "epsNZCTests" (as_num) r in
  Ok r.

(** [setupOSQPOptions], interfaces/matlab/LCQPow.cpp:488-565 *)
Definition setupOSQPOptions (s : settings) (p : mxArray T) : res (settings * list warning) :=
  let r := (s, if negb (mxGetNumberOfFields p =? 22) then [WFields] else []) in
  let! r := option_value p "rho" (as_num) r in
  let! r := option_value p "sigma" (as_num) r in
  let! r := option_value p "scaling" (as_int dtol) r in
  let! r := option_value p "adaptive_rho" (as_int dtol) r in
  let! r := option_value p "adaptive_rho_interval" (as_int dtol) r in
  let! r := option_value p "adaptive_rho_tolerance" (as_num) r in
  let! r := option_value p "adaptive_rho_fraction" (as_num) r in
  let! r := option_value p "max_iter" (as_int dtol) r in
  let! r := option_value p "eps_abs" (as_num) r in
  let! r := option_value p "eps_rel" (as_num) r in
  let! r := option_value p "eps_prim_inf" (as_num) r in
  let! r := option_value p "eps_dual_inf" (as_num) r in
  let! r := option_value p "alpha" (as_num) r in
  let! r := string_option p "linsys_solver" r in
  let! r := option_value p "delta" (as_num) r in
  let! r := option_value p "polish" (as_int dtol) r in
  let! r := option_value p "polish_refine_iter" (as_int dtol) r in
  let! r := option_value p "verbose" (as_int dtol) r in
  let! r := option_value p "scaled_termination" (as_int dtol) r in
  let! r := option_value p "check_termination" (as_int dtol) r in
  let! r := option_value p "warm_start" (as_int dtol) r in
  let! r := option_value p "time_limit" (as_num) r in
  Ok r.

(** LCQPow's own default settings for qpOASES, src/Options.cpp:320-321; [lib] are those of the library (PL_NONE is 0) *)
Definition defaultQPOASES (lib : settings) : settings := assign "printLevel" (OInt 0) lib.
(** LCQPow's own default settings for OSQP, src/Options.cpp:328-332; [lib] are those of the library *)
Definition defaultOSQP (lib : settings) : settings :=
  assign "polish" (OInt 1) (assign "verbose" (OInt 0) (assign "eps_prim_inf" (ONum EPS) lib)).
(** The settings for qpOASES after the parameter loop, interfaces/matlab/LCQPow.cpp:825-829 (and 668, 708 for a missing field).
    [Options::setqpOASESOptions], src/Options.cpp:262-267, copies them. *)
Definition paramsQPOASES (lib : settings) (params : mxArray T) : res (settings * list warning) :=
  match mxGetField params "qpOASES_options" with
  | None => Ok (defaultQPOASES lib, [])
  | Some field => setupqpOASESOptions lib field
  end.
(** The settings for OSQP after the parameter loop, interfaces/matlab/LCQPow.cpp:831-837 (and 668, 708 for a missing field).
    [Options::setOSQPOptions], src/Options.cpp:275-288, copies them (see OwnOptions.v for the memory). *)
Definition paramsOSQP (lib : settings) (params : mxArray T) : res (settings * list warning) :=
  match mxGetField params "OSQP_options" with
  | None => Ok (defaultOSQP lib, [])
  | Some field => setupOSQPOptions lib field
  end.
End MatlabQP.
Arguments ovalue T : clear implicits.
Arguments settings T : clear implicits.
