(** * SpecMatlabQP: what a struct of options for a QP solver is supposed to mean (specification, not LCQPow code). *)
From Coq Require Import String.
From Verif Require Import Base Arith Codes Utilities Matlab MatlabQP.
Local Open Scope string_scope.
Local Open Scope list_scope.
Local Open Scope Z_scope.

(** Type of an option: a double, an integer, an integer limited to a range, or a string that is not supported.  No LCQPow code. *)
Inductive okind : Type := KNum | KInt | KRange (lo hi : Z) | KString.
(** The options of qpOASES and their types, as documented for qpOASES (without maxIter and maxCpuTime, which are no members of its class Options).  No LCQPow code. *)
Definition qpoases_known : list (string * okind) :=
  [ ("printLevel", KRange (-2) 3); ("enableRamping", KInt); ("enableFarBounds", KInt); ("enableFlippingBounds", KInt); ("enableRegularisation", KInt);
    ("enableFullLITests", KInt); ("enableNZCTests", KInt); ("enableDriftCorrection", KInt); ("enableCholeskyRefactorisation", KInt); ("enableEqualities", KInt);
    ("terminationTolerance", KNum); ("boundTolerance", KNum); ("boundRelaxation", KNum); ("epsNum", KNum); ("epsDen", KNum); ("maxPrimalJump", KNum);
    ("maxDualJump", KNum); ("initialRamping", KNum); ("finalRamping", KNum); ("initialFarBounds", KNum); ("growFarBounds", KNum);
    ("initialStatusBounds", KRange (-1) 1); ("epsFlipping", KNum); ("numRegularisationSteps", KInt); ("epsRegularisation", KNum); ("numRefinementSteps", KInt);
    ("epsIterRef", KNum); ("epsLITests", KNum); ("epsNZCTests", KNum) ].
(** The settings of OSQP and their types, as documented for OSQP.  No LCQPow code. *)
Definition osqp_known : list (string * okind) :=
  [ ("rho", KNum); ("sigma", KNum); ("scaling", KInt); ("adaptive_rho", KInt); ("adaptive_rho_interval", KInt); ("adaptive_rho_tolerance", KNum);
    ("adaptive_rho_fraction", KNum); ("max_iter", KInt); ("eps_abs", KNum); ("eps_rel", KNum); ("eps_prim_inf", KNum); ("eps_dual_inf", KNum); ("alpha", KNum);
    ("linsys_solver", KString); ("delta", KNum); ("polish", KInt); ("polish_refine_iter", KInt); ("verbose", KInt); ("scaled_termination", KInt);
    ("check_termination", KInt); ("warm_start", KInt); ("time_limit", KNum) ].

Section SpecMatlabQP.
Context {T : Type} `{Arith T}.

(** A field of the struct is the number [v].  No LCQPow code. *)
Definition gives (p : mxArray T) (name : string) (v : T) : Prop := mxGetField p name = Some (MxDense 1 1 [v]).
(** There is no such field, or it is no scalar.  No LCQPow code. *)
Definition lacks (p : mxArray T) (name : string) : Prop := forall f, mxGetField p name = Some f -> mxGetM f <> 1 \/ mxGetN f <> 1.
(** What the number [v] means for an option of type [k], if [conv] converts numbers to integers.  No LCQPow code. *)
Definition means (conv : T -> res Z) (k : okind) (v : T) (x : ovalue T) : Prop :=
  match k with
  | KNum => x = ONum v
  | KInt => exists z, conv v = Ok z /\ x = OInt z
  | KRange lo hi => exists z, conv v = Ok z /\ x = OInt (Z.max lo (Z.min hi z))
  | KString => False
  end.
(** All fields with names from the list are numbers that fit the option, or no scalars.  No LCQPow code. *)
Definition proper (conv : T -> res Z) (known : list (string * okind)) (p : mxArray T) : Prop :=
  forall n k, In (n, k) known -> k <> KString -> lacks p n \/ exists v x, gives p n v /\ means conv k v x.
(** What is said about an option: nothing if it is given.  No LCQPow code. *)
Definition remark (p : mxArray T) (nk : string * okind) : list warning :=
  let '(n, k) := nk in
  match mxGetField p n with
  | None => [WMissing n]
  | Some f =>
      match k with
      | KString => if negb (mxIsEmpty f) && match f with MxOther _ _ => true | _ => false end then [WUnsupported] else [WNoValue n]
      | _ => if (mxGetM f =? 1) && (mxGetN f =? 1) then [] else [WNoValue n]
      end
  end.
(** A call of [setup] on the settings [s] with the struct [p] does what the struct says: the options given have the values given, all others are those
    of [s], and every option that is not given is mentioned in a warning, after one on the number of fields if it is not [count].  No LCQPow code. *)
Definition obeys (conv : T -> res Z) (known : list (string * okind)) (count : Z) (s : settings T) (p : mxArray T) (r : res (settings T * list warning)) : Prop :=
  exists s' w, r = Ok (s', w) /\
    (forall n k v, In (n, k) known -> k <> KString -> gives p n v -> means conv k v (s' n)) /\
    (forall n, (forall k v, ~ (In (n, k) known /\ k <> KString /\ gives p n v)) -> s' n = s n) /\
    w = (if mxGetNumberOfFields p =? count then [] else [WFields]) ++ concat (map (remark p) known).
End SpecMatlabQP.
