(** * Properties_MatlabQP: option structs for the QP solvers passed from MATLAB (C71). *)
From Coq Require Import String.
From Verif Require Import Base Arith Codes Utilities Options Matlab MatlabQP SpecMatlabQP MatlabQPFacts ExamplesInterfaces ExamplesMatlabQP.
Local Open Scope string_scope.
Local Open Scope list_scope.
Local Open Scope Z_scope.

(** C71 for qpOASES: if the fields that name options are numbers (or no scalars), then the options given get the values given (integers are cut off,
    printLevel and initialStatusBounds are limited to their ranges), every other option keeps its value, and exactly the options that are not given are
    mentioned in warnings. *)
Theorem C71_qpoases : forall T (dtoi : T -> res Z) (s : settings T) (p : mxArray T),
  proper dtoi qpoases_known p -> obeys dtoi qpoases_known 31 s p (setupqpOASESOptions dtoi s p).
Proof. exact @p_C71_qpoases. Qed.
Print Assumptions C71_qpoases.
(** C71 for OSQP; linsys_solver has no effect and is answered by a warning. *)
Theorem C71_osqp : forall T (dtol : T -> res Z) (s : settings T) (p : mxArray T),
  proper dtol osqp_known p -> obeys dtol osqp_known 22 s p (setupOSQPOptions dtol s p).
Proof. exact @p_C71_osqp. Qed.
Print Assumptions C71_osqp.
Example C71_qpoases_example : proper xq_to_int qpoases_known exo_qp /\ gives exo_qp "printLevel" (a_of_Z 9) /\ lacks exo_qp "epsDen".
Proof. exact (conj exo_qp_proper (conj eq_refl exo_lacks)). Qed.
Example C71_osqp_example : proper xq_to_int osqp_known exo_osqp /\ gives exo_osqp "rho" (a_lit 1 (-1)).
Proof. exact (conj exo_osqp_proper eq_refl). Qed.

(** Without such a struct LCQPow's own defaults are in force ... *)
Theorem C71_absent : forall T (A : Arith T) (dtoi dtol : T -> res Z) (lib : settings T) (params : mxArray T),
  (mxGetField params "qpOASES_options" = None -> paramsQPOASES dtoi lib params = Ok (defaultQPOASES lib, [])) /\
  (mxGetField params "OSQP_options" = None -> paramsOSQP dtol lib params = Ok (defaultOSQP lib, [])).
Proof. exact @p_C71_none. Qed.
Print Assumptions C71_absent.
(** ... and with one, the options that it does not give are those of the QP solver's library, not LCQPow's. *)
Theorem C71_partial : forall T (A : Arith T) (dtoi dtol : T -> res Z) (lib : settings T) (params field : mxArray T),
  (mxGetField params "qpOASES_options" = Some field -> proper dtoi qpoases_known field -> obeys dtoi qpoases_known 31 lib field (paramsQPOASES dtoi lib params)) /\
  (mxGetField params "OSQP_options" = Some field -> proper dtol osqp_known field -> obeys dtol osqp_known 22 lib field (paramsOSQP dtol lib params)).
Proof. exact @p_C71_replaces. Qed.
Print Assumptions C71_partial.
Example C71_partial_example : let params := MxStruct [("qpOASES_options", exo_qp); ("OSQP_options", exo_osqp)] in
  mxGetField params "qpOASES_options" = Some exo_qp /\ mxGetField params "OSQP_options" = Some exo_osqp /\ mxGetField (MxStruct [("x0", exo_qp)]) "OSQP_options" = None.
Proof. exact (conj eq_refl (conj eq_refl eq_refl)). Qed.

(** C71 is false for options that are not given: even an empty struct undoes LCQPow's defaults, so that the QP solvers print, whatever the library's
    settings are as long as they print. *)
Theorem C71_defaults_refuted : forall T (A : Arith T) (dtoi dtol : T -> res Z) (lib : settings T), lib "printLevel" <> OInt 0 -> lib "verbose" <> OInt 0 ->
  (exists s w, paramsQPOASES dtoi lib (MxStruct [("qpOASES_options", MxStruct [])]) = Ok (s, w) /\ s "printLevel" <> defaultQPOASES lib "printLevel") /\
  (exists s w, paramsOSQP dtol lib (MxStruct [("OSQP_options", MxStruct [])]) = Ok (s, w) /\ s "verbose" <> defaultOSQP lib "verbose").
Proof. exact @p_C71_reset. Qed.
Print Assumptions C71_defaults_refuted.
Example C71_defaults_example : let lib := (fun _ => OInt 1) : settings xq in lib "printLevel" <> OInt 0 /\ lib "verbose" <> OInt 0.
Proof. split; discriminate. Qed.
(** C71 is false for logical values: a logical flag for any option makes the interface read memory that holds no double. *)
Theorem C71_flag_refuted : forall T (dtoi dtol : T -> res Z) (s : settings T) (p : mxArray T) n k b, k <> KString -> mxGetField p n = Some (MxLogical 1 1 b) ->
  (In (n, k) qpoases_known -> exists u, setupqpOASESOptions dtoi s p = UB u) /\ (In (n, k) osqp_known -> exists u, setupOSQPOptions dtol s p = UB u).
Proof. exact @p_C71_flag. Qed.
Print Assumptions C71_flag_refuted.
Example C71_flag_example : mxGetField (MxStruct [("verbose", MxLogical 1 1 true)] : mxArray xq) "verbose" = Some (MxLogical 1 1 true) /\ In ("verbose", KInt) osqp_known /\ KInt <> KString.
Proof. split; [reflexivity|]. split; [cbn; tauto|discriminate]. Qed.
(** C71 is false for the limit of iterations of qpOASES: in a struct with all 31 options it has no effect, and nobody is told. *)
Theorem C71_limit_refuted : forall s : settings xq, exists r, forall m, gives (exo_all m) "maxIter" (a_of_Z m) /\ setupqpOASESOptions xq_to_int s (exo_all m) = Ok (r, []).
Proof. exact exo_ignored. Qed.
Print Assumptions C71_limit_refuted.
