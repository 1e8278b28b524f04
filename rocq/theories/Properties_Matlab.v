(** * Properties_Matlab: calls of the MATLAB interface in all their forms.

    [ml_form], [ml_dense_call], [ml_sparse_call]: the argument lists of the documentation for a given problem; [ml_guesses]: the struct with parameters;
    [ml_safe_params], [ml_full], [ml_pair_bounds], [ml_small]: well-formed arguments (SpecMatlab.v).  [mexLoad]: everything up to the call of
    runSolver; an error message is [Ok (inl _)]; reading what is not there is [UB _]. *)
From Coq Require Import String QArith Qcanon.
From Verif Require Import Base Arith Codes Utilities Options Stats FileIO Subsolver State LCQProblem Loops SpecSparse SpecMath SpecLoad SpecExact OptionsGet SpecOptions
  Matlab Python Printf SpecInterfaces Examples ExamplesKernels ExamplesExact ExamplesInterfaces NoUB LoadSparse SpecMatlab MatlabForms MatlabProps MatlabSafe ExamplesMatlab.
Local Open Scope string_scope.
Local Open Scope list_scope.
Open Scope Z_scope.

(** C58, dense matrices, without params: each of the four argument lists loads the caller's problem, what is not mentioned being absent. *)
Theorem C58_forms : forall T (A : Arith T) dtoi itod f (u : umat T) args, wf_dense (rows_of u) -> symmetric u -> ml_dense_call f u args ->
  u_x0 (um_v u) = None -> u_y0 (um_v u) = None ->
  mexLoad dtoi itod args =
    (let! o := new_object (um_v u) setToDefault in let! '(r, o) := load_dense (rows_of u) o in
     Ok (inr (u_nV (um_v u), u_nComp (um_v u), u_nC (um_v u), setToDefault, ml_code r, o))).
Proof. exact @p_forms_symmetric. Qed.
Print Assumptions C58_forms.
Example C58_forms_example : forall f, wf_dense (rows_of (exf_u f false true)) /\ symmetric (exf_u f false true) /\ ml_dense_call f (exf_u f false true) (exf_args f true).
Proof. exact (fun f => conj (exf_wf f false true) (conj (exf_sym f false) (exf_call f false true))). Qed.

(** C58 for any Q: it arrives transposed; L, R and A do not. *)
Theorem C58_transposed : forall T (A : Arith T) dtoi itod f (u : umat T) args, wf_dense (rows_of u) -> ml_dense_call f u args ->
  u_x0 (um_v u) = None -> u_y0 (um_v u) = None ->
  mexLoad dtoi itod args =
    (let! o := new_object (um_v u) setToDefault in let! '(r, o) := load_dense (rows_of (flip_Q u)) o in
     Ok (inr (u_nV (um_v u), u_nComp (um_v u), u_nC (um_v u), setToDefault, ml_code r, o))).
Proof. exact @p_forms_dense. Qed.
Print Assumptions C58_transposed.
Example C58_transposed_example : forall f, wf_dense (rows_of (exf_u f false false)) /\ ml_dense_call f (exf_u f false false) (exf_args f false) /\
  um_Q (exf_u f false false) 0 1 <> um_Q (exf_u f false false) 1 0.
Proof. exact (fun f => conj (exf_wf f false false) (conj (exf_call f false false) (exf_skew f))). Qed.

(** C58, sparse matrices, without params *)
Theorem C58_sparse : forall T (A : Arith T) dtoi itod f (u : usparse T) args, wf_sparse u -> ml_sparse_call f u args -> u_x0 (us_v u) = None -> u_y0 (us_v u) = None ->
  mexLoad dtoi itod args =
    (let! o := new_object (us_v u) setToDefault in let! '(r, o) := load_sparse u o in
     Ok (inr (u_nV (us_v u), u_nComp (us_v u), u_nC (us_v u), setToDefault, rv_code r, o))).
Proof. exact @p_forms_sparse. Qed.
Print Assumptions C58_sparse.
Example C58_sparse_example : forall f, wf_sparse (exf_s f false) /\ ml_sparse_call f (exf_s f false) (exf_sargs f).
Proof. exact (fun f => conj (exf_swf f false) (exf_scall f false)). Qed.

(** C58 and C59 with params, dense: if the call is accepted, then the solver gets the caller's problem (Q transposed) with the initial guesses of the
    struct, and exactly the setters named in the struct were called. *)
Theorem C59_forms : forall T (A : Arith T) dtoi itod f (u : umat T) args s nV nComp nC opt r o,
  wf_dense (rows_of u) -> ml_dense_call f u args -> ml_guesses (um_v u) s -> whole_max_penalty dtoi itod s ->
  mexLoad dtoi itod (args ++ [MxStruct s]) = Ok (inr (nV, nComp, nC, opt, r, o)) ->
  opt = after (param_calls dtoi s) setToDefault /\
  exists o0 rv, new_object (um_v u) opt = Ok o0 /\ load_dense (rows_of (flip_Q u)) o0 = Ok (rv, o) /\ r = ml_code rv.
Proof. exact @p_params_dense. Qed.
Print Assumptions C59_forms.
Example C59_forms_example : forall f, wf_dense (rows_of (exf_u f true true)) /\ ml_dense_call f (exf_u f true true) (exf_args f true) /\ ml_guesses (um_v (exf_u f true true)) (exi_params true 0) /\
  whole_max_penalty xq_to_int a_of_Z (exi_params true 0) /\
  mexLoad xq_to_int a_of_Z (exf_args f true ++ [MxStruct (exi_params true 0)]) = Ok (inr (mex_loaded (exf_args f true ++ [MxStruct (exi_params true 0)]))).
Proof. exact (fun f => conj (exf_wf f true true) (conj (exf_call f true true) (conj (exf_guess f true 0) (conj (exi_whole true 0) (exf_load f true true))))). Qed.

(** The same for sparse matrices *)
Theorem C59_sparse : forall T (A : Arith T) dtoi itod f (u : usparse T) args s nV nComp nC opt r o,
  wf_sparse u -> ml_sparse_call f u args -> ml_guesses (us_v u) s -> whole_max_penalty dtoi itod s ->
  mexLoad dtoi itod (args ++ [MxStruct s]) = Ok (inr (nV, nComp, nC, opt, r, o)) ->
  opt = after (param_calls dtoi s) setToDefault /\
  exists o0 rv, new_object (us_v u) opt = Ok o0 /\ load_sparse u o0 = Ok (rv, o) /\ r = rv_code rv.
Proof. exact @p_params_sparse. Qed.
Print Assumptions C59_sparse.
Example C59_sparse_example : forall f, wf_sparse (exf_s f true) /\ ml_sparse_call f (exf_s f true) (exf_sargs f) /\ ml_guesses (us_v (exf_s f true)) (exi_params true 1) /\
  whole_max_penalty xq_to_int a_of_Z (exi_params true 1) /\
  mexLoad xq_to_int a_of_Z (exf_sargs f ++ [MxStruct (exi_params true 1)]) = Ok (inr (mex_loaded (exf_sargs f ++ [MxStruct (exi_params true 1)]))).
Proof. exact (fun f => conj (exf_swf f true) (conj (exf_scall f true) (conj (exf_guess f true 1) (conj (exi_whole true 1) (exf_sload f true))))). Qed.

(** C60, loading, for full matrices of any sizes in any positions (at least eight of them), so that the checks of the interface must catch what does not
    fit; the hypotheses exclude the known holes: bounds of complementarities of the wrong size, numbers that do not fit an int, a dual guess for OSQP;
    missing besides these: sparse matrices, arguments that are neither numbers nor a struct at the end. *)
Theorem C60_load_partial : forall T (A : Arith T) dtoi itod (args extra : list (mxArray T)),
  (8 <= length args)%nat -> Forall ml_full args -> ml_pair_bounds args -> ml_small args -> ml_extra dtoi extra ->
  exists r, mexLoad dtoi itod (args ++ extra) = Ok r.
Proof. exact @p_C60_load. Qed.
Print Assumptions C60_load_partial.

(** C60, the whole call with at most two outputs under the same hypotheses, lbL and lbR being given both or not at all, the dense QP solver being chosen,
    and its iteration counts being small: all is well, except perhaps if the dual solution is requested and the run fails (C60_refuted). *)
Theorem C60_call_partial : forall T (A : Arith T) dtoi itod orc rand elapsed nlhs (args extra : list (mxArray T)) B, nlhs <= 2 ->
  (8 <= length args)%nat -> Forall ml_full args -> ml_pair_bounds args -> ml_small args -> ml_extra dtoi extra ->
  mxIsEmpty (ml_arg args 4) = mxIsEmpty (ml_arg args 6) ->
  (forall nV nComp nC opt o, mexLoad dtoi itod (args ++ extra) = Ok (inr (nV, nComp, nC, opt, 0, o)) -> o_qpSolver opt = QPOASES_DENSE /\ small_counts opt orc B) ->
  (exists r, mexFunction dtoi itod orc rand elapsed nlhs (args ++ extra) = Ok r) \/
  nlhs = 2 /\ exists nV nComp nC opt o r o', mexLoad dtoi itod (args ++ extra) = Ok (inr (nV, nComp, nC, opt, 0, o)) /\ runSolver orc rand o = Ok (r, o') /\ r <> SUCCESSFUL_RETURN.
Proof. exact @p_C60_call. Qed.
Print Assumptions C60_call_partial.
Example C60_load_example : forall f, ((8 <= length (exf_args f true))%nat /\ Forall ml_full (exf_args f true) /\ ml_pair_bounds (exf_args f true) /\ ml_small (exf_args f true) /\
  mxIsEmpty (ml_arg (exf_args f true) 4) = mxIsEmpty (ml_arg (exf_args f true) 6)) /\ ml_extra xq_to_int [MxStruct (exi_params true 0)] /\
  (forall nV nComp nC opt o, mexLoad xq_to_int a_of_Z (exf_args f true ++ [MxStruct (exi_params true 0)]) = Ok (inr (nV, nComp, nC, opt, 0, o)) ->
     o_qpSolver opt = QPOASES_DENSE /\ small_counts opt (exq_orc QPOASES_DENSE) 1).
Proof. exact (fun f => conj (exf_safe_args f true) (conj (exf_safe_params 0 (conj (Z.le_refl 0) Z.le_0_1)) (exf_counts f))). Qed.

(** C60 is false for every problem passed with a dual guess if OSQP is chosen: the interface demands nC + 2 nComp entries, of which nV + nC + 2 nComp are
    read. *)
Theorem C60_dual_refuted : forall T (A : Arith T) dtoi itod f (u : umat T) args s pm, wf_dense (rows_of u) -> fin_lower (um_v u) -> ml_dense_call f u args -> full_fields s ->
  readParams dtoi itod (MxStruct s) (u_nV (um_v u)) (u_nComp (um_v u)) (u_nC (um_v u)) = Ok (inr pm) -> o_qpSolver (pm_options pm) = OSQP_SPARSE -> lookup "y0" s <> None ->
  mexLoad dtoi itod (args ++ [MxStruct s]) = UB OutOfBounds.
Proof. exact @p_osqp_dense. Qed.
Print Assumptions C60_dual_refuted.
Example C60_dual_example : forall f, wf_dense (rows_of (exf_u f false true)) /\ fin_lower (exf_v f false) /\ ml_dense_call f (exf_u f false true) (exf_args f true) /\ full_fields (exf_dual f) /\
  (readParams xq_to_int a_of_Z (MxStruct (exf_dual f)) 2 1 (u_nC (exf_v f false)) = Ok (inr (exf_dual_params f)) /\ o_qpSolver (pm_options (exf_dual_params f)) = OSQP_SPARSE).
Proof. exact (fun f => conj (exf_wf f false true) (conj (exf_fin f false) (conj (exf_call f false true) (conj (exf_dual_full f) (exf_dual_read f))))). Qed.
(** The same for sparse matrices, for which OSQP is meant *)
Theorem C60_dual_sparse_refuted : forall T (A : Arith T) dtoi itod f (u : usparse T) args s pm, wf_sparse u -> fin_lower (us_v u) -> concat (us_C u) <> [] -> ml_sparse_call f u args ->
  full_fields s -> readParams dtoi itod (MxStruct s) (u_nV (us_v u)) (u_nComp (us_v u)) (u_nC (us_v u)) = Ok (inr pm) -> o_qpSolver (pm_options pm) = OSQP_SPARSE ->
  lookup "y0" s <> None -> mexLoad dtoi itod (args ++ [MxStruct s]) = UB OutOfBounds.
Proof. exact @p_osqp_sparse. Qed.
Print Assumptions C60_dual_sparse_refuted.
Example C60_dual_sparse_example : forall f, wf_sparse (exf_s f false) /\ fin_lower (exf_v f false) /\ ml_sparse_call f (exf_s f false) (exf_sargs f) /\
  (exists c, nth_error (concat (us_C (exf_s f false))) 0 = Some c).
Proof. exact exf_nonzero. Qed.

(** C60 is false for a dense problem with a sparse vector g: its size passes the check, but it has fewer entries than are read. *)
Theorem C60_sparse_refuted : mexLoad xq_to_int a_of_Z exf_sparse_g = UB OutOfBounds.
Proof. exact exf_sparse_bad. Qed.
Print Assumptions C60_sparse_refuted.

(** C65 is false: the struct of default options (from LCQPow_options.m) is rejected with any problem, since its flags are numbers ... *)
Theorem C65_refuted : forall T (A : Arith T) dtoi itod (eps : T) nV nComp nC,
  readParams dtoi itod (MxStruct (LCQPow_default_options eps)) nV nComp nC = Ok (inl "solveZeroPenaltyFirst").
Proof. exact @p_C65_error. Qed.
Print Assumptions C65_refuted.
(** ... and with flags that are logical values it is accepted, but stands for other options: the two tolerances are exchanged and the print level differs. *)
Theorem C65_values_refuted : exists pm, readParams xq_to_int a_of_Z (MxStruct exf_defaults) 2 1 0 = Ok (inr pm) /\
  let o := pm_options pm in
  a_lt (getStationarityTolerance o) (getComplementarityTolerance o) = true /\ a_lt (getComplementarityTolerance (setToDefault : options xq)) (getStationarityTolerance setToDefault) = true /\
  getPrintLevel o <> getPrintLevel (setToDefault : options xq).
Proof. exact (ex_intro _ exf_defaults_params (conj exf_defaults_read exf_defaults_differ)). Qed.
Print Assumptions C65_values_refuted.
(** In every other respect the struct (with flags that are logical values) stands for the default options, for a problem of any size. *)
Theorem C65_others_partial : forall nV nComp nC, exists pm, readParams xq_to_int a_of_Z (MxStruct exf_defaults) nV nComp nC = Ok (inr pm) /\
  let o := pm_options pm in let d := (setToDefault : options xq) in
  (pm_x0 pm = None /\ pm_y0 pm = None) /\
  (getInitialPenaltyParameter o = getInitialPenaltyParameter d /\ getPenaltyUpdateFactor o = getPenaltyUpdateFactor d /\ getMaxPenaltyParameter o = getMaxPenaltyParameter d) /\
  (getSolveZeroPenaltyFirst o = getSolveZeroPenaltyFirst d /\ getPerturbStep o = getPerturbStep d /\ getMaxIterations o = getMaxIterations d) /\
  (getNDynamicPenalty o = getNDynamicPenalty d /\ getEtaDynamicPenalty o = getEtaDynamicPenalty d) /\
  (getStoreSteps o = getStoreSteps d /\ getQPSolver o = getQPSolver d).
Proof. exact (fun nV nComp nC => ex_intro _ exf_defaults_params (conj (exf_defaults_any nV nComp nC) exf_defaults_agree)). Qed.
Print Assumptions C65_others_partial.
