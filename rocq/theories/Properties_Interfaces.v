(** * Properties_Interfaces: options, files, messages, and the MATLAB and Python interfaces.

    Options: [call s o] is the call of a setter, [read f o] the getter of option [f], [target s]/[wanted s] option and value of the call,
    [allowed] the documented domain (SpecOptions.v).  Programs with Options objects: SpecOwn.v.  Files: a list of tokens (FileIO.v).
    Interfaces: SpecInterfaces.v. *)
From Coq Require Import String QArith Qcanon Qabs SpecFloat.
From Verif Require Import Base Arith Codes Utilities Options Stats FileIO Subsolver State LCQProblem Loops SpecSparse SpecMath SpecLoad SpecExact Messages SpecOptions OwnOptions SpecOwn OptionsFacts
  OptionsGet Matlab Python Printf SpecInterfaces Examples ExamplesKernels ExamplesExact ExamplesInterfaces InterfaceFacts MatlabFacts InterfaceProps.
Local Open Scope string_scope.
Local Open Scope list_scope.
Open Scope Z_scope.

(** ** Options *)

(** C42, effect of one call: an accepted call sets its own option to the wanted value and leaves the others; a rejected one changes nothing and
    returns the documented error. *)
Theorem C42_effect : forall T (A : Arith T) (s : setter T) o r o', call s o = (r, o') ->
  (r = SUCCESSFUL_RETURN -> read (target s) o' = wanted s /\ forall f, f <> target s -> read f o' = read f o) /\
  (r <> SUCCESSFUL_RETURN -> o' = o /\ r = error_of (target s)).
Proof. exact @p_C42_effect. Qed.
Print Assumptions C42_effect.
Example C42_effect_example : fst (call (SBeta (a_of_Z 3 : xq)) setToDefault) = SUCCESSFUL_RETURN /\ fst (call (SBeta (a_of_Z 1 : xq)) setToDefault) <> SUCCESSFUL_RETURN.
Proof. split; vm_compute; [reflexivity|discriminate]. Qed.

(** C42, domain and acceptance, in exact arithmetic; missing: arguments NaN, for which it is false (below). *)
Theorem C42_exact_partial : forall l : list (setter xq), Forall number_arg l ->
  in_domain (after l setToDefault) /\ forall s o, In s l -> (fst (call s o) = SUCCESSFUL_RETURN <-> allowed (target s) (wanted s)).
Proof.
  exact (fun l F => conj (p_C42_xq l F) (fun s o Hs => p_C42_accept_xq s o (proj1 (Forall_forall _ _) F s Hs))).
Qed.
Print Assumptions C42_exact_partial.
(** The same for doubles. *)
Theorem C42_double_partial : forall l : list (setter f64), Forall number_arg l ->
  in_domain (after l setToDefault) /\ forall s o, In s l -> (fst (call s o) = SUCCESSFUL_RETURN <-> allowed (target s) (wanted s)).
Proof.
  exact (fun l F => conj (p_C42_f64 l F) (fun s o Hs => p_C42_accept_f64 s o (proj1 (Forall_forall _ _) F s Hs))).
Qed.
Print Assumptions C42_double_partial.
Example C42_domain_example : Forall number_arg [SStat (a_of_Z 3 : f64); SEta (a_of_Z 2); SMaxIter (-5); SSolver 2; SPrint 7; SMaxRho (SpecFloat.S754_infinity false)].
Proof. repeat constructor; vm_compute; exact I || reflexivity. Qed.
(** C42 for the defaults: the setters accept them and change nothing, and the penalty parameter starts below its maximum; in exact arithmetic and for
    doubles. *)
Theorem C42_defaults :
  (forall s : setter xq, wanted s = read (target s) setToDefault -> call s setToDefault = (SUCCESSFUL_RETURN, setToDefault)) /\
  (forall s : setter f64, wanted s = read (target s) setToDefault -> call s setToDefault = (SUCCESSFUL_RETURN, setToDefault)) /\
  a_lt (getInitialPenaltyParameter (setToDefault : options xq)) (getMaxPenaltyParameter setToDefault) = true /\
  a_lt (getInitialPenaltyParameter (setToDefault : options f64)) (getMaxPenaltyParameter setToDefault) = true.
Proof. exact (conj p_C42_defaults_xq (conj p_C42_defaults_f64 p_C42_rho)). Qed.
Print Assumptions C42_defaults.
Example C42_defaults_example : wanted (SMaxRho (a_lit 1 8 : xq)) = read FMaxRho setToDefault /\ wanted (SMaxIter 1000 : setter f64) = read FMaxIter setToDefault.
Proof. exact (conj eq_refl eq_refl). Qed.
(** C42 is false for NaN: a tolerance NaN is accepted. *)
Theorem C42_refuted : exists s : setter f64, fst (call s setToDefault) = SUCCESSFUL_RETURN /\ ~ in_domain (after [s] setToDefault).
Proof. exact p_C42_nan. Qed.
Print Assumptions C42_refuted.

(** C43: every program with Options objects runs without undefined behaviour and without leaks, if it uses live objects only and does not pass the
    settings an object owns to its own setOSQPOptions; missing: the latter, for which it is false (below). *)
Theorem C43_partial : forall T S Q (A : Arith T) (dfltS : S) (dfltQ : Q) (l : list (op T S Q)), sensible_run dfltS dfltQ l pstart ->
  exists st, run dfltS dfltQ l pstart = Ok st /\ no_leak st.
Proof. exact @p_C43_run. Qed.
Print Assumptions C43_partial.
(** In such a program every operation has the expected effect on its own object, and none on what the getters of all other objects show: copies are
    independent. *)
Theorem C43_independent_partial : forall T S Q (A : Arith T) (dfltS : S) (dfltQ : Q) (l : list (op T S Q)) o st,
  sensible_run dfltS dfltQ (l ++ [o]) pstart -> run dfltS dfltQ l pstart = Ok st ->
  exists st', run dfltS dfltQ (l ++ [o]) pstart = Ok st' /\ expected dfltS dfltQ o st (view st' (affected o st)) /\
    forall j, j <> affected o st -> view st' j = view st j.
Proof. exact @p_C43_step. Qed.
Print Assumptions C43_independent_partial.
Example C43_example : sensible_run 1 2 exi_prog pstart.
Proof.
  unfold exi_prog. repeat (split; [vm_compute; repeat split; try discriminate; try (intros C; discriminate C); repeat eexists|intros st E; vm_compute in E; injection E as <-]). exact I.
Qed.
(** C43 is false for setOSQPOptions(getOSQPOptions()): the settings are freed before they are copied. *)
Theorem C43_refuted : forall T S Q (A : Arith T) (dfltS : S) (dfltQ : Q), run dfltS dfltQ ([ONew; OSetOsqp 0 (AGet 0)] : list (op T S Q)) pstart = UB UseAfterFree.
Proof. exact (fun T S Q A dfltS dfltQ => eq_refl). Qed.
Print Assumptions C43_refuted.

(** ** Files *)

(** C45 for files with enough numbers, files with something that is not a number before the end, and missing files; missing: truncated files, for
    which it is false (below). *)
Theorem C45_partial : forall T (vs : list T) rest (data : arr T) n,
  (len vs = len data -> readFromFile data (len vs) (Some (map TNum vs ++ rest)) = Ok (SUCCESSFUL_RETURN, lift vs)) /\
  (len vs < n -> n <= len data -> exists d, readFromFile data n (Some (map TNum vs ++ TBad :: rest)) = Ok (UNABLE_TO_READ_FILE, d)) /\
  readFromFile data n None = Ok (UNABLE_TO_READ_FILE, data).
Proof. exact (fun T vs rest data n => conj (p_C45_good vs rest data) (conj (p_C45_bad vs rest data n) eq_refl)). Qed.
Print Assumptions C45_partial.
Example C45_example : len [a_of_Z 1 : xq; a_of_Z 2] = len [None : option xq; None] /\ len [a_of_Z 1 : xq] < 2.
Proof. split; reflexivity. Qed.
(** C45 is false for truncated files: the file is accepted and the missing values keep what the array had before. *)
Theorem C45_refuted : forall T (vs : list T) (data : arr T) n, len vs < n -> n <= len data ->
  readFromFile data n (Some (map TNum vs)) = Ok (SUCCESSFUL_RETURN, lift vs ++ drop (len vs) data).
Proof. exact @p_C45_short. Qed.
Print Assumptions C45_refuted.
(** C45 is false for missing files of integers: NULL is passed to fclose. *)
Theorem C45_int_refuted : forall (data : arr Z) n, readFromFile_int data n None = UB BadCall.
Proof. exact (fun data n => eq_refl). Qed.
Print Assumptions C45_int_refuted.

(** C46 up to half a unit of the sixth decimal, in exact arithmetic; missing: equality, which is false (below). *)
Theorem C46_partial : forall l : list Qc, exists f (l' : list Qc), writeToFile printf_f true (lift (map Fin l)) (len l) = Ok (SUCCESSFUL_RETURN, f) /\
  (forall data, len data = len l -> readFromFile data (len l) (Some f) = Ok (SUCCESSFUL_RETURN, lift (map Fin l'))) /\
  len l' = len l /\ forall i, 0 <= i < len l -> (Qabs (this (at_ 0%Qc l' i) - this (at_ 0%Qc l i)) <= 1 # 2000000)%Q.
Proof. exact p_C46. Qed.
Print Assumptions C46_partial.
(** C46 for values that are multiples of 10^-6. *)
Theorem C46_decimal_partial : forall (ks : list Z) data, len data = len ks ->
  exists f, writeToFile printf_f true (lift (map (fun k => Fin (Q2Qc (k # 1000000))) ks)) (len ks) = Ok (SUCCESSFUL_RETURN, f) /\
    readFromFile data (len ks) (Some f) = Ok (SUCCESSFUL_RETURN, lift (map (fun k => Fin (Q2Qc (k # 1000000))) ks)).
Proof. exact p_C46_exact. Qed.
Print Assumptions C46_decimal_partial.
Example C46_example : len [None : option xq; None] = len [1500000; -1].
Proof. reflexivity. Qed.
(** C46 is false: 10^-7 is read back as 0. *)
Theorem C46_refuted : exists (q q' : Qc) f, writeToFile printf_f true (lift [Fin q]) 1 = Ok (SUCCESSFUL_RETURN, f) /\
  readFromFile [None] 1 (Some f) = Ok (SUCCESSFUL_RETURN, lift [Fin q']) /\ this q = (1 # 10000000)%Q /\ this q' = 0%Q.
Proof. exists (Q2Qc (1 # 10000000)), (round6 (Q2Qc (1 # 10000000))), [TNum (Fin (round6 (Q2Qc (1 # 10000000))))]. split; [vm_compute; reflexivity|]. split; [reflexivity|]. split; vm_compute; reflexivity. Qed.
Print Assumptions C46_refuted.

(** ** MATLAB *)

(** C47, for calls that do not store steps (and calls whose run made no iteration); missing: calls that store steps, for which it is false. *)
Theorem C47_partial : forall T (A : Arith T) dtoi itod orc rand elapsed nlhs prhs x y s o,
  mexFunction dtoi itod orc rand elapsed nlhs prhs = Ok (inr (Output x y (Some s) o)) ->
  exists nV nComp nC opt l o0 ret, mexLoad dtoi itod prhs = Ok (inr (nV, nComp, nC, opt, l, o0)) /\ runSolver orc rand o0 = Ok (ret, o) /\
    (o_storeSteps opt = false \/ st_iterTotal (getOutputStatistics o) <= 0 ->
     forall name v, lookup name (stat_meaning ret elapsed (getOutputStatistics o)) = Some v -> lookup name s = Some v).
Proof. exact @p_C47. Qed.
Print Assumptions C47_partial.
Example C47_example : exi_mex false 0 = Ok (inr (Output (mex_x (exi_mex false 0)) (mex_y (exi_mex false 0)) (Some (mex_stats (exi_mex false 0))) (mex_obj (exi_mex false 0)))) /\
  o_storeSteps (snd (fst (fst (mex_loaded (exi_args false 0))))) = false.
Proof. split; [apply exi_run|vm_compute; reflexivity]. Qed.
(** C47 is false if steps are stored: in the example call "qp_exit_flag" is no integer, and "stepLength" holds the step sizes. *)
Theorem C47_refuted : exists prhs x y s o, mexFunction xq_to_int a_of_Z (exq_orc QPOASES_DENSE) no_rand (Fin 0) 3 prhs = Ok (inr (Output x y (Some s) o)) /\
  lookup "qp_exit_flag" s <> Some (SInt (st_exit_flag (getOutputStatistics o))) /\
  lookup "stepLength" s = Some (SNums (st_stepSize (getOutputStatistics o))) /\ st_stepSize (getOutputStatistics o) <> st_stepLength (getOutputStatistics o).
Proof.
  exists (exi_args true 0), (mex_x (exi_mex true 0)), (mex_y (exi_mex true 0)), (mex_stats (exi_mex true 0)), (mex_obj (exi_mex true 0)). split; [exact exi_run_mex|].
  split; [vm_compute; discriminate|]. split; [vm_compute; reflexivity|vm_compute; discriminate].
Qed.
Print Assumptions C47_refuted.
(** What the fields hold whenever steps are stored: each of them something else. *)
Theorem C47_stored_refuted : forall T nV ret (elapsed : T) st, 0 <= nV -> 0 < st_iterTotal st -> tracked nV st -> exists s, statsStruct true nV ret elapsed st = Ok s /\
  lookup "qp_exit_flag" s = Some (SNums (concat (st_xSteps st))) /\ lookup "innerIters" s = Some (SInts (st_subproblemIters st)) /\
  lookup "xSteps" s = Some (SInts (st_accuSubproblemIters st)) /\ lookup "accumulatedSubproblemIters" s = Some (SNums (st_stepLength st)) /\
  lookup "stepLength" s = Some (SNums (st_stepSize st)) /\ lookup "stepSize" s = Some (SNums (st_statVals st)) /\ lookup "statVals" s = Some (SNums (st_objVals st)) /\
  lookup "objVals" s = Some (SNums (st_phiVals st)) /\ lookup "phiVals" s = Some (SNums (st_meritVals st)) /\ lookup "meritVals" s = Some (SInts (st_innerIters st)) /\
  lookup "subproblemIters" s = Some SEmpty.
Proof. exact @stats_long. Qed.
Print Assumptions C47_stored_refuted.
Example C47_stored_example : let st := getOutputStatistics (mex_obj (exi_mex true 0)) in 0 < st_iterTotal st /\ tracked 2 st.
Proof. exact exi_tracked. Qed.

(** C48 *)
Theorem C48 : forall T (d : T) m n (col : list T) (row : arr T), 0 <= m -> 0 <= n -> len col = m * n -> len row = m * n ->
  exists r, colMajorToRowMajor (lift col) row m n = Ok (lift r) /\ len r = m * n /\
    forall i j, 0 <= i < m -> 0 <= j < n -> at_ d r (i * n + j) = at_ d col (j * m + i).
Proof. exact @p_C48. Qed.
Print Assumptions C48.
Example C48_example : colMajorToRowMajor (lift [1; 2; 3; 4; 5; 6]) [None; None; None; None; None; None] 2 3 = Ok (lift [1; 3; 5; 2; 4; 6]).
Proof. reflexivity. Qed.

(** C58, for thirteen arguments (all data, default options) with symmetric Q: the solver gets the caller's problem. *)
Theorem C58_partial : forall T (A : Arith T) dtoi itod (u : umat T), wf_dense (rows_of u) -> symmetric u -> cons_args (um_v u) ->
  u_x0 (um_v u) = None -> u_y0 (um_v u) = None ->
  mexLoad dtoi itod (ml_args u) =
    (let! o := new_object (um_v u) setToDefault in let! '(r, o) := load_dense (rows_of u) o in
     Ok (inr (u_nV (um_v u), u_nComp (um_v u), u_nC (um_v u), setToDefault, ml_code r, o))).
Proof. exact @p_C58_plain. Qed.
Print Assumptions C58_partial.
Example C58_example : wf_dense (rows_of exi_u0) /\ symmetric exi_u0 /\ cons_args (um_v exi_u0) /\ u_x0 (um_v exi_u0) = None /\ u_y0 (um_v exi_u0) = None.
Proof. exact (conj exi_wf0 (conj (proj2 exi_sym) (conj (proj2 exi_cons) (conj eq_refl eq_refl)))). Qed.

(** C58 and C59, for fourteen arguments: if the call is accepted, then the solver gets the caller's problem with the initial guesses of the struct, and
    exactly the setters named in the struct were called; missing: a maxPenaltyParameter that is no integer (below), other numbers of arguments, sparse
    matrices, and the structs with options of the QP solvers. *)
Theorem C59_partial : forall T (A : Arith T) dtoi itod (u : umat T) s nV nComp nC opt r o,
  wf_dense (rows_of u) -> symmetric u -> cons_args (um_v u) -> full_fields s -> whole_max_penalty dtoi itod s ->
  lookup "x0" s = option_map (fun l => MxDense (u_nV (um_v u)) 1 l) (u_x0 (um_v u)) -> lookup "y0" s = option_map (fun l => MxDense (len l) 1 l) (u_y0 (um_v u)) ->
  mexLoad dtoi itod (ml_args u ++ [MxStruct s]) = Ok (inr (nV, nComp, nC, opt, r, o)) ->
  opt = after (param_calls dtoi s) setToDefault /\
  exists o0 rv, new_object (um_v u) opt = Ok o0 /\ load_dense (rows_of u) o0 = Ok (rv, o) /\ r = ml_code rv.
Proof. exact @p_C58_params. Qed.
Print Assumptions C59_partial.
Example C59_example : wf_dense (rows_of exi_u) /\ symmetric exi_u /\ cons_args (um_v exi_u) /\ full_fields (exi_params true 0) /\
  whole_max_penalty xq_to_int a_of_Z (exi_params true 0) /\
  lookup "x0" (exi_params true 0) = option_map (fun l => MxDense (u_nV (um_v exi_u)) 1 l) (u_x0 (um_v exi_u)) /\
  mexLoad xq_to_int a_of_Z (exi_args true 0) = Ok (inr (mex_loaded (exi_args true 0))).
Proof. exact (conj exi_wf (conj (proj1 exi_sym) (conj (proj1 exi_cons) (conj (exi_full true 0) (conj (exi_whole true 0) (conj eq_refl (exi_load true))))))). Qed.
(** C59 is false for maxPenaltyParameter 1/2: the value 0 is passed on, which is rejected, so that the default is used. *)
Theorem C59_refuted : exists s pm, readParams xq_to_int a_of_Z (MxStruct s) 2 1 0 = Ok (inr pm) /\
  fst (setMaxPenaltyParameter (Fin (Q2Qc (1 # 2))) setToDefault) = SUCCESSFUL_RETURN /\ scalar (lookup "maxPenaltyParameter" s) = Some (Fin (Q2Qc (1 # 2))) /\
  getMaxPenaltyParameter (pm_options pm) = getMaxPenaltyParameter (setToDefault : options xq) /\ getMaxPenaltyParameter (pm_options pm) <> Fin (Q2Qc (1 # 2)).
Proof.
  exists [("maxPenaltyParameter", MxDense 1 1 [Fin (Q2Qc (1 # 2))])], (mkParams setToDefault None None).
  split; [vm_compute; reflexivity|]. split; [vm_compute; reflexivity|]. split; [reflexivity|]. split; [reflexivity|]. vm_compute. discriminate.
Qed.
Print Assumptions C59_refuted.

(** C60 is false: bounds of complementarities are not checked, so that a short vector is read beyond its end; and if the run fails, then the dual
    output is made of uninitialised memory. *)
Theorem C60_refuted : mexLoad xq_to_int a_of_Z exi_short = UB OutOfBounds /\
  mexFunction xq_to_int a_of_Z (failing 0 (exq_orc QPOASES_DENSE)) no_rand (Fin 0) 2 (exi_args false 0) = UB Uninit.
Proof. split; vm_compute; reflexivity. Qed.
Print Assumptions C60_refuted.

(** ** Python *)

(** C49; Q arrives transposed, which does not matter as it is symmetric. *)
Theorem C49 : forall T (A : Arith T) (u : umat T) o, wf_dense (rows_of u) -> cons_args (um_v u) ->
  py_load u o = load_dense (rows_of (mkUmat (um_v u) (transp (um_Q u)) (um_L u) (um_R u) (um_A u))) o.
Proof. exact @p_C49_general. Qed.
Print Assumptions C49.
Theorem C49_symmetric : forall T (A : Arith T) (u : umat T) o, wf_dense (rows_of u) -> symmetric u -> cons_args (um_v u) -> py_load u o = load_dense (rows_of u) o.
Proof. exact @py_load_ok. Qed.
Print Assumptions C49_symmetric.
Example C49_example : wf_dense (rows_of exi_u) /\ symmetric exi_u /\ cons_args (um_v exi_u).
Proof. exact (conj exi_wf (conj (proj1 exi_sym) (proj1 exi_cons))). Qed.

(** C50 for all codes but six; missing: these six, for which it is false. *)
Theorem C50_partial : forall r,
  ~ In r [INVALID_NUMBER_OF_COMP_VARS; INDEX_OUT_OF_BOUNDS; UNABLE_TO_READ_FILE; INVALID_INDEX_POINTER; INVALID_INDEX_ARRAY; DENSE_SPARSE_MISSMATCH] ->
  lookup (cpp_name r) py_return_values = Some r.
Proof. exact p_C50. Qed.
Print Assumptions C50_partial.
Example C50_example : ~ In MAX_PENALTY_REACHED [INVALID_NUMBER_OF_COMP_VARS; INDEX_OUT_OF_BOUNDS; UNABLE_TO_READ_FILE; INVALID_INDEX_POINTER; INVALID_INDEX_ARRAY; DENSE_SPARSE_MISSMATCH].
Proof. cbn. intuition discriminate. Qed.
(** C50 is false: five names end in a blank, and one code is missing altogether. *)
Theorem C50_refuted : (forall r, In r [INVALID_NUMBER_OF_COMP_VARS; INDEX_OUT_OF_BOUNDS; UNABLE_TO_READ_FILE; INVALID_INDEX_POINTER; INVALID_INDEX_ARRAY] ->
    lookup (cpp_name r) py_return_values = None /\ lookup (cpp_name r ++ " ") py_return_values = Some r) /\
  forall name, ~ In (name, DENSE_SPARSE_MISSMATCH) py_return_values.
Proof.
  split; [intros r E; cbn in E; repeat (destruct E as [<-|E]; [split; reflexivity|]); destruct E|].
  intros name E. cbn in E. repeat (destruct E as [E|E]; [discriminate E|]). destruct E.
Qed.
Print Assumptions C50_refuted.

(** ** Messages *)

(** C51: the code is returned, every code but success has a text, and the texts tell the codes apart. *)
Theorem C51 : forall r t, snd (PrintMessage r t) = r /\ (message_text r = "" <-> r = SUCCESSFUL_RETURN) /\
  fst (PrintMessage r t) = (type_text t ++ message_text r)%string /\ forall r', message_text r = message_text r' -> r = r'.
Proof. exact (fun r t => conj (proj1 (p_C51 r t)) (conj (proj1 (proj2 (p_C51 r t))) (conj eq_refl (p_C51_distinct r)))). Qed.
Print Assumptions C51.
Theorem C51_solution : forall s, snd (PrintSolution s) = s /\ forall s', fst (PrintSolution s) = fst (PrintSolution s') -> s = s'.
Proof. exact p_C51_solution. Qed.
Print Assumptions C51_solution.
Example C51_example : fst (PrintMessage MAX_PENALTY_REACHED WARNING) = ("WARNING: Maxium penalty value reached." ++ String (Ascii.ascii_of_nat 10) "")%string.
Proof. reflexivity. Qed.
