(** * ExamplesMatlab: concrete calls of the MATLAB interface in all its forms (no LCQPow code). *)
From Coq Require Import String QArith Qcanon.
From Verif Require Import Base Arith Codes Utilities Options Stats FileIO Subsolver State LCQProblem Loops SpecSparse SpecMath SpecLoad SpecExact OptionsGet SpecOptions
  Matlab Python Printf SpecInterfaces Examples ExamplesKernels ExamplesExact ExamplesInterfaces NoUB LoadSparse SpecMatlab.
Local Open Scope string_scope.
Local Open Scope list_scope.
Local Open Scope Z_scope.

(** The vectors of the example problem that a form can express; lb = 0.  No LCQPow code. *)
Definition exf_v (f : ml_form) (x0 : bool) : uvec xq :=
  let v := to_vec (exq_v true) in
  let box := match f with FBox | FBoth => true | _ => false end in let cons := match f with FCons | FBoth => true | _ => false end in
  mkUvec (u_nV v) (if cons then u_nC v else 0) (u_nComp v) (u_g v) (u_lbL v) (u_ubL v) (u_lbR v) (u_ubR v) (if cons then u_lbA v else None) (if cons then u_ubA v else None)
    (if box then Some [a_of_Z 0; a_of_Z 0] else None) None (if x0 then u_x0 v else None) None.
(** The problem with a Hessian that is not symmetric (for [sy] = false).  No LCQPow code. *)
Definition exf_u (f : ml_form) (x0 sy : bool) : umat xq :=
  mkUmat (exf_v f x0) (if sy then um_Q exi_u else fun i j => a_of_Z (2 + i - j)) (um_L exi_u) (um_R exi_u) (um_A exi_u).
(** The arguments of a form.  No LCQPow code. *)
Definition exf_args_of (f : ml_form) (v : uvec xq) (Q L R A : mxArray xq) : list (mxArray xq) :=
  [ Q; ml_vec (u_nV v) (Some (u_g v)); L; R; ml_vec (u_nComp v) (u_lbL v); ml_vec (u_nComp v) (u_ubL v); ml_vec (u_nComp v) (u_lbR v); ml_vec (u_nComp v) (u_ubR v) ] ++
  match f with
  | FPlain => []
  | FBox => [ ml_vec (u_nV v) (u_lb v); ml_vec (u_nV v) (u_ub v) ]
  | FCons => [ A; ml_vec (u_nC v) (u_lbA v); ml_vec (u_nC v) (u_ubA v) ]
  | FBoth => [ A; ml_vec (u_nC v) (u_lbA v); ml_vec (u_nC v) (u_ubA v); ml_vec (u_nV v) (u_lb v); ml_vec (u_nV v) (u_ub v) ]
  end.
(** The dense call.  No LCQPow code. *)
Definition exf_args (f : ml_form) (sy : bool) : list (mxArray xq) :=
  let u := exf_u f false sy in exf_args_of f (exf_v f false) (ml_mat 2 2 (um_Q u)) (ml_mat 1 2 (um_L u)) (ml_mat 1 2 (um_R u)) (ml_mat 1 2 (um_A u)).
(** The sparse problem and the sparse call.  No LCQPow code. *)
Definition exf_s (f : ml_form) (x0 : bool) : usparse xq :=
  let u := to_sparse (exq_s true) in mkUsparse (exf_v f x0) (us_Q u) (us_L u) (us_R u) (match f with FCons | FBoth => us_A u | _ => None end).
(** Example arguments with sparse matrices. No LCQPow code. *)
Definition exf_sargs (f : ml_form) : list (mxArray xq) :=
  let u := to_sparse (exq_s true) in
  exf_args_of f (exf_v f false) (ml_csc 2 2 (us_Q u)) (ml_csc 1 2 (us_L u)) (ml_csc 1 2 (us_R u)) (ml_csc 1 2 (match us_A u with Some c => c | None => [] end)).

Lemma exf_wf f x sy : wf_dense (rows_of (exf_u f x sy)).
Proof. constructor; [constructor; destruct f, x; vm_compute; try reflexivity; try discriminate; exact I|destruct f, sy; reflexivity..]. Qed.
Lemma exf_sym f x : symmetric (exf_u f x true).
Proof. exact (proj1 exi_sym). Qed.
Lemma exf_fits f x : ml_form_fits f (exf_v f x).
Proof. split; [intros C|]; destruct f; try discriminate C; repeat split; reflexivity. Qed.
Ltac exf_call := repeat first [apply Forall2_nil | apply Forall2_cons]; first [reflexivity | exists 0, 0; split; [reflexivity|left; reflexivity] | idtac].
Lemma exf_call f x sy : ml_dense_call f (exf_u f x sy) (exf_args f sy).
Proof. split; [apply exf_fits|]. destruct f, x, sy; exf_call. Qed.
Lemma exf_swf f x : wf_sparse (exf_s f x).
Proof.
  constructor; [exact (wu_v _ (exf_wf f x true))| | | | |destruct f; vm_compute; discriminate]; destruct f; (apply wf_cols_check; [reflexivity|reflexivity|repeat constructor]).
Qed.
Lemma exf_scall f x : ml_sparse_call f (exf_s f x) (exf_sargs f).
Proof. split; [apply exf_fits|]. split; [destruct f; split; (reflexivity || discriminate)|]. destruct f, x; exf_call. all: eexists; split; reflexivity. Qed.
Lemma exf_guess f store qs : ml_guesses (exf_v f true) (exi_params store qs).
Proof. split; [apply exi_full|]. split; reflexivity. Qed.
Lemma exf_load f sy store : mexLoad xq_to_int a_of_Z (exf_args f sy ++ [MxStruct (exi_params store 0)]) = Ok (inr (mex_loaded (exf_args f sy ++ [MxStruct (exi_params store 0)]))).
Proof. destruct f, sy, store; vm_compute; reflexivity. Qed.
Lemma exf_sload f store : mexLoad xq_to_int a_of_Z (exf_sargs f ++ [MxStruct (exi_params store 1)]) = Ok (inr (mex_loaded (exf_sargs f ++ [MxStruct (exi_params store 1)]))).
Proof. destruct f, store; vm_compute; reflexivity. Qed.

(** Parameters that choose OSQP and give the dual guess it expects.  No LCQPow code. *)
Definition exf_dual (f : ml_form) : list (string * mxArray xq) :=
  let n := match f with FCons | FBoth => 3 | _ => 2 end in [ ("qpSolver", mx1 2); ("y0", MxDense n 1 (repeat (a_of_Z 0) (Z.to_nat n))) ].
(** What is read from them.  No LCQPow code. *)
Definition exf_dual_params (f : ml_form) : params xq :=
  match readParams xq_to_int a_of_Z (MxStruct (exf_dual f)) 2 1 (u_nC (exf_v f false)) with Ok (inr pm) => pm | _ => mkParams setToDefault None None end.
Lemma exf_dual_full f : full_fields (exf_dual f).
Proof. intros n a. unfold exf_dual, lookup. repeat match goal with |- (if ?c then _ else _) = _ -> _ => destruct c; [intros E; injection E as <-; split; destruct f; reflexivity|] end. discriminate. Qed.
Lemma exf_dual_read f : readParams xq_to_int a_of_Z (MxStruct (exf_dual f)) 2 1 (u_nC (exf_v f false)) = Ok (inr (exf_dual_params f)) /\ o_qpSolver (pm_options (exf_dual_params f)) = OSQP_SPARSE.
Proof. destruct f; split; vm_compute; reflexivity. Qed.
Lemma exf_fin f x : fin_lower (exf_v f x).
Proof. split; intros v [<-|[]]; reflexivity. Qed.

(** A dense problem whose g is sparse with a single entry.  No LCQPow code. *)
Definition exf_sparse_g : list (mxArray xq) :=
  [ ml_mat 2 2 (um_Q exi_u); MxSparse 2 1 [a_of_Z 1] [1] [0; 1]; ml_mat 1 2 (um_L exi_u); ml_mat 1 2 (um_R exi_u) ] ++ repeat (MxDense 0 0 []) 4.

Lemma exf_safe_args f sy : (8 <= length (exf_args f sy))%nat /\ Forall ml_full (exf_args f sy) /\ ml_pair_bounds (exf_args f sy) /\ ml_small (exf_args f sy) /\
  mxIsEmpty (ml_arg (exf_args f sy) 4) = mxIsEmpty (ml_arg (exf_args f sy) 6).
Proof.
  split; [destruct f; cbn; lia|]. split.
  - destruct f; repeat apply Forall_cons; try apply Forall_nil; (eexists _, _, _; split; [reflexivity|]; destruct sy; repeat split; vm_compute; (reflexivity || discriminate)).
  - split; [|split; [destruct f, sy; repeat split; vm_compute; discriminate|destruct f, sy; reflexivity]].
    intros i Hi. assert (C : i = 4%nat \/ i = 5%nat \/ i = 6%nat \/ i = 7%nat) by lia. destruct C as [->|[->|[->| ->]]], f, sy; vm_compute; auto.
Qed.
Lemma exf_safe_params qs : 0 <= qs <= 1 -> ml_extra xq_to_int [MxStruct (exi_params true qs)].
Proof.
  intros Hq. right. eexists. split; [reflexivity|]. split; [apply exi_full|]. split; [|left; reflexivity].
  assert (Q : qs = 0 \/ qs = 1) by lia. intros name v Hn. 
  destruct Q as [-> | ->], Hn as [<-|[<-|[<-|[<-|[<-|[]]]]]]; intros E; try discriminate E;
    (match type of E with ?x = _ => let y := eval vm_compute in x in change (y = Some v) in E end); injection E as <-; eexists; vm_compute; reflexivity.
Qed.
Lemma exf_counts f nV nComp nC opt o : mexLoad xq_to_int a_of_Z (exf_args f true ++ [MxStruct (exi_params true 0)]) = Ok (inr (nV, nComp, nC, opt, 0, o)) ->
  o_qpSolver opt = QPOASES_DENSE /\ small_counts opt (exq_orc QPOASES_DENSE) 1.
Proof.
  rewrite exf_load. intros E. assert (Eo : snd (fst (fst (mex_loaded (exf_args f true ++ [MxStruct (exi_params true 0)])))) = opt) by exact (f_equal (fun m => match m with Ok (inr r) => snd (fst (fst r)) | _ => opt end) E).
  subst opt. clear E. split; [destruct f; vm_compute; reflexivity|]. constructor; [intros h; pose proof (sc_iter _ _ _ (exq_counts QPOASES_DENSE) h) as K; exact K| | |]; destruct f; vm_compute; discriminate.
Qed.
Lemma exf_sparse_bad : mexLoad xq_to_int a_of_Z exf_sparse_g = UB OutOfBounds.
Proof. vm_compute. reflexivity. Qed.
Lemma exf_nonzero f : wf_sparse (exf_s f false) /\ fin_lower (exf_v f false) /\ ml_sparse_call f (exf_s f false) (exf_sargs f) /\
  (exists c, nth_error (concat (us_C (exf_s f false))) 0 = Some c).
Proof. split; [apply exf_swf|]. split; [apply exf_fin|]. split; [apply exf_scall|]. destruct f; eexists; vm_compute; reflexivity. Qed.
Lemma exf_skew f : um_Q (exf_u f false false) 0 1 <> um_Q (exf_u f false false) 1 0.
Proof. vm_compute. discriminate. Qed.

(** The struct of default options with flags as logical values.  No LCQPow code. *)
Definition exf_defaults : list (string * mxArray xq) :=
  map (fun '(n, a) => (n, if String.eqb n "solveZeroPenaltyFirst" || String.eqb n "perturbStep" then MxLogical 1 1 true else a)) (LCQPow_default_options (Fin (Q2Qc (1 # 4503599627370496)))).
(** What is read from it.  No LCQPow code. *)
Definition exf_defaults_params : params xq :=
  match readParams xq_to_int a_of_Z (MxStruct exf_defaults) 2 1 0 with Ok (inr pm) => pm | _ => mkParams setToDefault None None end.
Lemma exf_defaults_read : readParams xq_to_int a_of_Z (MxStruct exf_defaults) 2 1 0 = Ok (inr exf_defaults_params).
Proof. vm_compute. reflexivity. Qed.
Lemma exf_defaults_differ : let o := pm_options exf_defaults_params in
  a_lt (getStationarityTolerance o) (getComplementarityTolerance o) = true /\ a_lt (getComplementarityTolerance (setToDefault : options xq)) (getStationarityTolerance setToDefault) = true /\
  getPrintLevel o <> getPrintLevel (setToDefault : options xq).
Proof. split; [vm_compute; reflexivity|]. split; [vm_compute; reflexivity|]. vm_compute. discriminate. Qed.
Lemma exf_defaults_any nV nComp nC : readParams xq_to_int a_of_Z (MxStruct exf_defaults) nV nComp nC = Ok (inr exf_defaults_params).
Proof. vm_compute. reflexivity. Qed.
Lemma exf_defaults_agree : let o := pm_options exf_defaults_params in let d := (setToDefault : options xq) in
  (pm_x0 exf_defaults_params = None /\ pm_y0 exf_defaults_params = None) /\
  (getInitialPenaltyParameter o = getInitialPenaltyParameter d /\ getPenaltyUpdateFactor o = getPenaltyUpdateFactor d /\ getMaxPenaltyParameter o = getMaxPenaltyParameter d) /\
  (getSolveZeroPenaltyFirst o = getSolveZeroPenaltyFirst d /\ getPerturbStep o = getPerturbStep d /\ getMaxIterations o = getMaxIterations d) /\
  (getNDynamicPenalty o = getNDynamicPenalty d /\ getEtaDynamicPenalty o = getEtaDynamicPenalty d) /\
  (getStoreSteps o = getStoreSteps d /\ getQPSolver o = getQPSolver d).
Proof. vm_compute. repeat split. Qed.
