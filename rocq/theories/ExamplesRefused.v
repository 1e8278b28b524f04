(** * ExamplesRefused: refused loads on the example object (examples, not LCQPow code). *)
From Coq Require Import QArith Qcanon.
From Verif Require Import Base Arith Codes Utilities Options Stats FileIO Subsolver State LCQProblem Loops SpecSparse SpecMath SpecLoad SpecExact SpecFiles SpecRefused
  SpecApi LoadSparse Examples ExamplesKernels ExamplesExact ExamplesHistory ExamplesReuse ExamplesFiles.
Open Scope Z_scope.

(** A problem that no load accepts: a lower complementarity bound is minus infinity.  No LCQPow code. *)
Definition exl_bad : udense xq :=
  mkUdense (mkUvec 2 0 1 (fz [-2; -4]) (Some [NInf]) None (Some (fz [0])) None None None None None None None) (fz [2; 0; 0; 2]) (fz [1; 0]) (fz [0; 1]) [].
(** The example object, loaded, after that refused load.  No LCQPow code. *)
Definition exl_o : lcqp xq := obj (load_dense exl_bad exr_o1).
Lemma exl_refused : load_dense exl_bad exr_o1 = Ok (INVALID_LOWER_COMPLEMENTARITY_BOUND, exl_o).
Proof. vm_compute. reflexivity. Qed.
Lemma exl_run : forall orc rand, runSolver orc rand exl_o = UB Uninit.
Proof. intros. vm_compute. reflexivity. Qed.
(** An object with the example problem with one constraint.  No LCQPow code. *)
Definition exl_c : lcqp xq := obj (load_dense exf_u exf_o).
Lemma exl_c_ok : load_dense exf_u exf_o = Ok (SUCCESSFUL_RETURN, exl_c).
Proof. vm_compute. reflexivity. Qed.
(** A call with another objective that forgets the constraint matrix.  No LCQPow code. *)
Definition exl_call (o : lcqp xq) : res (ReturnValue * lcqp xq) :=
  loadLCQP (Some (lift (fz [6; 0; 0; 6]))) (Some (lift (fz [-12; -6]))) (Some (lift (fz [1; 0]))) (Some (lift (fz [0; 1]))) None None None None None None None None None None None o.
(** The object after this refused call.  No LCQPow code. *)
Definition exl_m : lcqp xq := obj (exl_call exl_c).
Lemma exl_m_refused : exl_call exl_c = Ok (INVALID_CONSTRAINT_MATRIX, exl_m).
Proof. vm_compute. reflexivity. Qed.
(** A QP library solving min h/2 |x|^2 + g'x over x >= 0, with the constraint x1 + x2 <= 10 inactive.  No LCQPow code. *)
Definition exl_orc (h : Z) : oracle xq := fun calls =>
  let g := match calls with [] => [] | c :: _ => qc_g c end in
  let gi i := nth (Z.to_nat i) g a_zero in
  let pos v := if a_le a_zero v then v else a_zero in
  mkRaw 0 1 1 true false false (fun i => pos ((- gi i) / a_of_Z h)%num) (fun i => if i <? 3 then a_zero else pos (gi (i - 3))).
(** The loaded object after a run.  No LCQPow code. *)
Definition exl_c_done : lcqp xq := obj (runSolver (exl_orc 2) no_rand exl_c).
(** The object after the refused call and a run.  No LCQPow code. *)
Definition exl_m_done : lcqp xq := obj (runSolver (exl_orc 6) no_rand exl_m).
Lemma exl_c_runs : runSolver (exl_orc 2) no_rand exl_c = Ok (SUCCESSFUL_RETURN, exl_c_done) /\ getPrimalSolution (Some (lift (fz [0; 0]))) exl_c_done = Ok (S_STATIONARY_SOLUTION, Some (lift (fz [0; 2]))).
Proof. split; vm_compute; reflexivity. Qed.
Lemma exl_m_runs : runSolver (exl_orc 6) no_rand exl_m = Ok (SUCCESSFUL_RETURN, exl_m_done) /\ getPrimalSolution (Some (lift (fz [0; 0]))) exl_m_done = Ok (S_STATIONARY_SOLUTION, Some (lift (fz [2; 0]))) /\
  forall c, In c (s_calls (it exl_m_done)) -> qc_H c = MDense (fz [6; 0; 0; 6]) /\ qc_A c = MDense (ud_A exf_u ++ ud_L exf_u ++ ud_R exf_u).
Proof.
  split; [vm_compute; reflexivity|]. split; [vm_compute; reflexivity|].
  assert (G : Forall (fun c => qc_H c = MDense (fz [6; 0; 0; 6]) /\ qc_A c = MDense (ud_A exf_u ++ ud_L exf_u ++ ud_R exf_u)) (s_calls (it exl_m_done))).
  { vm_compute. repeat (constructor; [split; reflexivity|]). constructor. }
  intros c Hc. exact (proj1 (Forall_forall _ _) G c Hc).
Qed.

(** The refused call is followed by the example problem, which gives its own lower complementarity bounds.  No LCQPow code. *)
Definition exl_next : udense xq :=
  mkUdense (mkUvec 2 0 1 (fz [-2; -4]) (Some (fz [0])) None (Some (fz [0])) None None None None None None None) (fz [2; 0; 0; 2]) (fz [1; 0]) (fz [0; 1]) [].
Lemma exl_next_ok : wf_dense exl_next /\ built_for (ud_v exl_next) exr_o1 /\ fin_lower (ud_v exl_next).
Proof.
  split; [constructor; [constructor; vm_compute; try reflexivity; try discriminate; exact I|reflexivity..]|].
  split; [vm_compute; auto|]. split; intros v [<-|[]]; reflexivity.
Qed.
Lemma exl_next_replaced : replaced u_lbL (ud_v exl_next) (ptr_of (u_lbL (ud_v exl_bad))) /\ replaced u_ubL (ud_v exl_next) (ptr_of (u_ubL (ud_v exl_bad))) /\
  replaced u_lbR (ud_v exl_next) (ptr_of (u_lbR (ud_v exl_bad))) /\ replaced u_ubR (ud_v exl_next) (ptr_of (u_ubR (ud_v exl_bad))) /\
  replaced u_lb (ud_v exl_next) (ptr_of (u_lb (ud_v exl_bad))) /\ replaced u_ub (ud_v exl_next) (ptr_of (u_ub (ud_v exl_bad))).
Proof.
  split; [left; discriminate|]. split; [right; reflexivity|]. split; [left; discriminate|].
  split; [right; reflexivity|]. split; right; reflexivity.
Qed.

(** Sparse: matrices L and R with product zero are refused.  No LCQPow code. *)
Definition exl_zero : usparse xq := mkUsparse (us_v exr_s) (us_Q exr_s) [[]; []] (us_R exr_s) None.
(** The object after this refused load.  No LCQPow code. *)
Definition exl_z : lcqp xq := obj (load_sparse exl_zero exr_o1).
Lemma exl_zero_refused : load_sparse exl_zero exr_o1 = Ok (FAILED_SYM_COMPLEMENTARITY_MATRIX, exl_z).
Proof. vm_compute. reflexivity. Qed.
Lemma exl_zero_next : built_for (us_v exr_s) exr_o1 /\ fin_lower (us_v exr_s) /\ concat (us_C exr_s) <> [] /\
  (forall f, In f [u_lbL; u_ubL; u_lbR; u_ubR; u_lb; u_ub] -> replaced f (us_v exr_s) (ptr_of (f (us_v exl_zero)))).
Proof.
  split; [vm_compute; auto|]. split; [split; exact I|]. split; [vm_compute; discriminate|].
  intros f Hf. right. cbn [In] in Hf. decompose [or] Hf; try contradiction; subst f; reflexivity.
Qed.
(** Files of the example problem with an unreadable file for y0: refused.  No LCQPow code. *)
Lemma exl_files_refused : load_files (exf_files exf_u (Some None)) exl_c = Ok (UNABLE_TO_READ_FILE, logL (EvMessage UNABLE_TO_READ_FILE) exl_c).
Proof. vm_compute. reflexivity. Qed.
