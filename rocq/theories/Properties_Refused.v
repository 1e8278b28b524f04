(** * Properties_Refused: what a refused load leaves behind (C72).

    [same_answers o o']: the getters, the options and the mode are the same; [reported r o o']: the message of [r] was printed and nothing else;
    [built_for v o]: the object has the sizes of [v]; [replaced f v p]: the problem [v] gives the vector [f], or the refused call did not ([p] is its
    pointer) (SpecRefused.v).  Any arithmetic; the objects may have any past. *)
From Coq Require Import QArith Qcanon.
From Verif Require Import Base Arith Codes Utilities Options Stats FileIO Subsolver State LCQProblem SpecLoad SpecExact SpecApi SpecFiles LoadSparse SpecRefused RefusedFacts
  Examples ExamplesKernels ExamplesExact ExamplesHistory ExamplesReuse ExamplesFiles ExamplesRefused.
Open Scope Z_scope.

(** ** C72: a refused load changes nothing

    Partial: what can be asked of the object is unchanged, for any arguments of the call.  Missing: the problem data, for which it is false (below). *)
Theorem C72_dense_partial : forall T (A : Arith T) Q g L R lbL ubL lbR ubR cA lbA ubA lb ub x0 y0 (o : lcqp T) r o',
  loadLCQP Q g L R lbL ubL lbR ubR cA lbA ubA lb ub x0 y0 o = Ok (r, o') -> r <> SUCCESSFUL_RETURN -> same_answers o o' /\ reported r o o'.
Proof. exact @p_C72_dense. Qed.
Print Assumptions C72_dense_partial.
Example C72_dense_example : load_dense exl_bad exr_o1 = Ok (INVALID_LOWER_COMPLEMENTARITY_BOUND, exl_o) /\ INVALID_LOWER_COMPLEMENTARITY_BOUND <> SUCCESSFUL_RETURN.
Proof. split; [exact exl_refused|discriminate]. Qed.

(** The same for sparse data. *)
Theorem C72_sparse_partial : forall T (A : Arith T) Q g L R lbL ubL lbR ubR cA lbA ubA lb ub x0 y0 (o : lcqp T) r o',
  loadLCQP_csc Q g L R lbL ubL lbR ubR cA lbA ubA lb ub x0 y0 o = Ok (r, o') -> r <> SUCCESSFUL_RETURN -> same_answers o o' /\ reported r o o'.
Proof. exact @p_C72_sparse. Qed.
Print Assumptions C72_sparse_partial.
Example C72_sparse_example : load_sparse exl_zero exr_o1 = Ok (FAILED_SYM_COMPLEMENTARITY_MATRIX, exl_z) /\ FAILED_SYM_COMPLEMENTARITY_MATRIX <> SUCCESSFUL_RETURN.
Proof. split; [exact exl_zero_refused|discriminate]. Qed.

(** The same for files. *)
Theorem C72_files_partial : forall T (A : Arith T) F (o : lcqp T) r o',
  load_files F o = Ok (r, o') -> r <> SUCCESSFUL_RETURN -> same_answers o o' /\ reported r o o'.
Proof. exact @p_C72_files. Qed.
Print Assumptions C72_files_partial.
Example C72_files_example : load_files (exf_files exf_u (Some None)) exl_c = Ok (UNABLE_TO_READ_FILE, logL (EvMessage UNABLE_TO_READ_FILE) exl_c) /\ UNABLE_TO_READ_FILE <> SUCCESSFUL_RETURN.
Proof. split; [exact exl_files_refused|discriminate]. Qed.

(** A valid load makes up for a refused one: it succeeds and the object is exactly what it would be without the refused call, whose message was
    printed.  This needs that bounds given by the refused call are given again; otherwise they stay in force as in C25. *)
Theorem C72_recover_partial : forall T (A : Arith T) Q g L R lbL ubL lbR ubR cA lbA ubA lb ub x0 y0 (o : lcqp T) r o1 (u : udense T),
  loadLCQP Q g L R lbL ubL lbR ubR cA lbA ubA lb ub x0 y0 o = Ok (r, o1) -> r <> SUCCESSFUL_RETURN ->
  wf_dense u -> built_for (ud_v u) o -> fin_lower (ud_v u) ->
  replaced u_lbL (ud_v u) lbL -> replaced u_ubL (ud_v u) ubL -> replaced u_lbR (ud_v u) lbR -> replaced u_ubR (ud_v u) ubR ->
  replaced u_lb (ud_v u) lb -> replaced u_ub (ud_v u) ub ->
  exists p, load_dense u o = Ok (SUCCESSFUL_RETURN, p) /\ load_dense u o1 = Ok (SUCCESSFUL_RETURN, logL (EvMessage r) p).
Proof. exact @p_C72_recover. Qed.
Print Assumptions C72_recover_partial.
Example C72_recover_example : load_dense exl_bad exr_o1 = Ok (INVALID_LOWER_COMPLEMENTARITY_BOUND, exl_o) /\
  (wf_dense exl_next /\ built_for (ud_v exl_next) exr_o1 /\ fin_lower (ud_v exl_next)) /\
  (replaced u_lbL (ud_v exl_next) (ptr_of (u_lbL (ud_v exl_bad))) /\ replaced u_ubL (ud_v exl_next) (ptr_of (u_ubL (ud_v exl_bad))) /\
   replaced u_lbR (ud_v exl_next) (ptr_of (u_lbR (ud_v exl_bad))) /\ replaced u_ubR (ud_v exl_next) (ptr_of (u_ubR (ud_v exl_bad))) /\
   replaced u_lb (ud_v exl_next) (ptr_of (u_lb (ud_v exl_bad))) /\ replaced u_ub (ud_v exl_next) (ptr_of (u_ub (ud_v exl_bad)))).
Proof. exact (conj exl_refused (conj exl_next_ok exl_next_replaced)). Qed.

(** The same for sparse data. *)
Theorem C72_recover_sparse_partial : forall T (A : Arith T) Q g L R lbL ubL lbR ubR cA lbA ubA lb ub x0 y0 (o : lcqp T) r o1 (u : usparse T),
  loadLCQP_csc Q g L R lbL ubL lbR ubR cA lbA ubA lb ub x0 y0 o = Ok (r, o1) -> r <> SUCCESSFUL_RETURN ->
  wf_sparse u -> built_for (us_v u) o -> fin_lower (us_v u) -> concat (us_C u) <> [] ->
  replaced u_lbL (us_v u) lbL -> replaced u_ubL (us_v u) ubL -> replaced u_lbR (us_v u) lbR -> replaced u_ubR (us_v u) ubR ->
  replaced u_lb (us_v u) lb -> replaced u_ub (us_v u) ub ->
  exists p, load_sparse u o = Ok (SUCCESSFUL_RETURN, p) /\ load_sparse u o1 = Ok (SUCCESSFUL_RETURN, logL (EvMessage r) p).
Proof. exact @p_C72_recover_sparse. Qed.
Print Assumptions C72_recover_sparse_partial.
Example C72_recover_sparse_example : load_sparse exl_zero exr_o1 = Ok (FAILED_SYM_COMPLEMENTARITY_MATRIX, exl_z) /\ wf_sparse exr_s /\
  built_for (us_v exr_s) exr_o1 /\ fin_lower (us_v exr_s) /\ concat (us_C exr_s) <> [] /\
  (forall f, In f [u_lbL; u_ubL; u_lbR; u_ubR; u_lb; u_ub] -> replaced f (us_v exr_s) (ptr_of (f (us_v exl_zero)))).
Proof. exact (conj exl_zero_refused (conj exr_s_wf exl_zero_next)). Qed.

(** C72 is false for the problem data: after a refused call the next run solves neither problem.  The example problem is loaded; a call with another
    objective and no constraint matrix is refused; the following run reports success for the objective of the refused call under the constraints of the
    loaded problem. *)
Theorem C72_mixture_refuted : exists (o o1 : lcqp xq), load_dense exf_u exf_o = Ok (SUCCESSFUL_RETURN, o) /\ exl_call o = Ok (INVALID_CONSTRAINT_MATRIX, o1) /\
  (exists p, runSolver (exl_orc 2) no_rand o = Ok (SUCCESSFUL_RETURN, p) /\ getPrimalSolution (Some (lift (fz [0; 0]))) p = Ok (S_STATIONARY_SOLUTION, Some (lift (fz [0; 2])))) /\
  (exists p1, runSolver (exl_orc 6) no_rand o1 = Ok (SUCCESSFUL_RETURN, p1) /\ getPrimalSolution (Some (lift (fz [0; 0]))) p1 = Ok (S_STATIONARY_SOLUTION, Some (lift (fz [2; 0]))) /\
    forall c, In c (s_calls (it p1)) -> qc_H c = MDense (fz [6; 0; 0; 6]) /\ qc_A c = MDense (ud_A exf_u ++ ud_L exf_u ++ ud_R exf_u)).
Proof. exact (ex_intro _ exl_c (ex_intro _ exl_m (conj exl_c_ok (conj exl_m_refused (conj (ex_intro _ exl_c_done exl_c_runs) (ex_intro _ exl_m_done exl_m_runs)))))). Qed.
Print Assumptions C72_mixture_refuted.

(** And a load refused because of a lower complementarity bound of minus infinity makes the next run of an object with a valid problem read an
    uninitialised value, whatever the QP solver answers. *)
Theorem C72_unusable_refuted : exists (o o1 : lcqp xq), load_dense (exr_u true) (setOptions exr_opt exr_new) = Ok (SUCCESSFUL_RETURN, o) /\
  load_dense exl_bad o = Ok (INVALID_LOWER_COMPLEMENTARITY_BOUND, o1) /\ forall orc rand, runSolver orc rand o1 = UB Uninit.
Proof. exact (ex_intro _ exr_o1 (ex_intro _ exl_o (conj exr_load_ok (conj exl_refused exl_run)))). Qed.
Print Assumptions C72_unusable_refuted.
