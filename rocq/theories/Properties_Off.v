(** * Properties_Off: the factor of the dynamic penalty when that penalty is off. *)
From Coq Require Import QArith Qcanon.
From Verif Require Import Base Arith Codes Utilities Options Stats FileIO Subsolver State LCQProblem SpecRun Spec Examples SpecOff OffFacts ExamplesTol.
Open Scope Z_scope.

(** ** C81: with nDynamicPenalty zero, etaDynamicPenalty has no effect

    [opt] has the options of the object [o] but another etaDynamicPenalty, and nDynamicPenalty is zero.  The run with [opt] is exactly the
    run without: same return value and same object afterwards, except for the options stored in it; undefined behaviour in one is the
    same undefined behaviour in the other.  In every arithmetic, for every QP library and for every value of the factor, NaN included. *)
Theorem C81_eta_off : forall T (A : Arith T) (orc : oracle T) rand opt (o : lcqp T), same_but_eta (d_options (pd o)) opt -> o_nDynamicPenalty opt = 0 ->
  runSolver orc rand (setOptions opt o) = match runSolver orc rand o with Ok (r, o1) => Ok (r, setOptions opt o1) | UB u => UB u end.
Proof. exact @thm_eta. Qed.
Print Assumptions C81_eta_off.
(** The factors 1/2 and 1/10, with a successful run of 36 steps. *)
Example C81_eta_off_example : let o := ext_o 0 1000 false in let opt := snd (setEtaDynamicPenalty (Fin (Q2Qc (1#2))) (ext 0 1000 false)) in
  same_but_eta (d_options (pd o)) opt /\ o_nDynamicPenalty opt = 0 /\ o_etaDynamicPenalty opt <> o_etaDynamicPenalty (d_options (pd o)) /\
  runSolver ex_oracle no_rand o = Ok (SUCCESSFUL_RETURN, ex_done ex_oracle o) /\ length (st_xSteps (getOutputStatistics (ex_done ex_oracle o))) = 36%nat.
Proof.
  intros o opt. split; [constructor; reflexivity|]. split; [reflexivity|]. split; [vm_compute; discriminate|].
  split; [exact (ext_runs 0 1000 false (or_introl eq_refl) (or_intror eq_refl))|exact (proj2 ext_steps)].
Qed.
(** The factor does matter when nDynamicPenalty is positive: the hypothesis cannot be left out. *)
Theorem C81_eta_on : exists (orc : oracle xq) opt (o o1 o2 : lcqp xq), same_but_eta (d_options (pd o)) opt /\ o_nDynamicPenalty opt = 1 /\
  runSolver orc no_rand o = Ok (MAX_ITERATIONS_REACHED, o1) /\ runSolver orc no_rand (setOptions opt o) = Ok (MAX_ITERATIONS_REACHED, o2) /\
  st_iterOuter (getOutputStatistics o1) <> st_iterOuter (getOutputStatistics o2).
Proof.
  exists ex_oracle, (exe true), (setOptions (exe false) (ex_o QPOASES_DENSE)), (exe_done false), (exe_done true).
  split; [constructor; reflexivity|]. split; [reflexivity|]. split; [exact (exe_runs false)|]. split; [exact (exe_runs true)|exact exe_outer].
Qed.
Print Assumptions C81_eta_on.
