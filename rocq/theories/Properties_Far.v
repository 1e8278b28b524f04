(** * Properties_Far: a dynamic penalty that can never act. *)
From Coq Require Import QArith Qcanon.
From Verif Require Import Base Arith Codes Utilities Options Stats FileIO Subsolver State LCQProblem SpecRun Spec Examples ExamplesTol SpecFar FarFacts.
Open Scope Z_scope.

(** ** C84: an nDynamicPenalty that is negative or larger than maxIterations switches the dynamic penalty off

    nDynamicPenalty and maxIterations of the object [o] are ints, the first is not positive or larger than the second, and no values are left
    over from an earlier run.  [opt] has the same options but nDynamicPenalty zero.  Then the run with [opt] returns what the run without
    returns, and afterwards the getters give the same answers; the QP calls, the random numbers drawn and the printed text are the same.  In every
    arithmetic and for every QP library; the run without [opt] has to be free of undefined behaviour. *)
Theorem C84_far : forall T (A : Arith T) (orc : oracle T) rand opt (o : lcqp T) r o1, same_but_n (d_options (pd o)) opt -> o_nDynamicPenalty opt = 0 ->
  INT_MIN <= o_nDynamicPenalty (d_options (pd o)) <= INT_MAX -> o_maxIterations opt <= INT_MAX ->
  o_nDynamicPenalty (d_options (pd o)) <= 0 \/ o_maxIterations opt < o_nDynamicPenalty (d_options (pd o)) ->
  s_complHistory (it o) = [] -> runSolver orc rand o = Ok (r, o1) ->
  exists o2, runSolver orc rand (setOptions opt o) = Ok (r, o2) /\ same_outcome o1 o2.
Proof. exact @thm_far. Qed.
Print Assumptions C84_far.
(** nDynamicPenalty -1 in a successful run of 36 steps, and nDynamicPenalty 3 with at most two iterations. *)
Example C84_far_example : let o := ext_o (-1) 1000 false in let o' := ext_o 3 2 false in
  same_but_n (d_options (pd o)) (ext 0 1000 false) /\ s_complHistory (it o) = [] /\ o_nDynamicPenalty (d_options (pd o)) = -1 /\
  runSolver ex_oracle no_rand o = Ok (SUCCESSFUL_RETURN, ex_done ex_oracle o) /\ length (st_xSteps (getOutputStatistics (ex_done ex_oracle o))) = 36%nat /\
  same_but_n (d_options (pd o')) (ext 0 2 false) /\ s_complHistory (it o') = [] /\ o_maxIterations (ext 0 2 false) < o_nDynamicPenalty (d_options (pd o')) /\
  runSolver ex_oracle no_rand o' = Ok (MAX_ITERATIONS_REACHED, ex_done ex_oracle o').
Proof.
  intros o o'. split; [constructor; reflexivity|]. split; [reflexivity|]. split; [reflexivity|]. split; [vm_compute; reflexivity|]. split; [vm_compute; reflexivity|].
  split; [constructor; reflexivity|]. split; [reflexivity|]. split; [reflexivity|vm_compute; reflexivity].
Qed.
(** The bound is sharp: nDynamicPenalty equal to maxIterations can change the run. *)
Theorem C84_bound_sharp : exists (orc : oracle xq) opt (o o1 o2 : lcqp xq), same_but_n (d_options (pd o)) opt /\ o_nDynamicPenalty opt = 0 /\
  o_nDynamicPenalty (d_options (pd o)) = o_maxIterations opt /\ s_complHistory (it o) = [] /\
  runSolver orc no_rand o = Ok (MAX_ITERATIONS_REACHED, o1) /\ runSolver orc no_rand (setOptions opt o) = Ok (MAX_ITERATIONS_REACHED, o2) /\
  st_iterOuter (getOutputStatistics o1) <> st_iterOuter (getOutputStatistics o2).
Proof.
  exists ex_oracle, (ext 0 2 false), (ext_o 2 2 false), (ex_done ex_oracle (ext_o 2 2 false)), (ex_done ex_oracle (ext_o 0 2 false)).
  split; [constructor; reflexivity|]. split; [reflexivity|]. split; [reflexivity|]. split; [reflexivity|].
  split; [vm_compute; reflexivity|]. split; [vm_compute; reflexivity|]. vm_compute. discriminate.
Qed.
Print Assumptions C84_bound_sharp.
