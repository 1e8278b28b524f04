(** * ExamplesTol: runs with another complementarity tolerance (witnesses for hypotheses; no LCQPow code). *)
From Coq Require Import QArith Qcanon.
From Verif Require Import Base Arith Codes Utilities Options Stats FileIO Subsolver State LCQProblem Loops SpecRun Spec Examples RunFacts ExamplesRun OrderFacts SpecLimits SpecTol.
Open Scope Z_scope.

(** ** When one tolerance is not larger than another *)
Section Tight.
Context {T : Type} {A : Arith T}.
Hypothesis O : ordered T.
Lemma tight_le (a b : options T) : a_le (o_complementarityTolerance b) (o_complementarityTolerance a) = true -> compl_tightened a b.
Proof.
  intros L phi E. destruct (a_lt phi (o_complementarityTolerance a)) eqn:F; [reflexivity|].
  destruct (or_num _ O _ _ L) as [N1 N2]. destruct (or_num _ O _ _ (or_lt _ O _ _ E)) as [N3 _].
  pose proof (nlt_le O _ _ N3 N2 F) as G. pose proof (or_trans _ O _ _ _ L G) as K. rewrite (or_tot _ O) in K by assumption. rewrite E in K. discriminate.
Qed.
End Tight.
Lemma tight_xq (a b : options xq) : a_le (o_complementarityTolerance b) (o_complementarityTolerance a) = true -> compl_tightened a b.
Proof. exact (tight_le xq_ordered a b). Qed.
Lemma tight_f64 (a b : options f64) : a_le (o_complementarityTolerance b) (o_complementarityTolerance a) = true -> compl_tightened a b.
Proof. exact (tight_le f64_ordered a b). Qed.

(** ** Examples *)
(** The example options with [n] past steps and the factor 1/10 for the dynamic penalty, at most [k] iterations, and the complementarity tolerance 2 if [loose].  No LCQPow code. *)
Definition ext (n k : Z) (loose : bool) : options xq :=
  let o := snd (setMaxIterations k (snd (setEtaDynamicPenalty (Fin (Q2Qc (1#10))) (snd (setNDynamicPenalty n (ex_options QPOASES_DENSE)))))) in
  if loose then snd (setComplementarityTolerance (Fin (Q2Qc (2#1))) o) else o.
(** The example with these options.  No LCQPow code. *)
Definition ext_o (n k : Z) (loose : bool) : lcqp xq := setOptions (ext n k loose) (ex_o QPOASES_DENSE).
Lemma ext_runs n k loose : n = 0 \/ n = 1 -> k = 3 \/ k = 1000 ->
  runSolver ex_oracle no_rand (ext_o n k loose) = Ok (if k =? 3 then MAX_ITERATIONS_REACHED else SUCCESSFUL_RETURN, ex_done ex_oracle (ext_o n k loose)).
Proof. intros [->| ->] [->| ->]; destruct loose; vm_compute; reflexivity. Qed.
Lemma ext_steps : length (st_xSteps (getOutputStatistics (ex_done ex_oracle (ext_o 0 1000 true)))) = 33%nat /\
  length (st_xSteps (getOutputStatistics (ex_done ex_oracle (ext_o 0 1000 false)))) = 36%nat.
Proof. split; vm_compute; reflexivity. Qed.
Lemma ext_hyps n k : n = 0 \/ n = 1 -> k = 3 \/ k = 1000 -> same_but_compl (d_options (pd (ext_o n k true))) (ext n k false) /\ compl_tightened (d_options (pd (ext_o n k true))) (ext n k false).
Proof. intros [->| ->] [->| ->]; (split; [constructor; reflexivity|apply tight_xq; vm_compute; reflexivity]). Qed.
Lemma ext_set n k : setOptions (ext n k false) (ext_o n k true) = ext_o n k false.
Proof. reflexivity. Qed.
Lemma ext_dyn : ~ goes_on (ex_done ex_oracle (ext_o 1 3 true)) (ex_done ex_oracle (ext_o 1 3 false)).
Proof.
  intros G. apply go_phi in G. destruct G as [m G]. revert G.
  assert (A : map (fun x => a_le x (Fin 0)) (st_phiVals (getOutputStatistics (ex_done ex_oracle (ext_o 1 3 true)))) = [false; false; false; false]) by (vm_compute; reflexivity).
  assert (B : map (fun x => a_le x (Fin 0)) (st_phiVals (getOutputStatistics (ex_done ex_oracle (ext_o 1 3 false)))) = [false; false; true; true]) by (vm_compute; reflexivity).
  intros G. apply (f_equal (map (fun x => a_le x (Fin 0)))) in G. rewrite map_app, A, B in G. discriminate.
Qed.

(** The same with [n] = 1, three iterations, and the factor 9/10 for the dynamic penalty if [big].  No LCQPow code. *)
Definition exe (big : bool) : options xq := if big then snd (setEtaDynamicPenalty (Fin (Q2Qc (9#10))) (ext 1 3 false)) else ext 1 3 false.
(** The object after the run.  No LCQPow code. *)
Definition exe_done (big : bool) : lcqp xq := ex_done ex_oracle (setOptions (exe big) (ex_o QPOASES_DENSE)).
Lemma exe_runs big : runSolver ex_oracle no_rand (setOptions (exe big) (ex_o QPOASES_DENSE)) = Ok (MAX_ITERATIONS_REACHED, exe_done big).
Proof. destruct big; vm_compute; reflexivity. Qed.
Lemma exe_outer : st_iterOuter (getOutputStatistics (exe_done false)) <> st_iterOuter (getOutputStatistics (exe_done true)).
Proof. vm_compute. discriminate. Qed.
