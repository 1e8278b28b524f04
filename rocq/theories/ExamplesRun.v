(** * ExamplesRun: facts about the example runs (witnesses for hypotheses; not LCQPow code). *)
From Coq Require Import QArith Qcanon.
From Verif Require Import Base Arith Codes Utilities Options Stats FileIO Subsolver State LCQProblem Loops SpecRun Spec Examples RunFacts.
Open Scope Z_scope.

Lemma ex_started qs : started (ex_o qs) (ex_done (ex_orc qs) (ex_o qs)).
Proof. intros C. apply (f_equal (@length _)) in C. destruct qs; vm_compute in C; discriminate. Qed.
Lemma ex_fails_started : started (ex_o QPOASES_DENSE) (ex_done (failing 2 ex_oracle) (ex_o QPOASES_DENSE)).
Proof. intros C. apply (f_equal (@length _)) in C. vm_compute in C; discriminate. Qed.

(** The example with other options *)
Definition ex_with (opt : options xq -> options xq) : lcqp xq := setOptions (opt (ex_options QPOASES_DENSE)) (ex_o QPOASES_DENSE).

(** At most three iterations *)
Definition ex_short : lcqp xq := ex_with (fun o => snd (setMaxIterations 3 o)).
Lemma ex_short_run : runSolver ex_oracle no_rand ex_short = Ok (MAX_ITERATIONS_REACHED, ex_done ex_oracle ex_short).
Proof. vm_compute. reflexivity. Qed.
Lemma ex_short_started : started ex_short (ex_done ex_oracle ex_short).
Proof. intros C. apply (f_equal (@length _)) in C. vm_compute in C; discriminate. Qed.

(** Maximal penalty below the initial one *)
Definition ex_lowpen : lcqp xq := ex_with (fun o => snd (setMaxPenaltyParameter (Fin (Q2Qc (1#2))) o)).
Lemma ex_lowpen_run : runSolver ex_oracle no_rand ex_lowpen = Ok (MAX_PENALTY_REACHED, ex_done ex_oracle ex_lowpen).
Proof. vm_compute. reflexivity. Qed.
Lemma ex_lowpen_started : started ex_lowpen (ex_done ex_oracle ex_lowpen).
Proof. intros C. apply (f_equal (@length _)) in C. vm_compute in C; discriminate. Qed.

(** The solved object, set to a QP solver that does not fit *)
Definition ex_again : lcqp xq := setOptions (ex_options QPOASES_SPARSE) (ex_done (ex_orc QPOASES_DENSE) (ex_o QPOASES_DENSE)).
Lemma ex_again_run : runSolver ex_oracle no_rand ex_again = Ok (DENSE_SPARSE_MISSMATCH, ex_done ex_oracle ex_again).
Proof. vm_compute. reflexivity. Qed.

(** The passes of the example run *)
Definition ex_d : pdata xq := pd (snd (ok_or (SUCCESSFUL_RETURN, LCQProblem_default) (initializeSolver (ex_o QPOASES_DENSE)))).
(** Example state after initialisation. No LCQPow code. *)
Definition ex_i : iter xq := it (snd (ok_or (SUCCESSFUL_RETURN, LCQProblem_default) (initializeSolver (ex_o QPOASES_DENSE)))).
(** Example state after k passes. No LCQPow code. *)
Fixpoint ex_state (k : nat) : iter xq :=
  match k with
  | O => fst (ok_or (ex_i, None) (first_solve ex_oracle ex_d ex_i))
  | S k => fst (ok_or (ex_i, None) (pass ex_oracle no_rand ex_d (ex_state k)))
  end.
(** Complementarity value at the beginning of pass [k] *)
Definition ex_phi (k : Z) : xq := ok_or a_zero (let! s := updateStep ex_d (ex_state (Z.to_nat k)) in getPhi ex_d s).
Lemma ex_pass k : (k <? 8)%nat = true -> pass ex_oracle no_rand ex_d (ex_state k) = Ok (ex_state (S k), None).
Proof. intros Hk. do 8 (destruct k as [|k]; [vm_compute; reflexivity|]). discriminate. Qed.
Lemma ex_first : initializeSolver (ex_o QPOASES_DENSE) = Ok (SUCCESSFUL_RETURN, mkLcqp ex_d ex_i) /\
  first_solve ex_oracle ex_d ex_i = Ok (ex_state 0, None).
Proof. split; vm_compute; reflexivity. Qed.
Lemma ex_state_start k : (k <=? 8)%nat = true -> pass_start ex_oracle no_rand (ex_o QPOASES_DENSE) ex_d (ex_state k).
Proof.
  induction k as [|k IH]; intros Hk.
  - destruct ex_first as [E1 E2]. exact (PS_first _ _ _ _ _ E1 E2).
  - apply Nat.leb_le in Hk. eapply PS_next; [apply IH; apply Nat.leb_le; lia|]. apply ex_pass. apply Nat.ltb_lt. lia.
Qed.
Lemma ex_outer k : (k <=? 8)%nat = true -> s_outerIter (ex_state k) = 0.
Proof. intros Hk. do 9 (destruct k as [|k]; [vm_compute; reflexivity|]). discriminate. Qed.
Lemma ex_since : since ex_oracle no_rand (ex_o QPOASES_DENSE) ex_d (ex_state 5) (tab 5 ex_phi).
Proof.
  assert (G : forall k, (k <=? 5)%nat = true -> since ex_oracle no_rand (ex_o QPOASES_DENSE) ex_d (ex_state k) (tab (Z.of_nat k) ex_phi)).
  { induction k as [|k IH]; intros Hk.
    - destruct ex_first as [E1 E2]. eapply Since_first; eauto.
    - apply Nat.leb_le in Hk.
      replace (Z.of_nat (S k)) with (Z.of_nat k + 1) by lia. rewrite tab_succ by lia.
      assert (E : exists s1, updateStep ex_d (ex_state k) = Ok s1 /\ getPhi ex_d s1 = Ok (ex_phi (Z.of_nat k))).
      { do 5 (destruct k as [|k]; [eexists; split; vm_compute; reflexivity|]). lia. }
      destruct E as (s1 & E1 & E2).
      pose proof (Since_next ex_oracle no_rand (ex_o QPOASES_DENSE) ex_d (ex_state k) (ex_state (S k)) s1 (tab (Z.of_nat k) ex_phi) (ex_phi (Z.of_nat k))) as N.
      rewrite (ex_outer k), (ex_outer (S k)) in N by (apply Nat.leb_le; lia). apply N; auto.
      + apply IH. apply Nat.leb_le. lia.
      + apply ex_pass. apply Nat.ltb_lt. lia. }
  exact (G 5%nat eq_refl).
Qed.
