(** * LoadFrames: what loading may change in the state of the iteration (any arithmetic, any arguments; no LCQPow code). *)
From Verif Require Import Base Arith Codes Utilities Options Stats FileIO Subsolver State LCQProblem Tactics SpecPrint.

Section LoadFrames.
Context {T : Type} `{Arith T}.
Implicit Types (o : lcqp T) (s : iter T).

(** Only the initial guess changes *)
Definition guess s s' : Prop := exists x y, s' = set_yk y (set_xk x s).
(** The call prints nothing and changes only the initial guess. No LCQPow code. *)
Definition quiet o (m : res (ReturnValue * lcqp T)) : Prop := forall r o', m = Ok (r, o') -> guess (it o) (it o').
(** The call prints exactly its error message. No LCQPow code. *)
Definition reports o (m : res (ReturnValue * lcqp T)) : Prop :=
  forall r o', m = Ok (r, o') -> exists s, guess (it o) s /\ it o' = if is_success r then s else logI (EvMessage r) s.

Lemma guess_refl s : guess s s.
Proof. exists (s_xk s), (s_yk s). reflexivity. Qed.
Lemma guess_trans a b c : guess a b -> guess b c -> guess a c.
Proof. intros (x & y & ->) (x' & y' & ->). exists x', y'. reflexivity. Qed.
Lemma reports_trans o o1 m : guess (it o) (it o1) -> reports o1 m -> reports o m.
Proof. intros G R r o' E. destruct (R r o' E) as (s & G' & E'). exists s. split; [eapply guess_trans; eauto|exact E']. Qed.
Lemma fail_reports r o : is_success r = false -> reports o (fail_msg r o).
Proof. intros F r' o' E. injection E as <- <-. exists (it o). split; [apply guess_refl|]. rewrite F. reflexivity. Qed.
Lemma and_then_reports o m k : quiet o m -> (forall o1, guess (it o) (it o1) -> reports o1 (k o1)) -> reports o (and_then m k).
Proof.
  intros Q K r o' E. unfold and_then in E. apply bind_ok in E. destruct E as ([r1 o1] & E1 & E). pose proof (Q _ _ E1) as G. destruct (is_success r1) eqn:S.
  - eapply reports_trans; [exact G|apply K; exact G|exact E].
  - eapply reports_trans; [exact G|apply fail_reports; exact S|exact E].
Qed.
Lemma bind_reports {A} o (e : res A) k : (forall a, e = Ok a -> reports o (k a)) -> reports o (bind e k).
Proof. intros K r o' E. apply bind_ok in E. destruct E as (a & Ea & E). exact (K a Ea r o' E). Qed.
Lemma read_reports n f o k : (forall a, reports o (k a)) -> reports o (read_file n f o k).
Proof.
  intros K. unfold read_file. apply bind_reports. intros a _. apply bind_reports. intros [r b] _. destruct (is_success r) eqn:S; [apply K|apply fail_reports; exact S].
Qed.
Lemma read_opt_reports n f o k : (forall a, reports o (k a)) -> reports o (read_opt_file n f o k).
Proof. intros K. destruct f; [apply read_reports; exact K|apply K]. Qed.

Ltac same := intros ? ? ?; inv_ok; cbn [it]; apply guess_refl.
Lemma setQ_quiet Q o : quiet o (setQ Q o).
Proof. unfold setQ. same. Qed.
Lemma setG_quiet g o : quiet o (setG g o).
Proof. unfold setG. same. Qed.
Lemma setConstraints_quiet L R A lbA ubA o : quiet o (setConstraints L R A lbA ubA o).
Proof. unfold setConstraints. cbv zeta. same. Qed.
Lemma setBounds_quiet a b c d o : quiet o (setComplementarityBounds a b c d o).
Proof. unfold setComplementarityBounds. cbv zeta. same. Qed.
Lemma setGuess_quiet x y o : quiet o (setInitialGuess x y o).
Proof. unfold setInitialGuess. intros r o' E. inv_ok; cbn [it]; (apply guess_refl || (do 2 eexists; reflexivity)). Qed.
Lemma setQ_csc_quiet Q o : quiet o (setQ_csc Q o).
Proof. unfold setQ_csc. same. Qed.
Lemma setConstraints_csc_quiet L R A lbA ubA o : quiet o (setConstraints_csc L R A lbA ubA o).
Proof. unfold setConstraints_csc. cbv zeta. same. Qed.
Lemma copy_box_it lb ub o o' : copy_box lb ub o = Ok o' -> it o' = it o.
Proof. unfold copy_box. intros. inv_ok; reflexivity. Qed.
Lemma done_reports o o1 : it o1 = it o -> reports o (Ok (SUCCESSFUL_RETURN, o1)).
Proof. intros E r o' E'. injection E' as <- <-. exists (it o). split; [apply guess_refl|exact E]. Qed.

Lemma body_reports Q g L R lbL ubL lbR ubR A lbA ubA lb ub x0 y0 o : reports o
  (and_then (setQ Q o) (fun o => and_then (setG g o) (fun o => let! o := copy_box lb ub o in and_then (setConstraints L R A lbA ubA o) (fun o =>
   and_then (setComplementarityBounds lbL ubL lbR ubR o) (fun o => and_then (setInitialGuess x0 y0 o) (fun o =>
   Ok (SUCCESSFUL_RETURN, mkLcqp (set_d_sparseSolver false (pd o)) (it o)))))))).
Proof.
  apply and_then_reports; [apply setQ_quiet|intros o1 _]. apply and_then_reports; [apply setG_quiet|intros o2 _]. apply bind_reports. intros o3 E3.
  apply copy_box_it in E3. apply reports_trans with o3; [rewrite E3; apply guess_refl|]. apply and_then_reports; [apply setConstraints_quiet|intros o4 _].
  apply and_then_reports; [apply setBounds_quiet|intros o5 _]. apply and_then_reports; [apply setGuess_quiet|intros o6 _]. apply done_reports. reflexivity.
Qed.
Lemma load_reports Q g L R lbL ubL lbR ubR A lbA ubA lb ub x0 y0 o : reports o (loadLCQP Q g L R lbL ubL lbR ubR A lbA ubA lb ub x0 y0 o).
Proof.
  unfold loadLCQP. apply bind_reports. intros nV _. destruct (nV <=? 0); [apply fail_reports; reflexivity|]. apply bind_reports. intros nComp _.
  destruct (nComp <=? 0); [apply fail_reports; reflexivity|]. apply body_reports.
Qed.
Lemma load_csc_reports Q g L R lbL ubL lbR ubR A lbA ubA lb ub x0 y0 o : reports o (loadLCQP_csc Q g L R lbL ubL lbR ubR A lbA ubA lb ub x0 y0 o).
Proof.
  unfold loadLCQP_csc. apply and_then_reports; [apply setQ_csc_quiet|intros o1 _]. apply and_then_reports; [apply setG_quiet|intros o2 _].
  apply and_then_reports; [apply setConstraints_csc_quiet|intros o4 _]. apply and_then_reports; [apply setBounds_quiet|intros o5 _].
  apply and_then_reports; [apply setGuess_quiet|intros o6 _]. apply bind_reports. intros o3 E3. apply copy_box_it in E3. apply done_reports. exact E3.
Qed.
Lemma load_files_reports Q g L R lbL ubL lbR ubR A lbA ubA lb ub x0 y0 o : reports o (loadLCQP_files Q g L R lbL ubL lbR ubR A lbA ubA lb ub x0 y0 o).
Proof.
  unfold loadLCQP_files. do 3 (apply bind_reports; intros ? _). do 4 (apply read_reports; intros ?). do 11 (apply read_opt_reports; intros ?). apply body_reports.
Qed.

(** Nothing before the first run touches the rest of the iteration state *)
Lemma to_sparse_it o r o' : switchToSparseMode o = Ok (r, o') -> it o' = it o.
Proof. unfold switchToSparseMode. cbv zeta. intros. inv_ok; reflexivity. Qed.
Lemma to_dense_it o r o' : switchToDenseMode o = Ok (r, o') -> it o' = it o.
Proof. unfold switchToDenseMode. cbv zeta. intros. inv_ok; reflexivity. Qed.
Lemma reports_hist o m r o' : reports o m -> m = Ok (r, o') -> s_complHistory (it o') = s_complHistory (it o) /\ s_calls (it o') = s_calls (it o).
Proof. intros R E. destruct (R r o' E) as (s & (x & y & ->) & ->). destruct (is_success r); split; reflexivity. Qed.
Lemma not_run_history o : not_run o -> s_complHistory (it o) = [] /\ s_calls (it o) = [].
Proof.
  induction 1 as [nV nC nComp o E|opt o _ IH|? ? ? ? ? ? ? ? ? ? ? ? ? ? ? o r o' _ IH E|? ? ? ? ? ? ? ? ? ? ? ? ? ? ? o r o' _ IH E|? ? ? ? ? ? ? ? ? ? ? ? ? ? ? o r o' _ IH E|o r o' _ IH E|o r o' _ IH E].
  - unfold LCQProblem_ctor in E. cbv zeta in E. inv_ok; split; reflexivity.
  - exact IH.
  - destruct (reports_hist _ _ _ _ (load_reports _ _ _ _ _ _ _ _ _ _ _ _ _ _ _ _) E) as [-> ->]. exact IH.
  - destruct (reports_hist _ _ _ _ (load_csc_reports _ _ _ _ _ _ _ _ _ _ _ _ _ _ _ _) E) as [-> ->]. exact IH.
  - destruct (reports_hist _ _ _ _ (load_files_reports _ _ _ _ _ _ _ _ _ _ _ _ _ _ _ _) E) as [-> ->]. exact IH.
  - apply to_sparse_it in E. rewrite E. exact IH.
  - apply to_dense_it in E. rewrite E. exact IH.
Qed.

Lemma reported_of o m r o' : reports o m -> m = Ok (r, o') -> reported o r o'.
Proof. intros R E. destruct (R r o' E) as (s & (x & y & ->) & E'). unfold reported, printed. rewrite E'. destruct (is_success r); reflexivity. Qed.
End LoadFrames.
