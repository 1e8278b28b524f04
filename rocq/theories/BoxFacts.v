(** * BoxFacts: what any history of calls does to box bounds, storage mode and selected solver (proofs; no LCQPow code). *)
From Verif Require Import Base Arith Codes Utilities Options Stats FileIO Subsolver State LCQProblem Tactics Frames Control RunControl SpecLife SpecUse ModeFacts.

Section Box.
Context {T : Type} `{Arith T}.
Implicit Types (o : lcqp T) (d : pdata T) (h : history T).

(** What a load leaves alone: box members, options, dimensions.  No LCQPow code. *)
Definition key (d : pdata T) := (d_lb d, d_ub d, d_options d).
(** ... the pending box bounds and the mode.  No LCQPow code. *)
Definition key2 (d : pdata T) := (key d, d_lb_tmp d, d_ub_tmp d, d_sparseSolver d).

(** Every successful result of [m] keeps [key2].  No LCQPow code. *)
Definition keeps o (m : res (ReturnValue * lcqp T)) : Prop := forall r o', m = Ok (r, o') -> key2 (pd o') = key2 (pd o).
Ltac same := intros ? ? ?; inv_ok; reflexivity.
Lemma k_setQ Q o : keeps o (setQ Q o).
Proof. unfold setQ. same. Qed.
Lemma k_setG g o : keeps o (setG g o).
Proof. unfold setG. same. Qed.
Lemma k_setConstraints L R A lbA ubA o : keeps o (setConstraints L R A lbA ubA o).
Proof. unfold setConstraints. cbv zeta. same. Qed.
Lemma k_setBounds a b c e o : keeps o (setComplementarityBounds a b c e o).
Proof. unfold setComplementarityBounds. cbv zeta. same. Qed.
Lemma k_setGuess x y o : keeps o (setInitialGuess x y o).
Proof. unfold setInitialGuess. same. Qed.
Lemma k_setQ_csc Q o : keeps o (setQ_csc Q o).
Proof. unfold setQ_csc. same. Qed.
Lemma k_setConstraints_csc L R A lbA ubA o : keeps o (setConstraints_csc L R A lbA ubA o).
Proof. unfold setConstraints_csc. cbv zeta. same. Qed.

(** What a load with box bounds lb, ub does.  No LCQPow code. *)
Record loads (lb ub : bool) (m : bool) o r o' : Prop := {
  ld_key : key (pd o') = key (pd o);
  ld_lb : d_lb_tmp (pd o') = d_lb_tmp (pd o) \/ (lb = true /\ d_lb_tmp (pd o') <> None);
  ld_ub : d_ub_tmp (pd o') = d_ub_tmp (pd o) \/ (ub = true /\ d_ub_tmp (pd o') <> None);
  ld_mode : d_sparseSolver (pd o') = if is_success r then m else d_sparseSolver (pd o);
  ld_given : r = SUCCESSFUL_RETURN -> (lb = true -> d_lb_tmp (pd o') <> None) /\ (ub = true -> d_ub_tmp (pd o') <> None) }.

Lemma and_then_ok o m k r o' : keeps o m -> and_then m k = Ok (r, o') ->
  exists o1, key2 (pd o1) = key2 (pd o) /\ (k o1 = Ok (r, o') \/ (is_success r = false /\ key2 (pd o') = key2 (pd o))).
Proof.
  intros K E. unfold and_then in E. apply bind_ok in E. destruct E as ([r1 o1] & E1 & E). exists o1. pose proof (K _ _ E1) as K1. split; [exact K1|].
  destruct (is_success r1) eqn:S; [left; exact E|right]. unfold fail_msg in E. injection E as <- <-. split; [exact S|exact K1].
Qed.
Lemma copy_box_ok lb ub o o' : copy_box lb ub o = Ok o' -> key (pd o') = key (pd o) /\ d_sparseSolver (pd o') = d_sparseSolver (pd o) /\
  (d_lb_tmp (pd o') = if notNull lb then d_lb_tmp (pd o') else d_lb_tmp (pd o)) /\ (notNull lb = true -> d_lb_tmp (pd o') <> None) /\
  (d_ub_tmp (pd o') = if notNull ub then d_ub_tmp (pd o') else d_ub_tmp (pd o)) /\ (notNull ub = true -> d_ub_tmp (pd o') <> None).
Proof. unfold copy_box. intros E. inv_ok; cbn; repeat split; congruence. Qed.

Lemma loads_fail lb ub m o r o' : is_success r = false -> key2 (pd o') = key2 (pd o) -> loads lb ub m o r o'.
Proof.
  intros F K. unfold key2 in K. pose proof (f_equal (fun x => fst (fst (fst x))) K) as K1. pose proof (f_equal (fun x => snd (fst (fst x))) K) as K2.
  pose proof (f_equal (fun x => snd (fst x)) K) as K3. pose proof (f_equal snd K) as K4. cbn in K1, K2, K3, K4.
  split; auto; [rewrite F; exact K4|intros ->; discriminate].
Qed.
Lemma loads_from lb ub m o o1 r o' : key2 (pd o1) = key2 (pd o) -> loads lb ub m o1 r o' -> loads lb ub m o r o'.
Proof.
  intros K [L1 L2 L3 L4 L5]. unfold key2 in K. pose proof (f_equal (fun x => fst (fst (fst x))) K) as K1. pose proof (f_equal (fun x => snd (fst (fst x))) K) as K2.
  pose proof (f_equal (fun x => snd (fst x)) K) as K3. pose proof (f_equal snd K) as K4. cbn in K1, K2, K3, K4.
  split; auto; [congruence|rewrite <- K2; exact L2|rewrite <- K3; exact L3|rewrite <- K4; exact L4].
Qed.
(** After the box bounds are copied.  No LCQPow code. *)
Lemma loads_copied lb ub m o o1 r o2 : copy_box lb ub o = Ok o1 -> key (pd o2) = key (pd o1) -> d_lb_tmp (pd o2) = d_lb_tmp (pd o1) ->
  d_ub_tmp (pd o2) = d_ub_tmp (pd o1) -> d_sparseSolver (pd o2) = (if is_success r then m else d_sparseSolver (pd o1)) -> loads (notNull lb) (notNull ub) m o r o2.
Proof.
  intros E K1 K2 K3 K4. apply copy_box_ok in E. destruct E as (C1 & C2 & C3 & C4 & C5 & C6).
  split; [congruence|rewrite K2|rewrite K3|rewrite K4; destruct (is_success r); auto|intros _; rewrite K2, K3; auto].
  - destruct (notNull lb); [right; auto|left; exact C3].
  - destruct (notNull ub); [right; auto|left; exact C5].
Qed.
Lemma key2_parts d d' : key2 d' = key2 d -> key d' = key d /\ d_lb_tmp d' = d_lb_tmp d /\ d_ub_tmp d' = d_ub_tmp d /\ d_sparseSolver d' = d_sparseSolver d.
Proof.
  unfold key2. intros K. split; [exact (f_equal (fun x => fst (fst (fst x))) K)|split; [exact (f_equal (fun x => snd (fst (fst x))) K)|split; [exact (f_equal (fun x => snd (fst x)) K)|exact (f_equal snd K)]]].
Qed.
Lemma loads_dense Q g L R lbL ubL lbR ubR A lbA ubA lb ub x0 y0 o r o' :
  (and_then (setQ Q o) (fun o => and_then (setG g o) (fun o => let! o := copy_box lb ub o in and_then (setConstraints L R A lbA ubA o) (fun o =>
   and_then (setComplementarityBounds lbL ubL lbR ubR o) (fun o => and_then (setInitialGuess x0 y0 o) (fun o =>
   Ok (SUCCESSFUL_RETURN, mkLcqp (set_d_sparseSolver false (pd o)) (it o)))))))) = Ok (r, o') -> loads (notNull lb) (notNull ub) false o r o'.
Proof.
  intros E. apply and_then_ok with (1 := k_setQ Q o) in E. destruct E as (o1 & K1 & [E|(F & K)]); [|apply loads_fail; assumption]. apply loads_from with (1 := K1). clear o K1.
  apply and_then_ok with (1 := k_setG g o1) in E. destruct E as (o2 & K2 & [E|(F & K)]); [|apply loads_fail; assumption]. apply loads_from with (1 := K2). clear o1 K2.
  apply bind_ok in E. destruct E as (o3 & E3 & E).
  assert (G : exists b : bool, b = is_success r /\ key (pd o') = key (pd o3) /\ d_lb_tmp (pd o') = d_lb_tmp (pd o3) /\ d_ub_tmp (pd o') = d_ub_tmp (pd o3) /\ d_sparseSolver (pd o') = if b then false else d_sparseSolver (pd o3)).
  { exists (is_success r). split; [reflexivity|].
    apply and_then_ok with (1 := k_setConstraints L R A lbA ubA o3) in E. destruct E as (o4 & K4 & [E|(F & K)]); [|rewrite F; apply key2_parts; exact K].
    apply and_then_ok with (1 := k_setBounds lbL ubL lbR ubR o4) in E. destruct E as (o5 & K5 & [E|(F & K)]); [|rewrite F; apply key2_parts; congruence].
    apply and_then_ok with (1 := k_setGuess x0 y0 o5) in E. destruct E as (o6 & K6 & [E|(F & K)]); [|rewrite F; apply key2_parts; congruence].
    injection E as <- <-. cbn [is_success pd set_d_sparseSolver]. assert (K : key2 (pd o6) = key2 (pd o3)) by congruence. apply key2_parts in K. destruct K as (A1 & A2 & A3 & A4).
    repeat split; assumption. }
  destruct G as (b & -> & G1 & G2 & G3 & G4). eapply loads_copied; eauto.
Qed.
Lemma loads_KLoad Q g L R lbL ubL lbR ubR A lbA ubA lb ub x0 y0 o r o' :
  loadLCQP Q g L R lbL ubL lbR ubR A lbA ubA lb ub x0 y0 o = Ok (r, o') -> loads (notNull lb) (notNull ub) false o r o'.
Proof.
  unfold loadLCQP. intros E. apply bind_ok in E. destruct E as (nV & _ & E). destruct (nV <=? 0); [unfold fail_msg in E; injection E as <- <-; apply loads_fail; reflexivity|].
  apply bind_ok in E. destruct E as (nK & _ & E). destruct (nK <=? 0); [unfold fail_msg in E; injection E as <- <-; apply loads_fail; reflexivity|]. eapply loads_dense; exact E.
Qed.
Lemma loads_KSparse Q g L R lbL ubL lbR ubR A lbA ubA lb ub x0 y0 o r o' :
  loadLCQP_csc Q g L R lbL ubL lbR ubR A lbA ubA lb ub x0 y0 o = Ok (r, o') -> loads (notNull lb) (notNull ub) true o r o'.
Proof.
  unfold loadLCQP_csc. intros E. apply and_then_ok with (1 := k_setQ_csc Q o) in E. destruct E as (o1 & K1 & [E|(F & K)]); [|apply loads_fail; assumption]. apply loads_from with (1 := K1). clear o K1.
  apply and_then_ok with (1 := k_setG g o1) in E. destruct E as (o2 & K2 & [E|(F & K)]); [|apply loads_fail; assumption]. apply loads_from with (1 := K2). clear o1 K2.
  apply and_then_ok with (1 := k_setConstraints_csc L R A lbA ubA o2) in E. destruct E as (o4 & K4 & [E|(F & K)]); [|apply loads_fail; assumption]. apply loads_from with (1 := K4). clear o2 K4.
  apply and_then_ok with (1 := k_setBounds lbL ubL lbR ubR o4) in E. destruct E as (o5 & K5 & [E|(F & K)]); [|apply loads_fail; assumption]. apply loads_from with (1 := K5). clear o4 K5.
  apply and_then_ok with (1 := k_setGuess x0 y0 o5) in E. destruct E as (o6 & K6 & [E|(F & K)]); [|apply loads_fail; assumption]. apply loads_from with (1 := K6). clear o5 K6.
  apply bind_ok in E. destruct E as (o3 & E3 & E). injection E as <- <-. eapply loads_copied; eauto.
Qed.
Lemma loads_read n f o k m (r : ReturnValue) o' lb ub : (forall a, k (Some a) = Ok (r, o') -> loads lb ub m o r o') -> read_file n f o k = Ok (r, o') -> loads lb ub m o r o'.
Proof.
  intros K E. unfold read_file in E. apply bind_ok in E. destruct E as (a & _ & E). apply bind_ok in E. destruct E as ([r1 b] & _ & E).
  destruct (is_success r1) eqn:S; [eapply K; exact E|]. unfold fail_msg in E. injection E as <- <-. apply loads_fail; [exact S|reflexivity].
Qed.
Lemma loads_opt n f o k m (r : ReturnValue) o' lb ub : (forall a, notNull a = notNull f -> k a = Ok (r, o') -> loads lb ub m o r o') -> read_opt_file n f o k = Ok (r, o') -> loads lb ub m o r o'.
Proof. intros K E. destruct f; cbn [read_opt_file] in E; [|eapply K; [|exact E]; reflexivity]. eapply loads_read; [|exact E]. intros a E'. eapply K; [|exact E']; reflexivity. Qed.
Lemma loads_KFiles Q g L R lbL ubL lbR ubR A lbA ubA lb ub x0 y0 o r o' :
  loadLCQP_files Q g L R lbL ubL lbR ubR A lbA ubA lb ub x0 y0 o = Ok (r, o') -> loads (notNull lb) (notNull ub) false o r o'.
Proof.
  unfold loadLCQP_files. intros E. do 3 (apply bind_ok in E; destruct E as (? & _ & E)).
  do 4 (revert E; apply loads_read; intros ? E). do 7 (revert E; apply loads_opt; intros ? _ E).
  revert E; apply loads_opt; intros lb' Nl E. revert E; apply loads_opt; intros ub' Nu E. rewrite <- Nl, <- Nu. clear Nl Nu.
  do 2 (revert E; apply loads_opt; intros ? _ E). eapply loads_dense; exact E.
Qed.

(** Some box bound is set or pending.  No LCQPow code. *)
Definition boxed d : bool := notNull (d_lb d) || notNull (d_ub d) || notNull (d_lb_tmp d) || notNull (d_ub_tmp d).
Lemma notNull_some {X} (p : ptr X) : p <> None -> notNull p = true.
Proof. destruct p; [reflexivity|congruence]. Qed.

(** The first part of an initialisation.  No LCQPow code. *)
Record prep o r o' : Prop := {
  pr_opt : d_options (pd o') = d_options (pd o);
  pr_mode : d_sparseSolver (pd o') = d_sparseSolver (pd o);
  pr_lbt : d_lb_tmp (pd o') = d_lb_tmp (pd o);
  pr_ubt : d_ub_tmp (pd o') = d_ub_tmp (pd o);
  pr_box : boxed (pd o) = true -> boxed (pd o') = true;
  pr_osqp : o_qpSolver (d_options (pd o)) = OSQP_SPARSE -> d_lb (pd o') = d_lb (pd o) /\ d_ub (pd o') = d_ub (pd o) /\
    if boxed (pd o) then is_success r = false /\ (d_sparseSolver (pd o) = true -> r = INVALID_OSQP_BOX_CONSTRAINTS) else r <> INVALID_OSQP_BOX_CONSTRAINTS;
  pr_qpoases : o_qpSolver (d_options (pd o)) <> OSQP_SPARSE -> r <> INVALID_OSQP_BOX_CONSTRAINTS /\
    (r = DENSE_SPARSE_MISSMATCH \/ r = LCQPOBJECT_NOT_SETUP \/ (r = SUCCESSFUL_RETURN /\ d_lb (pd o') <> None)) }.
Lemma boxed_lb d : d_lb d <> None -> boxed d = true.
Proof. unfold boxed. intros E. rewrite (notNull_some _ E). reflexivity. Qed.
Lemma boxed_ub d : d_ub d <> None -> boxed d = true.
Proof. unfold boxed. intros E. rewrite (notNull_some _ E). destruct (notNull (d_lb d)); reflexivity. Qed.
Lemma setLB_ok b o r o' : setLB b o = Ok (r, o') -> (r = LCQPOBJECT_NOT_SETUP /\ o' = o) \/ (r = SUCCESSFUL_RETURN /\ exists v, o' = mkLcqp (set_d_lb (Some v) (pd o)) (it o)).
Proof. unfold setLB. intros E. inv_ok; eauto. Qed.
Lemma setUB_ok b o r o' : setUB b o = Ok (r, o') -> (r = LCQPOBJECT_NOT_SETUP /\ o' = o) \/ (r = SUCCESSFUL_RETURN /\ exists v, o' = mkLcqp (set_d_ub (Some v) (pd o)) (it o)).
Proof. unfold setUB. intros E. inv_ok; eauto. Qed.
Lemma quiet_ok a k r o : and_then_quiet (T := T) a k = Ok (r, o) -> exists r' o', a = Ok (r', o') /\ if is_success r' then k o' = Ok (r, o) else r = r' /\ o = o'.
Proof. unfold and_then_quiet. destruct a as [[r' o']|u]; cbn [bind]; [|discriminate]. intros E. exists r', o'. split; [reflexivity|]. destruct (is_success r'); [exact E|]. injection E as <- <-. auto. Qed.
Lemma prep_qp n nD (k : lcqp T -> res (subsolver T)) o r o' : o_qpSolver (d_options (pd o)) <> OSQP_SPARSE ->
  and_then_quiet (setLB (d_lb_tmp (pd o)) (mkLcqp (set_d_boxDualOffset (Some n) (set_d_nDuals (Some nD) (pd o))) (it o))) (fun o =>
    and_then_quiet (setUB (d_ub_tmp (pd o)) o) (fun o => let! sub := k o in Ok (SUCCESSFUL_RETURN, mkLcqp (set_d_subsolver (Some sub) (pd o)) (it o)))) = Ok (r, o') -> prep o r o'.
Proof.
  intros N E. apply quiet_ok in E. destruct E as (r1 & o1 & E1 & E). apply setLB_ok in E1. destruct E1 as [(-> & ->)|(-> & v & ->)]; cbn [is_success] in E.
  { destruct E as (-> & ->). split; try reflexivity; [trivial|congruence|]. intros _. split; [discriminate|auto]. }
  apply quiet_ok in E. destruct E as (r2 & o2 & E2 & E). apply setUB_ok in E2. destruct E2 as [(-> & ->)|(-> & w & ->)]; cbn [is_success] in E.
  { destruct E as (-> & ->). split; try reflexivity; [congruence|]. intros _. split; [discriminate|auto]. }
  apply bind_ok in E. destruct E as (sub & _ & E). injection E as <- <-. split; try reflexivity; [congruence|]. intros _. split; [discriminate|]. right; right. split; [reflexivity|discriminate].
Qed.
Lemma prep_same o r o' : pd o' = pd o -> (boxed (pd o) = true -> is_success r = false /\ (d_sparseSolver (pd o) = true -> r = INVALID_OSQP_BOX_CONSTRAINTS)) ->
  (boxed (pd o) = false -> r <> INVALID_OSQP_BOX_CONSTRAINTS) -> o_qpSolver (d_options (pd o)) = OSQP_SPARSE -> prep o r o'.
Proof. intros E A B C. split; rewrite ?E; auto; [|congruence]. intros _. do 2 (split; [reflexivity|]). destruct (boxed (pd o)); auto. Qed.
Lemma init_subsolver_prep o r o' : init_subsolver o = Ok (r, o') -> prep o r o'.
Proof.
  unfold init_subsolver. cbv zeta. intros E. destruct (o_qpSolver (d_options (pd o))) eqn:ES.
  - apply bind_ok in E. destruct E as (nV & _ & E). apply bind_ok in E. destruct E as (nC & _ & E). apply bind_ok in E. destruct E as (nK & _ & E).
    match type of E with (if ?b then _ else _) = _ => set (bb := b) in E end. clearbody bb. destruct bb.
    + injection E as <- <-. split; try reflexivity; [trivial|congruence|]. intros _. split; [discriminate|auto].
    + refine (prep_qp _ _ (fun o => Subsolver_dense nV (nC + 2 * nK) (d_Q (pd o)) (d_A (pd o))) _ _ _ _ E). congruence.
  - apply bind_ok in E. destruct E as (nV & _ & E). apply bind_ok in E. destruct E as (nC & _ & E). apply bind_ok in E. destruct E as (nK & _ & E).
    match type of E with (if ?b then _ else _) = _ => set (bb := b) in E end. clearbody bb. destruct bb.
    + injection E as <- <-. split; try reflexivity; [trivial|congruence|]. intros _. split; [discriminate|auto].
    + refine (prep_qp _ _ (fun o => Subsolver_sparse nV (nC + 2 * nK) (d_Q_sparse (pd o)) (d_A_sparse (pd o)) QPOASES_SPARSE) _ _ _ _ E). congruence.
  - destruct (notNull (d_lb (pd o)) || notNull (d_ub (pd o))) eqn:B1.
    { injection E as <- <-. apply prep_same; [reflexivity|intros _; split; reflexivity| |exact ES]. unfold boxed. rewrite B1. discriminate. }
    apply bind_ok in E. destruct E as (nV & _ & E). apply bind_ok in E. destruct E as (nC & _ & E). apply bind_ok in E. destruct E as (nK & _ & E). apply bind_ok in E. destruct E as (yk & _ & E).
    match type of E with (if negb ?b then _ else _) = _ => change b with (d_sparseSolver (pd o)) in E end.
    match type of E with (if _ then _ else if ?b then _ else _) = _ => change b with (notNull (d_lb_tmp (pd o)) || notNull (d_ub_tmp (pd o))) in E end.
    assert (B : boxed (pd o) = notNull (d_lb_tmp (pd o)) || notNull (d_ub_tmp (pd o))) by (unfold boxed; rewrite B1; reflexivity).
    rewrite <- B in E.
    destruct (d_sparseSolver (pd o)) eqn:M; cbn [negb] in E.
    + destruct (boxed (pd o)) eqn:BB.
      * injection E as <- <-. split; try reflexivity; [intros _; exact BB| |congruence]. intros _. do 2 (split; [reflexivity|]). rewrite BB. split; reflexivity.
      * apply bind_ok in E. destruct E as (sub & _ & E). injection E as <- <-. split; try reflexivity; [congruence| |congruence]. intros _. do 2 (split; [reflexivity|]). rewrite BB. discriminate.
    + injection E as <- <-. split; try reflexivity; [trivial| |congruence]. intros _. do 2 (split; [reflexivity|]). destruct (boxed (pd o)); [split; [reflexivity|congruence]|discriminate].
Qed.

(** The return value of a started run.  No LCQPow code. *)
Lemma solveQP_nobox orc d b s r s' : solveQPSubproblem orc d b s = Ok (r, s') -> d_lb d = None -> d_ub d = None -> r <> INVALID_OSQP_BOX_CONSTRAINTS.
Proof.
  intros E N1 N2. apply solveQPSubproblem_inv in E. destruct E as (sub & rs & ? & ? & ? & Es & Q & _ & _ & _ & -> & _). unfold sub_solve in Q. rewrite N1, N2 in Q.
  assert (G1 : forall orc sub calls w b g lbA ubA x y lb ub (res : sub_result T), solve_qpOASES orc sub calls w b g lbA ubA x y lb ub = Ok res -> sr_ret res <> INVALID_OSQP_BOX_CONSTRAINTS).
  { clear. intros until res. intros E. unfold solve_qpOASES in E. inv_ok; simpl; match goal with |- context [if ?c then _ else _] => destruct c; discriminate end. }
  assert (G2 : forall orc sub calls w b g lbA ubA x y (res : sub_result T), solve_OSQP orc sub calls w b g lbA ubA x y None None = Ok res -> sr_ret res <> INVALID_OSQP_BOX_CONSTRAINTS).
  { clear. intros until res. intros E. unfold solve_OSQP in E. cbn [notNull orb] in E. inv_ok; simpl; try discriminate; match goal with |- context [if ?c then _ else _] => destruct c; discriminate end. }
  destruct (sub_qpSolver sub) eqn:S; [eapply G1; eauto..|eapply G2; eauto].
Qed.
Lemma loop_nobox fuel orc rand d s r s' : loop fuel orc rand d s = Ok (r, s') -> d_lb d = None -> d_ub d = None -> r <> INVALID_OSQP_BOX_CONSTRAINTS.
Proof.
  intros E N1 N2. revert s E. induction fuel as [|fuel IH]; intros s E; [discriminate|]. cbn [loop] in E. apply bind_ok in E. destruct E as ([s1 e] & E1 & E).
  destruct e as [r1|]; [injection E as <- <-|eapply IH; exact E]. apply pass_inv in E1. inversion E1 as [|? ? ? ? ? ? ? ? ? ? Ht]; subst; [discriminate|].
  apply pass_tail_inv in Ht. inversion Ht; subst; try discriminate. eapply solveQP_nobox; eauto.
Qed.

(** What a run does to the box bounds.  No LCQPow code. *)
Lemma run_box orc rand o r o' : runSolver orc rand o = Ok (r, o') ->
  d_options (pd o') = d_options (pd o) /\ d_sparseSolver (pd o') = d_sparseSolver (pd o) /\ (boxed (pd o) = true -> boxed (pd o') = true) /\
  (o_qpSolver (d_options (pd o)) = OSQP_SPARSE -> (boxed (pd o) = true -> d_sparseSolver (pd o) = true -> r = INVALID_OSQP_BOX_CONSTRAINTS) /\
    (boxed (pd o) = false -> boxed (pd o') = false /\ r <> INVALID_OSQP_BOX_CONSTRAINTS)) /\
  (o_qpSolver (d_options (pd o)) <> OSQP_SPARSE -> r <> DENSE_SPARSE_MISSMATCH -> r <> LCQPOBJECT_NOT_SETUP -> boxed (pd o') = true).
Proof.
  intros E. unfold runSolver, runSolver_fuel in E. apply bind_ok in E. destruct E as ([r1 o1] & E1 & E).
  unfold initializeSolver in E1. apply quiet_ok in E1. destruct E1 as (r0 & o0 & E0 & E1). apply init_subsolver_prep in E0. destruct E0 as [P1 P2 P3 P4 P5 P6 P7].
  destruct (is_success r0) eqn:S0.
  - apply is_success_true in S0. subst r0. do 4 (apply bind_ok in E1; destruct E1 as (? & _ & E1)). apply bind_ok in E1; destruct E1 as (d & Ed & E1). apply init_phi_frame in Ed. destruct Ed as (g1 & g2 & ->).
    cbv zeta in E1. injection E1 as <- <-. cbn [is_success negb] in E. cbv iota in E.
    match type of E with context [first_solve orc (pd (mkLcqp ?d ?s)) _] => set (dd := d) in E; set (ss := s) in E end. cbn [pd it] in E.
    assert (KO : d_options dd = d_options (pd o)) by exact P1. assert (KM : d_sparseSolver dd = d_sparseSolver (pd o)) by exact P2.
    assert (KL : d_lb dd = d_lb (pd o0)) by reflexivity. assert (KU : d_ub dd = d_ub (pd o0)) by reflexivity.
    assert (KT : d_lb_tmp dd = None /\ d_ub_tmp dd = None) by (split; reflexivity). clearbody dd ss. destruct KT as (KT1 & KT2).
    assert (G : pd o' = dd /\ (d_lb dd = None -> d_ub dd = None -> r <> INVALID_OSQP_BOX_CONSTRAINTS)).
    { apply bind_ok in E. destruct E as ([s1 e] & E2 & E). destruct e as [r1|].
      - injection E as <- <-. split; [reflexivity|]. intros N1 N2. apply first_solve_inv in E2. inversion E2; subst. eapply solveQP_nobox; eauto.
      - apply bind_ok in E. destruct E as ([r1 s2] & E3 & E). injection E as <- <-. split; [reflexivity|]. intros N1 N2. eapply loop_nobox; eauto. }
    destruct G as (-> & G). split; [exact KO|]. split; [exact KM|].
    destruct (o_qpSolver (d_options (pd o))) eqn:Q.
    3: { destruct (P6 eq_refl) as (B1 & B2 & B3). destruct (boxed (pd o)) eqn:B; [destruct B3; discriminate|].
         unfold boxed in B. rewrite !orb_false_iff in B. destruct B as (((B4 & B5) & B6) & B7).
         assert (N1 : d_lb dd = None) by (rewrite KL, B1; destruct (d_lb (pd o)); [discriminate|reflexivity]).
         assert (N2 : d_ub dd = None) by (rewrite KU, B2; destruct (d_ub (pd o)); [discriminate|reflexivity]).
         split; [discriminate|]. split; [|congruence]. intros _. split; [discriminate|]. intros _. split; [|auto]. unfold boxed. rewrite N1, N2, KT1, KT2. reflexivity. }
    all: assert (BB : boxed dd = true); [destruct P7 as (_ & [F|[F|(_ & F)]]); [discriminate..|]; apply boxed_lb; rewrite KL; exact F|];
      split; [auto|]; split; [discriminate|auto].
  - destruct E1 as (-> & ->). rewrite S0 in E. cbn [negb] in E. unfold fail_msg in E. injection E as <- <-.
    change (pd (logL (EvMessage r0) o0)) with (pd o0). split; [exact P1|]. split; [exact P2|]. split; [exact P5|]. split.
    + intros Q. destruct (P6 Q) as (B1 & B2 & B3). destruct (boxed (pd o)) eqn:B; [split; [intros _; apply B3|discriminate]|]. split; [discriminate|]. intros _. split; [|exact B3].
      unfold boxed in *. rewrite B1, B2, P3, P4. exact B.
    + intros Q N1 N2. destruct (P7 Q) as (_ & [F|[F|(F & _)]]); [congruence..|subst; discriminate].
Qed.

(** What every call does.  No LCQPow code. *)
Lemma call_box orc rand c o r o' : perform orc rand c o = Ok (r, o') ->
  o_qpSolver (d_options (pd o')) = select (o_qpSolver (d_options (pd o))) (c, r) /\ d_sparseSolver (pd o') = store (d_sparseSolver (pd o)) (c, r) /\
  (boxed (pd o) = true -> boxed (pd o') = true) /\ (gives_box c -> r = SUCCESSFUL_RETURN -> boxed (pd o') = true) /\
  (boxed (pd o) = false -> ~ gives_box c -> (c = KRun -> o_qpSolver (d_options (pd o)) = OSQP_SPARSE) -> boxed (pd o') = false).
Proof.
  assert (LD : forall lb ub m, loads lb ub m o r o' -> d_options (pd o') = d_options (pd o) /\ d_sparseSolver (pd o') = (if is_success r then m else d_sparseSolver (pd o)) /\
     (boxed (pd o) = true -> boxed (pd o') = true) /\ (lb = true \/ ub = true -> r = SUCCESSFUL_RETURN -> boxed (pd o') = true) /\ (boxed (pd o) = false -> lb = false -> ub = false -> boxed (pd o') = false)).
  { clear. intros lb ub m [L1 L2 L3 L4 L5]. split; [exact (f_equal snd L1)|]. split; [exact L4|].
    pose proof (f_equal (fun x => fst (fst x)) L1) as L6. pose proof (f_equal (fun x => snd (fst x)) L1) as L7. cbn in L6, L7. unfold boxed. rewrite L6, L7.
    split; [|split].
    - rewrite !orb_true_iff. intros [[C|C]|C]; [auto| |].
      + left; right. destruct L2 as [L2|(_ & L2)]; [rewrite L2; exact C|apply notNull_some; exact L2].
      + right. destruct L3 as [L3|(_ & L3)]; [rewrite L3; exact C|apply notNull_some; exact L3].
    - intros C R. destruct (L5 R) as (M1 & M2). rewrite !orb_true_iff. destruct C as [C|C]; [left; right; apply notNull_some; auto|right; apply notNull_some; auto].
    - intros B -> ->. destruct L2 as [L2|(L2 & _)]; [|discriminate]. destruct L3 as [L3|(L3 & _)]; [|discriminate]. rewrite L2, L3. exact B. }
  assert (NN : forall {X} (p : option X), notNull p = true \/ notNull p = false) by (intros X p; destruct p; auto).
  assert (ST : forall (m m' : bool), (if is_success r then m else m') = match r with SUCCESSFUL_RETURN => m | _ => m' end) by (intros m m'; destruct r; reflexivity).
  assert (GB : forall {X Y} (p : option X) (q : option Y), (p <> None \/ q <> None -> notNull p = true \/ notNull q = true) /\ (~ (p <> None \/ q <> None) -> notNull p = false /\ notNull q = false)).
  { intros X Y p q. split; [intros [N|N]; destruct p, q; auto; congruence|]. intros N. destruct p, q; [exfalso; apply N; left; discriminate..|exfalso; apply N; right; discriminate|auto]. }
  intros E. destruct c; cbn [perform] in E.
  - injection E as <- <-. cbn [select store fst gives_box setOptions pd]. split; [reflexivity|]. split; [reflexivity|]. split; [auto|]. split; [tauto|auto].
  - apply loads_KLoad, LD in E. destruct E as (A1 & A2 & A3 & A4 & A5). cbn [select fst gives_box]. rewrite A1, A2, ST. split; [reflexivity|]. split; [destruct r; reflexivity|]. split; [exact A3|].
    split; [intros G; apply A4, GB; exact G|]. intros B G _. apply GB in G. destruct G. auto.
  - apply loads_KSparse, LD in E. destruct E as (A1 & A2 & A3 & A4 & A5). cbn [select fst gives_box]. rewrite A1, A2, ST. split; [reflexivity|]. split; [destruct r; reflexivity|]. split; [exact A3|].
    split; [intros G; apply A4, GB; exact G|]. intros B G _. apply GB in G. destruct G. auto.
  - apply loads_KFiles, LD in E. destruct E as (A1 & A2 & A3 & A4 & A5). cbn [select fst gives_box]. rewrite A1, A2, ST. split; [reflexivity|]. split; [destruct r; reflexivity|]. split; [exact A3|].
    split; [intros G; apply A4, GB; exact G|]. intros B G _. apply GB in G. destruct G. auto.
  - unfold switchToSparseMode in E. cbv zeta in E. cbn [select fst gives_box]. destruct (d_sparseSolver (pd o)) eqn:M.
    + injection E as <- <-. rewrite M. split; [reflexivity|]. split; [reflexivity|]. split; [auto|]. split; [tauto|auto].
    + do 8 (apply bind_ok in E; destruct E as (? & _ & E)). injection E as <- <-. split; [reflexivity|]. split; [reflexivity|]. split; [auto|]. split; [tauto|auto].
  - unfold switchToDenseMode in E. cbv zeta in E. cbn [select fst gives_box]. destruct (d_sparseSolver (pd o)) eqn:M; cbn [negb] in E.
    + do 5 (apply bind_ok in E; destruct E as (? & _ & E)). destruct (_ || _) in E; injection E as <- <-; (split; [reflexivity|]; split; [first [exact M|reflexivity]|]; split; [auto|]; split; [tauto|auto]).
    + injection E as <- <-. rewrite M. split; [reflexivity|]. split; [reflexivity|]. split; [auto|]. split; [tauto|auto].
  - apply run_box in E. destruct E as (A1 & A2 & A3 & A4 & A5). rewrite A1, A2. cbn [select fst gives_box store]. split; [reflexivity|]. split; [reflexivity|]. split; [exact A3|]. split; [tauto|].
    intros B _ Q. apply A4; auto.
Qed.

Lemma used_snoc orc rand h c r o o2 : used orc rand (h ++ [(c, r)]) o o2 -> exists o1, used orc rand h o o1 /\ perform orc rand c o1 = Ok (r, o2).
Proof.
  unfold used. revert o. induction h as [|[c1 r1] h IH]; intros o; cbn [map app fst snd perform_all].
  - intros E. apply bind_ok in E. destruct E as ([r' o1] & E1 & E). cbn in E. injection E as -> ->. exists o. auto.
  - intros E. apply bind_ok in E. destruct E as ([r' o1] & E1 & E). apply bind_ok in E. destruct E as ([rs o3] & E3 & E). injection E as -> -> ->.
    destruct (IH o1 E3) as (o4 & U & P). exists o4. split; [|exact P]. rewrite E1. cbn [bind]. rewrite U. reflexivity.
Qed.
Lemma used_nil orc rand o o' : used orc rand [] o o' -> o' = o.
Proof. unfold used. cbn. intros E. injection E as ->. reflexivity. Qed.

Lemma used_state orc rand nV nC nComp h o o' : LCQProblem_ctor nV nC nComp = Ok o -> used orc rand h o o' ->
  o_qpSolver (d_options (pd o')) = selected h /\ d_sparseSolver (pd o') = sparsely h /\
  ((exists c, In (c, SUCCESSFUL_RETURN) h /\ gives_box c) \/ started_qpoases h -> boxed (pd o') = true) /\
  ((forall c r, In (c, r) h -> ~ gives_box c) -> ~ ran_qpoases h -> boxed (pd o') = false).
Proof.
  intros C. revert o'. induction h as [|[c r] h IH] using rev_ind; intros o' U.
  - apply used_nil in U. subst o'. unfold LCQProblem_ctor in C.
    assert (K : key2 (pd o) = (None, None, setToDefault, None, None, false)) by (inv_ok; reflexivity).
    split; [exact (f_equal (fun x => o_qpSolver (snd (fst (fst (fst x))))) K)|]. split; [exact (f_equal snd K)|].
    split; [intros [(c & [] & _)|(h1 & r & h2 & E & _)]; destruct h1; discriminate|]. intros _ _. unfold boxed.
    pose proof (f_equal (fun x => fst (fst (fst (fst (fst x))))) K) as K1. pose proof (f_equal (fun x => snd (fst (fst (fst (fst x))))) K) as K2.
    pose proof (f_equal (fun x => snd (fst (fst x))) K) as K3. pose proof (f_equal (fun x => snd (fst x)) K) as K4. cbn in K1, K2, K3, K4. rewrite K1, K2, K3, K4. reflexivity.
  - apply used_snoc in U. destruct U as (o1 & U & P). destruct (IH o1 U) as (I1 & I2 & I3 & I4). pose proof (call_box _ _ _ _ _ _ P) as (B1 & B2 & B3 & B4 & B5).
    unfold selected, sparsely in *. rewrite !fold_left_app. cbn [fold_left]. rewrite <- I1, <- I2. split; [exact B1|]. split; [exact B2|]. split.
    + intros [(c1 & Hc & G)|(h1 & r1 & h2 & E & N1 & N2 & N3)].
      * apply in_app_or in Hc. destruct Hc as [Hc|[Hc|[]]]; [apply B3, I3; left; eauto|]. injection Hc as -> ->. apply B4; auto.
      * destruct h2 as [|e h2 _] using rev_ind.
        -- apply app_inj_tail in E. destruct E as (-> & E). injection E as -> ->. cbn [perform] in P. apply run_box in P. destruct P as (_ & _ & _ & _ & P). apply P; auto. unfold selected in N1. congruence.
        -- rewrite app_comm_cons, app_assoc in E. apply app_inj_tail in E. destruct E as (-> & _). apply B3, I3. right. exists h1, r1, h2. auto.
    + intros G N. apply B5.
      * apply I4; [intros c1 r1 Hc; apply (G c1 r1); apply in_or_app; auto|]. intros (h1 & r1 & h2 & -> & Q). apply N. exists h1, r1, (h2 ++ [(c, r)]). split; [rewrite <- app_assoc; reflexivity|exact Q].
      * apply (G c r). apply in_or_app. right; left; reflexivity.
      * intros ->. destruct (o_qpSolver (d_options (pd o1))) eqn:Q; [exfalso; apply N; exists h, r, []; split; [reflexivity|unfold selected; rewrite <- I1; discriminate]..|reflexivity].
Qed.

Lemma p_C29_box orc rand nV nC nComp h (o o1 o2 : lcqp T) r : LCQProblem_ctor nV nC nComp = Ok o -> used orc rand h o o1 ->
  selected h = OSQP_SPARSE -> sparsely h = true -> runSolver orc rand o1 = Ok (r, o2) -> (exists c, In (c, SUCCESSFUL_RETURN) h /\ gives_box c) -> r = INVALID_OSQP_BOX_CONSTRAINTS.
Proof.
  intros C U S M R G. destruct (used_state _ _ _ _ _ _ _ _ C U) as (I1 & I2 & I3 & _). apply run_box in R. destruct R as (_ & _ & _ & R & _). apply R; [congruence|auto|congruence].
Qed.
Lemma p_C29_qpoases orc rand nV nC nComp h (o o1 o2 : lcqp T) r : LCQProblem_ctor nV nC nComp = Ok o -> used orc rand h o o1 ->
  selected h = OSQP_SPARSE -> sparsely h = true -> runSolver orc rand o1 = Ok (r, o2) -> started_qpoases h -> r = INVALID_OSQP_BOX_CONSTRAINTS.
Proof.
  intros C U S M R G. destruct (used_state _ _ _ _ _ _ _ _ C U) as (I1 & I2 & I3 & _). apply run_box in R. destruct R as (_ & _ & _ & R & _). apply R; [congruence|auto|congruence].
Qed.
Lemma p_C29_none orc rand nV nC nComp h (o o1 o2 : lcqp T) r : LCQProblem_ctor nV nC nComp = Ok o -> used orc rand h o o1 ->
  selected h = OSQP_SPARSE -> (forall c r', In (c, r') h -> ~ gives_box c) -> ~ ran_qpoases h -> runSolver orc rand o1 = Ok (r, o2) -> r <> INVALID_OSQP_BOX_CONSTRAINTS.
Proof.
  intros C U S G N R. destruct (used_state _ _ _ _ _ _ _ _ C U) as (I1 & I2 & _ & I4). apply run_box in R. destruct R as (_ & _ & _ & R & _). apply R; [congruence|auto].
Qed.
End Box.
