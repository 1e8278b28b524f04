(** * CountFacts: a run solves one QP per iteration (proofs; no LCQPow code). *)
From Verif Require Import Base Arith Codes Utilities Options Stats FileIO Subsolver State LCQProblem Tactics Loops Frames Control RunControl SpecRun Spec SpecCount.

Section Count.
Context {T : Type} `{Arith T}.
Variables (orc : oracle T) (rand : nat -> Z).
Implicit Types (d : pdata T) (s : iter T).

(** The QP solver refuses every problem of [d] (OSQP with box bounds) *)
Definition boxed d : Prop := exists sub, d_subsolver d = Some sub /\ sub_qpSolver sub = OSQP_SPARSE /\ notNull (d_lb d) || notNull (d_ub d) = true.

Lemma solve_count d b s r s' : solveQPSubproblem orc d b s = Ok (r, s') -> st_iterTotal (s_stats s') = st_iterTotal (s_stats s) /\
  ((~ boxed d /\ (exists c, s_calls s' = c :: s_calls s) /\ (r = SUCCESSFUL_RETURN \/ failed_qps r = 1)) \/
   (boxed d /\ s_calls s' = s_calls s /\ r = INVALID_OSQP_BOX_CONSTRAINTS)).
Proof.
  intros E. apply solveQPSubproblem_inv in E. destruct E as (sub & res & k & f & st & Hs & Hsv & Hk & Hf & Hst & Hr & a1 & a2 & a3 & a4 & a5 & ->).
  assert (Hc : s_calls (sqp_record res s) = sr_calls res) by (unfold sqp_record; destruct (sr_iter res), (sr_flag res); reflexivity).
  split. { destruct st as [r1 st]. apply updateSubproblemIter_ok in Hst. cbn [snd]. rewrite Hst. reflexivity. }
  change (s_calls (set_pk a1 (set_yk_A a2 (set_xnew a3 (set_yk a4 (set_xk a5 (set_stats (updateQPSolverExitFlag f (snd st)) (sqp_record res s)))))))) with (s_calls (sqp_record res s)).
  rewrite Hc, Hr. clear Hc Hr Hk Hf Hst. unfold sub_solve, solve_OSQP, solve_qpOASES in Hsv.
  assert (NB : sub_qpSolver sub <> OSQP_SPARSE \/ notNull (d_lb d) || notNull (d_ub d) = false -> ~ boxed d).
  { intros [N|N] (sub' & A1 & A2 & A3); [rewrite Hs in A1; injection A1 as <-; contradiction|congruence]. }
  destruct (sub_qpSolver sub) eqn:Es.
  - left. split; [apply NB; left; discriminate|]. inv_ok; cbn [sr_calls sr_ret]; (split; [eauto|]); destruct (_ =? 0); auto.
  - left. split; [apply NB; left; discriminate|]. inv_ok; cbn [sr_calls sr_ret]; (split; [eauto|]); destruct (_ =? 0); auto.
  - destruct (notNull (d_lb d) || notNull (d_ub d)) eqn:B.
    + right. injection Hsv as <-. split; [exists sub; auto|]. split; reflexivity.
    + left. split; [apply NB; auto|]. inv_ok; cbn [sr_calls sr_ret]; (split; [eauto|]); auto; try discriminate; match goal with |- context [if ?c then _ else _] => destruct c; auto end.
Qed.
Lemma head_count d s s1 b : head_effect d s s1 b -> s_calls s1 = s_calls s /\ st_iterTotal (s_stats s1) = st_iterTotal (s_stats s) + 1.
Proof.
  intros Hh. destruct Hh. destruct he_stats as (sx & st1 & A1 & _ & _ & _ & _ & _ & A7 & A8). split; [exact he_calls|].
  assert (E : st_iterTotal st1 = st_iterTotal (s_stats s)).
  { destruct (o_storeSteps (d_options d)); [|subst st1; reflexivity].
    unfold storeSteps in A7.
    repeat match goal with H : bind _ _ = Ok _ |- _ => apply bind_ok in H; let v := fresh "v" in let F := fresh "F" in destruct H as (v & F & H); cbv beta in H end.
    match goal with F : updateTrackingVectors _ _ _ _ _ _ _ _ _ _ _ = Ok _ |- _ => unfold updateTrackingVectors in F; apply bind_ok in F; destruct F as (xs & _ & F);
      apply bind_ok in F; destruct F as (ac & _ & F); injection F as <- end.
    apply (f_equal (fun r => match r with Ok q => st_iterTotal (s_stats q) | UB _ => 0 end)) in A7. cbn [s_stats set_stats st_iterTotal] in A7. rewrite <- A7, A1. reflexivity. }
  rewrite A8. destruct b; cbn; lia.
Qed.
(** One QP more than iterations *)
Definition one_more c0 s : Prop := exists l, s_calls s = l ++ c0 /\ Z.of_nat (length l) = st_iterTotal (s_stats s) + 1.
(** At the end of a run *)
Definition counted (c0 : list (qp_call T)) r s : Prop := exists l, s_calls s = l ++ c0 /\ Z.of_nat (length l) = st_iterTotal (s_stats s) + failed_qps r.
Lemma pass_count c0 d s s' e : ~ boxed d -> one_more c0 s -> pass orc rand d s = Ok (s', e) -> match e with None => one_more c0 s' | Some r => counted c0 r s' end.
Proof.
  intros NB (l & L1 & L2) E. apply pass_inv in E. destruct E as [s1 s' b1 Hh Hhd Hst Hcc Hfin | s1 s2 s' e b1 b2 Hh Hhd Hp Hb2 Ht].
  - apply head_count in Hh. destruct Hh as [C1 C2]. apply finish_frame in Hfin. destruct Hfin as (y & al & lg & Hal & ->). exists l.
    split; [cbn; congruence|]. cbn. lia.
  - apply head_count in Hh. destruct Hh as [C1 C2].
    assert (P : s_calls s2 = l ++ c0 /\ Z.of_nat (length l) = st_iterTotal (s_stats s2)).
    { rewrite (pe_calls _ _ _ _ Hp), (pe_stats _ _ _ _ Hp). split; [congruence|]. destruct b2; cbn; lia. }
    destruct P as [P1 P2]. apply pass_tail_inv in Ht. destruct Ht as [Hm | Hm Hr | s3 s4 r Hm Hr E3 E4 Er | s3 s4 s5 s6 Hm Hr E3 E4 E5 E6].
    + exists l. split; [exact P1|]. cbn. lia.
    + exists l. split; [exact P1|]. cbn. lia.
    + apply updateLinearization_frame in E3. destruct E3 as (v & ->). apply solve_count in E4. cbn [s_stats set_gk s_calls] in E4.
      destruct E4 as [I [(_ & (c & C) & [->|F])|[B _]]]; [discriminate| |contradiction].
      exists (c :: l). split; [cbn; rewrite C, P1; reflexivity|]. rewrite F. cbn [length]. change (s_stats (logI (EvMessage r) s4)) with (s_stats s4). lia.
    + apply updateLinearization_frame in E3. destruct E3 as (v & ->). apply solve_count in E4. cbn [s_stats set_gk s_calls] in E4.
      destruct E4 as [I [(_ & (c & C) & _)|[B _]]]; [|contradiction].
      apply getOptimalStepLength_frame in E6. destruct E6 as (al & lk & ->).
      assert (G : s_calls s5 = s_calls s4 /\ s_stats s5 = s_stats s4).
      { destruct (o_perturbStep _); [apply perturbStep_frame in E5; destruct E5 as (a & b & ->); split; reflexivity|]. subst s5. split; reflexivity. }
      destruct G as [G1 G2]. exists (c :: l). split; [cbn; rewrite G1, C, P1; reflexivity|]. cbn [length s_stats set_alphak set_lk_tmp]. rewrite G2. lia.
Qed.
Lemma loop_count c0 d : ~ boxed d -> forall fuel s r s', one_more c0 s -> loop fuel orc rand d s = Ok (r, s') -> counted c0 r s'.
Proof.
  intros NB. induction fuel as [|fuel IH]; intros s r s' M E; cbn [loop] in E; [discriminate|].
  apply bind_ok in E. destruct E as ([s1 e] & E1 & E). pose proof (pass_count _ _ _ _ _ NB M E1) as P. destruct e as [r1|].
  - injection E as <- <-. exact P.
  - eapply IH; eassumption.
Qed.
Lemma first_count d s s' e : st_iterTotal (s_stats s) = 0 -> first_solve orc d s = Ok (s', e) -> s_calls s' <> s_calls s \/ e = None ->
  ~ boxed d /\ match e with None => one_more (s_calls s) s' | Some r => counted (s_calls s) r s' end.
Proof.
  intros V F N. apply first_solve_inv in F. destruct F as [g s2 r Es Er | g s2 s3 Es Eq].
  - apply solve_count in Es. cbn [s_stats set_gk s_calls] in Es. destruct Es as [I [(B & (c & C) & [->|F])|(B & C & _)]]; [discriminate| |].
    + split; [exact B|]. exists [c]. split; [exact C|]. rewrite F. change (s_stats (logI (EvMessage r) s2)) with (s_stats s2). rewrite I, V. reflexivity.
    + destruct N as [N|N]; [contradiction|discriminate].
  - apply solve_count in Es. cbn [s_stats set_gk s_calls] in Es. destruct Es as [I [(B & (c & C) & _)|(_ & _ & C)]]; [|discriminate].
    split; [exact B|]. apply setQk_frame in Eq. destruct Eq as (q1 & q2 & q3 & ->). rewrite updateRhoOpt_eq. exists [c]. split; [exact C|].
    match goal with |- _ = ?x + 1 => replace x with 0; [reflexivity|] end. symmetry. transitivity (st_iterTotal (s_stats s2)); [|congruence]. destruct (_ : bool); reflexivity.
Qed.
Theorem thm_count o r o' : runSolver orc rand o = Ok (r, o') -> started o o' ->
  exists l, s_calls (it o') = l ++ s_calls (it o) /\ Z.of_nat (length l) = st_iterTotal (getOutputStatistics o') + failed_qps r.
Proof.
  intros E S. apply RunControl.run_inv in E. destruct E as [r o1 E1 Er | r o1 s1 E1 E2 | r o1 s1 s2 E1 E2 E3].
  - exfalso. apply S. apply initializeSolver_ok in E1. destruct E1 as [(_ & _ & a & b & c & e & f & g1 & g2 & y & gt & l & ->)|(_ & a & b & c & e & f & y & ->)]; reflexivity.
  - apply initializeSolver_ok in E1. destruct E1 as [(_ & _ & a & b & c & e' & f & g1 & g2 & y & gt & l & ->)|(C & _)]; [|discriminate].
    apply first_count in E2; [|reflexivity|left; exact S]. destruct E2 as [_ (l2 & A & B)]. exists l2. split; [exact A|exact B].
  - apply initializeSolver_ok in E1. destruct E1 as [(_ & _ & a & b & c & e' & f & g1 & g2 & y & gt & l & ->)|(C & _)]; [|discriminate].
    apply first_count in E2; [|reflexivity|right; reflexivity]. destruct E2 as [NB M].
    apply (loop_count _ _ NB _ _ _ _ M) in E3. destruct E3 as (l2 & A & B). exists l2. split; [exact A|exact B].
Qed.
End Count.
