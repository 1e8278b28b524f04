(** * TolFacts: a smaller complementarity tolerance only makes a run go on (proofs; no LCQPow code). *)
From Verif Require Import Base Arith Codes Utilities Options Stats FileIO Subsolver State LCQProblem Tactics Frames Control RunControl ApiProps SpecLimits LimitFacts SpecTol OrderFacts.

Section Tol.
Context {T : Type} `{Arith T}.
Variables (orc : oracle T) (rand : nat -> Z).

(** No LCQPow code. *)
Definition co (c : T) (a : options T) : options T :=
  mkOptions (o_stationarityTolerance a) c (o_initialPenaltyParameter a) (o_penaltyUpdateFactor a) (o_solveZeroPenaltyFirst a) (o_perturbStep a)
    (o_maxIterations a) (o_maxPenaltyParameter a) (o_nDynamicPenalty a) (o_etaDynamicPenalty a) (o_printLevel a) (o_storeSteps a) (o_qpSolver a).
Lemma co_eq a b : same_but_compl a b -> b = co (o_complementarityTolerance b) a.
Proof.
  intros []. unfold co. rewrite <- sc_stat, <- sc_rho, <- sc_factor, <- sc_zero, <- sc_perturb, <- sc_iter, <- sc_pen, <- sc_ndyn, <- sc_eta, <- sc_print, <- sc_store, <- sc_solver.
  reflexivity.
Qed.
Variable c : T.
(** No LCQPow code. *)
Definition cd (d : pdata T) : pdata T := set_d_options (co c (d_options d)) d.
(** No LCQPow code. *)
Definition cq (o : lcqp T) : lcqp T := mkLcqp (cd (pd o)) (it o).

Lemma ley_off d s : o_nDynamicPenalty (d_options d) = 0 -> leyfferCheckPositive d s = Ok (false, s).
Proof. intros E. unfold leyfferCheckPositive. cbv zeta. rewrite E. reflexivity. Qed.
Lemma cd_head d s : o_nDynamicPenalty (d_options d) = 0 -> pass_head (cd d) s = pass_head d s.
Proof.
  intros E. unfold pass_head. change (o_storeSteps (d_options (cd d))) with (o_storeSteps (d_options d)).
  repeat first [ match goal with |- bind ?a _ = bind ?b _ => change a with b; destruct b; cbn [bind]; [|reflexivity] end ].
  cbv zeta. rewrite !ley_off by (first [exact E|assumption]). reflexivity.
Qed.
Lemma cd_pen d s : penaltyStep (cd d) s = penaltyStep d s.
Proof. reflexivity. Qed.
Lemma cd_tail d s : pass_tail orc rand (cd d) s = pass_tail orc rand d s.
Proof. reflexivity. Qed.
Lemma cd_first d s : first_solve orc (cd d) s = first_solve orc d s.
Proof. reflexivity. Qed.
(** Tighter tolerance, and no dynamic penalty *)
Definition tight (d : pdata T) : Prop :=
  o_nDynamicPenalty (d_options d) = 0 /\ forall phi, a_lt phi c = true -> a_lt phi (o_complementarityTolerance (d_options d)) = true.
Lemma cd_compl d s b : tight d -> complementarityCheck d s = Ok b -> exists b', complementarityCheck (cd d) s = Ok b' /\ (b' = true -> b = true).
Proof.
  intros [_ U] E. unfold complementarityCheck in *. change (getPhi (cd d) s) with (getPhi d s). destruct (getPhi d s) as [phi|]; cbn [bind] in *; [|discriminate].
  injection E as <-. eexists. split; [reflexivity|]. apply U.
Qed.
Lemma pass_cd d s s' e : tight d -> pass orc rand d s = Ok (s', e) -> e <> Some SUCCESSFUL_RETURN -> pass orc rand (cd d) s = Ok (s', e).
Proof.
  intros U E F. unfold pass in *. rewrite cd_head by apply U. destruct (pass_head d s) as [s1|] eqn:E1; cbn [bind] in *; [|discriminate].
  change (stationarityCheck (cd d) s1) with (stationarityCheck d s1). destruct (stationarityCheck d s1) as [st|]; cbn [bind] in *; [|discriminate].
  destruct st; [|rewrite cd_tail; exact E].
  destruct (complementarityCheck d s1) as [cc|] eqn:C; cbn [bind] in *; [|discriminate]. destruct (cd_compl _ _ _ U C) as (b' & -> & B). cbn [bind].
  destruct cc.
  - apply bind_ok in E. destruct E as (s2 & _ & E). injection E as <- <-. contradiction.
  - destruct b'; [specialize (B eq_refl); discriminate|]. rewrite cd_pen. destruct (penaltyStep d s1) as [s2|]; cbn [bind] in *; [|discriminate]. rewrite cd_tail. exact E.
Qed.
Lemma pass_cd_goes d s s' e s2 e2 : tight d -> pass orc rand d s = Ok (s', e) -> pass orc rand (cd d) s = Ok (s2, e2) ->
  (s2 = s' /\ e2 = e) \/ (exists r, e = Some r) /\ grow s' s2.
Proof.
  intros U E E2. pose proof E as E'. apply pass_inv in E'. destruct E' as [s1 s' b1 Hh Hhd Hst Hcc Hfin | s1 s3 s' e b1 b2 Hh Hhd Hp Hb2 Ht].
  - right. split; [eexists; reflexivity|]. apply finish_frame in Hfin. destruct Hfin as (y & al & l & Hal & Ef).
    assert (G0 : grow s' s1) by (subst s'; apply grow_stats; cbn; try reflexivity; lia).
    apply grow_trans with s1; [exact G0|]. clear G0 Ef E.
    unfold pass in E2. rewrite cd_head in E2 by apply U. rewrite Hhd in E2. cbn [bind] in E2.
    change (stationarityCheck (cd d) s1) with (stationarityCheck d s1) in E2. rewrite Hst in E2. cbn [bind] in E2.
    destruct (cd_compl _ _ _ U Hcc) as (b' & Eb & _). rewrite Eb in E2. cbn [bind] in E2. destruct b'.
    + apply bind_ok in E2. destruct E2 as (s4 & F & E2). injection E2 as <- <-. apply finish_frame in F. destruct F as (y2 & al2 & l2 & _ & ->).
      apply grow_stats; cbn; try reflexivity; lia.
    + apply bind_ok in E2. destruct E2 as (s4 & F & E2). rewrite cd_pen in F. rewrite cd_tail in E2. apply penaltyStep_effect in F. apply grow_pen in F.
      eapply grow_trans; [exact F|]. eapply grow_tail; exact E2.
  - left. assert (Ne : e <> Some SUCCESSFUL_RETURN).
    { apply pass_tail_inv in Ht. destruct Ht as [Hm | Hm Hr | s4 s5 r Hm Hr E3 E4 Er | s4 s5 s6 s7 Hm Hr E3 E4 E5 E6]; try discriminate. intros [= ->]. discriminate. }
    rewrite (pass_cd _ _ _ _ U E Ne) in E2. injection E2 as <- <-. auto.
Qed.
Lemma loop_cd d : tight d -> forall fuel s r s', loop fuel orc rand d s = Ok (r, s') -> r <> SUCCESSFUL_RETURN -> loop fuel orc rand (cd d) s = Ok (r, s').
Proof.
  intros U. induction fuel as [|fuel IH]; intros s r s' E F; cbn [loop] in *; [discriminate|].
  apply bind_ok in E. destruct E as ([s1 e] & E1 & E). destruct e as [r1|].
  - injection E as <- <-. rewrite (pass_cd _ _ _ _ U E1) by congruence. reflexivity.
  - rewrite (pass_cd _ _ _ _ U E1) by discriminate. cbn [bind]. apply IH; assumption.
Qed.
Lemma loop_cd_goes d : tight d -> forall fuel s r s' r2 s2, loop fuel orc rand d s = Ok (r, s') -> loop fuel orc rand (cd d) s = Ok (r2, s2) -> grow s' s2.
Proof.
  intros U. induction fuel as [|fuel IH]; intros s r s' r2 s2 E E2; cbn [loop] in *; [discriminate|].
  apply bind_ok in E. destruct E as ([s1 e] & E1 & E). apply bind_ok in E2. destruct E2 as ([s3 e3] & E3 & E2).
  destruct (pass_cd_goes _ _ _ _ _ _ U E1 E3) as [[-> ->]|[[r1 ->] G]].
  - destruct e; [|eapply IH; eassumption]. injection E as <- <-. injection E2 as <- <-. apply grow_same; reflexivity.
  - injection E as <- <-. destruct e3; [injection E2 as <- <-; exact G|]. eapply grow_trans; [exact G|]. eapply grow_loop; exact E2.
Qed.

(** ** Initialisation *)
Definition rc (a b : res (ReturnValue * lcqp T)) : Prop :=
  match a with Ok (r, o) => b = Ok (r, cq o) | UB u => b = UB u end.
Lemma rc_quiet a b k k' : rc a b -> (forall o, rc (k o) (k' (cq o))) -> rc (and_then_quiet a k) (and_then_quiet b k').
Proof.
  unfold and_then_quiet, rc. intros E K. destruct a as [[r o]|u]; subst b; cbn [bind]; [|reflexivity]. destruct (is_success r); [apply K|reflexivity].
Qed.
Ltac rc_bind := match goal with |- rc (bind ?a _) (bind ?b _) => change b with a; destruct a; cbn [bind]; [|reflexivity] end.
Lemma rc_setLB b o : rc (setLB b o) (setLB b (cq o)).
Proof. unfold setLB. repeat first [rc_bind | match goal with |- rc (if ?c then _ else _) _ => change (it (cq o)) with (it o); destruct c end | match goal with |- rc (match ?c with _ => _ end) _ => destruct c end | reflexivity]. Qed.
Lemma rc_setUB b o : rc (setUB b o) (setUB b (cq o)).
Proof. unfold setUB. repeat first [rc_bind | match goal with |- rc (if ?c then _ else _) _ => change (it (cq o)) with (it o); destruct c end | match goal with |- rc (match ?c with _ => _ end) _ => destruct c end | reflexivity]. Qed.
Lemma rc_sub o : rc (init_subsolver o) (init_subsolver (cq o)).
Proof.
  unfold init_subsolver. cbv zeta. change (o_qpSolver (d_options (pd (cq o)))) with (o_qpSolver (d_options (pd o))).
  destruct (o_qpSolver (d_options (pd o))).
  - do 3 rc_bind. match goal with |- rc (if ?c then _ else _) (if ?d then _ else _) => change d with c; destruct c; [reflexivity|] end.
    apply rc_quiet; [match goal with |- rc (setLB ?b ?x) _ => exact (rc_setLB b x) end|intros o1]. apply rc_quiet; [match goal with |- rc (setUB ?b ?x) _ => exact (rc_setUB b x) end|intros o2]. rc_bind. reflexivity.
  - do 3 rc_bind. match goal with |- rc (if ?c then _ else _) (if ?d then _ else _) => change d with c; destruct c; [reflexivity|] end.
    apply rc_quiet; [match goal with |- rc (setLB ?b ?x) _ => exact (rc_setLB b x) end|intros o1]. apply rc_quiet; [match goal with |- rc (setUB ?b ?x) _ => exact (rc_setUB b x) end|intros o2]. rc_bind. reflexivity.
  - match goal with |- rc (if ?c then _ else _) (if ?d then _ else _) => change d with c; destruct c; [reflexivity|] end.
    do 4 rc_bind. do 2 match goal with |- rc (if ?c then _ else _) (if ?d then _ else _) => change d with c; destruct c; [reflexivity|] end.
    rc_bind. reflexivity.
Qed.
Lemma cd_phi nV nComp d : init_phi nV nComp (cd d) = let! d := init_phi nV nComp d in Ok (cd d).
Proof.
  unfold init_phi. change (d_lbL (cd d)) with (d_lbL d). change (d_lbR (cd d)) with (d_lbR d). destruct (_ || _); [|reflexivity].
  repeat match goal with |- bind ?a _ = bind (bind ?b _) _ => change a with b; destruct b; cbn [bind]; [|reflexivity] end. reflexivity.
Qed.
Lemma rc_init o : rc (initializeSolver o) (initializeSolver (cq o)).
Proof.
  unfold initializeSolver. apply rc_quiet; [apply rc_sub|intros o1]. cbv zeta. do 4 rc_bind.
  change (pd (cq o1)) with (cd (pd o1)). rewrite cd_phi. destruct (init_phi _ _ (pd o1)); cbn [bind]; reflexivity.
Qed.

(** ** Runs *)
Lemma fuel_cd fuel o r o1 : tight (pd o) -> r <> SUCCESSFUL_RETURN -> runSolver_fuel fuel orc rand o = Ok (r, o1) -> runSolver_fuel fuel orc rand (cq o) = Ok (r, cq o1).
Proof.
  intros U F E. unfold runSolver_fuel in *. pose proof (rc_init o) as R. destruct (initializeSolver o) as [[r0 o0]|] eqn:Ei; cbn [bind] in *; [|discriminate].
  cbn [rc] in R. rewrite R. cbn [bind]. destruct (is_success r0) eqn:S; cbn [negb] in *.
  2: { unfold fail_msg in *. injection E as <- <-. reflexivity. }
  assert (Hr : r0 = SUCCESSFUL_RETURN) by (destruct r0; try discriminate; reflexivity). subst r0. apply init_options in Ei.
  change (pd (cq o0)) with (cd (pd o0)). change (it (cq o0)) with (it o0). rewrite cd_first.
  destruct (first_solve orc (pd o0) (it o0)) as [[s e]|]; cbn [bind] in *; [|discriminate]. destruct e as [r1|]; [injection E as <- <-; reflexivity|].
  apply bind_ok in E. destruct E as ([r2 s2] & E2 & E). injection E as <- <-.
  assert (U' : tight (pd o0)) by (unfold tight in *; rewrite Ei; exact U).
  rewrite (loop_cd _ U' _ _ _ _ E2 F). reflexivity.
Qed.
Lemma fuel_cd_goes fuel o r o1 r2 o2 : tight (pd o) -> runSolver_fuel fuel orc rand o = Ok (r, o1) -> runSolver_fuel fuel orc rand (cq o) = Ok (r2, o2) -> grow (it o1) (it o2).
Proof.
  intros U E E2. unfold runSolver_fuel in *. pose proof (rc_init o) as R. destruct (initializeSolver o) as [[r0 o0]|] eqn:Ei; cbn [bind] in *; [|discriminate].
  cbn [rc] in R. rewrite R in E2. cbn [bind] in E2. destruct (is_success r0) eqn:S; cbn [negb] in *.
  2: { unfold fail_msg in *. injection E as <- <-. injection E2 as <- <-. apply grow_same; reflexivity. }
  assert (Hr : r0 = SUCCESSFUL_RETURN) by (destruct r0; try discriminate; reflexivity). subst r0. apply init_options in Ei.
  change (pd (cq o0)) with (cd (pd o0)) in E2. change (it (cq o0)) with (it o0) in E2. rewrite cd_first in E2.
  destruct (first_solve orc (pd o0) (it o0)) as [[s e]|]; cbn [bind] in *; [|discriminate].
  destruct e as [r1|]; [injection E as <- <-; injection E2 as <- <-; apply grow_same; reflexivity|].
  apply bind_ok in E. destruct E as ([r3 s3] & E3 & E). injection E as <- <-.
  apply bind_ok in E2. destruct E2 as ([r4 s4] & E4 & E2). injection E2 as <- <-. cbn [it].
  assert (U' : tight (pd o0)) by (unfold tight in *; rewrite Ei; exact U). eapply loop_cd_goes; [exact U'|exact E3|exact E4].
Qed.
End Tol.

Section Main.
Context {T : Type} `{Arith T}.
Lemma set_cq (opt : options T) o : same_but_compl (d_options (pd o)) opt -> setOptions opt o = cq (o_complementarityTolerance opt) o.
Proof. intros E. apply co_eq in E. unfold setOptions, cq, cd. rewrite <- E. reflexivity. Qed.
Theorem thm_tight_same orc rand opt (o : lcqp T) r o1 : runSolver orc rand o = Ok (r, o1) -> r <> SUCCESSFUL_RETURN ->
  same_but_compl (d_options (pd o)) opt -> compl_tightened (d_options (pd o)) opt -> o_nDynamicPenalty opt = 0 ->
  runSolver orc rand (setOptions opt o) = Ok (r, setOptions opt o1).
Proof.
  intros E F S L D. pose proof (run_options_kept _ _ _ _ _ E) as K. rewrite (set_cq opt o S), (set_cq opt o1) by (rewrite K; exact S). unfold runSolver in *.
  apply fuel_cd; [|exact F|exact E]. split; [rewrite <- (sc_ndyn _ _ S); exact D|exact L].
Qed.
Theorem thm_tight_goes orc rand opt (o : lcqp T) r o1 r2 o2 : runSolver orc rand o = Ok (r, o1) ->
  same_but_compl (d_options (pd o)) opt -> compl_tightened (d_options (pd o)) opt -> o_nDynamicPenalty opt = 0 ->
  runSolver orc rand (setOptions opt o) = Ok (r2, o2) -> goes_on o1 o2.
Proof.
  intros E S L D E2. rewrite (set_cq opt o S) in E2. unfold runSolver in *.
  assert (U : tight (o_complementarityTolerance opt) (pd o)) by (split; [rewrite <- (sc_ndyn _ _ S); exact D|exact L]).
  apply (fuel_cd_goes orc rand _ _ _ _ _ _ _ U E) in E2. destruct E2. constructor; assumption.
Qed.
Theorem thm_tight_success orc rand opt (o : lcqp T) r o1 o2 : runSolver orc rand o = Ok (r, o1) ->
  same_but_compl (d_options (pd o)) opt -> compl_tightened (d_options (pd o)) opt -> o_nDynamicPenalty opt = 0 ->
  runSolver orc rand (setOptions opt o) = Ok (SUCCESSFUL_RETURN, o2) -> r = SUCCESSFUL_RETURN.
Proof.
  intros E S L D E2. destruct (is_success r) eqn:Q; [destruct r; try discriminate; reflexivity|]. exfalso.
  rewrite (thm_tight_same _ _ _ _ _ _ E) in E2; try assumption; [injection E2 as ->; discriminate|intros ->; discriminate].
Qed.
End Main.
