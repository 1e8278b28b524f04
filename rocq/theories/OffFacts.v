(** * OffFacts: without the dynamic penalty its factor has no effect (proofs; no LCQPow code). *)
From Verif Require Import Base Arith Codes Utilities Options Stats FileIO Subsolver State LCQProblem Tactics Loops RunControl LimitFacts TolFacts SpecOff.

(** ** No dynamic penalty: eta does not matter *)
Section Eta.
Context {T : Type} `{Arith T}.
Variables (orc : oracle T) (rand : nat -> Z).

(** No LCQPow code. *)
Definition eo (c : T) (a : options T) : options T :=
  mkOptions (o_stationarityTolerance a) (o_complementarityTolerance a) (o_initialPenaltyParameter a) (o_penaltyUpdateFactor a) (o_solveZeroPenaltyFirst a) (o_perturbStep a)
    (o_maxIterations a) (o_maxPenaltyParameter a) (o_nDynamicPenalty a) c (o_printLevel a) (o_storeSteps a) (o_qpSolver a).
Lemma eo_eq a b : same_but_eta a b -> b = eo (o_etaDynamicPenalty b) a.
Proof.
  intros []. unfold eo. rewrite <- se_stat, <- se_compl, <- se_rho, <- se_factor, <- se_zero, <- se_perturb, <- se_iter, <- se_pen, <- se_ndyn, <- se_print, <- se_store, <- se_solver.
  reflexivity.
Qed.
Variable c : T.
(** No LCQPow code. *)
Definition ed (d : pdata T) : pdata T := set_d_options (eo c (d_options d)) d.
(** No LCQPow code. *)
Definition eq_ (o : lcqp T) : lcqp T := mkLcqp (ed (pd o)) (it o).

Lemma ed_head d s : o_nDynamicPenalty (d_options d) = 0 -> pass_head (ed d) s = pass_head d s.
Proof.
  intros E. unfold pass_head. change (o_storeSteps (d_options (ed d))) with (o_storeSteps (d_options d)).
  repeat first [ match goal with |- bind ?a _ = bind ?b _ => change a with b; destruct b; cbn [bind]; [|reflexivity] end ].
  cbv zeta. rewrite !ley_off by (first [exact E|assumption]). reflexivity.
Qed.
Lemma ed_pass d s : o_nDynamicPenalty (d_options d) = 0 -> pass orc rand (ed d) s = pass orc rand d s.
Proof. intros E. unfold pass. rewrite ed_head by exact E. reflexivity. Qed.
Lemma ed_loop d : o_nDynamicPenalty (d_options d) = 0 -> forall fuel s, loop fuel orc rand (ed d) s = loop fuel orc rand d s.
Proof.
  intros E. induction fuel as [|fuel IH]; intros s; cbn [loop]; [reflexivity|]. rewrite (ed_pass d s E).
  destruct (pass orc rand d s) as [[s1 [r|]]|]; cbn [bind]; [reflexivity|apply IH|reflexivity].
Qed.
Lemma ed_first d s : first_solve orc (ed d) s = first_solve orc d s.
Proof. reflexivity. Qed.

(** ** Initialisation *)
Definition re_l (a b : res (ReturnValue * lcqp T)) : Prop :=
  match a with Ok (r, o) => b = Ok (r, eq_ o) | UB u => b = UB u end.
Lemma re_quiet a b k k' : re_l a b -> (forall o, re_l (k o) (k' (eq_ o))) -> re_l (and_then_quiet a k) (and_then_quiet b k').
Proof.
  unfold and_then_quiet, re_l. intros E K. destruct a as [[r o]|u]; subst b; cbn [bind]; [|reflexivity]. destruct (is_success r); [apply K|reflexivity].
Qed.
Ltac re_bind := match goal with |- re_l (bind ?a _) (bind ?b _) => change b with a; destruct a; cbn [bind]; [|reflexivity] end.
Lemma re_setLB b o : re_l (setLB b o) (setLB b (eq_ o)).
Proof. unfold setLB. repeat first [re_bind | match goal with |- re_l (if ?c then _ else _) _ => change (it (eq_ o)) with (it o); destruct c end | match goal with |- re_l (match ?c with _ => _ end) _ => destruct c end | reflexivity]. Qed.
Lemma re_setUB b o : re_l (setUB b o) (setUB b (eq_ o)).
Proof. unfold setUB. repeat first [re_bind | match goal with |- re_l (if ?c then _ else _) _ => change (it (eq_ o)) with (it o); destruct c end | match goal with |- re_l (match ?c with _ => _ end) _ => destruct c end | reflexivity]. Qed.
Lemma re_sub o : re_l (init_subsolver o) (init_subsolver (eq_ o)).
Proof.
  unfold init_subsolver. cbv zeta. change (o_qpSolver (d_options (pd (eq_ o)))) with (o_qpSolver (d_options (pd o))).
  destruct (o_qpSolver (d_options (pd o))).
  - do 3 re_bind. match goal with |- re_l (if ?c then _ else _) (if ?d then _ else _) => change d with c; destruct c; [reflexivity|] end.
    apply re_quiet; [match goal with |- re_l (setLB ?b ?x) _ => exact (re_setLB b x) end|intros o1]. apply re_quiet; [match goal with |- re_l (setUB ?b ?x) _ => exact (re_setUB b x) end|intros o2]. re_bind. reflexivity.
  - do 3 re_bind. match goal with |- re_l (if ?c then _ else _) (if ?d then _ else _) => change d with c; destruct c; [reflexivity|] end.
    apply re_quiet; [match goal with |- re_l (setLB ?b ?x) _ => exact (re_setLB b x) end|intros o1]. apply re_quiet; [match goal with |- re_l (setUB ?b ?x) _ => exact (re_setUB b x) end|intros o2]. re_bind. reflexivity.
  - match goal with |- re_l (if ?c then _ else _) (if ?d then _ else _) => change d with c; destruct c; [reflexivity|] end.
    do 4 re_bind. do 2 match goal with |- re_l (if ?c then _ else _) (if ?d then _ else _) => change d with c; destruct c; [reflexivity|] end.
    re_bind. reflexivity.
Qed.
Lemma ed_phi nV nComp d : init_phi nV nComp (ed d) = let! d := init_phi nV nComp d in Ok (ed d).
Proof.
  unfold init_phi. change (d_lbL (ed d)) with (d_lbL d). change (d_lbR (ed d)) with (d_lbR d). destruct (_ || _); [|reflexivity].
  repeat match goal with |- bind ?a _ = bind (bind ?b _) _ => change a with b; destruct b; cbn [bind]; [|reflexivity] end. reflexivity.
Qed.
Lemma re_init o : re_l (initializeSolver o) (initializeSolver (eq_ o)).
Proof.
  unfold initializeSolver. apply re_quiet; [apply re_sub|intros o1]. cbv zeta. do 4 re_bind.
  change (pd (eq_ o1)) with (ed (pd o1)). rewrite ed_phi. destruct (init_phi _ _ (pd o1)); cbn [bind]; reflexivity.
Qed.


(** ** Runs *)
Lemma fuel_ed fuel o : o_nDynamicPenalty (d_options (pd o)) = 0 ->
  runSolver_fuel fuel orc rand (eq_ o) = match runSolver_fuel fuel orc rand o with Ok (r, o1) => Ok (r, eq_ o1) | UB u => UB u end.
Proof.
  intros U. unfold runSolver_fuel. pose proof (re_init o) as R. destruct (initializeSolver o) as [[r0 o0]|] eqn:Ei; cbn [re_l] in R; rewrite R; cbn [bind]; [|reflexivity].
  destruct (is_success r0) eqn:S; cbn [negb]; [|reflexivity].
  assert (Hr : r0 = SUCCESSFUL_RETURN) by (destruct r0; try discriminate; reflexivity). subst r0. apply init_options in Ei.
  change (pd (eq_ o0)) with (ed (pd o0)). change (it (eq_ o0)) with (it o0). rewrite ed_first.
  destruct (first_solve orc (pd o0) (it o0)) as [[s [r|]]|]; cbn [bind]; [reflexivity| |reflexivity].
  rewrite ed_loop by (rewrite Ei; exact U). destruct (loop fuel orc rand (pd o0) s) as [[r s2]|]; reflexivity.
Qed.
End Eta.

Theorem thm_eta {T : Type} `{Arith T} (orc : oracle T) rand opt (o : lcqp T) : same_but_eta (d_options (pd o)) opt -> o_nDynamicPenalty opt = 0 ->
  runSolver orc rand (setOptions opt o) = match runSolver orc rand o with Ok (r, o1) => Ok (r, setOptions opt o1) | UB u => UB u end.
Proof.
  intros S D.
  assert (Q : forall x, d_options (pd x) = d_options (pd o) -> setOptions opt x = eq_ (o_etaDynamicPenalty opt) x).
  { intros x Ex. rewrite <- Ex in S. apply eo_eq in S. unfold setOptions, eq_, ed. rewrite <- S. reflexivity. }
  rewrite (Q o eq_refl). pose proof (run_options_kept orc rand o) as K.
  assert (Z0 : o_nDynamicPenalty (d_options (pd o)) = 0) by (rewrite <- (se_ndyn _ _ S); exact D).
  pose proof (fuel_ed orc rand (o_etaDynamicPenalty opt) (Z.to_nat (o_maxIterations (d_options (pd o))) + 2) o Z0) as F.
  change (runSolver_fuel (Z.to_nat (o_maxIterations (d_options (pd o))) + 2) orc rand o) with (runSolver orc rand o) in F.
  change (runSolver orc rand (eq_ (o_etaDynamicPenalty opt) o)) with (runSolver_fuel (Z.to_nat (o_maxIterations (d_options (pd o))) + 2) orc rand (eq_ (o_etaDynamicPenalty opt) o)).
  rewrite F. destruct (runSolver orc rand o) as [[r o1]|] eqn:E; [|reflexivity]. rewrite (Q o1 (K _ _ eq_refl)). reflexivity.
Qed.
