(** * LimitFacts: raising the limits does not change what a run does before (proofs; no LCQPow code). *)
From Verif Require Import Base Arith Codes Utilities Options Stats FileIO Subsolver State LCQProblem Tactics Frames Control RunControl ApiProps SpecLimits.

Section Limits.
Context {T : Type} `{Arith T}.
Variables (orc : oracle T) (rand : nat -> Z).

(** ** The statistics only grow *)
Record grow (s s' : iter T) : Prop := {
  g_calls : exists more, s_calls s' = more ++ s_calls s;
  g_x : starts_with (st_xSteps (s_stats s')) (st_xSteps (s_stats s));
  g_inner : starts_with (st_innerIters (s_stats s')) (st_innerIters (s_stats s));
  g_sub : starts_with (st_subproblemIters (s_stats s')) (st_subproblemIters (s_stats s));
  g_accu : starts_with (st_accuSubproblemIters (s_stats s')) (st_accuSubproblemIters (s_stats s));
  g_length : starts_with (st_stepLength (s_stats s')) (st_stepLength (s_stats s));
  g_size : starts_with (st_stepSize (s_stats s')) (st_stepSize (s_stats s));
  g_stat : starts_with (st_statVals (s_stats s')) (st_statVals (s_stats s));
  g_obj : starts_with (st_objVals (s_stats s')) (st_objVals (s_stats s));
  g_phi : starts_with (st_phiVals (s_stats s')) (st_phiVals (s_stats s));
  g_merit : starts_with (st_meritVals (s_stats s')) (st_meritVals (s_stats s));
  g_total : st_iterTotal (s_stats s) <= st_iterTotal (s_stats s');
  g_outer : st_iterOuter (s_stats s) <= st_iterOuter (s_stats s');
  g_iters : st_subproblemIter (s_stats s) <= st_subproblemIter (s_stats s') }.

Lemma sw_refl {X} (l : list X) : starts_with l l.
Proof. exists []. rewrite app_nil_r. reflexivity. Qed.
Lemma sw_snoc {X} (l : list X) x : starts_with (l ++ [x]) l.
Proof. exists [x]. reflexivity. Qed.
Lemma sw_trans {X} (a b c : list X) : starts_with b a -> starts_with c b -> starts_with c a.
Proof. intros [m ->] [n ->]. exists (m ++ n). rewrite app_assoc. reflexivity. Qed.
Lemma grow_trans a b c : grow a b -> grow b c -> grow a c.
Proof.
  intros A B. constructor; try (eapply sw_trans; [apply A|apply B]).
  - destruct (g_calls _ _ A) as (m & Em), (g_calls _ _ B) as (n & En). exists (n ++ m). rewrite En, Em, app_assoc. reflexivity.
  - etransitivity; [apply A|apply B].
  - etransitivity; [apply A|apply B].
  - etransitivity; [apply A|apply B].
Qed.
Lemma grow_same s s' : s_calls s' = s_calls s -> s_stats s' = s_stats s -> grow s s'.
Proof. intros C E. constructor; rewrite ?E; try apply sw_refl; try apply Z.le_refl. exists []. exact C. Qed.
Lemma grow_stats s s' : s_calls s' = s_calls s -> st_xSteps (s_stats s') = st_xSteps (s_stats s) -> st_innerIters (s_stats s') = st_innerIters (s_stats s) ->
  st_subproblemIters (s_stats s') = st_subproblemIters (s_stats s) -> st_accuSubproblemIters (s_stats s') = st_accuSubproblemIters (s_stats s) ->
  st_stepLength (s_stats s') = st_stepLength (s_stats s) -> st_stepSize (s_stats s') = st_stepSize (s_stats s) -> st_statVals (s_stats s') = st_statVals (s_stats s) ->
  st_objVals (s_stats s') = st_objVals (s_stats s) -> st_phiVals (s_stats s') = st_phiVals (s_stats s) -> st_meritVals (s_stats s') = st_meritVals (s_stats s) ->
  st_iterTotal (s_stats s) <= st_iterTotal (s_stats s') -> st_iterOuter (s_stats s) <= st_iterOuter (s_stats s') ->
  st_subproblemIter (s_stats s) <= st_subproblemIter (s_stats s') -> grow s s'.
Proof. intros C E1 E2 E3 E4 E5 E6 E7 E8 E9 E10 L1 L2 L3. constructor; rewrite ?E1, ?E2, ?E3, ?E4, ?E5, ?E6, ?E7, ?E8, ?E9, ?E10; try apply sw_refl; try assumption. exists []. exact C. Qed.

Lemma grow_store d s s' : storeSteps d s = Ok s' -> grow s s'.
Proof.
  unfold storeSteps. intros E.
  repeat match goal with H : bind _ _ = Ok _ |- _ => apply bind_ok in H; let v := fresh "v" in let F := fresh "F" in destruct H as (v & F & H); cbv beta in H end.
  injection E as <-. match goal with F : updateTrackingVectors _ _ _ _ _ _ _ _ _ _ _ = Ok _ |- _ => unfold updateTrackingVectors in F; apply bind_ok in F; destruct F as (xs & _ & F);
    apply bind_ok in F; destruct F as (ac & _ & F); injection F as <- end.
  constructor; cbn [s_calls s_stats set_stats st_iterTotal st_iterOuter st_subproblemIter st_xSteps st_innerIters
    st_subproblemIters st_accuSubproblemIters st_stepLength st_stepSize st_statVals st_objVals st_phiVals st_meritVals]; try apply sw_snoc; try apply Z.le_refl. exists []. reflexivity.
Qed.
Lemma grow_head d s s' b : head_effect d s s' b -> grow s s'.
Proof.
  intros Hh. destruct Hh. destruct he_stats as (sx & st1 & A1 & _ & _ & _ & _ & _ & A7 & A8).
  assert (G : grow (set_stats (s_stats sx) s) (set_stats st1 s)).
  { destruct (o_storeSteps (d_options d)).
    - apply grow_store in A7. destruct A7. constructor; try assumption. exists []. reflexivity.
    - subst st1. rewrite A1. apply grow_same; reflexivity. }
  rewrite A1 in G. apply grow_trans with (set_stats st1 s).
  - destruct G. constructor; assumption.
  - assert (P : pen_stats d b (s_rho s) (set_st_iterTotal (st_iterTotal st1 + 1) st1) = s_stats s') by (symmetry; exact A8).
    apply grow_stats; rewrite <- ?P; try exact he_calls; destruct b; cbn; try reflexivity; try lia.
Qed.
Lemma grow_pen d s s' b : pen_effect d s s' b -> grow s s'.
Proof. intros []. apply grow_stats; rewrite ?pe_stats; try exact pe_calls; destruct b; cbn; try reflexivity; try lia. Qed.
Lemma grow_lin d s s' : updateLinearization d s = Ok s' -> grow s s'.
Proof. intros E. apply updateLinearization_frame in E. destruct E as (v & ->). apply grow_same; reflexivity. Qed.
Lemma grow_solve d b s r s' : solveQPSubproblem orc d b s = Ok (r, s') -> grow s s'.
Proof.
  intros E. apply solveQPSubproblem_effect in E. destruct E. destruct qe_stats as (k & f & [rr st] & _ & _ & K3 & K4). apply updateSubproblemIter_ok in K3.
  cbn [snd] in K4. rewrite K3 in K4.
  apply grow_trans with (set_stats (s_stats s') s).
  - apply grow_stats; cbn [s_calls s_stats set_stats]; rewrite ?K4; try reflexivity; cbn; try lia.
  - constructor; cbn [s_calls s_stats set_stats]; try apply sw_refl; try apply Z.le_refl.
    destruct qe_calls as [->|(c & ->)]; [exists []; reflexivity|exists [c]; reflexivity].
Qed.
Lemma grow_tail d s s' e : pass_tail orc rand d s = Ok (s', e) -> grow s s'.
Proof.
  intros Ht. apply pass_tail_inv in Ht. destruct Ht as [Hm | Hm Hr | s3 s4 r Hm Hr E3 E4 Er | s3 s4 s5 s6 Hm Hr E3 E4 E5 E6].
  - apply grow_same; reflexivity.
  - apply grow_same; reflexivity.
  - eapply grow_trans; [eapply grow_lin; exact E3|]. eapply grow_trans; [eapply grow_solve; exact E4|]. apply grow_same; reflexivity.
  - eapply grow_trans; [eapply grow_lin; exact E3|]. eapply grow_trans; [eapply grow_solve; exact E4|].
    apply getOptimalStepLength_frame in E6. destruct E6 as (al & lk & ->).
    apply grow_trans with s5; [|apply grow_same; reflexivity].
    destruct (o_perturbStep _); [apply perturbStep_frame in E5; destruct E5 as (a & b & ->); apply grow_same; reflexivity|]. subst s5. apply grow_same; reflexivity.
Qed.
Lemma grow_pass d s s' e : pass orc rand d s = Ok (s', e) -> grow s s'.
Proof.
  intros E. apply pass_inv in E. destruct E as [s1 s' b1 Hh Hhd Hst Hcc Hfin | s1 s2 s' e b1 b2 Hh Hhd Hp Hb2 Ht].
  - eapply grow_trans; [eapply grow_head; exact Hh|]. apply finish_frame in Hfin. destruct Hfin as (y & al & l & Hal & ->).
    apply grow_stats; cbn; try reflexivity; lia.
  - eapply grow_trans; [eapply grow_head; exact Hh|]. eapply grow_trans; [eapply grow_pen; exact Hp|]. eapply grow_tail; exact Ht.
Qed.
Lemma grow_loop d : forall fuel s r s', loop fuel orc rand d s = Ok (r, s') -> grow s s'.
Proof.
  induction fuel as [|fuel IH]; intros s r s' E; cbn [loop] in E; [discriminate|].
  apply bind_ok in E. destruct E as ([s1 e] & E1 & E). apply grow_pass in E1. destruct e as [r1|]; [injection E as <- <-; exact E1|].
  eapply grow_trans; [exact E1|]. eapply IH; exact E.
Qed.

(** ** Other limits *)
(** No LCQPow code. *)
Definition lo (n : Z) (m : T) (a : options T) : options T :=
  mkOptions (o_stationarityTolerance a) (o_complementarityTolerance a) (o_initialPenaltyParameter a) (o_penaltyUpdateFactor a) (o_solveZeroPenaltyFirst a) (o_perturbStep a)
    n m (o_nDynamicPenalty a) (o_etaDynamicPenalty a) (o_printLevel a) (o_storeSteps a) (o_qpSolver a).
Lemma lo_eq a b : same_but_limits a b -> b = lo (o_maxIterations b) (o_maxPenaltyParameter b) a.
Proof.
  intros []. unfold lo. rewrite <- sl_stat, <- sl_compl, <- sl_rho, <- sl_factor, <- sl_zero, <- sl_perturb, <- sl_ndyn, <- sl_eta, <- sl_print, <- sl_store, <- sl_solver.
  reflexivity.
Qed.
Variables (n : Z) (m : T).
(** No LCQPow code. *)
Definition ld (d : pdata T) : pdata T := set_d_options (lo n m (d_options d)) d.
(** No LCQPow code. *)
Definition lq (o : lcqp T) : lcqp T := mkLcqp (ld (pd o)) (it o).

Lemma ld_head d s : pass_head (ld d) s = pass_head d s.
Proof. reflexivity. Qed.
Lemma ld_finish d s : finish (ld d) s = finish d s.
Proof. reflexivity. Qed.
Lemma ld_pen d s : penaltyStep (ld d) s = penaltyStep d s.
Proof. reflexivity. Qed.
Lemma ld_first d s : first_solve orc (ld d) s = first_solve orc d s.
Proof. reflexivity. Qed.

(** The rest of a pass behind the limit tests *)
Definition rest (d : pdata T) (s : iter T) : res (iter T * option ReturnValue) :=
  let! s := updateLinearization d s in
  let! '(r, s) := solveQPSubproblem orc d false s in
  if negb (is_success r) then Ok (logI (EvMessage r) s, Some r) else
  let! s := if o_perturbStep (d_options d) then perturbStep rand d s else Ok s in
  let! s := getOptimalStepLength d s in
  Ok (s, None).
Lemma tail_eq d s : pass_tail orc rand d s =
  if o_maxIterations (d_options d) <? s_totalIter s then Ok (s, Some MAX_ITERATIONS_REACHED) else
  if a_lt (o_maxPenaltyParameter (d_options d)) (s_rho s) then Ok (s, Some MAX_PENALTY_REACHED) else rest d s.
Proof. reflexivity. Qed.
Lemma tail_ld d s : pass_tail orc rand (ld d) s =
  if n <? s_totalIter s then Ok (s, Some MAX_ITERATIONS_REACHED) else if a_lt m (s_rho s) then Ok (s, Some MAX_PENALTY_REACHED) else rest d s.
Proof. reflexivity. Qed.

(** Raised limits *)
Definition up (d : pdata T) : Prop :=
  o_maxIterations (d_options d) <= n /\ forall rho, a_lt m rho = true -> a_lt (o_maxPenaltyParameter (d_options d)) rho = true.
(** The run did not end at a limit that was raised *)
Definition free (d : pdata T) (r : ReturnValue) : Prop :=
  (r = MAX_ITERATIONS_REACHED -> n = o_maxIterations (d_options d)) /\ (r = MAX_PENALTY_REACHED -> m = o_maxPenaltyParameter (d_options d)).

Lemma tail_same d s s' e : up d -> pass_tail orc rand d s = Ok (s', e) -> (forall r, e = Some r -> free d r) -> pass_tail orc rand (ld d) s = Ok (s', e).
Proof.
  intros [U1 U2] E F. rewrite tail_eq in E. rewrite tail_ld.
  destruct (o_maxIterations (d_options d) <? s_totalIter s) eqn:A.
  - injection E as <- <-. destruct (F _ eq_refl) as [F1 _]. rewrite (F1 eq_refl), A. reflexivity.
  - replace (n <? s_totalIter s) with false by lia.
    destruct (a_lt (o_maxPenaltyParameter (d_options d)) (s_rho s)) eqn:B.
    + injection E as <- <-. destruct (F _ eq_refl) as [_ F2]. rewrite (F2 eq_refl), B. reflexivity.
    + destruct (a_lt m (s_rho s)) eqn:C; [apply U2 in C; congruence|]. exact E.
Qed.
Lemma tail_goes d s s' e s2 e2 : up d -> pass_tail orc rand d s = Ok (s', e) -> pass_tail orc rand (ld d) s = Ok (s2, e2) ->
  (s2 = s' /\ e2 = e) \/ (exists r, e = Some r) /\ grow s' s2.
Proof.
  intros [U1 U2] E E2. pose proof E2 as G. apply grow_tail in G. rewrite tail_eq in E. rewrite tail_ld in E2.
  destruct (o_maxIterations (d_options d) <? s_totalIter s) eqn:A.
  - injection E as <- <-. right. split; [eexists; reflexivity|exact G].
  - replace (n <? s_totalIter s) with false in E2 by lia.
    destruct (a_lt (o_maxPenaltyParameter (d_options d)) (s_rho s)) eqn:B.
    + injection E as <- <-. right. split; [eexists; reflexivity|exact G].
    + destruct (a_lt m (s_rho s)) eqn:C; [apply U2 in C; congruence|]. left. rewrite E in E2. injection E2 as <- <-. auto.
Qed.
Lemma pass_same d s s' e : up d -> pass orc rand d s = Ok (s', e) -> (forall r, e = Some r -> free d r) -> pass orc rand (ld d) s = Ok (s', e).
Proof.
  intros U E F. unfold pass in *. rewrite ld_head. destruct (pass_head d s) as [s1|] eqn:E1; cbn [bind] in *; [|discriminate].
  change (stationarityCheck (ld d) s1) with (stationarityCheck d s1). destruct (stationarityCheck d s1) as [st|]; cbn [bind] in *; [|discriminate].
  destruct st; [|apply tail_same; assumption].
  change (complementarityCheck (ld d) s1) with (complementarityCheck d s1). destruct (complementarityCheck d s1) as [cc|]; cbn [bind] in *; [|discriminate].
  destruct cc; [rewrite ld_finish; exact E|]. rewrite ld_pen. destruct (penaltyStep d s1) as [s2|]; cbn [bind] in *; [|discriminate]. apply tail_same; assumption.
Qed.
Lemma pass_goes d s s' e s2 e2 : up d -> pass orc rand d s = Ok (s', e) -> pass orc rand (ld d) s = Ok (s2, e2) ->
  (s2 = s' /\ e2 = e) \/ (exists r, e = Some r) /\ grow s' s2.
Proof.
  intros U E E2. unfold pass in *. rewrite ld_head in E2. destruct (pass_head d s) as [s1|] eqn:E1; cbn [bind] in *; [|discriminate].
  change (stationarityCheck (ld d) s1) with (stationarityCheck d s1) in E2. destruct (stationarityCheck d s1) as [st|]; cbn [bind] in *; [|discriminate].
  destruct st; [|eapply tail_goes; eassumption].
  change (complementarityCheck (ld d) s1) with (complementarityCheck d s1) in E2. destruct (complementarityCheck d s1) as [cc|]; cbn [bind] in *; [|discriminate].
  destruct cc; [rewrite ld_finish in E2; rewrite E in E2; injection E2 as <- <-; auto|].
  rewrite ld_pen in E2. destruct (penaltyStep d s1) as [s3|]; cbn [bind] in *; [|discriminate]. eapply tail_goes; eassumption.
Qed.
Lemma loop_same d : up d -> forall fuel s r s', loop fuel orc rand d s = Ok (r, s') -> free d r -> loop fuel orc rand (ld d) s = Ok (r, s').
Proof.
  intros U. induction fuel as [|fuel IH]; intros s r s' E F; cbn [loop] in *; [discriminate|].
  apply bind_ok in E. destruct E as ([s1 e] & E1 & E). destruct e as [r1|].
  - injection E as <- <-. rewrite (pass_same _ _ _ _ U E1) by (intros r2 [= <-]; exact F). reflexivity.
  - rewrite (pass_same _ _ _ _ U E1) by discriminate. cbn [bind]. apply IH; assumption.
Qed.
Lemma loop_goes d : up d -> forall fuel s r s' r2 s2, loop fuel orc rand d s = Ok (r, s') -> loop fuel orc rand (ld d) s = Ok (r2, s2) -> grow s' s2.
Proof.
  intros U. induction fuel as [|fuel IH]; intros s r s' r2 s2 E E2; cbn [loop] in *; [discriminate|].
  apply bind_ok in E. destruct E as ([s1 e] & E1 & E). apply bind_ok in E2. destruct E2 as ([s3 e3] & E3 & E2).
  destruct (pass_goes _ _ _ _ _ _ U E1 E3) as [[-> ->]|[[r1 ->] G]].
  - destruct e; [|eapply IH; eassumption]. injection E as <- <-. injection E2 as <- <-. apply grow_same; reflexivity.
  - injection E as <- <-. destruct e3; [injection E2 as <- <-; exact G|]. eapply grow_trans; [exact G|]. eapply grow_loop; exact E2.
Qed.

(** ** Initialisation *)
Definition rl (a b : res (ReturnValue * lcqp T)) : Prop :=
  match a with Ok (r, o) => b = Ok (r, lq o) | UB u => b = UB u end.
Lemma rl_quiet a b k k' : rl a b -> (forall o, rl (k o) (k' (lq o))) -> rl (and_then_quiet a k) (and_then_quiet b k').
Proof.
  unfold and_then_quiet, rl. intros E K. destruct a as [[r o]|u]; subst b; cbn [bind]; [|reflexivity]. destruct (is_success r); [apply K|reflexivity].
Qed.
Ltac rl_bind := match goal with |- rl (bind ?a _) (bind ?b _) => change b with a; destruct a; cbn [bind]; [|reflexivity] end.
Lemma rl_setLB b o : rl (setLB b o) (setLB b (lq o)).
Proof. unfold setLB. repeat first [rl_bind | match goal with |- rl (if ?c then _ else _) _ => change (it (lq o)) with (it o); destruct c end | match goal with |- rl (match ?c with _ => _ end) _ => destruct c end | reflexivity]. Qed.
Lemma rl_setUB b o : rl (setUB b o) (setUB b (lq o)).
Proof. unfold setUB. repeat first [rl_bind | match goal with |- rl (if ?c then _ else _) _ => change (it (lq o)) with (it o); destruct c end | match goal with |- rl (match ?c with _ => _ end) _ => destruct c end | reflexivity]. Qed.
Lemma rl_sub o : rl (init_subsolver o) (init_subsolver (lq o)).
Proof.
  unfold init_subsolver. cbv zeta. change (o_qpSolver (d_options (pd (lq o)))) with (o_qpSolver (d_options (pd o))).
  destruct (o_qpSolver (d_options (pd o))).
  - do 3 rl_bind. match goal with |- rl (if ?c then _ else _) (if ?d then _ else _) => change d with c; destruct c; [reflexivity|] end.
    apply rl_quiet; [match goal with |- rl (setLB ?b ?x) _ => exact (rl_setLB b x) end|intros o1]. apply rl_quiet; [match goal with |- rl (setUB ?b ?x) _ => exact (rl_setUB b x) end|intros o2]. rl_bind. reflexivity.
  - do 3 rl_bind. match goal with |- rl (if ?c then _ else _) (if ?d then _ else _) => change d with c; destruct c; [reflexivity|] end.
    apply rl_quiet; [match goal with |- rl (setLB ?b ?x) _ => exact (rl_setLB b x) end|intros o1]. apply rl_quiet; [match goal with |- rl (setUB ?b ?x) _ => exact (rl_setUB b x) end|intros o2]. rl_bind. reflexivity.
  - match goal with |- rl (if ?c then _ else _) (if ?d then _ else _) => change d with c; destruct c; [reflexivity|] end.
    do 4 rl_bind. do 2 match goal with |- rl (if ?c then _ else _) (if ?d then _ else _) => change d with c; destruct c; [reflexivity|] end.
    rl_bind. reflexivity.
Qed.
Lemma ld_phi nV nComp d : init_phi nV nComp (ld d) = let! d := init_phi nV nComp d in Ok (ld d).
Proof.
  unfold init_phi. change (d_lbL (ld d)) with (d_lbL d). change (d_lbR (ld d)) with (d_lbR d). destruct (_ || _); [|reflexivity].
  repeat match goal with |- bind ?a _ = bind (bind ?b _) _ => change a with b; destruct b; cbn [bind]; [|reflexivity] end. reflexivity.
Qed.
Lemma rl_init o : rl (initializeSolver o) (initializeSolver (lq o)).
Proof.
  unfold initializeSolver. apply rl_quiet; [apply rl_sub|intros o1]. cbv zeta. do 4 rl_bind.
  change (pd (lq o1)) with (ld (pd o1)). rewrite ld_phi. destruct (init_phi _ _ (pd o1)); cbn [bind]; reflexivity.
Qed.

(** ** Runs *)
Lemma fuel_same fuel o r o1 : up (pd o) -> free (pd o) r -> runSolver_fuel fuel orc rand o = Ok (r, o1) -> runSolver_fuel fuel orc rand (lq o) = Ok (r, lq o1).
Proof.
  intros U F E. unfold runSolver_fuel in *. pose proof (rl_init o) as R. destruct (initializeSolver o) as [[r0 o0]|] eqn:Ei; cbn [bind] in *; [|discriminate].
  cbn [rl] in R. rewrite R. cbn [bind]. destruct (is_success r0) eqn:S; cbn [negb] in *.
  2: { unfold fail_msg in *. injection E as <- <-. reflexivity. }
  assert (Hr : r0 = SUCCESSFUL_RETURN) by (destruct r0; try discriminate; reflexivity). subst r0. apply init_options in Ei.
  change (pd (lq o0)) with (ld (pd o0)). change (it (lq o0)) with (it o0). rewrite ld_first.
  destruct (first_solve orc (pd o0) (it o0)) as [[s e]|]; cbn [bind] in *; [|discriminate]. destruct e as [r1|]; [injection E as <- <-; reflexivity|].
  apply bind_ok in E. destruct E as ([r2 s2] & E2 & E). injection E as <- <-.
  assert (U' : up (pd o0)) by (unfold up in *; rewrite Ei; exact U). assert (F' : free (pd o0) r2) by (unfold free in *; rewrite Ei; exact F).
  rewrite (loop_same _ U' _ _ _ _ E2 F'). reflexivity.
Qed.
Lemma fuel_goes fuel o r o1 r2 o2 : up (pd o) -> runSolver_fuel fuel orc rand o = Ok (r, o1) -> runSolver_fuel fuel orc rand (lq o) = Ok (r2, o2) -> grow (it o1) (it o2).
Proof.
  intros U E E2. unfold runSolver_fuel in *. pose proof (rl_init o) as R. destruct (initializeSolver o) as [[r0 o0]|] eqn:Ei; cbn [bind] in *; [|discriminate].
  cbn [rl] in R. rewrite R in E2. cbn [bind] in E2. destruct (is_success r0) eqn:S; cbn [negb] in *.
  2: { unfold fail_msg in *. injection E as <- <-. injection E2 as <- <-. apply grow_same; reflexivity. }
  assert (Hr : r0 = SUCCESSFUL_RETURN) by (destruct r0; try discriminate; reflexivity). subst r0. apply init_options in Ei.
  change (pd (lq o0)) with (ld (pd o0)) in E2. change (it (lq o0)) with (it o0) in E2. rewrite ld_first in E2.
  destruct (first_solve orc (pd o0) (it o0)) as [[s e]|]; cbn [bind] in *; [|discriminate].
  destruct e as [r1|]; [injection E as <- <-; injection E2 as <- <-; apply grow_same; reflexivity|].
  apply bind_ok in E. destruct E as ([r3 s3] & E3 & E). injection E as <- <-.
  apply bind_ok in E2. destruct E2 as ([r4 s4] & E4 & E2). injection E2 as <- <-. cbn [it].
  assert (U' : up (pd o0)) by (unfold up in *; rewrite Ei; exact U). eapply loop_goes; [exact U'|exact E3|exact E4].
Qed.
End Limits.

Section Main.
Context {T : Type} `{Arith T}.
Lemma set_lq (opt : options T) o : same_but_limits (d_options (pd o)) opt -> setOptions opt o = lq (o_maxIterations opt) (o_maxPenaltyParameter opt) o.
Proof. intros E. apply lo_eq in E. unfold setOptions, lq, ld. rewrite <- E. reflexivity. Qed.
Lemma run_options_kept orc rand (o : lcqp T) r o1 : runSolver orc rand o = Ok (r, o1) -> d_options (pd o1) = d_options (pd o).
Proof.
  unfold runSolver. generalize (Z.to_nat (o_maxIterations (d_options (pd o))) + 2)%nat. intros fuel E. unfold runSolver_fuel in E.
  apply bind_ok in E. destruct E as ([r0 o0] & E0 & E). destruct (is_success r0) eqn:S; cbn [negb] in E.
  - assert (Hr : r0 = SUCCESSFUL_RETURN) by (destruct r0; try discriminate; reflexivity). subst r0. apply init_options in E0.
    apply bind_ok in E. destruct E as ([s e] & _ & E). destruct e; [injection E as <- <-; exact E0|].
    apply bind_ok in E. destruct E as ([r2 s2] & _ & E). injection E as <- <-. exact E0.
  - unfold fail_msg in E. injection E as <- <-. change (pd (logL (EvMessage r0) o0)) with (pd o0).
    apply initializeSolver_ok in E0. destruct E0 as [(_ & _ & a & b & c & e & f & g1 & g2 & y & gt & l & ->)|(_ & a & b & c & e & f & y & ->)]; reflexivity.
Qed.
Theorem thm_raise_same orc rand opt (o : lcqp T) r o1 : runSolver orc rand o = Ok (r, o1) ->
  same_but_limits (d_options (pd o)) opt -> limits_raised (d_options (pd o)) opt ->
  (r = MAX_ITERATIONS_REACHED -> o_maxIterations opt = o_maxIterations (d_options (pd o))) ->
  (r = MAX_PENALTY_REACHED -> o_maxPenaltyParameter opt = o_maxPenaltyParameter (d_options (pd o))) ->
  runSolver orc rand (setOptions opt o) = Ok (r, setOptions opt o1).
Proof.
  intros E S [L1 L2] F1 F2. pose proof (run_options_kept _ _ _ _ _ E) as K. rewrite (set_lq opt o S), (set_lq opt o1) by (rewrite K; exact S). unfold runSolver in *.
  change (o_maxIterations (d_options (pd (lq (o_maxIterations opt) (o_maxPenaltyParameter opt) o)))) with (o_maxIterations opt).
  apply fuel_same; [split; assumption|split; assumption|]. eapply run_fuel_mono; [|exact E]. lia.
Qed.
Theorem thm_raise_goes orc rand opt (o : lcqp T) r o1 r2 o2 : runSolver orc rand o = Ok (r, o1) ->
  same_but_limits (d_options (pd o)) opt -> limits_raised (d_options (pd o)) opt ->
  runSolver orc rand (setOptions opt o) = Ok (r2, o2) -> goes_on o1 o2.
Proof.
  intros E S [L1 L2] E2. rewrite (set_lq opt o S) in E2. unfold runSolver in *.
  change (o_maxIterations (d_options (pd (lq (o_maxIterations opt) (o_maxPenaltyParameter opt) o)))) with (o_maxIterations opt) in E2.
  assert (E' : runSolver_fuel (Z.to_nat (o_maxIterations opt) + 2) orc rand o = Ok (r, o1)) by (eapply run_fuel_mono; [|exact E]; lia).
  apply (fuel_goes orc rand _ _ _ _ _ _ _ _ (conj L1 L2) E') in E2. destruct E2. constructor; assumption.
Qed.
End Main.
