(** * RunControl: whole-run facts about the bookkeeping (any arithmetic, any oracle, any state). *)
From Verif Require Import Base Arith Codes Utilities Options Stats FileIO Subsolver State LCQProblem Tactics NoFuel Frames Control.

Section RunControl.
Context {T : Type} `{Arith T}.
Implicit Types (orc : oracle T) (d : pdata T) (s : iter T) (o : lcqp T).

(** ** Initialisation *)
Lemma init_subsolver_frame o r o' : init_subsolver o = Ok (r, o') ->
  exists a b c e f y, o' = mkLcqp (set_d_subsolver a (set_d_ub b (set_d_lb c (set_d_boxDualOffset e (set_d_nDuals f (pd o))))))
                      (set_yk y (it o)).
Proof.
  exists (d_subsolver (pd o')), (d_ub (pd o')), (d_lb (pd o')), (d_boxDualOffset (pd o')), (d_nDuals (pd o')), (s_yk (it o')).
  unfold init_subsolver, and_then_quiet, setLB, setUB in *. inv_ok; reflexivity.
Qed.

Lemma init_phi_frame a b d d' : init_phi a b d = Ok d' -> exists x y, d' = set_d_g_phi x (set_d_phi_const y d).
Proof. exists (d_g_phi d'), (d_phi_const d'). unfold init_phi in *; inv_ok; reflexivity. Qed.

(** The iteration state after a successful initialisation *)
Definition init_iter (o : lcqp T) (y gt : ptr T) (l : list (print_event T)) : iter T :=
  set_log l (set_stats stats_reset (set_algoStat (Some PROBLEM_NOT_SOLVED) (set_totalIter 0 (set_innerIter 0 (set_outerIter 0
    (set_rho (o_initialPenaltyParameter (d_options (pd o))) (set_alphak a_one (set_g_tilde gt (set_yk y (it o)))))))))).

Lemma initializeSolver_ok o r o' : initializeSolver o = Ok (r, o') ->
  (is_success r = true /\ r = SUCCESSFUL_RETURN /\
   exists a b c e f g1 g2 y gt l,
     o' = mkLcqp (set_d_ub_tmp None (set_d_lb_tmp None (set_d_g_phi g1 (set_d_phi_const g2 (set_d_subsolver a (set_d_ub b (set_d_lb c
            (set_d_boxDualOffset e (set_d_nDuals f (pd o)))))))))) (init_iter o y gt l)) \/
  (is_success r = false /\
   exists a b c e f y,
     o' = mkLcqp (set_d_subsolver a (set_d_ub b (set_d_lb c (set_d_boxDualOffset e (set_d_nDuals f (pd o)))))) (set_yk y (it o))).
Proof.
  unfold initializeSolver, and_then_quiet; intros E.
  apply bind_ok in E; destruct E as ([r1 o1] & E1 & E). apply init_subsolver_frame in E1.
  destruct E1 as (a & b & c & e & f & y & ->).
  destruct (is_success r1) eqn:Er.
  - left.
    assert (Hr : r = SUCCESSFUL_RETURN) by (inv_ok; reflexivity).
    split; [subst r; reflexivity|]. split; [exact Hr|].
    exists a, b, c, e, f, (d_g_phi (pd o')), (d_phi_const (pd o')), y, (s_g_tilde (it o')), (s_log (it o')).
    inv_ok; match goal with H : init_phi _ _ _ = _ |- _ => apply init_phi_frame in H; destruct H as (g1 & g2 & ->) end;
      simpl; destruct (o_printLevel (d_options (pd o))); reflexivity.
  - right. inv_ok. split; [assumption|]. do 6 eexists; reflexivity.
Qed.

(** ** Running *)

(** State after the first QP and the setup of the penalised Hessian *)
Inductive first_case orc d s : iter T -> option ReturnValue -> Prop :=
| FC_fail g s2 r : solveQPSubproblem orc d true (set_gk g s) = Ok (r, s2) -> is_success r = false ->
    first_case orc d s (logI (EvMessage r) s2) (Some r)
| FC_ok g s2 s3 : solveQPSubproblem orc d true (set_gk g s) = Ok (SUCCESSFUL_RETURN, s2) -> setQk d s2 = Ok s3 ->
    first_case orc d s (set_stats (snd (updateRhoOpt (s_rho s3) (s_stats s3))) s3) None.

Lemma first_solve_inv orc d s s' e : first_solve orc d s = Ok (s', e) -> first_case orc d s s' e.
Proof.
  unfold first_solve; intros E.
  apply bind_ok in E; destruct E as (s1 & E1 & E).
  assert (Hg : exists g, s1 = set_gk g s).
  { destruct (o_solveZeroPenaltyFirst _).
    - inv_ok; eauto.
    - apply updateLinearization_frame in E1. destruct E1; eauto. }
  destruct Hg as (g & ->).
  apply bind_ok in E; destruct E as ([r s2] & E2 & E).
  destruct (is_success r) eqn:Er; simpl in E.
  - apply is_success_true in Er; subst r.
    apply bind_ok in E; destruct E as (s3 & E3 & E). injection E as <- <-. eapply FC_ok; eauto.
  - injection E as <- <-. eapply FC_fail; eauto.
Qed.

(** How a run ends *)
Inductive run_case (fuel : nat) orc rand o : ReturnValue -> lcqp T -> Prop :=
| RC_init r o1 : initializeSolver o = Ok (r, o1) -> is_success r = false ->
    run_case fuel orc rand o r (logL (EvMessage r) o1)
| RC_first r o1 s1 : initializeSolver o = Ok (SUCCESSFUL_RETURN, o1) ->
    first_solve orc (pd o1) (it o1) = Ok (s1, Some r) ->
    run_case fuel orc rand o r (mkLcqp (pd o1) s1)
| RC_loop r o1 s1 s2 : initializeSolver o = Ok (SUCCESSFUL_RETURN, o1) ->
    first_solve orc (pd o1) (it o1) = Ok (s1, None) ->
    loop fuel orc rand (pd o1) s1 = Ok (r, s2) ->
    run_case fuel orc rand o r (mkLcqp (pd o1) s2).

Lemma run_inv fuel orc rand o r o' : runSolver_fuel fuel orc rand o = Ok (r, o') -> run_case fuel orc rand o r o'.
Proof.
  unfold runSolver_fuel; intros E.
  apply bind_ok in E; destruct E as ([r1 o1] & E1 & E).
  destruct (is_success r1) eqn:Er; simpl in E.
  - apply is_success_true in Er; subst r1.
    apply bind_ok in E; destruct E as ([s1 e] & E2 & E).
    destruct e as [r1|].
    + injection E as <- <-. eapply RC_first; eauto.
    + apply bind_ok in E; destruct E as ([r1 s2] & E3 & E). injection E as <- <-. eapply RC_loop; eauto.
  - unfold fail_msg in E. injection E as <- <-. eapply RC_init; eauto.
Qed.

Lemma init_options o o' : initializeSolver o = Ok (SUCCESSFUL_RETURN, o') -> d_options (pd o') = d_options (pd o).
Proof.
  intros E; apply initializeSolver_ok in E.
  destruct E as [(_ & _ & a & b & c & e & f & g1 & g2 & y & gt & l & ->)|(C & _)]; [reflexivity|discriminate].
Qed.

(** ** Totals: counters, status, statistics *)

(** Invariant of the loop, relative to the calls made before the run *)
Record ctl_inv d (c0 : list (qp_call T)) s : Prop := {
  ci_total : st_iterTotal (s_stats s) = s_totalIter s;
  ci_range : 0 <= s_totalIter s;
  ci_bound : s_totalIter s <= Z.max 0 (o_maxIterations (d_options d));
  ci_outer : st_iterOuter (s_stats s) = s_outerIter s;
  ci_outer0 : 0 <= s_outerIter s;
  ci_algo : s_algoStat s = Some PROBLEM_NOT_SOLVED;
  ci_status : st_status (s_stats s) = PROBLEM_NOT_SOLVED;
  ci_rho : s_rho s = Nat.iter (Z.to_nat (s_outerIter s)) (next_rho d) (o_initialPenaltyParameter (d_options d));
  ci_calls : exists n, s_calls s = n ++ c0 /\ Z.of_nat (length n) <= s_totalIter s + 1
}.

(** What holds when the loop is left *)
Record ctl_post d (c0 : list (qp_call T)) (r : ReturnValue) s : Prop := {
  cp_total : st_iterTotal (s_stats s) = s_totalIter s;
  cp_range : 0 <= s_totalIter s;
  cp_bound : s_totalIter s <= Z.max 0 (o_maxIterations (d_options d)) + 1;
  cp_maxit : o_maxIterations (d_options d) >= 0 -> (r = MAX_ITERATIONS_REACHED -> s_totalIter s = o_maxIterations (d_options d) + 1);
  cp_pen : r = MAX_PENALTY_REACHED -> a_lt (o_maxPenaltyParameter (d_options d)) (s_rho s) = true;
  cp_outer : st_iterOuter (s_stats s) = s_outerIter s;
  cp_outer0 : 0 <= s_outerIter s;
  cp_algo : exists a, s_algoStat s = Some a /\ st_status (s_stats s) = a /\ (a = PROBLEM_NOT_SOLVED <-> r <> SUCCESSFUL_RETURN);
  cp_rho : s_rho s = Nat.iter (Z.to_nat (s_outerIter s)) (next_rho d) (o_initialPenaltyParameter (d_options d));
  cp_calls : exists n, s_calls s = n ++ c0 /\ Z.of_nat (length n) <= Z.max 0 (o_maxIterations (d_options d)) + 1
}.

Lemma iter_succ d z x : 0 <= z -> Nat.iter (Z.to_nat (z + 1)) (next_rho d) x = next_rho d (Nat.iter (Z.to_nat z) (next_rho d) x).
Proof. intros; replace (Z.to_nat (z + 1)) with (S (Z.to_nat z)) by lia. reflexivity. Qed.

Lemma pen_stats_scalars d b r st :
  st_iterTotal (pen_stats d b r st) = st_iterTotal st /\
  st_iterOuter (pen_stats d b r st) = st_iterOuter st + b2z b /\
  st_status (pen_stats d b r st) = st_status st /\
  st_subproblemIter (pen_stats d b r st) = st_subproblemIter st /\
  st_exit_flag (pen_stats d b r st) = st_exit_flag st.
Proof. destruct b; simpl; repeat split; auto; lia. Qed.

Lemma storeSteps_scalars d s s' : storeSteps d s = Ok s' -> forall st, s_stats s' = st ->
  st_iterTotal st = st_iterTotal (s_stats s) /\ st_iterOuter st = st_iterOuter (s_stats s) /\
  st_status st = st_status (s_stats s) /\ st_subproblemIter st = st_subproblemIter (s_stats s) /\
  st_exit_flag st = st_exit_flag (s_stats s) /\ st_rhoOpt st = st_rhoOpt (s_stats s).
Proof.
  unfold storeSteps, updateTrackingVectors; intros E st <-. inv_ok; simpl; auto 6.
Qed.

Lemma head_scalars d s s' b : head_effect d s s' b ->
  st_iterTotal (s_stats s') = st_iterTotal (s_stats s) + 1 /\
  st_iterOuter (s_stats s') = st_iterOuter (s_stats s) + b2z b /\
  st_status (s_stats s') = st_status (s_stats s) /\
  st_subproblemIter (s_stats s') = st_subproblemIter (s_stats s) /\
  st_exit_flag (s_stats s') = st_exit_flag (s_stats s).
Proof.
  intros Hh. destruct (he_stats _ _ _ _ Hh) as (s1 & st1 & A1 & A2 & A3 & A4 & A5 & A6 & A7 & ->).
  destruct (pen_stats_scalars d b (s_rho s) (set_st_iterTotal (st_iterTotal st1 + 1) st1)) as (P1 & P2 & P3 & P4 & P5).
  rewrite P1, P2, P3, P4, P5. simpl.
  destruct (o_storeSteps _).
  - destruct (storeSteps_scalars _ _ _ A7 st1 eq_refl) as (B1 & B2 & B3 & B4 & B5 & B6). rewrite A1 in *.
    repeat split; try lia; congruence.
  - subst st1. repeat split; auto; lia.
Qed.


(** Return values of the QP step *)
Lemma sub_solve_ret orc sub calls w b g lbA ubA x y lb ub (res : sub_result T) :
  sub_solve orc sub calls w b g lbA ubA x y lb ub = Ok res ->
  In (sr_ret res) [SUCCESSFUL_RETURN; SUBPROBLEM_SOLVER_ERROR; INVALID_OSQP_BOX_CONSTRAINTS; OSQP_INITIAL_PRIMAL_GUESS_FAILED;
                   OSQP_INITIAL_DUAL_GUESS_FAILED; OSQP_WORKSPACE_NOT_SET_UP].
Proof.
  unfold sub_solve, solve_OSQP, solve_qpOASES; intros E.
  destruct (sub_qpSolver sub); inv_ok; simpl; auto 10;
    match goal with |- context [if ?c then _ else _] => destruct c; simpl; auto 10 end.
Qed.

Lemma solveQP_ret orc d b s r s' : solveQPSubproblem orc d b s = Ok (r, s') ->
  r <> MAX_ITERATIONS_REACHED /\ r <> MAX_PENALTY_REACHED.
Proof.
  intros E. apply solveQPSubproblem_inv in E. destruct E as (sub & rs & ? & ? & ? & _ & Q & _ & _ & _ & -> & _).
  apply sub_solve_ret in Q. simpl in Q. split; intros C; rewrite C in Q; intuition discriminate.
Qed.

(** The part of a pass before the exit tests preserves the counters' relation *)
Lemma mid_ctl d c0 s s1 s2 b1 b2 :
  ctl_inv d c0 s -> head_effect d s s1 b1 -> pen_effect d s1 s2 b2 ->
  st_iterTotal (s_stats s2) = s_totalIter s2 /\ s_totalIter s2 = s_totalIter s + 1 /\
  st_iterOuter (s_stats s2) = s_outerIter s2 /\ 0 <= s_outerIter s2 /\
  s_algoStat s2 = Some PROBLEM_NOT_SOLVED /\ st_status (s_stats s2) = PROBLEM_NOT_SOLVED /\
  s_rho s2 = Nat.iter (Z.to_nat (s_outerIter s2)) (next_rho d) (o_initialPenaltyParameter (d_options d)) /\
  s_calls s2 = s_calls s.
Proof.
  intros I Hh Hp. destruct (head_scalars _ _ _ _ Hh) as (S1 & S2 & S3 & S4 & S5).
  destruct (pen_stats_scalars d b2 (s_rho s1) (s_stats s1)) as (P1 & P2 & P3 & P4 & P5).
  destruct I, Hh, Hp.
  assert (0 <= b2z b1 /\ 0 <= b2z b2) by (destruct b1, b2; simpl; lia).
  split; [rewrite pe_stats, P1; lia|].
  split; [lia|].
  split; [rewrite pe_stats, P2; lia|].
  split; [lia|].
  split; [congruence|].
  split; [rewrite pe_stats, P3; congruence|].
  split; [|repeat split; congruence].
  rewrite pe_rho, pe_outer, he_rho, he_outer, ci_rho0.
  destruct b1, b2; cbn [b2z add_rho]; rewrite ?Z.add_0_r; rewrite ?iter_succ by lia; rewrite ?iter_succ by lia; reflexivity.
Qed.

Lemma pass_ctl orc rand d c0 s s' e : ctl_inv d c0 s -> pass orc rand d s = Ok (s', e) ->
  match e with None => ctl_inv d c0 s' | Some r => ctl_post d c0 r s' end.
Proof.
  intros I E. apply pass_inv in E. destruct E as [s1 s' b1 Hh Hhd Hst Hcc Hfin | s1 s2 s' e b1 b2 Hh Hhd Hp Hb2 Ht].
  - destruct (mid_ctl _ _ _ _ _ _ _ I Hh (pen_effect_refl d s1)) as (M1 & M2 & M3 & M4 & M5 & M6 & M7 & M8).
    apply finish_frame in Hfin. destruct Hfin as (y & a & l & Ha & ->). destruct I.
    constructor; simpl; auto; try lia; try congruence.
    + exists a. repeat split; auto; congruence.
    + rewrite M8. destruct ci_calls0 as (n & Hn & Hl). exists n. split; auto. lia.
  - destruct (mid_ctl _ _ _ _ _ _ _ I Hh Hp) as (M1 & M2 & M3 & M4 & M5 & M6 & M7 & M8).
    destruct I. destruct ci_calls0 as (n & Hn & Hl).
    apply pass_tail_inv in Ht. destruct Ht as [Hm | Hm Hr | s3 s4 r Hm Hr E3 E4 Er | s3 s4 s5 s6 Hm Hr E3 E4 E5 E6].
    + constructor; auto; try lia; try congruence.
      * exists PROBLEM_NOT_SOLVED. repeat split; auto; discriminate.
      * rewrite M8. exists n. split; auto. lia.
    + constructor; auto; try lia; try congruence.
      * exists PROBLEM_NOT_SOLVED. repeat split; auto; discriminate.
      * rewrite M8. exists n. split; auto. lia.
    + apply updateLinearization_frame in E3. destruct E3 as (v & ->).
      pose proof (solveQP_ret _ _ _ _ _ _ E4) as Q2.
      apply solveQPSubproblem_effect in E4. destruct E4. simpl in *.
      destruct qe_stats as (k & f & [rr st] & K1 & K2 & K3 & K4). apply updateSubproblemIter_ok in K3.
      rewrite K3 in K4. simpl in K4.
      assert (Hrr : r <> MAX_ITERATIONS_REACHED /\ r <> MAX_PENALTY_REACHED).
      { exact Q2. }
      constructor; simpl; rewrite ?K4, ?qe_rho, ?qe_outer, ?qe_total, ?qe_algo; simpl; auto; try lia; try tauto.
      * exists PROBLEM_NOT_SOLVED. repeat split; auto. intros _ ->. discriminate.
      * rewrite M8, Hn in qe_calls. destruct qe_calls as [-> | [c ->]]; [exists n | exists (c :: n)]; split; auto;
          simpl length; lia.
    + apply updateLinearization_frame in E3. destruct E3 as (v & ->).
      apply solveQPSubproblem_effect in E4. destruct E4. simpl in *.
      destruct qe_stats as (k & f & [rr st] & K1 & K2 & K3 & K4). apply updateSubproblemIter_ok in K3.
      rewrite K3 in K4. simpl in K4.
      apply getOptimalStepLength_frame in E6. destruct E6 as (al & lk & ->).
      assert (Hs5 : exists a b, s5 = set_rnd a (set_xk b s4)).
      { destruct (o_perturbStep _); [apply perturbStep_frame in E5; destruct E5 as (a & b & ->); eauto|].
        subst s5. exists (s_rnd s4), (s_xk s4). reflexivity. }
      destruct Hs5 as (a & b & ->).
      constructor; simpl; rewrite ?K4, ?qe_rho, ?qe_outer, ?qe_total, ?qe_algo; simpl; auto; try lia; try tauto.
      rewrite M8, Hn in qe_calls. destruct qe_calls as [-> | [c ->]]; [exists n | exists (c :: n)]; split; auto;
          simpl length; lia.
Qed.

Lemma first_ctl orc o o1 s1 : initializeSolver o = Ok (SUCCESSFUL_RETURN, o1) ->
  forall e, first_solve orc (pd o1) (it o1) = Ok (s1, e) ->
  match e with
  | None => ctl_inv (pd o1) (s_calls (it o)) s1 /\ s_totalIter s1 = 0
  | Some r => ctl_post (pd o1) (s_calls (it o)) r s1 /\ r <> SUCCESSFUL_RETURN /\ r <> MAX_ITERATIONS_REACHED
  end.
Proof.
  intros E e F. apply initializeSolver_ok in E.
  destruct E as [(_ & _ & a & b & c & e' & f & g1 & g2 & y & gt & l & ->)|(C & _)]; [|discriminate].
  simpl in F. apply first_solve_inv in F. destruct F as [g s2 r Es Er | g s2 s3 Es Eq].
  - pose proof (solveQP_ret _ _ _ _ _ _ Es) as Q2.
    apply solveQPSubproblem_effect in Es. destruct Es. simpl in *.
    destruct qe_stats as (k & f' & [rr st] & K1 & K2 & K3 & K4). apply updateSubproblemIter_ok in K3.
    rewrite K3 in K4. simpl in K4.
    assert (Hrr : r <> MAX_ITERATIONS_REACHED /\ r <> MAX_PENALTY_REACHED).
    { exact Q2. }
    split; [|split; [intros ->; discriminate | tauto]].
    constructor; simpl; rewrite ?K4, ?qe_rho, ?qe_outer, ?qe_total, ?qe_algo; simpl; auto; try lia; try tauto.
    * exists PROBLEM_NOT_SOLVED. repeat split; auto. intros _ ->. discriminate.
    * destruct qe_calls as [-> | [c' ->]]; [exists [] | exists [c']]; split; auto; simpl length; lia.
  - apply solveQPSubproblem_effect in Es. destruct Es. simpl in *.
    destruct qe_stats as (k & f' & [rr st] & K1 & K2 & K3 & K4). apply updateSubproblemIter_ok in K3.
    rewrite K3 in K4. simpl in K4.
    apply setQk_frame in Eq. destruct Eq as (q1 & q2 & q3 & ->). rewrite updateRhoOpt_eq. simpl.
    split; [|simpl; congruence].
    constructor; simpl; rewrite ?K4, ?qe_rho, ?qe_outer, ?qe_total, ?qe_algo; simpl; auto; try lia.
    destruct qe_calls as [-> | [c' ->]]; [exists [] | exists [c']]; split; auto; simpl length; lia.
Qed.

(** Facts about every run that passed initialisation *)
Theorem run_ctl fuel orc rand o r o' : runSolver_fuel fuel orc rand o = Ok (r, o') ->
  ((exists o1, initializeSolver o = Ok (r, o1) /\ is_success r = false /\ o' = logL (EvMessage r) o1) \/
   (exists o1, initializeSolver o = Ok (SUCCESSFUL_RETURN, o1) /\ pd o' = pd o1 /\
      ctl_post (pd o1) (s_calls (it o)) r (it o'))).
Proof.
  intros E. apply run_inv in E. destruct E as [r o1 E1 Er | r o1 s1 E1 E2 | r o1 s1 s2 E1 E2 E3].
  - left; eauto.
  - right. exists o1. split; auto. split; auto. pose proof (first_ctl _ _ _ _ E1 _ E2) as F. simpl in F; tauto.
  - right. exists o1. split; auto. split; auto. pose proof (first_ctl _ _ _ _ E1 _ E2) as [F _]. simpl in *.
    eapply loop_ind with (I := ctl_inv (pd o1) (s_calls (it o))) (P := ctl_post (pd o1) (s_calls (it o))); eauto.
    + intros s s' I Ep. apply (pass_ctl _ _ _ _ _ _ _ I Ep).
    + intros s s' r' I Ep. apply (pass_ctl _ _ _ _ _ _ _ I Ep).
Qed.

(** ** Termination *)
Lemma loop_nofuel orc rand d : forall n s,
  (Z.to_nat (o_maxIterations (d_options d) - s_totalIter s) < n)%nat -> nofuel (loop n orc rand d s).
Proof.
  induction n; intros s Hn; [lia|]. cbn [loop]. apply nf_bind; [auto with nf|].
  intros [s1 e] E. destruct e as [r|]; [discriminate|].
  apply IHn.
  apply pass_inv in E. inversion E as [|s2 s3 s' e b1 b2 Hh Hhd Hp Hb2 Ht]; subst.
  destruct Hh, Hp. apply pass_tail_inv in Ht. inversion Ht as [| | |s4 s5 s6 s7 Hm Hr E3 E4 E5 E6]; subst.
  apply updateLinearization_frame in E3. destruct E3 as (v & ->).
  apply solveQPSubproblem_effect in E4. destruct E4. simpl in *.
  apply getOptimalStepLength_frame in E6. destruct E6 as (al & lk & ->).
  assert (Hs5 : s_totalIter s6 = s_totalIter s5).
  { destruct (o_perturbStep _); [apply perturbStep_frame in E5; destruct E5 as (a & b & ->); eauto|].
    subst s6. reflexivity. }
  simpl. rewrite Hs5, qe_total. lia.
Qed.

Lemma loop_mono orc rand d : forall n m s, (n <= m)%nat -> nofuel (loop n orc rand d s) ->
  loop m orc rand d s = loop n orc rand d s.
Proof.
  induction n; intros m s Hnm Hf; [exfalso; apply Hf; reflexivity|].
  destruct m; [lia|]. cbn [loop] in *.
  destruct (pass orc rand d s) as [[s1 e]|u] eqn:E; simpl in *; auto.
  destruct e; auto. apply IHn; auto; lia.
Qed.

Theorem run_terminates orc rand o : forall fuel,
  (Z.to_nat (o_maxIterations (d_options (pd o))) + 1 <= fuel)%nat ->
  nofuel (runSolver_fuel fuel orc rand o) /\
  runSolver_fuel fuel orc rand o = runSolver orc rand o.
Proof.
  assert (Hmain : forall fuel, (Z.to_nat (o_maxIterations (d_options (pd o))) + 1 <= fuel)%nat ->
    nofuel (runSolver_fuel fuel orc rand o) /\
    forall m, (fuel <= m)%nat -> runSolver_fuel m orc rand o = runSolver_fuel fuel orc rand o).
  { intros fuel Hf. unfold runSolver_fuel.
    destruct (initializeSolver o) as [[r1 o1]|u] eqn:E1; simpl.
    2: { split; auto. intros C; injection C as ->. exact (nf_initializeSolver _ E1). }
    destruct (is_success r1) eqn:Er; simpl.
    2: { split; auto. discriminate. }
    apply is_success_true in Er; subst r1.
    destruct (first_solve orc (pd o1) (it o1)) as [[s1 e]|u] eqn:E2; simpl.
    2: { split; auto. intros C; injection C as ->. exact (nf_first_solve _ _ _ E2). }
    destruct e as [r|]. { split; auto. discriminate. }
    pose proof (first_ctl _ _ _ _ E1 _ E2) as [F F0]. rewrite <- (init_options _ _ E1) in Hf.
    assert (Hl : nofuel (loop fuel orc rand (pd o1) s1)) by (apply loop_nofuel; rewrite F0; lia).
    split.
    - apply nf_bind; auto. intros [r s2] _; discriminate.
    - intros m Hm. rewrite (loop_mono orc rand (pd o1) fuel m s1); auto. }
  intros fuel Hf. destruct (Hmain fuel Hf) as [N1 M1].
  split; auto. unfold runSolver.
  destruct (Hmain (Z.to_nat (o_maxIterations (d_options (pd o))) + 1)%nat (le_n _)) as [N2 M2].
  rewrite (M2 fuel), (M2 (Z.to_nat (o_maxIterations (d_options (pd o))) + 2)%nat); auto; lia.
Qed.

End RunControl.
