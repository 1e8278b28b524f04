(** * SeriesFacts: the QPs of one run differ in the gradient only (proofs; no LCQPow code). *)
From Verif Require Import Base Arith Codes Utilities Options Stats FileIO Subsolver State LCQProblem Tactics Loops Frames Control RunControl SpecRun Spec QPHistory DataFacts SpecSeries.

Section Series.
Context {T : Type} `{Arith T}.
Variables (orc : oracle T) (rand : nat -> Z).
Implicit Types (d : pdata T) (s : iter T).

(** Flags and guesses of a call *)
Definition flagged (b : bool) (c : qp_call T) : Prop := qc_initial c = b /\ (b = false -> qc_x0 c = None /\ qc_y0 c = None).
Lemma solve_flag d b s r s' : solveQPSubproblem orc d b s = Ok (r, s') -> s_calls s' = s_calls s \/ exists c, s_calls s' = c :: s_calls s /\ flagged b c.
Proof.
  intros E. apply solveQPSubproblem_inv in E. destruct E as (sub & res & k & f & st & Hs & Hsv & Hk & Hf & Hst & Hr & a1 & a2 & a3 & a4 & a5 & ->).
  assert (Hc : s_calls (sqp_record res s) = sr_calls res) by (unfold sqp_record; destruct (sr_iter res), (sr_flag res); reflexivity).
  change (s_calls (set_pk a1 (set_yk_A a2 (set_xnew a3 (set_yk a4 (set_xk a5 (set_stats (updateQPSolverExitFlag f (snd st)) (sqp_record res s)))))))) with (s_calls (sqp_record res s)).
  rewrite Hc. clear Hc Hr Hk Hf Hst. unfold sub_solve, solve_OSQP, solve_qpOASES in Hsv. unfold flagged.
  destruct (sub_qpSolver sub), b; inv_ok; cbn [sr_calls]; auto; right; eexists; (split; [reflexivity|]); cbn [qc_initial qc_x0 qc_y0]; (split; [reflexivity|]); try discriminate; auto.
Qed.
(** Hotstarts on top of [c0] *)
Definition hot (c0 : list (qp_call T)) s : Prop := exists l, s_calls s = l ++ c0 /\ Forall (flagged false) l.
Lemma hot_same c0 s s' : s_calls s' = s_calls s -> hot c0 s -> hot c0 s'.
Proof. intros E (l & A & B). exists l. split; [congruence|exact B]. Qed.
Lemma hot_solve c0 d s r s' : solveQPSubproblem orc d false s = Ok (r, s') -> hot c0 s -> hot c0 s'.
Proof.
  intros E (l & A & B). apply solve_flag in E. destruct E as [E|(c & E & F)]; [exists l; split; [congruence|exact B]|].
  exists (c :: l). split; [rewrite E, A; reflexivity|constructor; assumption].
Qed.
Lemma hot_tail c0 d s s' e : pass_tail orc rand d s = Ok (s', e) -> hot c0 s -> hot c0 s'.
Proof.
  intros Ht M. apply pass_tail_inv in Ht. destruct Ht as [Hm | Hm Hr | s3 s4 r Hm Hr E3 E4 Er | s3 s4 s5 s6 Hm Hr E3 E4 E5 E6]; [exact M|exact M| |].
  - apply updateLinearization_frame in E3. destruct E3 as (v & ->). apply (hot_solve c0) in E4; [|apply (hot_same c0 s); [reflexivity|exact M]].
    apply (hot_same c0 s4); [reflexivity|exact E4].
  - apply updateLinearization_frame in E3. destruct E3 as (v & ->). apply (hot_solve c0) in E4; [|apply (hot_same c0 s); [reflexivity|exact M]].
    apply getOptimalStepLength_frame in E6. destruct E6 as (al & lk & ->). apply (hot_same c0 s4); [|exact E4].
    destruct (o_perturbStep _); [apply perturbStep_frame in E5; destruct E5 as (a & b & ->); reflexivity|]. subst s5. reflexivity.
Qed.
Lemma hot_pass c0 d s s' e : pass orc rand d s = Ok (s', e) -> hot c0 s -> hot c0 s'.
Proof.
  intros E M. apply pass_inv in E. destruct E as [s1 s' b1 Hh Hhd Hst Hcc Hfin | s1 s2 s' e b1 b2 Hh Hhd Hp Hb2 Ht].
  - apply finish_frame in Hfin. destruct Hfin as (y & al & lg & Hal & ->). apply (hot_same c0 s); [|exact M]. exact (he_calls _ _ _ _ Hh).
  - apply (hot_tail c0) in Ht; [exact Ht|]. apply (hot_same c0 s); [|exact M]. rewrite (pe_calls _ _ _ _ Hp). exact (he_calls _ _ _ _ Hh).
Qed.
Lemma hot_loop c0 d fuel s r s' : loop fuel orc rand d s = Ok (r, s') -> hot c0 s -> hot c0 s'.
Proof.
  intros E M. apply (loop_ind orc rand d (hot c0) (fun _ => hot c0)) with (n := fuel) (s := s) (r := r); [| |exact M|exact E].
  - intros s1 s2 M1 E1. exact (hot_pass _ _ _ _ _ E1 M1).
  - intros s1 s2 r1 M1 E1. exact (hot_pass _ _ _ _ _ E1 M1).
Qed.
(** The first QP and hotstarts *)
Definition series (c0 : list (qp_call T)) s : Prop := s_calls s = c0 \/ exists first, flagged true first /\ hot (first :: c0) s.
Lemma series_first d s s' e : first_solve orc d s = Ok (s', e) -> series (s_calls s) s'.
Proof.
  intros F. apply first_solve_inv in F. destruct F as [g s2 r Es Er | g s2 s3 Es Eq]; apply solve_flag in Es; cbn [s_calls set_gk] in Es.
  - destruct Es as [Es|(c & Es & F)]; [left; exact Es|right]. exists c. split; [exact F|]. exists []. split; [exact Es|constructor].
  - apply setQk_frame in Eq. destruct Eq as (q1 & q2 & q3 & ->). rewrite updateRhoOpt_eq.
    destruct Es as [Es|(c & Es & F)]; [left; exact Es|right]. exists c. split; [exact F|]. exists []. split; [exact Es|constructor].
Qed.
Lemma given_same d sub a b : given_qp d sub a -> given_qp d sub b -> flagged false b -> hotstart_of a b.
Proof.
  intros (A1 & A2 & A3 & A4 & A5) (B1 & B2 & B3 & B4 & B5) (F1 & F2). destruct (F2 eq_refl) as [F3 F4].
  rewrite A2 in B2. injection B2 as B2 B2'. rewrite A3 in B3. injection B3 as B3. rewrite A4 in B4. injection B4 as B4.
  constructor; try congruence; destruct (sub_qpSolver sub), A5, B5; congruence.
Qed.
End Series.

Theorem thm_series {T} {A : Arith T} (orc : oracle T) rand (o : lcqp T) r o' : runSolver orc rand o = Ok (r, o') -> started o o' ->
  exists later first, s_calls (it o') = later ++ first :: s_calls (it o) /\ qc_initial first = true /\ qc_solver first = o_qpSolver (d_options (pd o)) /\
    forall c, In c later -> hotstart_of first c.
Proof.
  intros E S. pose proof (run_adds _ _ _ _ _ E) as G. destruct G as [[G _]|(o1 & G1 & _ & G2)]; [contradiction|].
  pose proof (init_info _ _ G1) as [(sub & I1 & I2) _]. pose proof (init_options _ _ G1) as I3. specialize (G2 _ I1). destruct G2 as (l & L1 & L2).
  assert (I4 : s_calls (it o1) = s_calls (it o)).
  { apply initializeSolver_ok in G1. destruct G1 as [(_ & _ & a & b & c & e & f & g1 & g2 & y & gt & q & ->)|(C & _)]; [reflexivity|discriminate]. }
  assert (K : exists first, flagged true first /\ hot (first :: s_calls (it o)) (it o')).
  { apply RunControl.run_inv in E. destruct E as [r o2 E1 Er | r o2 s1 E1 E2 | r o2 s1 s2 E1 E2 E3].
    - rewrite G1 in E1. injection E1 as <- <-. discriminate.
    - rewrite G1 in E1. injection E1 as <-. apply series_first in E2. rewrite I4 in E2. destruct E2 as [E2|E2]; [contradiction|exact E2].
    - rewrite G1 in E1. injection E1 as <-. pose proof E2 as E4. apply series_first in E2. rewrite I4 in E2. destruct E2 as [E2|(c & F & M)].
      + exfalso. apply first_solve_inv in E4. inversion E4 as [|g s3 s4 Es Eq]; subst. pose proof Es as Es'. apply solve_flag in Es.
        apply setQk_frame in Eq. destruct Eq as (q1 & q2 & q3 & ->). rewrite updateRhoOpt_eq in E2.
        destruct Es as [Es|(c & Es & _)]; [|assert (X : s_calls s3 = s_calls (it o)) by (exact E2); cbn [s_calls set_gk] in Es; rewrite X, I4 in Es; apply (f_equal (@length _)) in Es; cbn in Es; lia].
        apply solveQPSubproblem_inv in Es'. destruct Es' as (sub' & res & k & f & st & Hs & Hsv & Hk & Hf & Hst & Hr & a1 & a2 & a3 & a4 & a5 & ->).
        assert (Hc : sr_calls res = s_calls (it o1)).
        { transitivity (s_calls (set_gk g (it o1))); [|reflexivity]. rewrite <- Es. unfold sqp_record. destruct (sr_iter res), (sr_flag res); reflexivity. }
        clear - Hsv Hc Hr. cbn [s_calls set_gk] in Hsv. unfold sub_solve, solve_OSQP, solve_qpOASES in Hsv.
        destruct (sub_qpSolver sub'); inv_ok; cbn [sr_calls sr_ret] in *; try discriminate; apply (f_equal (@length _)) in Hc; cbn in Hc; lia.
      + exists c. split; [exact F|]. exact (hot_loop _ _ _ _ _ _ _ _ E3 M). }
  destruct K as (first & [F _] & later & L3 & L4). exists later, first. split; [exact L3|]. split; [exact F|].
  assert (L5 : l = later ++ [first]).
  { rewrite L1 in L3. change (first :: s_calls (it o)) with ([first] ++ s_calls (it o)) in L3. rewrite app_assoc in L3. apply app_inv_tail in L3. exact L3. }
  subst l. rewrite Forall_app in L2. destruct L2 as [L6 L7]. inversion L7 as [|? ? L8 _]. subst. rewrite Forall_forall in L6, L4.
  split; [rewrite (proj1 L8), I2, I3; reflexivity|]. intros c I. exact (given_same _ _ _ _ L8 (L6 _ I) (L4 _ I)).
Qed.
