(** * QPHistory: what a run asks the QP solver and how it uses the answers (any arithmetic, any state). *)
From Verif Require Import Base Arith Codes Utilities Options Stats FileIO Subsolver State LCQProblem Tactics NoFuel Frames Control
  RunControl SpecRun.

Section QPHistory.
Context {T : Type} `{Arith T}.
Implicit Types (orc : oracle T) (d : pdata T) (s : iter T) (o : lcqp T).

(** The subsolver installed by a successful initialisation *)
Record sub_info d : Prop := {
  si_sub : exists sub, d_subsolver d = Some sub /\ sub_qpSolver sub = o_qpSolver (d_options d);
  si_box : o_qpSolver (d_options d) = OSQP_SPARSE -> d_lb d = None /\ d_ub d = None
}.

Lemma init_subsolver_info o r o' : init_subsolver o = Ok (r, o') -> is_success r = true -> sub_info (pd o').
Proof.
  unfold init_subsolver, and_then_quiet, setLB, setUB, Subsolver_dense, Subsolver_sparse; intros E Hr.
  destruct (o_qpSolver (d_options (pd o))) eqn:Es; inv_ok; try discriminate;
    (constructor; simpl; [eexists; split; [reflexivity|]; simpl; congruence|]); try congruence.
  all: intros _; repeat match goal with H : notNull _ || notNull _ = false |- _ => apply orb_false_iff in H; destruct H end.
  all: destruct (d_lb (pd o)), (d_ub (pd o)); try discriminate; auto.
Qed.

Lemma init_info o o' : initializeSolver o = Ok (SUCCESSFUL_RETURN, o') -> sub_info (pd o').
Proof.
  unfold initializeSolver, and_then_quiet; intros E.
  apply bind_ok in E; destruct E as ([r1 o1] & E1 & E).
  destruct (is_success r1) eqn:Er; [|inv_ok; discriminate].
  pose proof (init_subsolver_info _ _ _ E1 Er) as I.
  apply bind_ok in E; destruct E as (nV & _ & E).
  apply bind_ok in E; destruct E as (nComp & _ & E).
  apply bind_ok in E; destruct E as (gt & _ & E).
  apply bind_ok in E; destruct E as (gt' & _ & E).
  apply bind_ok in E; destruct E as (d & Ed & E). apply init_phi_frame in Ed. destruct Ed as (x & y & ->).
  injection E as <-. destruct I. constructor; assumption.
Qed.

Lemma given_notNull {A} (x : option A) : given x = notNull x.
Proof. destruct x; reflexivity. Qed.

(** One QP solve *)
Record qp_step orc d (b : bool) s s' r (c : qp_call T) : Prop := {
  qs_calls : s_calls s' = c :: s_calls s;
  qs_solver : qc_solver c = o_qpSolver (d_options d);
  qs_initial : qc_initial c = b;
  qs_work : r = SUCCESSFUL_RETURN -> o_qpSolver (d_options d) = OSQP_SPARSE -> s_work s' = true;
  qs_ret : match qp_error c (orc (c :: s_calls s)) with None => r = SUCCESSFUL_RETURN | Some e => r = e end;
  qs_iter : qp_reported c (orc (c :: s_calls s)) ->
    st_subproblemIter (s_stats s') = st_subproblemIter (s_stats s) + Z.max 0 (q_iter (orc (c :: s_calls s))) /\
    s_qpIterk s' = Some (q_iter (orc (c :: s_calls s))) /\
    st_exit_flag (s_stats s') = qp_flag c (orc (c :: s_calls s))
}.

Lemma rd_opt_given (p : ptr T) n v : rd_opt p n = Ok v -> given v = notNull p.
Proof. unfold rd_opt; destruct p; intros; inv_ok; reflexivity. Qed.

Lemma solveQP_step orc d b s r s' : sub_info d ->
  (o_qpSolver (d_options d) = OSQP_SPARSE -> b = false -> s_work s = true) ->
  solveQPSubproblem orc d b s = Ok (r, s') -> exists c, qp_step orc d b s s' r c.
Proof.
  intros I W E. destruct I as [(sub & Hs & Hq) Hbox].
  apply solveQPSubproblem_inv in E.
  destruct E as (sub' & res & k & f & [rr st] & Hs' & Hsv & Hk & Hf & Hst & Hr & a1 & a2 & a3 & a4 & a5 & ->).
  rewrite Hs in Hs'; injection Hs' as <-.
  apply updateSubproblemIter_ok in Hst.
  assert (Hc : s_calls (sqp_record res s) = sr_calls res)
    by (unfold sqp_record; destruct (sr_iter res), (sr_flag res); reflexivity).
  assert (Hw : s_work (sqp_record res s) = sr_work res)
    by (unfold sqp_record; destruct (sr_iter res), (sr_flag res); reflexivity).
  assert (Hi : forall z, sr_iter res = Some z -> s_qpIterk (sqp_record res s) = Some z)
    by (unfold sqp_record; intros z ->; destruct (sr_flag res); reflexivity).
  assert (Hfl : forall z, sr_flag res = Some z -> s_qpSolverExitFlag (sqp_record res s) = Some z)
    by (unfold sqp_record; intros z ->; reflexivity).
  unfold sub_solve in Hsv. rewrite Hq in Hsv.
  destruct (o_qpSolver (d_options d)) eqn:Es.
  1, 2: unfold solve_qpOASES in Hsv; rewrite Hq in Hsv;
    repeat (apply bind_ok in Hsv; destruct Hsv as (? & _ & Hsv); try match type of Hsv with (let (_, _) := ?x in _) = _ => destruct x end);
    injection Hsv as <-; eexists; (constructor; simpl;
    [ reflexivity | simpl; congruence | reflexivity | simpl; congruence
    | unfold qp_error; simpl; subst r; simpl; destruct (q_ret _ =? 0); reflexivity
    | intros _; simpl in Hk, Hf; injection Hk as <-; injection Hf as <-; subst st; auto ]).
  destruct (Hbox eq_refl) as [B1 B2]. unfold solve_OSQP in Hsv. rewrite B1, B2, Hq in Hsv. simpl in Hsv.
  apply bind_ok in Hsv; destruct Hsv as ([Hm Am] & _ & Hsv).
  apply bind_ok in Hsv; destruct Hsv as (lbAl & _ & Hsv).
  apply bind_ok in Hsv; destruct Hsv as (ubAl & _ & Hsv).
  apply bind_ok in Hsv; destruct Hsv as (gl & _ & Hsv).
  apply bind_ok in Hsv; destruct Hsv as (x0l & Hx & Hsv).
  apply bind_ok in Hsv; destruct Hsv as (y0l & Hy & Hsv).
  assert (Gx : b && given x0l = b && notNull (s_xk s)).
  { destruct b; auto. simpl. exact (rd_opt_given _ _ _ Hx). }
  assert (Gy : b && given y0l = b && notNull (s_yk s)).
  { destruct b; auto. simpl. exact (rd_opt_given _ _ _ Hy). }
  cbv zeta in Hsv.
  set (c := mkCall OSQP_SPARSE b Hm Am gl lbAl ubAl None None x0l y0l) in *.
  set (a := orc (c :: s_calls s)) in *.
  exists c.
  destruct (b && notNull (s_xk s) && q_wsx_fails a) eqn:E1.
  { injection Hsv as <-. constructor; simpl; auto; try congruence.
    - subst r; simpl; congruence.
    - fold a. unfold qp_error, osqp_setup_error; simpl. rewrite Gx, E1. assumption.
    - intros R. exfalso. specialize (R eq_refl). unfold osqp_setup_error in R; simpl in R. fold a in R.
      rewrite Gx, E1 in R. discriminate. }
  destruct (b && notNull (s_yk s) && q_wsy_fails a) eqn:E2.
  { injection Hsv as <-. constructor; simpl; auto; try congruence.
    - subst r; simpl; congruence.
    - fold a. unfold qp_error, osqp_setup_error; simpl. rewrite Gx, E1, Gy, E2. assumption.
    - intros R. exfalso. specialize (R eq_refl). unfold osqp_setup_error in R; simpl in R. fold a in R.
      rewrite Gx, E1, Gy, E2 in R. discriminate. }
  destruct (negb (if b then q_work a else s_work s)) eqn:E3.
  { injection Hsv as <-. destruct b; [|rewrite W in E3 by auto; discriminate].
    constructor; simpl; auto; try congruence.
    - subst r; simpl; congruence.
    - fold a. unfold qp_error, osqp_setup_error; simpl in *. rewrite Gx, E1, Gy, E2, E3. assumption.
    - intros R. exfalso. specialize (R eq_refl). unfold osqp_setup_error in R; simpl in R, E1, E2, E3, Gx, Gy. fold a in R.
      rewrite Gx, E1, Gy, E2, E3 in R. discriminate. }
  injection Hsv as <-. apply negb_false_iff in E3.
  constructor; simpl; auto; try congruence.
  - fold a. unfold qp_error, osqp_setup_error; simpl in *. rewrite Gx, E1, Gy, E2.
    replace (b && negb (q_work a)) with false by (destruct b; simpl; [rewrite E3; reflexivity | reflexivity]).
    subst r. simpl.
    destruct (q_ret a =? 0); simpl; auto. destruct (Z.leb_spec (q_status a) 0), (Z.ltb_spec 0 (q_status a)); auto; lia.
  - intros _; simpl in Hk, Hf; injection Hk as <-; injection Hf as <-; subst st; auto.
Qed.

(** ** Runs *)
Definition all_solved (l : list (qp_call T * qp_raw T)) : Prop := Forall (fun p => qp_error (fst p) (snd p) = None) l.

(** State of the loop: every QP of this run was solved. *)
Record qp_inv orc d (c0 : list (qp_call T)) s : Prop := {
  qi_calls : exists new, s_calls s = new ++ c0 /\ new <> [] /\ all_solved (answers orc new c0) /\
      st_subproblemIter (s_stats s) = sum_iters (answers orc new c0) /\
      Forall (fun p => qc_solver (fst p) = o_qpSolver (d_options d)) (answers orc new c0) /\
      exists c a r, answers orc new c0 = (c, a) :: r /\ st_exit_flag (s_stats s) = qp_flag c a /\ s_qpIterk s = Some (q_iter a);
  qi_work : o_qpSolver (d_options d) = OSQP_SPARSE -> s_work s = true
}.

(** Exit of the run: either all QPs were solved, or exactly the last one failed. *)
Record qp_post orc d (c0 : list (qp_call T)) (r : ReturnValue) s : Prop := {
  qp_calls : exists new, s_calls s = new ++ c0 /\ 
      Forall (fun p => qc_solver (fst p) = o_qpSolver (d_options d)) (answers orc new c0) /\
      exists c a rest, answers orc new c0 = (c, a) :: rest /\ all_solved rest /\
        (qp_reported c a -> st_subproblemIter (s_stats s) = sum_iters (answers orc new c0) /\ st_exit_flag (s_stats s) = qp_flag c a) /\
        match qp_error c a with
        | Some e => r = e /\ s_algoStat s = Some PROBLEM_NOT_SOLVED /\ st_status (s_stats s) = PROBLEM_NOT_SOLVED
        | None => In r [SUCCESSFUL_RETURN; MAX_ITERATIONS_REACHED; MAX_PENALTY_REACHED]
        end
}.

Lemma solved_reported c (a : qp_raw T) : qp_error c a = None -> qp_reported c a.
Proof. unfold qp_error, qp_reported; intros E C; rewrite C in E. destruct (osqp_setup_error c a); [discriminate|reflexivity]. Qed.

Lemma qp_error_not_success c (a : qp_raw T) e : qp_error c a = Some e -> e <> SUCCESSFUL_RETURN.
Proof.
  unfold qp_error, osqp_setup_error; intros E C; subst e.
  destruct (qc_solver c); repeat match type of E with context [if ?x then _ else _] => destruct x end; discriminate.
Qed.

(** bookkeeping untouched by everything but QP solves *)
Lemma mid_qp d s s1 s2 b1 b2 : head_effect d s s1 b1 -> pen_effect d s1 s2 b2 ->
  s_calls s2 = s_calls s /\ s_work s2 = s_work s /\ s_qpIterk s2 = s_qpIterk s /\
  st_subproblemIter (s_stats s2) = st_subproblemIter (s_stats s) /\ st_exit_flag (s_stats s2) = st_exit_flag (s_stats s).
Proof.
  intros Hh Hp. destruct (head_scalars _ _ _ _ Hh) as (S1 & S2 & S3 & S4 & S5).
  destruct (pen_stats_scalars d b2 (s_rho s1) (s_stats s1)) as (P1 & P2 & P3 & P4 & P5).
  destruct Hh, Hp. rewrite pe_stats. repeat split; congruence.
Qed.

Lemma pass_qp orc rand d c0 s s' e : sub_info d -> ctl_inv d c0 s -> qp_inv orc d c0 s -> pass orc rand d s = Ok (s', e) ->
  match e with None => qp_inv orc d c0 s' | Some r => qp_post orc d c0 r s' end.
Proof.
  intros SI CI I E. pose proof (pass_ctl _ _ _ _ _ _ _ CI E) as CP. destruct I as [(new & Hn & Hne & Hs & Hsum & Hsol & c & a & r0 & Ha & Hf & Hk) Hw].
  assert (Hrest : all_solved r0 /\ qp_error c a = None).
  { unfold all_solved in *. rewrite Ha in Hs. inversion Hs; subst. auto. }
  destruct Hrest as [Hrest Herr].
  assert (Hexit : forall s2 r, s_calls s2 = s_calls s -> st_subproblemIter (s_stats s2) = st_subproblemIter (s_stats s) ->
     st_exit_flag (s_stats s2) = st_exit_flag (s_stats s) ->
     In r [SUCCESSFUL_RETURN; MAX_ITERATIONS_REACHED; MAX_PENALTY_REACHED] -> qp_post orc d c0 r s2).
  { intros s2 r H1 H2 H3 H4. constructor. exists new. split; [congruence|]. split; [assumption|].
    exists c, a, r0. rewrite Herr. repeat split; auto; congruence. }
  apply pass_inv in E. destruct E as [s1 s' b1 Hh Hhd Hst Hcc Hfin | s1 s2 s' e b1 b2 Hh Hhd Hp Hb2 Ht].
  - destruct (mid_qp _ _ _ _ _ _ Hh (pen_effect_refl d s1)) as (M1 & M2 & M3 & M4 & M5).
    apply finish_frame in Hfin. destruct Hfin as (y & al & l & Hal & ->). apply Hexit; simpl; auto.
  - destruct (mid_qp _ _ _ _ _ _ Hh Hp) as (M1 & M2 & M3 & M4 & M5).
    apply pass_tail_inv in Ht. destruct Ht as [Hm | Hm Hr | s3 s4 r Hm Hr E3 E4 Er | s3 s4 s5 s6 Hm Hr E3 E4 E5 E6].
    + apply Hexit; simpl; auto.
    + apply Hexit; simpl; auto.
    + apply updateLinearization_frame in E3. destruct E3 as (v & ->).
      pose proof (solveQPSubproblem_effect _ _ _ _ _ _ E4) as Q.
      apply solveQP_step in E4; auto; [|simpl; intros; rewrite M2; auto]. destruct E4 as (c1 & [Q1 Q2 Q3 Q4 Q5 Q6]). simpl in *.
      rewrite M1, Hn in *. 
      destruct CP. destruct cp_algo as (al & A1 & A2 & A3).
      constructor. exists (c1 :: new). split; [exact Q1|]. split; [constructor; auto|].
      exists c1, (orc (c1 :: new ++ c0)), (answers orc new c0). split; [reflexivity|]. split; [assumption|]. split.
      * intros R. destruct (Q6 R) as (R1 & R2 & R3). simpl. rewrite R1. split; [|assumption].
        rewrite M4, Hsum. lia.
      * destruct (qp_error c1 _) eqn:Ee; [|subst r; discriminate]. split; [assumption|].
        assert (r <> SUCCESSFUL_RETURN) by (intros ->; discriminate).
        apply A3 in H0. rewrite A1, A2, H0; auto.
    + apply updateLinearization_frame in E3. destruct E3 as (v & ->).
      apply solveQP_step in E4; auto; [|simpl; intros; rewrite M2; auto]. destruct E4 as (c1 & [Q1 Q2 Q3 Q4 Q5 Q6]). simpl in *.
      rewrite M1, Hn in *.
      assert (Ee : qp_error c1 (orc (c1 :: new ++ c0)) = None).
      { destruct (qp_error c1 _) eqn:Ee; auto. apply qp_error_not_success in Ee. congruence. }
      destruct (Q6 (solved_reported _ _ Ee)) as (R1 & R2 & R3).
      apply getOptimalStepLength_frame in E6. destruct E6 as (al & lk & ->).
      assert (Hs5 : exists a b, s5 = set_rnd a (set_xk b s4)).
      { destruct (o_perturbStep _); [apply perturbStep_frame in E5; destruct E5 as (a' & b & ->); eauto|].
        subst s5. exists (s_rnd s4), (s_xk s4). reflexivity. }
      destruct Hs5 as (a' & b & ->).
      constructor; simpl; auto.
      exists (c1 :: new). split; [exact Q1|]. split; [discriminate|]. split; [constructor; auto|]. split; [simpl; rewrite R1, M4, Hsum; lia|].
      split; [constructor; auto|].
      exists c1, (orc (c1 :: new ++ c0)), (answers orc new c0). auto.
Qed.

Lemma first_qp orc o o1 s1 : initializeSolver o = Ok (SUCCESSFUL_RETURN, o1) ->
  forall e, first_solve orc (pd o1) (it o1) = Ok (s1, e) ->
  match e with
  | None => qp_inv orc (pd o1) (s_calls (it o)) s1
  | Some r => qp_post orc (pd o1) (s_calls (it o)) r s1
  end.
Proof.
  intros E e F. pose proof (init_info _ _ E) as SI. pose proof (first_ctl _ _ _ _ E _ F) as CF.
  apply initializeSolver_ok in E.
  destruct E as [(_ & _ & a & b & c & e' & f & g1 & g2 & y & gt & l & ->)|(C & _)]; [|discriminate].
  simpl in F, SI, CF. apply first_solve_inv in F. destruct F as [g s2 r Es Er | g s2 s3 Es Eq].
  - apply solveQP_step in Es; auto; [|discriminate]. destruct Es as (c1 & [Q1 Q2 Q3 Q4 Q5 Q6]). simpl in *.
    destruct CF as [[] _]. destruct cp_algo as (al & A1 & A2 & A3).
    constructor. exists [c1]. split; [exact Q1|]. split; [repeat constructor; auto|].
    exists c1, (orc (c1 :: s_calls (it o))), []. split; [reflexivity|]. split; [constructor|]. split.
    + intros R. destruct (Q6 R) as (R1 & R2 & R3). simpl. rewrite R1. split; [lia|assumption].
    + destruct (qp_error c1 _) eqn:Ee; [|subst r; discriminate]. split; [assumption|].
      assert (r <> SUCCESSFUL_RETURN) by (intros ->; discriminate).
      apply A3 in H0. simpl in *. rewrite A1, A2, H0; auto.
  - apply solveQP_step in Es; auto; [|discriminate]. destruct Es as (c1 & [Q1 Q2 Q3 Q4 Q5 Q6]). simpl in *.
    assert (Ee : qp_error c1 (orc (c1 :: s_calls (it o))) = None).
    { destruct (qp_error c1 _) eqn:Ee; auto. apply qp_error_not_success in Ee. congruence. }
    destruct (Q6 (solved_reported _ _ Ee)) as (R1 & R2 & R3).
    apply setQk_frame in Eq. destruct Eq as (q1 & q2 & q3 & ->). rewrite updateRhoOpt_eq. simpl.
    constructor; simpl; auto.
    exists [c1]. split; [exact Q1|]. split; [discriminate|]. split; [constructor; auto; constructor|]. split; [simpl; rewrite R1; lia|].
    split; [repeat constructor; auto|].
    exists c1, (orc (c1 :: s_calls (it o))), []. auto.
Qed.

Theorem run_qp fuel orc rand o r o' : runSolver_fuel fuel orc rand o = Ok (r, o') ->
  (exists o1, initializeSolver o = Ok (r, o1) /\ is_success r = false /\ o' = logL (EvMessage r) o1) \/
  (exists o1, initializeSolver o = Ok (SUCCESSFUL_RETURN, o1) /\ pd o' = pd o1 /\
     ctl_post (pd o1) (s_calls (it o)) r (it o') /\ qp_post orc (pd o1) (s_calls (it o)) r (it o')).
Proof.
  intros E. apply run_inv in E. destruct E as [r o1 E1 Er | r o1 s1 E1 E2 | r o1 s1 s2 E1 E2 E3].
  - left; eauto.
  - right. exists o1. split; auto. split; auto. pose proof (first_ctl _ _ _ _ E1 _ E2) as F. pose proof (first_qp _ _ _ _ E1 _ E2) as G.
    simpl in *; tauto.
  - right. exists o1. split; auto. split; auto. pose proof (first_ctl _ _ _ _ E1 _ E2) as [F _]. pose proof (first_qp _ _ _ _ E1 _ E2) as G.
    simpl in *. pose proof (init_info _ _ E1) as SI.
    apply (loop_ind orc rand (pd o1) (fun s => ctl_inv (pd o1) (s_calls (it o)) s /\ qp_inv orc (pd o1) (s_calls (it o)) s)
             (fun r s => ctl_post (pd o1) (s_calls (it o)) r s /\ qp_post orc (pd o1) (s_calls (it o)) r s)) with (n := fuel) (s := s1); auto.
    + intros s s' [I1 I2] Ep. split; [apply (pass_ctl _ _ _ _ _ _ _ I1 Ep) | apply (pass_qp _ _ _ _ _ _ _ SI I1 I2 Ep)].
    + intros s s' r' [I1 I2] Ep. split; [apply (pass_ctl _ _ _ _ _ _ _ I1 Ep) | apply (pass_qp _ _ _ _ _ _ _ SI I1 I2 Ep)].
Qed.

End QPHistory.
