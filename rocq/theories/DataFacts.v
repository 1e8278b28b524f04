(** * DataFacts: the data of every QP of every run are those loaded last, whatever happened before (proofs; no LCQPow code). *)
From Verif Require Import Base Arith Codes Utilities Options Stats FileIO Subsolver State LCQProblem Tactics Loops Frames Control RunControl QPHistory
  SpecSparse CscBuild SpecLoad LoadLoops LoadDense LoadSparse StartDense StartSparse SpecLife SpecUse ModeFacts BoxFacts Refine Safety SpecData.

Section Data.
Context {T : Type} `{Arith T}.
Implicit Types (o : lcqp T) (d : pdata T) (s : iter T) (h : history T).

(** ** Sizes never change *)
(** The sizes of an object.  No LCQPow code. *)
Definition sizes (d : pdata T) := (d_nV d, d_nC d, d_nComp d).
(** The object has these sizes.  No LCQPow code. *)
Definition ofsize z o : Prop := sizes (pd o) = z.
(** Every object [m] may lead to has these sizes.  No LCQPow code. *)
Definition sized z (m : res (ReturnValue * lcqp T)) : Prop := forall r o', m = Ok (r, o') -> ofsize z o'.
Lemma sized_then z m k : sized z m -> (forall o, ofsize z o -> sized z (k o)) -> sized z (and_then m k).
Proof.
  intros M K r o' E. unfold and_then in E. apply bind_ok in E. destruct E as ([r1 o1] & E1 & E). apply M in E1. destruct (is_success r1); [eapply K; eauto|].
  unfold fail_msg in E. injection E as <- <-. exact E1.
Qed.
Lemma sized_bind z {X} (m : res X) k : (forall x, m = Ok x -> sized z (k x)) -> sized z (bind m k).
Proof. intros K r o' E. apply bind_ok in E. destruct E as (x & E1 & E). eapply K; eauto. Qed.
Lemma sized_fail z r o : ofsize z o -> sized z (fail_msg r o).
Proof. intros S r' o' E. unfold fail_msg in E. injection E as <- <-. exact S. Qed.
Lemma sized_copy z lb ub o o' : copy_box lb ub o = Ok o' -> ofsize z o -> ofsize z o'.
Proof. unfold copy_box. intros E S. inv_ok; exact S. Qed.
Ltac same := intros ? ? ?; inv_ok; assumption.
Lemma sized_dense z Q g L R lbL ubL lbR ubR A lbA ubA lb ub x0 y0 o : ofsize z o ->
  sized z (and_then (setQ Q o) (fun o => and_then (setG g o) (fun o => let! o := copy_box lb ub o in and_then (setConstraints L R A lbA ubA o) (fun o =>
   and_then (setComplementarityBounds lbL ubL lbR ubR o) (fun o => and_then (setInitialGuess x0 y0 o) (fun o =>
   Ok (SUCCESSFUL_RETURN, mkLcqp (set_d_sparseSolver false (pd o)) (it o)))))))).
Proof.
  intros S. apply sized_then; [unfold setQ; same|]. clear o S. intros o S.
  apply sized_then; [unfold setG; same|]. clear o S. intros o S.
  apply sized_bind. intros o1 E1. apply sized_copy with (2 := S) in E1.
  apply sized_then; [unfold setConstraints; cbv zeta; same|]. clear o S o1 E1. intros o S.
  apply sized_then; [unfold setComplementarityBounds; cbv zeta; same|]. clear o S. intros o S.
  apply sized_then; [unfold setInitialGuess; same|]. clear o S. intros o S.
  intros r o' E. injection E as <- <-. exact S.
Qed.
Lemma sized_read z n f o k : ofsize z o -> (forall a, sized z (k a)) -> sized z (read_file n f o k).
Proof.
  intros S K r o' E. unfold read_file in E. apply bind_ok in E. destruct E as (a & _ & E). apply bind_ok in E. destruct E as ([r1 b] & _ & E).
  destruct (is_success r1); [eapply K; exact E|]. unfold fail_msg in E. injection E as <- <-. exact S.
Qed.
Lemma sized_opt z n f o k : ofsize z o -> (forall a, sized z (k a)) -> sized z (read_opt_file n f o k).
Proof. intros S K. destruct f; cbn [read_opt_file]; [apply sized_read; assumption|apply K]. Qed.
Lemma init_sizes o r o' : initializeSolver o = Ok (r, o') -> sizes (pd o') = sizes (pd o).
Proof.
  intros E. apply initializeSolver_ok in E. destruct E as [(_ & _ & a & b & c & e & f & g1 & g2 & y & gt & l & ->)|(_ & a & b & c & e & f & y & ->)]; reflexivity.
Qed.
Lemma run_sizes orc rand o r o' : runSolver orc rand o = Ok (r, o') -> sizes (pd o') = sizes (pd o).
Proof.
  intros E. apply run_inv in E. destruct E as [r o1 E1 Er | r o1 s1 E1 E2 | r o1 s1 s2 E1 E2 E3]; apply init_sizes in E1; exact E1.
Qed.
Lemma call_sizes orc rand c o r o' : perform orc rand c o = Ok (r, o') -> sizes (pd o') = sizes (pd o).
Proof.
  revert r o'. change (sized (sizes (pd o)) (perform orc rand c o)). assert (S : ofsize (sizes (pd o)) o) by reflexivity. revert S. generalize (sizes (pd o)). intros z S.
  destruct c; cbn [perform].
  - intros r o' E. injection E as <- <-. exact S.
  - unfold loadLCQP. apply sized_bind. intros n _. destruct (n <=? 0); [apply sized_fail; exact S|]. apply sized_bind. intros k _. destruct (k <=? 0); [apply sized_fail; exact S|]. apply sized_dense; exact S.
  - unfold loadLCQP_csc. apply sized_then; [unfold setQ_csc; same|]. clear o S. intros o S.
    apply sized_then; [unfold setG; same|]. clear o S. intros o S.
    apply sized_then; [unfold setConstraints_csc; cbv zeta; same|]. clear o S. intros o S.
    apply sized_then; [unfold setComplementarityBounds; cbv zeta; same|]. clear o S. intros o S.
    apply sized_then; [unfold setInitialGuess; same|]. clear o S. intros o S.
    apply sized_bind. intros o1 E1. apply sized_copy with (2 := S) in E1. intros r o' E. injection E as <- <-. exact E1.
  - unfold loadLCQP_files. do 3 (apply sized_bind; intros ? _). do 4 (apply sized_read; [exact S|intros ?]). do 11 (apply sized_opt; [exact S|intros ?]). apply sized_dense; exact S.
  - intros r o' E. unfold switchToSparseMode in E. cbv zeta in E. destruct (d_sparseSolver (pd o)); [injection E as <- <-; exact S|].
    do 8 (apply bind_ok in E; destruct E as (? & _ & E)). injection E as <- <-. exact S.
  - intros r o' E. unfold switchToDenseMode in E. cbv zeta in E. destruct (d_sparseSolver (pd o)); cbn [negb] in E; [|injection E as <- <-; exact S].
    do 5 (apply bind_ok in E; destruct E as (? & _ & E)). destruct (_ || _) in E; injection E as <- <-; exact S.
  - intros r o' E. apply run_sizes in E. unfold ofsize in *. congruence.
Qed.
Lemma used_sizes orc rand h o o' : used orc rand h o o' -> sizes (pd o') = sizes (pd o).
Proof.
  revert o'. induction h as [|[c r] h IH] using rev_ind; intros o' U; [apply used_nil in U; subst; reflexivity|].
  apply used_snoc in U. destruct U as (o1 & U & P). rewrite (call_sizes _ _ _ _ _ _ P). exact (IH _ U).
Qed.
Lemma new_sizes nV nC nComp o : LCQProblem_ctor nV nC nComp = Ok o -> 0 < nV -> 0 <= nC -> 0 < nComp -> sizes (pd o) = (Some nV, Some nC, Some nComp).
Proof.
  unfold LCQProblem_ctor. intros E H1 H2 H3.
  inv_ok; first [reflexivity|lia].
Qed.

(** ** All QPs of a run *)
(** The calls made between two states all have property [P].  No LCQPow code. *)
Definition adds (P : qp_call T -> Prop) (c0 c1 : list (qp_call T)) : Prop := exists l, c1 = l ++ c0 /\ Forall P l.
Lemma adds_refl P c : adds P c c.
Proof. exists []. auto. Qed.
Lemma adds_trans P c0 c1 c2 : adds P c0 c1 -> adds P c1 c2 -> adds P c0 c2.
Proof. intros (l1 & -> & F1) (l2 & -> & F2). exists (l2 ++ l1). split; [apply app_assoc|]. apply Forall_app; auto. Qed.

Section Run.
Variables (orc : oracle T) (rand : nat -> Z) (d : pdata T) (P : qp_call T -> Prop).
Hypothesis Hsolve : forall b s r s', solveQPSubproblem orc d b s = Ok (r, s') -> adds P (s_calls s) (s_calls s').
Lemma pass_adds s s' e : pass orc rand d s = Ok (s', e) -> adds P (s_calls s) (s_calls s').
Proof.
  intros E. apply pass_inv in E. destruct E as [s1 s' b1 Hh Hhd Hst Hcc Hfin | s1 s2 s' e b1 b2 Hh Hhd Hp Hb2 Ht].
  - destruct (mid_qp _ _ _ _ _ _ Hh (pen_effect_refl d s1)) as (M1 & _).
    apply finish_frame in Hfin. destruct Hfin as (y & al & l & Hal & ->). cbn. rewrite M1. apply adds_refl.
  - destruct (mid_qp _ _ _ _ _ _ Hh Hp) as (M1 & _).
    apply pass_tail_inv in Ht. destruct Ht as [Hm | Hm Hr | s3 s4 r Hm Hr E3 E4 Er | s3 s4 s5 s6 Hm Hr E3 E4 E5 E6].
    + rewrite M1. apply adds_refl.
    + rewrite M1. apply adds_refl.
    + apply updateLinearization_frame in E3. destruct E3 as (v & ->). apply Hsolve in E4. cbn in *. rewrite M1 in E4. exact E4.
    + apply updateLinearization_frame in E3. destruct E3 as (v & ->). apply Hsolve in E4. cbn in E4. rewrite M1 in E4.
      apply getOptimalStepLength_frame in E6. destruct E6 as (al & lk & ->).
      destruct (o_perturbStep _); [apply perturbStep_frame in E5; destruct E5 as (a' & b & ->)|subst s5]; exact E4.
Qed.
Lemma loop_adds fuel s r s' : loop fuel orc rand d s = Ok (r, s') -> adds P (s_calls s) (s_calls s').
Proof.
  intros E. apply (loop_ind orc rand d (fun x => adds P (s_calls s) (s_calls x)) (fun _ x => adds P (s_calls s) (s_calls x))) with (n := fuel) (s := s) (r := r); auto using adds_refl.
  - intros s1 s2 A Ep. apply pass_adds in Ep. eapply adds_trans; eauto.
  - intros s1 s2 r' A Ep. apply pass_adds in Ep. eapply adds_trans; eauto.
Qed.
Lemma first_adds s s' e : first_solve orc d s = Ok (s', e) -> adds P (s_calls s) (s_calls s').
Proof.
  intros F. apply first_solve_inv in F. destruct F as [g s2 r Es Er | g s2 s3 Es Eq]; apply Hsolve in Es; [exact Es|].
  apply setQk_frame in Eq. destruct Eq as (q1 & q2 & q3 & ->). rewrite updateRhoOpt_eq. exact Es.
Qed.
End Run.

(** What every QP handed over with the data [d] looks like.  No LCQPow code. *)
Definition given_qp d (sub : subsolver T) (c : qp_call T) : Prop :=
  qc_solver c = sub_qpSolver sub /\ rd_mats sub = Ok (qc_H c, qc_A c) /\ rd_vec (d_lbA d) (sub_nC sub) = Ok (qc_lbA c) /\ rd_vec (d_ubA d) (sub_nC sub) = Ok (qc_ubA c) /\
  match sub_qpSolver sub with
  | OSQP_SPARSE => qc_lb c = None /\ qc_ub c = None
  | _ => rd_opt (d_lb d) (sub_nV sub) = Ok (qc_lb c) /\ rd_opt (d_ub d) (sub_nV sub) = Ok (qc_ub c)
  end.
Lemma solve_adds orc d sub b s r s' : d_subsolver d = Some sub -> solveQPSubproblem orc d b s = Ok (r, s') -> adds (given_qp d sub) (s_calls s) (s_calls s').
Proof.
  intros Hs E. apply solveQPSubproblem_inv in E.
  destruct E as (sub' & res & k & f & [rr st] & Hs' & Hsv & Hk & Hf & Hst & Hr & a1 & a2 & a3 & a4 & a5 & ->).
  rewrite Hs in Hs'; injection Hs' as <-.
  assert (Hc : s_calls (sqp_record res s) = sr_calls res) by (unfold sqp_record; destruct (sr_iter res), (sr_flag res); reflexivity).
  cbn [s_calls set_pk set_yk_A set_xnew set_yk set_xk set_stats]. 
  match goal with |- adds _ _ ?x => change x with (s_calls (sqp_record res s)) end. rewrite Hc. clear Hc Hk Hf Hst Hr a1 a2 a3 a4 a5.
  unfold sub_solve in Hsv. unfold given_qp. destruct (sub_qpSolver sub) eqn:Es.
  1, 2: unfold solve_qpOASES in Hsv; rewrite Es in Hsv;
    apply bind_ok in Hsv; destruct Hsv as ([Hm Am] & Em & Hsv);
    apply bind_ok in Hsv; destruct Hsv as (gl & _ & Hsv);
    apply bind_ok in Hsv; destruct Hsv as (la & El & Hsv);
    apply bind_ok in Hsv; destruct Hsv as (ua & Eu & Hsv);
    apply bind_ok in Hsv; destruct Hsv as (lb & Elb & Hsv);
    apply bind_ok in Hsv; destruct Hsv as (ub & Eub & Hsv);
    apply bind_ok in Hsv; destruct Hsv as (x0 & _ & Hsv);
    apply bind_ok in Hsv; destruct Hsv as (y0 & _ & Hsv);
    cbv zeta in Hsv; injection Hsv as <-; cbn [sr_calls];
    eexists [_]; (split; [reflexivity|]); constructor; [|constructor]; cbn; auto 10.
  unfold solve_OSQP in Hsv. rewrite Es in Hsv. destruct (notNull (d_lb d) || notNull (d_ub d)); [injection Hsv as <-; apply adds_refl|].
  apply bind_ok in Hsv; destruct Hsv as ([Hm Am] & Em & Hsv).
  apply bind_ok in Hsv; destruct Hsv as (la & El & Hsv).
  apply bind_ok in Hsv; destruct Hsv as (ua & Eu & Hsv).
  apply bind_ok in Hsv; destruct Hsv as (gl & _ & Hsv).
  apply bind_ok in Hsv; destruct Hsv as (x0 & _ & Hsv).
  apply bind_ok in Hsv; destruct Hsv as (y0 & _ & Hsv).
  cbv zeta in Hsv. 
  assert (Hc : sr_calls res = mkCall OSQP_SPARSE b Hm Am gl la ua None None x0 y0 :: s_calls s).
  { repeat match type of Hsv with (if ?t then _ else _) = _ => destruct t end; injection Hsv as <-; reflexivity. }
  rewrite Hc. eexists [_]. split; [reflexivity|]. constructor; [|constructor]. cbn. auto 10.
Qed.

(** A run: refused without a QP, or all its QPs have the data of the initialised object *)
Lemma run_adds orc rand o r o' : runSolver orc rand o = Ok (r, o') ->
  (s_calls (it o') = s_calls (it o) /\ exists o1, initializeSolver o = Ok (r, o1) /\ is_success r = false /\ pd o' = pd o1) \/
  (exists o1, initializeSolver o = Ok (SUCCESSFUL_RETURN, o1) /\ pd o' = pd o1 /\
     forall sub, d_subsolver (pd o1) = Some sub -> adds (given_qp (pd o1) sub) (s_calls (it o)) (s_calls (it o'))).
Proof.
  intros E. apply run_inv in E.
  assert (I : forall r o1, initializeSolver o = Ok (r, o1) -> s_calls (it o1) = s_calls (it o)).
  { intros r1 o1 E1. apply initializeSolver_ok in E1. destruct E1 as [(_ & _ & a & b & c & e & f & g1 & g2 & y & gt & l & ->)|(_ & a & b & c & e & f & y & ->)]; reflexivity. }
  destruct E as [r o1 E1 Er | r o1 s1 E1 E2 | r o1 s1 s2 E1 E2 E3].
  - left. split; [exact (I _ _ E1)|]. exists o1. auto.
  - right. exists o1. split; [exact E1|]. split; [reflexivity|]. intros sub Hs. rewrite <- (I _ _ E1). eapply first_adds; [|exact E2]. intros b s r' s'. apply solve_adds. exact Hs.
  - right. exists o1. split; [exact E1|]. split; [reflexivity|]. intros sub Hs. rewrite <- (I _ _ E1).
    assert (HS : forall b s r s', solveQPSubproblem orc (pd o1) b s = Ok (r, s') -> adds (given_qp (pd o1) sub) (s_calls s) (s_calls s')) by (intros b s r' s'; apply solve_adds; exact Hs).
    eapply adds_trans; [eapply first_adds; [exact HS|exact E2]|eapply loop_adds; [exact HS|exact E3]].
Qed.

(** ** What stays of the loaded data *)
(** The members the constraints and the Hessian are read from.  No LCQPow code. *)
Definition kept d := (sizes d, d_sparseSolver d, d_Q d, d_A d, d_Q_sparse d, d_A_sparse d, d_lbA d, d_ubA d).
Lemma init_kept o r o' : initializeSolver o = Ok (r, o') -> kept (pd o') = kept (pd o).
Proof.
  intros E. apply initializeSolver_ok in E. destruct E as [(_ & _ & a & b & c & e & f & g1 & g2 & y & gt & l & ->)|(_ & a & b & c & e & f & y & ->)]; reflexivity.
Qed.
Lemma run_kept orc rand o r o' : runSolver orc rand o = Ok (r, o') -> kept (pd o') = kept (pd o).
Proof.
  intros E. apply run_adds in E. destruct E as [(_ & o1 & E & _ & ->)|(o1 & E & -> & _)]; exact (init_kept _ _ _ E).
Qed.
Lemma used_kept orc rand h o o' : used orc rand h o o' -> (forall c r, In (c, r) h -> keeps_problem c) -> kept (pd o') = kept (pd o).
Proof.
  revert o'. induction h as [|[c r] h IH] using rev_ind; intros o' U K; [apply used_nil in U; subst; reflexivity|].
  apply used_snoc in U. destruct U as (o1 & U & P). rewrite <- (IH _ U) by (intros c1 r1 I; apply (K c1 r1), in_or_app; auto).
  assert (Kc : keeps_problem c) by (apply (K c r), in_or_app; right; left; reflexivity). destruct c; try contradiction; cbn [perform] in P.
  - injection P as <- <-. reflexivity.
  - exact (run_kept _ _ _ _ _ P).
Qed.

(** ** The QPs *)
Lemma init_parts o o1 : initializeSolver o = Ok (SUCCESSFUL_RETURN, o1) -> exists o2, init_subsolver o = Ok (SUCCESSFUL_RETURN, o2) /\
  d_subsolver (pd o1) = d_subsolver (pd o2) /\ d_lb (pd o1) = d_lb (pd o2) /\ d_ub (pd o1) = d_ub (pd o2) /\ d_lb_tmp (pd o1) = None /\ d_ub_tmp (pd o1) = None.
Proof.
  unfold initializeSolver. intros E. apply quiet_ok in E. destruct E as (r2 & o2 & E2 & E). destruct (is_success r2) eqn:Er; [|destruct E as (<- & _); discriminate].
  apply is_success_true in Er. subst r2. exists o2. split; [exact E2|]. cbv zeta in E.
  apply bind_ok in E; destruct E as (nV & _ & E). apply bind_ok in E; destruct E as (nComp & _ & E). apply bind_ok in E; destruct E as (gt & _ & E).
  apply bind_ok in E; destruct E as (gt' & _ & E). apply bind_ok in E; destruct E as (d & Ed & E). apply init_phi_frame in Ed. destruct Ed as (x & y & ->).
  injection E as <-. auto 6.
Qed.

(** A qpOASES initialisation: the boxes pending, and the solver built from the stored matrices *)
Lemma init_qpoases o o2 : o_qpSolver (d_options (pd o)) <> OSQP_SPARSE -> init_subsolver o = Ok (SUCCESSFUL_RETURN, o2) ->
  exists nV nC nComp lb ub sub, sizes (pd o) = (Some nV, Some nC, Some nComp) /\ box_vec nV (d_lb_tmp (pd o)) a_ninf = Ok lb /\ box_vec nV (d_ub_tmp (pd o)) a_pinf = Ok ub /\
    d_lb (pd o2) = Some lb /\ d_ub (pd o2) = Some ub /\ d_subsolver (pd o2) = Some sub /\
    match o_qpSolver (d_options (pd o)) with
    | QPOASES_DENSE => d_sparseSolver (pd o) = false /\ Subsolver_dense nV (nC + 2 * nComp) (d_Q (pd o)) (d_A (pd o)) = Ok sub
    | q => d_sparseSolver (pd o) = true /\ Subsolver_sparse nV (nC + 2 * nComp) (d_Q_sparse (pd o)) (d_A_sparse (pd o)) q = Ok sub
    end.
Proof.
  intros Hq E. unfold init_subsolver in E. cbv zeta in E. unfold sizes. destruct (o_qpSolver (d_options (pd o))); [| |congruence].
  all: apply bind_ok in E; destruct E as (nV & E1 & E); apply bind_ok in E; destruct E as (nC & E2 & E); apply bind_ok in E; destruct E as (nComp & E3 & E).
  all: destruct (d_nV (pd o)) as [nV'|] eqn:D1; cbn in E1; [injection E1 as ->|discriminate]; destruct (d_nC (pd o)) as [nC'|]; cbn in E2; [injection E2 as ->|discriminate]; destruct (d_nComp (pd o)) as [nK'|]; cbn in E3; [injection E3 as ->|discriminate].
  all: match type of E with (if ?t then _ else _) = _ => destruct t eqn:Em end; [discriminate|].
  all: apply quiet_ok in E; destruct E as (r3 & o3 & E3 & E); destruct (is_success r3) eqn:Er; [|destruct E as (<- & _); discriminate].
  all: apply quiet_ok in E; destruct E as (r4 & o4 & E4 & E); destruct (is_success r4) eqn:Er4; [|destruct E as (<- & _); discriminate].
  all: apply bind_ok in E; destruct E as (sub & Es & E); injection E as <-.
  all: unfold setLB in E3; cbn [pd] in E3; apply bind_ok in E3; destruct E3 as (n3 & N3 & E3); change (get (d_nV (pd o)) = Ok n3) in N3; rewrite D1 in N3; injection N3 as <-;
    destruct (nV =? 0); [injection E3 as <- <-; discriminate|]; apply bind_ok in E3; destruct E3 as (lb & Elb & E3); injection E3 as <- <-.
  all: unfold setUB in E4; cbn [pd] in E4; apply bind_ok in E4; destruct E4 as (n4 & N4 & E4); change (get (d_nV (pd o)) = Ok n4) in N4; rewrite D1 in N4; injection N4 as <-;
    destruct (nV =? 0); [injection E4 as <- <-; discriminate|]; apply bind_ok in E4; destruct E4 as (ub & Eub & E4); injection E4 as <- <-.
  all: exists nV, nC, nComp, lb, ub, sub; split; [reflexivity|]; split; [exact Elb|]; split; [exact Eub|]; split; [reflexivity|]; split; [reflexivity|]; split; [reflexivity|]; split; [|exact Es].
  - exact Em.
  - apply negb_false_iff in Em. exact Em.
Qed.
Lemma init_osqp o o2 : o_qpSolver (d_options (pd o)) = OSQP_SPARSE -> init_subsolver o = Ok (SUCCESSFUL_RETURN, o2) ->
  exists nV nC nComp sub, sizes (pd o) = (Some nV, Some nC, Some nComp) /\ d_subsolver (pd o2) = Some sub /\ d_sparseSolver (pd o) = true /\
    Subsolver_sparse nV (nC + 2 * nComp) (d_Q_sparse (pd o)) (d_A_sparse (pd o)) OSQP_SPARSE = Ok sub.
Proof.
  intros Hq E. unfold init_subsolver in E. cbv zeta in E. unfold sizes. rewrite Hq in E.
  destruct (notNull _ || notNull _); [discriminate|].
  apply bind_ok in E; destruct E as (nV & E1 & E); apply bind_ok in E; destruct E as (nC & E2 & E); apply bind_ok in E; destruct E as (nComp & E3 & E).
  destruct (d_nV (pd o)) as [nV'|] eqn:D1; cbn in E1; [injection E1 as ->|discriminate]; destruct (d_nC (pd o)) as [nC'|]; cbn in E2; [injection E2 as ->|discriminate]; destruct (d_nComp (pd o)) as [nK'|]; cbn in E3; [injection E3 as ->|discriminate].
  apply bind_ok in E; destruct E as (yk & _ & E).
  match type of E with (if ?t then _ else _) = _ => destruct t eqn:Em end; [discriminate|].
  match type of E with (if ?t then _ else _) = _ => destruct t end; [discriminate|].
  apply bind_ok in E; destruct E as (sub & Es & E). injection E as <-.
  exists nV, nC, nComp, sub. apply negb_false_iff in Em. split; [reflexivity|]. split; [reflexivity|]. split; [exact Em|exact Es].
Qed.

(** ** The two formats of a matrix agree *)
Lemma compressed_mat m n (cols : list (list (Z * T))) : len cols = n -> compressed m cols = csc_mat m n cols.
Proof.
  intros <-. unfold compressed, csc_mat, tab, off, take, len. f_equal. replace (Z.to_nat (Z.of_nat (length cols) + 1)) with (S (length cols)) by lia.
  apply map_ext. intros j. rewrite Nat2Z.id. reflexivity.
Qed.
Lemma tab_cons {X} n (f : Z -> X) : 0 <= n -> tab (n + 1) f = f 0 :: tab n (fun j => f (j + 1)).
Proof.
  intros Hn. unfold tab. replace (Z.to_nat (n + 1)) with (S (Z.to_nat n)) by lia. cbn [seq map]. f_equal.
  rewrite <- seq_shift, map_map. apply map_ext. intros k. f_equal. lia.
Qed.
Lemma col_cons (c : list (Z * T)) cols j : 0 <= j -> col (c :: cols) (j + 1) = col cols j.
Proof. intros Hj. unfold col, at_. replace (Z.to_nat (j + 1)) with (S (Z.to_nat j)) by lia. reflexivity. Qed.
Lemma tab_same {X} n (f g : Z -> X) : (forall j, 0 <= j -> f j = g j) -> tab n f = tab n g.
Proof. intros E. unfold tab. apply map_ext. intros k. apply E. lia. Qed.
Lemma upper_same (cols : list (list (Z * T))) : forall j, on_and_above j cols = tab (len cols) (fun i => filter (fun e => fst e <=? j + i) (col cols i)).
Proof.
  induction cols as [|c cols IH]; intros j; [reflexivity|]. cbn [on_and_above]. rewrite len_cons. replace (1 + len cols) with (len cols + 1) by lia. rewrite tab_cons by apply len_nonneg.
  rewrite Z.add_0_r. f_equal. rewrite IH. apply tab_same. intros i Hi. rewrite col_cons by exact Hi. replace (j + (i + 1)) with (j + 1 + i) by lia. reflexivity.
Qed.
Lemma below_same k : forall up down : list (list (Z * T)), len up = len down -> below k up down = tab (len up) (fun i => col up i ++ shift_col k (col down i)).
Proof.
  induction up as [|c up IH]; intros [|e down] L; try reflexivity.
  - rewrite len_cons in L. pose proof (len_nonneg up). change (len (@nil (list (Z * T)))) with 0 in L. lia.
  - rewrite !len_cons in *. cbn [below]. replace (1 + len up) with (len up + 1) by lia. rewrite tab_cons by apply len_nonneg. f_equal.
    rewrite IH by lia. apply tab_same. intros i Hi. rewrite !col_cons by exact Hi. reflexivity.
Qed.
Lemma ALR_below (u : usparse T) : wf_sparse u -> below (u_nC (us_v u)) (us_Acols u) (below (u_nComp (us_v u)) (us_L u) (us_R u)) = us_ALR u.
Proof.
  intros W. destruct (ws_A _ W) as (LA & _), (ws_L _ W) as (LL & _), (ws_R _ W) as (LR & _). pose proof (wv_nV _ (ws_v _ W)).
  assert (LB : below (u_nComp (us_v u)) (us_L u) (us_R u) = tab (len (us_L u)) (fun i => col (us_L u) i ++ shift_col (u_nComp (us_v u)) (col (us_R u) i))) by (apply below_same; congruence).
  rewrite below_same by (rewrite LB, len_tab; lia). rewrite LB, LA. unfold us_ALR, stack_cols.
  unfold tab at 1. unfold tab at 2. apply map_ext_in. intros k Hk. apply in_seq in Hk. unfold col at 2. rewrite at_tab by lia.
  f_equal. unfold shift_col. rewrite map_app, map_map. f_equal. apply map_ext. intros e. cbn [fst snd]. f_equal. lia.
Qed.

(** ** Theorems *)
Section Final.
Variables (orc : oracle T) (rand : nat -> Z).
Lemma dims_of (v : uvec T) o : sizes (pd o) = (Some (u_nV v), Some (u_nC v), Some (u_nComp v)) -> dims v (pd o).
Proof. unfold sizes, dims. intros E. injection E as -> -> ->. auto. Qed.
Lemma past_dims (v : uvec T) h o o' : wf_vec v -> LCQProblem_ctor (u_nV v) (u_nC v) (u_nComp v) = Ok o -> used orc rand h o o' -> dims v (pd o').
Proof.
  intros V C U. pose proof (wv_nV _ V). pose proof (wv_nC _ V). pose proof (wv_nComp _ V). apply dims_of. rewrite (used_sizes _ _ _ _ _ U). apply new_sizes; auto.
Qed.
Lemma loaded_as_dense u o o' : wf_dense u -> dims (ud_v u) (pd o) -> load_dense u o = Ok (SUCCESSFUL_RETURN, o') -> o' = loaded_dense u o.
Proof.
  intros W D E. destruct (fin_lower_dec (ud_v u)) as [Fi|Fi]; [|destruct (load_dense_bad u o W D Fi) as (o2 & E2); rewrite E2 in E; discriminate].
  rewrite load_dense_ok in E by auto. injection E as <-. reflexivity.
Qed.
Lemma loaded_as_sparse u o o' : wf_sparse u -> dims (us_v u) (pd o) -> load_sparse u o = Ok (SUCCESSFUL_RETURN, o') -> o' = loaded_sparse u o.
Proof.
  intros W D E.
  assert (NZ : concat (us_C u) <> []) by (intros C; destruct (load_sparse_zero u o W D C) as (o2 & E2); rewrite E2 in E; discriminate).
  destruct (fin_lower_dec (us_v u)) as [Fi|Fi]; [|destruct (load_sparse_bad u o W D Fi NZ) as (o2 & E2); rewrite E2 in E; discriminate].
  rewrite load_sparse_ok in E by auto. injection E as <-. reflexivity.
Qed.
Lemma lower_len (v : uvec T) : wf_vec v -> len (u_lower v) = u_nC v + 2 * u_nComp v.
Proof.
  intros V. pose proof (wv_nC _ V). pose proof (wv_nComp _ V). unfold u_lower. rewrite !len_app, !len_bnd by (auto using (wv_lbA _ V), (wv_lbL _ V), (wv_lbR _ V); lia). lia.
Qed.
Lemma upper_len (v : uvec T) : wf_vec v -> len (u_upper v) = u_nC v + 2 * u_nComp v.
Proof.
  intros V. pose proof (wv_nC _ V). pose proof (wv_nComp _ V). unfold u_upper. rewrite !len_app, !len_bnd by (auto using (wv_ubA _ V), (wv_ubL _ V), (wv_ubR _ V); lia). lia.
Qed.
Lemma vec_rd n (l : list T) : len l = n -> rd_vec (Some (lift l)) n = Ok l.
Proof.
  intros L. unfold rd_vec. pose proof (len_nonneg l). destruct (Z.eqb_spec n 0) as [->|].
  - destruct l; [reflexivity|]. rewrite len_cons in L. pose proof (len_nonneg l). lia.
  - cbn [deref bind]. rewrite rd_list_lift by (unfold len in *; lia). rewrite firstn_all2 by (unfold len in *; lia). reflexivity.
Qed.
Lemma opt_rd n (l : list T) : len l = n -> rd_opt (Some (lift l)) n = Ok (Some l).
Proof. intros L. unfold rd_opt. rewrite rd_list_lift by (unfold len in *; lia). rewrite firstn_all2 by (unfold len in *; lia). reflexivity. Qed.
Lemma given_bounds (v : uvec T) d sub c : wf_vec v -> d_lbA d = Some (lift (u_lower v)) -> d_ubA d = Some (lift (u_upper v)) -> sub_nC sub = u_nC v + 2 * u_nComp v ->
  given_qp d sub c -> qc_lbA c = u_lower v /\ qc_ubA c = u_upper v.
Proof.
  intros V E1 E2 N (_ & _ & G1 & G2 & _). rewrite E1, vec_rd in G1 by (rewrite N; apply lower_len; exact V).
  rewrite E2, vec_rd in G2 by (rewrite N; apply upper_len; exact V). injection G1 as <-. injection G2 as <-. auto.
Qed.

Lemma p_C26_dense h1 h2 (u : udense T) (o oa ob oc od : lcqp T) r :
  LCQProblem_ctor (u_nV (ud_v u)) (u_nC (ud_v u)) (u_nComp (ud_v u)) = Ok o -> used orc rand h1 o oa -> wf_dense u -> load_dense u oa = Ok (SUCCESSFUL_RETURN, ob) ->
  used orc rand h2 ob oc -> (forall c r, In (c, r) h2 -> keeps_problem c) -> runSolver orc rand oc = Ok (r, od) ->
  exists l, s_calls (it od) = l ++ s_calls (it oc) /\ forall c, In c l -> dense_qp u c.
Proof.
  intros C U1 W L U2 K R. pose proof (wu_v _ W) as V. pose proof (past_dims _ _ _ _ V C U1) as D. apply loaded_as_dense in L; auto. subst ob.
  apply used_kept in U2; auto. unfold kept in U2. injection U2 as Z1 Z2 Z3 ES EQ EA _ _ EL EU.
  destruct D as (D1 & D2 & D3).
  assert (D : sizes (pd oc) = (Some (u_nV (ud_v u)), Some (u_nC (ud_v u)), Some (u_nComp (ud_v u)))).
  { unfold sizes. rewrite Z1, Z2, Z3. cbn. rewrite <- D1, <- D2, <- D3. reflexivity. }
  change (d_sparseSolver (pd oc) = false) in ES. change (d_Q (pd oc) = Some (lift (ud_Q u))) in EQ. change (d_A (pd oc) = Some (lift (ud_A u ++ ud_L u ++ ud_R u))) in EA.
  change (d_lbA (pd oc) = Some (lift (u_lower (ud_v u)))) in EL. change (d_ubA (pd oc) = Some (lift (u_upper (ud_v u)))) in EU.
  apply run_adds in R. destruct R as [(R & _)|(o1 & I & _ & R)]; [exists []; split; [exact R|contradiction]|].
  pose proof (init_kept _ _ _ I) as IK. unfold kept in IK. injection IK as _ _ _ _ _ _ _ _ KL KU. rewrite EL in KL. rewrite EU in KU.
  destruct (init_parts _ _ I) as (o2 & I2 & PS & _).
  assert (Hs : d_subsolver (pd o2) = Some (mkSub QPOASES_DENSE (u_nV (ud_v u)) (u_nC (ud_v u) + 2 * u_nComp (ud_v u)) (SDense (lift (ud_Q u)) (lift (ud_A u ++ ud_L u ++ ud_R u))))).
  { destruct (o_qpSolver (d_options (pd oc))) eqn:Hq.
    - destruct (init_qpoases _ _ ltac:(rewrite Hq; discriminate) I2) as (nV & nC & nK & lb & ub & sub & S & _ & _ & _ & _ & Es & M). rewrite D in S. injection S as <- <- <-.
      rewrite Hq in M. destruct M as (_ & M). rewrite EQ, EA in M. pose proof (wv_nV _ V). pose proof (wv_nC _ V). pose proof (wv_nComp _ V). pose proof (wv_sq _ V). pose proof (wv_rect _ V) as HR. unfold u_nA in HR.
      rewrite Subsolver_dense_ok in M; [rewrite Es; congruence|lia|lia|exact (wu_Q _ W)| |lia|lia]. rewrite !len_app, (wu_A _ W), (wu_L _ W), (wu_R _ W). lia.
    - destruct (init_qpoases _ _ ltac:(rewrite Hq; discriminate) I2) as (nV & nC & nK & lb & ub & sub & S & _ & _ & _ & _ & Es & M). rewrite Hq in M. destruct M; congruence.
    - destruct (init_osqp _ _ Hq I2) as (nV & nC & nK & sub & S & Es & M & _). congruence. }
  rewrite <- PS in Hs. destruct (R _ Hs) as (l & El & F). exists l. split; [exact El|]. intros c Hc. rewrite Forall_forall in F. specialize (F c Hc).
  assert (B := F). apply (given_bounds (ud_v u)) in B; [|exact V|exact KL|exact KU|reflexivity]. destruct B as (B1 & B2). destruct F as (F1 & F2 & _). split; [exact F1|].
  unfold rd_mats in F2. cbn [sub_mats sub_nV sub_nC] in F2. pose proof (wu_Q _ W) as LQ.
  assert (LS : len (ud_A u ++ ud_L u ++ ud_R u) = (u_nC (ud_v u) + 2 * u_nComp (ud_v u)) * u_nV (ud_v u)) by (rewrite !len_app, (wu_A _ W), (wu_L _ W), (wu_R _ W); lia).
  rewrite !rd_list_lift in F2 by (unfold len in LQ, LS; lia). cbn [bind] in F2.
  rewrite !firstn_all2 in F2 by (unfold len in LQ, LS; lia). injection F2 as <- <-. auto.
Qed.

Lemma p_C26_sparse h1 h2 (u : usparse T) (o oa ob oc od : lcqp T) r :
  LCQProblem_ctor (u_nV (us_v u)) (u_nC (us_v u)) (u_nComp (us_v u)) = Ok o -> used orc rand h1 o oa -> wf_sparse u -> load_sparse u oa = Ok (SUCCESSFUL_RETURN, ob) ->
  used orc rand h2 ob oc -> (forall c r, In (c, r) h2 -> keeps_problem c) -> runSolver orc rand oc = Ok (r, od) ->
  exists l, s_calls (it od) = l ++ s_calls (it oc) /\ forall c, In c l -> sparse_qp u c.
Proof.
  intros C U1 W L U2 K R. pose proof (ws_v _ W) as V. pose proof (past_dims _ _ _ _ V C U1) as D. apply loaded_as_sparse in L; auto. subst ob.
  apply used_kept in U2; auto. unfold kept in U2. injection U2 as Z1 Z2 Z3 ES _ _ EQ EA EL EU.
  destruct D as (D1 & D2 & D3).
  assert (D : sizes (pd oc) = (Some (u_nV (us_v u)), Some (u_nC (us_v u)), Some (u_nComp (us_v u)))).
  { unfold sizes. rewrite Z1, Z2, Z3. cbn. rewrite <- D1, <- D2, <- D3. reflexivity. }
  change (d_sparseSolver (pd oc) = true) in ES. change (d_Q_sparse (pd oc) = Some (csc_of (u_nV (us_v u)) (u_nV (us_v u)) (us_Q u))) in EQ.
  change (d_A_sparse (pd oc) = Some (csc_of (u_nA (us_v u)) (u_nV (us_v u)) (us_ALR u))) in EA.
  change (d_lbA (pd oc) = Some (lift (u_lower (us_v u)))) in EL. change (d_ubA (pd oc) = Some (lift (u_upper (us_v u)))) in EU.
  apply run_adds in R. destruct R as [(R & _)|(o1 & I & _ & R)]; [exists []; split; [exact R|contradiction]|].
  pose proof (init_kept _ _ _ I) as IK. unfold kept in IK. injection IK as _ _ _ _ _ _ _ _ KL KU. rewrite EL in KL. rewrite EU in KU.
  destruct (init_parts _ _ I) as (o2 & I2 & PS & _).
  set (opt := d_options (pd oc)) in *.
  assert (Hs : o_qpSolver opt <> QPOASES_DENSE /\ d_subsolver (pd o2) = Some (mkSub (o_qpSolver opt) (u_nV (us_v u)) (u_nA (us_v u)) (SSparse (csc_of (u_nV (us_v u)) (u_nV (us_v u)) (sparse_H u opt)) (csc_of (u_nA (us_v u)) (u_nV (us_v u)) (us_ALR u))))).
  { destruct (o_qpSolver opt) eqn:Hq.
    - destruct (init_qpoases oc o2 ltac:(fold opt; rewrite Hq; discriminate) I2) as (nV & nC & nK & lb & ub & sub & S & _ & _ & _ & _ & Es & M). fold opt in M. rewrite Hq in M. destruct M; congruence.
    - destruct (init_qpoases oc o2 ltac:(fold opt; rewrite Hq; discriminate) I2) as (nV & nC & nK & lb & ub & sub & S & _ & _ & _ & _ & Es & M). fold opt in M. rewrite D in S. injection S as <- <- <-.
      rewrite Hq in M. destruct M as (_ & M). rewrite EQ, EA in M. pose proof (Subsolver_sparse_ok u opt W) as SO. cbv zeta in SO. rewrite Hq in SO. rewrite SO in M by discriminate. split; [discriminate|]. rewrite Es. congruence.
    - destruct (init_osqp oc o2 Hq I2) as (nV & nC & nK & sub & S & Es & _ & M). rewrite D in S. injection S as <- <- <-.
      rewrite EQ, EA in M. pose proof (Subsolver_sparse_ok u opt W) as SO. cbv zeta in SO. rewrite Hq in SO. rewrite SO in M by discriminate. split; [discriminate|]. rewrite Es. congruence. }
  destruct Hs as (Hq & Hs). rewrite <- PS in Hs. destruct (R _ Hs) as (l & El & F). exists l. split; [exact El|]. intros c Hc. rewrite Forall_forall in F. specialize (F c Hc).
  assert (B := F). apply (given_bounds (us_v u)) in B; [|exact V|exact KL|exact KU|reflexivity]. destruct B as (B1 & B2). destruct F as (F1 & F2 & _). cbn [sub_qpSolver] in F1.
  pose proof (wv_nV _ V). destruct (ws_Q _ W) as (LQ & _). pose proof (us_ALR_repr u W) as RA.
  assert (LH : len (sparse_H u opt) = u_nV (us_v u)) by (unfold sparse_H; destruct (osqp opt); [unfold upper_cols; rewrite len_tab; lia|exact LQ]).
  unfold rd_mats in F2. cbn [sub_mats] in F2. rewrite !rd_csc_ok in F2 by (first [lia|exact LH|exact (rp_len _ _ _ _ RA)]). cbn [bind] in F2. injection F2 as G1 G2.
  unfold sparse_qp. rewrite F1. split; [|split; [|auto]].
  - rewrite <- G1. unfold sparse_H, osqp. destruct (o_qpSolver opt) eqn:Eq; [congruence| |].
    + rewrite (compressed_mat _ (u_nV (us_v u))) by exact LQ. reflexivity.
    + rewrite upper_same, LQ. rewrite (compressed_mat _ (u_nV (us_v u))) by (rewrite len_tab; lia). reflexivity.
  - rewrite <- G2, ALR_below by exact W. rewrite (compressed_mat _ (u_nV (us_v u))) by exact (rp_len _ _ _ _ RA). reflexivity.
Qed.

(** ** Box bounds *)
(** The box bounds waiting for the next run.  No LCQPow code. *)
Definition pending d := (d_lb_tmp d, d_ub_tmp d).
Lemma run_pending o r o' : runSolver orc rand o = Ok (r, o') ->
  (pending (pd o') = pending (pd o) /\ s_calls (it o') = s_calls (it o)) \/ pending (pd o') = (None, None).
Proof.
  intros E. apply run_adds in E. destruct E as [(E0 & o1 & E & Er & ->)|(o1 & E & -> & _)].
  - left. split; [|exact E0]. apply initializeSolver_ok in E. destruct E as [(C & _)|(_ & a & b & c & e & f & y & ->)]; [congruence|reflexivity].
  - right. destruct (init_parts _ _ E) as (o2 & _ & _ & _ & _ & P1 & P2). unfold pending. rewrite P1, P2. reflexivity.
Qed.
Lemma run_boxes nV nC nComp lb ub o r o' : 0 <= nV <= INT_MAX -> SpecLoad.fits nV lb -> SpecLoad.fits nV ub -> sizes (pd o) = (Some nV, Some nC, Some nComp) -> pending (pd o) = (ptr_of lb, ptr_of ub) ->
  runSolver orc rand o = Ok (r, o') -> exists l, s_calls (it o') = l ++ s_calls (it o) /\ forall c, In c l -> box_qp nV lb ub c.
Proof.
  intros V Fl Fu D P R. injection P as P1 P2.
  apply run_adds in R. destruct R as [(R & _)|(o1 & I & _ & R)]; [exists []; split; [exact R|contradiction]|].
  destruct (init_parts _ _ I) as (o2 & I2 & PS & B1 & B2 & _).
  destruct (o_qpSolver (d_options (pd o))) eqn:Hq.
  3:{ destruct (init_osqp _ _ Hq I2) as (nV' & nC' & nK' & sub & S & Es & _ & M). rewrite <- PS in Es. destruct (R _ Es) as (l & El & F). exists l. split; [exact El|].
      intros c Hc. rewrite Forall_forall in F. destruct (F c Hc) as (F1 & _ & _ & _ & F2).
      assert (Q : sub_qpSolver sub = OSQP_SPARSE) by (unfold Subsolver_sparse in M; inv_ok; reflexivity). unfold box_qp. rewrite F1, Q in *. exact F2. }
  all: assert (Hn : o_qpSolver (d_options (pd o)) <> OSQP_SPARSE) by (rewrite Hq; discriminate); pose proof (init_qpoases _ _ Hn I2) as IQ; destruct IQ as (nV' & nC' & nK' & bl & bu & sub & S & X1 & X2 & Y1 & Y2 & Es & M); rewrite Hq in M; destruct M as (_ & M);
    rewrite D in S; injection S as <- <- <-; rewrite P1 in X1; rewrite P2 in X2; rewrite box_vec_ok in X1 by (auto; lia); rewrite box_vec_ok in X2 by (auto; lia); injection X1 as <-; injection X2 as <-;
    rewrite <- PS in Es; destruct (R _ Es) as (l & El & F); exists l; (split; [exact El|]); intros c Hc; rewrite Forall_forall in F; destruct (F c Hc) as (F1 & _ & _ & _ & F2).
  1: assert (Q : sub_qpSolver sub = QPOASES_DENSE /\ sub_nV sub = nV) by (unfold Subsolver_dense in M; inv_ok; auto).
  2: assert (Q : sub_qpSolver sub = QPOASES_SPARSE /\ sub_nV sub = nV) by (unfold Subsolver_sparse in M; inv_ok; auto).
  all: destruct Q as (Q1 & Q2); unfold box_qp; rewrite F1; rewrite Q1 in *; rewrite Q2, B1, B2, Y1, Y2 in F2; destruct F2 as (F2 & F3);
    rewrite opt_rd in F2 by (apply len_bnd; auto; lia);
    rewrite opt_rd in F3 by (apply len_bnd; auto; lia); injection F2 as <-; injection F3 as <-; auto.
Qed.
(** Only option changes *)
Lemma options_pending h o o' : used orc rand h o o' -> (forall c r, In (c, r) h -> exists opt, c = KOptions opt) -> pending (pd o') = pending (pd o).
Proof.
  revert o'. induction h as [|[c r] h IH] using rev_ind; intros o' U K; [apply used_nil in U; subst; reflexivity|].
  apply used_snoc in U. destruct U as (o1 & U & P). rewrite <- (IH _ U) by (intros c1 r1 I; apply (K c1 r1), in_or_app; auto).
  destruct (K c r) as (opt & ->); [apply in_or_app; right; left; reflexivity|]. cbn [perform] in P. injection P as <- <-. reflexivity.
Qed.
Lemma runs_pending h o o' : used orc rand h o o' -> (forall c r, In (c, r) h -> keeps_problem c) -> pending (pd o) = (None, None) -> pending (pd o') = (None, None).
Proof.
  revert o'. induction h as [|[c r] h IH] using rev_ind; intros o' U K N; [apply used_nil in U; subst; exact N|].
  apply used_snoc in U. destruct U as (o1 & U & P). assert (N1 : pending (pd o1) = (None, None)) by (apply (IH _ U); [intros c1 r1 I; apply (K c1 r1), in_or_app; auto|exact N]).
  assert (Kc : keeps_problem c) by (apply (K c r), in_or_app; right; left; reflexivity). destruct c; try contradiction; cbn [perform] in P.
  - injection P as <- <-. exact N1.
  - apply run_pending in P. destruct P as [(P & _)|P]; congruence.
Qed.
(** The box bounds of the load, if no run came in between *)
Lemma p_C26_boxes h1 h2 (v : uvec T) l m (o oa ob oc od : lcqp T) r (load : lcqp T -> res (ReturnValue * lcqp T)) :
  (exists u, v = ud_v u /\ wf_dense u /\ load = load_dense u) \/ (exists u, v = us_v u /\ wf_sparse u /\ load = load_sparse u) ->
  LCQProblem_ctor (u_nV v) (u_nC v) (u_nComp v) = Ok o -> used orc rand h1 o oa -> load oa = Ok (SUCCESSFUL_RETURN, ob) ->
  u_lb v = Some l -> u_ub v = Some m ->
  used orc rand h2 ob oc -> (forall c r, In (c, r) h2 -> exists opt, c = KOptions opt) -> runSolver orc rand oc = Ok (r, od) ->
  exists cs, s_calls (it od) = cs ++ s_calls (it oc) /\ forall c, In c cs -> box_qp (u_nV v) (Some l) (Some m) c.
Proof.
  intros LD C U1 L El Eu U2 K R.
  assert (V : wf_vec v) by (destruct LD as [(u & -> & W & _)|(u & -> & W & _)]; apply W).
  pose proof (past_dims _ _ _ _ V C U1) as D.
  assert (P : pending (pd ob) = (Some (lift l), Some (lift m)) /\ dims v (pd ob)).
  { destruct LD as [(u & -> & W & ->)|(u & -> & W & ->)].
    - apply loaded_as_dense in L; auto. subst ob. split; [|exact D]. 
      transitivity (keep (u_lb (ud_v u)) (d_lb_tmp (pd oa)), keep (u_ub (ud_v u)) (d_ub_tmp (pd oa))); [reflexivity|]. rewrite El, Eu. reflexivity.
    - apply loaded_as_sparse in L; auto. subst ob. split; [|exact D].
      transitivity (keep (u_lb (us_v u)) (d_lb_tmp (pd oa)), keep (u_ub (us_v u)) (d_ub_tmp (pd oa))); [reflexivity|]. rewrite El, Eu. reflexivity. }
  destruct P as (P & D').
  assert (Dc : dims v (pd oc)) by (apply dims_of; rewrite (used_sizes _ _ _ _ _ U2); unfold sizes; destruct D' as (-> & -> & ->); reflexivity).
  apply options_pending in U2; [|exact K]. pose proof (wv_lb _ V) as Fl. pose proof (wv_ub _ V) as Fu. rewrite El in Fl. rewrite Eu in Fu.
  pose proof (wv_nV _ V). pose proof (wv_int _ V). pose proof (wv_nC _ V). pose proof (wv_nComp _ V).
  apply (run_boxes (u_nV v) (u_nC v) (u_nComp v) (Some l) (Some m) oc r od); [lia|exact Fl|exact Fu|unfold sizes; destruct Dc as (-> & -> & ->); reflexivity|rewrite U2, P; reflexivity|exact R].
Qed.
(** Once a run has asked the QP solver anything, the box bounds are gone *)
Lemma p_C26_boxes_lost h1 h2 nV nC nComp (o oa ob oc od : lcqp T) r1 r :
  0 < nV -> 0 <= nC -> 0 < nComp -> nV + nC + 2 * nComp <= INT_MAX ->
  LCQProblem_ctor nV nC nComp = Ok o -> used orc rand h1 o oa -> runSolver orc rand oa = Ok (r1, ob) -> s_calls (it ob) <> s_calls (it oa) ->
  used orc rand h2 ob oc -> (forall c r, In (c, r) h2 -> keeps_problem c) -> runSolver orc rand oc = Ok (r, od) ->
  exists cs, s_calls (it od) = cs ++ s_calls (it oc) /\ forall c, In c cs -> box_qp nV None None c.
Proof.
  intros N1 N2 N3 N4 C U1 R1 Ne U2 K R.
  assert (P : pending (pd ob) = (None, None)) by (apply run_pending in R1; destruct R1 as [(_ & R1)|R1]; [contradiction|exact R1]).
  pose proof (runs_pending _ _ _ U2 K P) as Pc. pose proof (new_sizes _ _ _ _ C N1 N2 N3) as S.
  assert (D : sizes (pd oc) = (Some nV, Some nC, Some nComp)) by (rewrite (used_sizes _ _ _ _ _ U2), (run_sizes _ _ _ _ _ R1), (used_sizes _ _ _ _ _ U1); exact S).
  apply (run_boxes nV nC nComp None None oc r od); [lia|exact I|exact I|exact D|exact Pc|exact R].
Qed.
End Final.
End Data.
