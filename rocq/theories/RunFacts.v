(** * RunFacts: further facts about whole runs (any arithmetic, any state). *)
From Verif Require Import Base Arith Codes Utilities Options Stats FileIO Subsolver State LCQProblem Tactics Loops NoFuel Frames Control RunControl SpecRun Spec QPHistory RunStats.

Section RunFacts.
Context {T : Type} `{Arith T}.
Implicit Types (orc : oracle T) (d : pdata T) (s : iter T) (o : lcqp T) (st : stats T).

(** ** States at the beginning of a pass *)
Inductive pass_start orc rand o : pdata T -> iter T -> Prop :=
| PS_first o1 s1 : initializeSolver o = Ok (SUCCESSFUL_RETURN, o1) ->
    first_solve orc (pd o1) (it o1) = Ok (s1, None) -> pass_start orc rand o (pd o1) s1
| PS_next d s s' : pass_start orc rand o d s -> pass orc rand d s = Ok (s', None) -> pass_start orc rand o d s'.

Lemma pass_start_init orc rand o d s : pass_start orc rand o d s ->
  exists o1, initializeSolver o = Ok (SUCCESSFUL_RETURN, o1) /\ d = pd o1.
Proof. induction 1; eauto. Qed.

Lemma loop_last orc rand o d : forall n s r s', pass_start orc rand o d s -> loop n orc rand d s = Ok (r, s') ->
  exists s0, pass_start orc rand o d s0 /\ pass orc rand d s0 = Ok (s', Some r).
Proof.
  intros n s r s' P E.
  apply (loop_ind orc rand d (pass_start orc rand o d)
    (fun r s' => exists s0, pass_start orc rand o d s0 /\ pass orc rand d s0 = Ok (s', Some r)) ) with (n := n) (s := s); auto.
  - intros a a' Pa Ea. eapply PS_next; eauto.
  - intros a a' r' Pa Ea. eauto.
Qed.

(** How a run can end *)
Inductive run_end orc rand o : ReturnValue -> lcqp T -> Prop :=
| RE_init r o1 : initializeSolver o = Ok (r, o1) -> is_success r = false -> run_end orc rand o r (logL (EvMessage r) o1)
| RE_first r o1 s1 : initializeSolver o = Ok (SUCCESSFUL_RETURN, o1) ->
    first_solve orc (pd o1) (it o1) = Ok (s1, Some r) -> run_end orc rand o r (mkLcqp (pd o1) s1)
| RE_pass r d s s' : pass_start orc rand o d s -> pass orc rand d s = Ok (s', Some r) -> run_end orc rand o r (mkLcqp d s').

Lemma run_ends fuel orc rand o r o' : runSolver_fuel fuel orc rand o = Ok (r, o') -> run_end orc rand o r o'.
Proof.
  intros E. apply run_inv in E. destruct E as [r o1 E1 Er | r o1 s1 E1 E2 | r o1 s1 s2 E1 E2 E3].
  - apply RE_init; auto.
  - eapply RE_first; eauto.
  - apply (loop_last orc rand o) in E3; [|eapply PS_first; eauto]. destruct E3 as (s0 & P0 & Ep). eapply RE_pass; eauto.
Qed.

(** ** Success *)
Lemma pass_success orc rand d s s' : pass orc rand d s = Ok (s', Some SUCCESSFUL_RETURN) ->
  exists s1, pass_head d s = Ok s1 /\ stationarityCheck d s1 = Ok true /\ complementarityCheck d s1 = Ok true /\
    finish d s1 = Ok s'.
Proof.
  intros E. apply pass_inv in E. inversion E as [s1 s2 b1 Hh Hhd Hst Hcc Hfin | s1 s2 s3 e b1 b2 Hh Hhd Hp Hb2 Ht]; subst.
  - eauto.
  - apply pass_tail_inv in Ht. inversion Ht; subst; discriminate.
Qed.

Lemma first_not_success orc d s s' : first_solve orc d s = Ok (s', Some SUCCESSFUL_RETURN) -> False.
Proof. intros E. apply first_solve_inv in E. inversion E; subst; discriminate. Qed.

(** On success both tests hold for the final state *)
Lemma success_tests fuel orc rand o o' : runSolver_fuel fuel orc rand o = Ok (SUCCESSFUL_RETURN, o') ->
  exists nV statk m phi,
    d_nV (pd o') = Some nV /\ s_statk (it o') = Some statk /\
    MaxAbs statk nV = Ok m /\ a_lt m (o_stationarityTolerance (d_options (pd o'))) = true /\
    getPhi (pd o') (it o') = Ok phi /\ a_lt phi (o_complementarityTolerance (d_options (pd o'))) = true.
Proof.
  intros E. apply run_ends in E. inversion E as [r o1 E1 Er | r o1 s1 E1 E2 | r d s s' P Ep]; subst; clear E.
  - discriminate.
  - apply first_not_success in E2. contradiction.
  - simpl. apply pass_success in Ep. destruct Ep as (s1 & Eh & Est & Ecc & Ef).
    apply finish_frame in Ef. destruct Ef as (y & a & l & Ha & ->).
    unfold stationarityCheck in Est. inv_ok. unfold complementarityCheck in Ecc. inv_ok.
    simpl. do 4 eexists. repeat split; eauto.
Qed.

(** ** Independence of the random stream *)
Lemma pass_rand orc r1 r2 d s : o_perturbStep (d_options d) = false -> pass orc r1 d s = pass orc r2 d s.
Proof. intros Hp. unfold pass, pass_tail. rewrite Hp. reflexivity. Qed.

Lemma loop_rand orc r1 r2 d : o_perturbStep (d_options d) = false -> forall n s, loop n orc r1 d s = loop n orc r2 d s.
Proof.
  intros Hp. induction n; intros s; cbn [loop]; auto. rewrite (pass_rand orc r1 r2 d s Hp).
  destruct (pass orc r2 d s) as [[s1 [r|]]|]; simpl; auto.
Qed.

Lemma run_rand orc r1 r2 o : o_perturbStep (d_options (pd o)) = false -> runSolver orc r1 o = runSolver orc r2 o.
Proof.
  intros Hp. unfold runSolver, runSolver_fuel.
  destruct (initializeSolver o) as [[r o1]|] eqn:E1; simpl; auto.
  destruct (is_success r) eqn:Er; simpl; auto. apply is_success_true in Er; subst r.
  destruct (first_solve orc (pd o1) (it o1)) as [[s1 [r|]]|] eqn:E2; simpl; auto.
  rewrite (loop_rand orc r1 r2); auto. rewrite (init_options _ _ E1). assumption.
Qed.

(** ** Step perturbation *)
Lemma perturbStep_moves rand d s s' : perturbStep rand d s = Ok s' ->
  exists nV x x', d_nV d = Some nV /\ s_xk s = Some x /\ s_xk s' = Some x' /\ len x' = len x /\
    (forall i, 0 <= i < nV -> exists v k, rd x i = Ok v /\ -1 <= k <= 1 /\ rd x' i = Ok (v + a_of_Z k * EPS)%num) /\
    (forall i, nV <= i -> at_ None x' i = at_ None x i).
Proof.
  unfold perturbStep; intros E.
  apply bind_ok in E; destruct E as (nV & EnV & E). apply bind_ok in E; destruct E as (x & Ex & E).
  apply bind_ok in E; destruct E as ([x' pos] & El & E).
  destruct (d_nV d) as [nV'|] eqn:HnV; simpl in EnV; [injection EnV as ->|discriminate].
  destruct (s_xk s) as [x0|] eqn:Hx; simpl in Ex; [injection Ex as ->|discriminate].
  exists nV, x, x'. split; auto. split; auto.
  assert (Hs : s' = set_rnd pos (set_xk (Some x') s)) by congruence. clear E. subst s'. split; [reflexivity|].
  pose (P := fun (i : Z) (st : arr T * nat) => len (fst st) = len x /\
     (forall j, 0 <= j < i -> exists v k, rd x j = Ok v /\ -1 <= k <= 1 /\ rd (fst st) j = Ok (v + a_of_Z k * EPS)%num) /\
     (forall j, i <= j -> 0 <= j -> at_ None (fst st) j = at_ None x j)).
  apply (for_inv P) in El.
  - destruct El as (L & L1 & L2). split; auto. split.
    + intros i Hi. apply L1. lia.
    + intros i Hi. destruct (Z_lt_le_dec i 0).
      * unfold at_. replace (Z.to_nat i) with (Z.to_nat 0) by lia. apply (L2 0); lia.
      * apply L2; lia.
  - split; [reflexivity|]. split; intros; [lia|reflexivity].
  - intros i [y p] [y' p'] Hi (L & L1 & L2) E. simpl in *.
    apply bind_ok in E; destruct E as (v & Ev & E). apply bind_ok in E; destruct E as (y1 & Ey & E). injection E as <- <-.
    apply wr_inv in Ey. destruct Ey as [Hy ->].
    assert (Hv : rd x i = Ok v). { rewrite <- Ev, !rd_at, L, L2 by lia. reflexivity. }
    split; [simpl; rewrite len_upd; assumption|]. split.
    + intros j Hj. simpl.
      assert (Hr : rd (upd y (Z.to_nat i) (Some (v + a_of_Z (rand p mod 3 - 1) * EPS)%num)) j =
                   if i =? j then Ok (v + a_of_Z (rand p mod 3 - 1) * EPS)%num else rd y j).
      { rewrite !rd_at, len_upd, at_upd by lia. destruct (Z.eqb_spec i j); auto. subst j.
        replace ((0 <=? i) && (i <? len y)) with true by lia. reflexivity. }
      destruct (Z.eqb_spec i j).
      * subst j. exists v, (rand p mod 3 - 1). split; [assumption|].
        pose proof (Z.mod_pos_bound (rand p) 3). split; [lia|]. exact Hr.
      * destruct (L1 j) as (v' & k' & A1 & A2 & A3); [lia|]. exists v', k'. split; auto. split; auto.
        rewrite Hr. exact A3.
    + intros j Hj Hj0. simpl. rewrite at_upd by lia. destruct (Z.eqb_spec i j); [lia|]. apply L2; lia.
Qed.

(** ** Initialisation as a function of the data it depends on *)
Definition init_subsolver_core d (yk : ptr T) : res (ReturnValue * pdata T * ptr T) :=
  let! '(r, o) := init_subsolver (mkLcqp d (set_yk yk iter0)) in Ok (r, pd o, s_yk (it o)).

(** The innermost term a sequence of bindings is waiting for *)
Ltac inner t :=
  lazymatch t with
  | bind ?e _ => inner e
  | match ?x with _ => _ end => inner x
  | _ => t
  end.

Lemma init_subsolver_eq o : init_subsolver o =
  let! '(r, d, y) := init_subsolver_core (pd o) (s_yk (it o)) in Ok (r, mkLcqp d (set_yk y (it o))).
Proof.
  unfold init_subsolver_core, init_subsolver, and_then_quiet, setLB, setUB.
  destruct o as [d s]; cbn [pd it s_yk set_yk].
  destruct (o_qpSolver (d_options d)).
  all: repeat (first [ reflexivity | match goal with |- ?l = _ => let x := inner l in destruct x; cbn [bind negb orb is_success pd it
    d_sparseSolver set_d_boxDualOffset set_d_nDuals d_lb_tmp d_ub_tmp d_nV d_Q d_A d_Q_sparse d_A_sparse set_d_lb set_d_ub] end ]).
Qed.

(** The statistics left by earlier runs do not influence a run *)
Lemma init_with_stats st o o1 : initializeSolver o = Ok (SUCCESSFUL_RETURN, o1) ->
  initializeSolver (with_stats st o) = Ok (SUCCESSFUL_RETURN, o1).
Proof.
  unfold initializeSolver, and_then_quiet. rewrite (init_subsolver_eq (with_stats st o)), (init_subsolver_eq o).
  cbn [pd it with_stats s_yk set_stats].
  destruct (init_subsolver_core (pd o) (s_yk (it o))) as [[[r d] y]|]; cbn [bind]; [|discriminate].
  destruct (is_success r) eqn:Er; [|intros E; assert (r = SUCCESSFUL_RETURN) by congruence; subst r; discriminate].
  cbn [pd it].
  destruct (get (d_nV d)) as [nV|]; cbn [bind]; [|discriminate].
  destruct (get (d_nComp d)) as [nComp|]; cbn [bind]; [|discriminate].
  destruct (@alloc T nV) as [gt|]; cbn [bind]; [|discriminate].
  destruct (memcpy_ptr gt (d_g d) nV) as [gt'|]; cbn [bind]; [|discriminate].
  destruct (init_phi nV nComp d) as [d'|]; cbn [bind]; [|discriminate].
  intros E. rewrite <- E. destruct (o_printLevel (d_options d')); reflexivity.
Qed.

Lemma run_with_stats orc rand st o o1 : initializeSolver o = Ok (SUCCESSFUL_RETURN, o1) ->
  runSolver orc rand (with_stats st o) = runSolver orc rand o.
Proof.
  intros E. unfold runSolver, runSolver_fuel. rewrite (init_with_stats st _ _ E), E. reflexivity.
Qed.

(** ** Format mismatch *)
Lemma init_subsolver_mismatch o r o' : init_subsolver o = Ok (r, o') -> (r = DENSE_SPARSE_MISSMATCH <-> mismatch o).
Proof.
  unfold init_subsolver, and_then_quiet, setLB, setUB, mismatch; intros E.
  destruct (o_qpSolver (d_options (pd o))) eqn:Es.
  - (* dense *)
    apply bind_ok in E; destruct E as (nV & EnV & E). apply bind_ok in E; destruct E as (nC & EnC & E).
    apply bind_ok in E; destruct E as (nP & EnP & E). cbn [d_sparseSolver set_d_boxDualOffset set_d_nDuals] in E.
    destruct (d_sparseSolver (pd o)); [injection E as <- _; tauto|].
    split; [|discriminate]. intros ->. inv_ok; discriminate.
  - apply bind_ok in E; destruct E as (nV & EnV & E). apply bind_ok in E; destruct E as (nC & EnC & E).
    apply bind_ok in E; destruct E as (nP & EnP & E). cbn [d_sparseSolver set_d_boxDualOffset set_d_nDuals] in E.
    destruct (d_sparseSolver (pd o)); simpl in E; [|injection E as <- _; tauto].
    split; [|discriminate]. intros ->. inv_ok; discriminate.
  - destruct (notNull (d_lb (pd o)) || notNull (d_ub (pd o))) eqn:Eb.
    + injection E as <- _. split; [discriminate|]. intros (_ & B1 & B2). rewrite B1, B2 in Eb. discriminate.
    + assert (Hb : d_lb (pd o) = None /\ d_ub (pd o) = None).
      { destruct (d_lb (pd o)), (d_ub (pd o)); auto; discriminate. }
      apply bind_ok in E; destruct E as (nV & EnV & E). apply bind_ok in E; destruct E as (nC & EnC & E).
      apply bind_ok in E; destruct E as (nP & EnP & E). apply bind_ok in E; destruct E as (yk & Eyk & E).
      cbn [d_sparseSolver set_d_boxDualOffset set_d_nDuals] in E.
      destruct (d_sparseSolver (pd o)); simpl in E; [|injection E as <- _; tauto].
      split; [|intros [? ?]; discriminate]. intros ->. inv_ok; discriminate.
Qed.

Lemma init_mismatch o r o' : initializeSolver o = Ok (r, o') -> (r = DENSE_SPARSE_MISSMATCH <-> mismatch o).
Proof.
  unfold initializeSolver, and_then_quiet; intros E.
  apply bind_ok in E; destruct E as ([r1 o1] & E1 & E). apply init_subsolver_mismatch in E1.
  destruct (is_success r1) eqn:Er.
  - apply is_success_true in Er; subst r1. rewrite <- E1. clear E1. split; [|discriminate].
    intros ->. inv_ok; discriminate.
  - injection E as <- _. exact E1.
Qed.

Lemma init_fail_calls o r o' : initializeSolver o = Ok (r, o') -> s_calls (it o') = s_calls (it o).
Proof.
  intros E. apply initializeSolver_ok in E.
  destruct E as [(_ & _ & a & b & c & e & f & g1 & g2 & y & gt & l & ->)|(_ & a & b & c & e & f & y & ->)]; reflexivity.
Qed.

Lemma run_mismatch fuel orc rand o r o' : runSolver_fuel fuel orc rand o = Ok (r, o') ->
  (r = DENSE_SPARSE_MISSMATCH <-> mismatch o) /\ (mismatch o -> s_calls (it o') = s_calls (it o)).
Proof.
  intros E. apply run_qp in E. destruct E as [(o1 & E1 & Er & ->)|(o1 & E1 & Epd & CP & QP)].
  - pose proof (init_mismatch _ _ _ E1) as M. split; auto. intros _. simpl. apply (init_fail_calls _ _ _ E1).
  - pose proof (init_mismatch _ _ _ E1) as M.
    assert (Hm : ~ mismatch o) by (intros C; apply M in C; discriminate).
    split; [|intros C; tauto]. split; [|intros C; tauto]. intros ->. exfalso.
    destruct QP as [(new & _ & _ & c & a & rest & _ & _ & _ & Q)].
    destruct (qp_error c a) as [e|] eqn:Ee.
    + destruct Q as [<- _]. unfold qp_error, osqp_setup_error in Ee.
      destruct (qc_solver c); repeat match type of Ee with context [if ?x then _ else _] => destruct x end; discriminate.
    + simpl in Q. intuition discriminate.
Qed.

End RunFacts.
