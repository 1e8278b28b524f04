(** * Control: effect of a solver pass on the bookkeeping (any arithmetic, any state). *)
From Verif Require Import Base Arith Codes Utilities Options Stats FileIO Subsolver State LCQProblem Tactics NoFuel Frames.

Section Control.
Context {T : Type} `{Arith T}.
Implicit Types (orc : oracle T) (d : pdata T) (s : iter T) (o : lcqp T).

(** 1 or 0. No LCQPow code. *)
Definition b2z (b : bool) : Z := if b then 1 else 0.

(** The penalty after one update *)
Definition next_rho d (r : T) : T := (r * o_penaltyUpdateFactor (d_options d))%num.
(** The value kept as rhoOpt when the penalty becomes [r] *)
Definition keep_rho (old r : T) : T := if a_le r a_zero then old else r.

(** Scalar statistics after a possible penalty update *)
Definition pen_stats d (b : bool) (r : T) (st : stats T) : stats T :=
  if b then set_st_iterOuter (st_iterOuter st + 1) (set_st_rhoOpt (keep_rho (st_rhoOpt st) (next_rho d r)) st) else st.

Lemma penaltyStep_frame d s s' : penaltyStep d s = Ok s' ->
  exists q qs gt,
    s' = set_innerIter 0 (set_outerIter (s_outerIter s + 1) (set_g_tilde gt (set_Qk q (set_Qk_sparse qs
          (set_stats (pen_stats d true (s_rho s) (s_stats s))
          (set_rho (next_rho d (s_rho s))
          (set_complHistory (if 0 <? o_nDynamicPenalty (d_options d) then [] else s_complHistory s) s))))))).
Proof.
  unfold penaltyStep; intros; inv_ok.
  match goal with H : updatePenalty _ _ = _ |- _ => apply updatePenalty_frame in H; destruct H as (q & qs & gt & H) end.
  match goal with H : updateOuterIter _ = _ |- _ => apply updateOuterIter_frame in H end.
  rewrite updateRhoOpt_eq in *. subst. exists q, qs, gt. reflexivity.
Qed.

(** Effect of the first part of a pass; [b]: the dynamic strategy updated the penalty. *)
Record head_effect d s s' (b : bool) : Prop := {
  he_rho : s_rho s' = (if b then next_rho d (s_rho s) else s_rho s);
  he_outer : s_outerIter s' = s_outerIter s + b2z b;
  he_inner : s_innerIter s' = (if b then 0 else s_innerIter s + 1);
  he_total : s_totalIter s' = s_totalIter s + 1;
  he_algo : s_algoStat s' = s_algoStat s;
  he_calls : s_calls s' = s_calls s;
  he_work : s_work s' = s_work s;
  he_rnd : s_rnd s' = s_rnd s;
  he_k : s_qpIterk s' = s_qpIterk s;
  he_f : s_qpSolverExitFlag s' = s_qpSolverExitFlag s;
  he_alphak : s_alphak s' = s_alphak s;
  he_pk : s_pk s' = s_pk s;
  he_yk : s_yk s' = s_yk s;
  he_ykA : s_yk_A s' = s_yk_A s;
  he_idx : s_Qk_indices_of_C s' = s_Qk_indices_of_C s;
  he_stats : exists s1 st1,
    s_stats s1 = s_stats s /\ s_xk s1 = s_xk s' /\ s_statk s1 = s_statk s' /\ s_innerIter s1 = s_innerIter s /\
    s_qpIterk s1 = s_qpIterk s /\ s_rho s1 = s_rho s /\
    (if o_storeSteps (d_options d) then storeSteps d s1 = Ok (set_stats st1 s1) else st1 = s_stats s) /\
    s_stats s' = pen_stats d b (s_rho s) (set_st_iterTotal (st_iterTotal st1 + 1) st1)
}.

Lemma pass_head_effect d s s' : pass_head d s = Ok s' -> exists b, head_effect d s s' b.
Proof.
  unfold pass_head; intros E.
  apply bind_ok in E; destruct E as (s1 & E1 & E). apply updateStep_frame in E1. destruct E1 as (x & ->).
  apply bind_ok in E; destruct E as (s2 & E2 & E). apply updateStationarity_frame in E2. destruct E2 as (a1 & a2 & a3 & ->).
  apply bind_ok in E; destruct E as (s3 & E3 & E). apply printIteration_frame in E3. destruct E3 as (l & ->).
  apply bind_ok in E; destruct E as (s4 & E4 & E).
  set (s3 := set_log l _) in *.
  assert (E4' : exists st1, s4 = set_stats st1 s3 /\
     (if o_storeSteps (d_options d) then storeSteps d s3 = Ok (set_stats st1 s3) else st1 = s_stats s)).
  { destruct (o_storeSteps _).
    - pose proof E4 as E5. apply storeSteps_frame in E5. destruct E5 as (st & ->). eauto.
    - injection E4 as <-. exists (s_stats s). split; reflexivity. }
  destruct E4' as (st1 & -> & Hst). clear E4.
  apply bind_ok in E; destruct E as (s5 & E5 & E). apply updateTotalIter_frame in E5.
  apply bind_ok in E; destruct E as (n & En & E). apply chk_int_ok in En. destruct En as [-> _].
  apply bind_ok in E; destruct E as ([b s6] & E6 & E). apply leyffer_frame in E6. destruct E6 as (h & ->).
  apply bind_ok in E; destruct E as (s7 & E7 & E). apply updateLinearization_frame in E. destruct E as (gk & ->).
  exists b. destruct b.
  - apply penaltyStep_frame in E7. destruct E7 as (q & qs & gt & ->). subst s5.
    constructor; try reflexivity.
    exists s3, st1. repeat split; auto.
  - injection E7 as <-. subst s5. constructor; try reflexivity; simpl; try lia.
    exists s3, st1. repeat split; auto.
Qed.

(** Effect of a pass that does not end the run with success: [b1]/[b2]: dynamic / regular penalty update *)
Definition add_rho d (b : bool) (r : T) : T := if b then next_rho d r else r.

(** What a possible penalty update does to the control members. No LCQPow code. *)
Record pen_effect d s s' (b : bool) : Prop := {
  pe_rho : s_rho s' = add_rho d b (s_rho s);
  pe_outer : s_outerIter s' = s_outerIter s + b2z b;
  pe_total : s_totalIter s' = s_totalIter s;
  pe_algo : s_algoStat s' = s_algoStat s;
  pe_calls : s_calls s' = s_calls s;
  pe_work : s_work s' = s_work s;
  pe_rnd : s_rnd s' = s_rnd s;
  pe_xk : s_xk s' = s_xk s;
  pe_k : s_qpIterk s' = s_qpIterk s;
  pe_f : s_qpSolverExitFlag s' = s_qpSolverExitFlag s;
  pe_stats : s_stats s' = pen_stats d b (s_rho s) (s_stats s)
}.

Lemma penaltyStep_effect d s s' : penaltyStep d s = Ok s' -> pen_effect d s s' true.
Proof. intros E. apply penaltyStep_frame in E. destruct E as (q & qs & gt & ->). constructor; reflexivity. Qed.
Lemma pen_effect_refl d s : pen_effect d s s false.
Proof. constructor; try reflexivity; simpl; lia. Qed.

(** Structure of a pass *)
Inductive pass_case orc rand d s : iter T -> option ReturnValue -> Prop :=
| PC_success s1 s' : forall b1 (Hh : head_effect d s s1 b1)
    (Hhead : pass_head d s = Ok s1)
    (Hst : stationarityCheck d s1 = Ok true) (Hcc : complementarityCheck d s1 = Ok true)
    (Hfin : finish d s1 = Ok s'),
    pass_case orc rand d s s' (Some SUCCESSFUL_RETURN)
| PC_other s1 s2 s' e : forall b1 b2 (Hh : head_effect d s s1 b1)
    (Hhead : pass_head d s = Ok s1)
    (Hpen : pen_effect d s1 s2 b2)
    (Hb2 : if b2 then stationarityCheck d s1 = Ok true /\ complementarityCheck d s1 = Ok false /\ penaltyStep d s1 = Ok s2
           else stationarityCheck d s1 = Ok false /\ s2 = s1)
    (Htail : pass_tail orc rand d s2 = Ok (s', e)),
    pass_case orc rand d s s' e.

Lemma pass_inv orc rand d s s' e : pass orc rand d s = Ok (s', e) -> pass_case orc rand d s s' e.
Proof.
  unfold pass; intros E.
  apply bind_ok in E; destruct E as (s1 & E1 & E). pose proof (pass_head_effect _ _ _ E1) as (b1 & Hh).
  apply bind_ok in E; destruct E as (st & Est & E).
  destruct st.
  - apply bind_ok in E; destruct E as (cc & Ecc & E). destruct cc.
    + apply bind_ok in E; destruct E as (s2 & E2 & E). inv_ok. eapply PC_success; eauto.
    + apply bind_ok in E; destruct E as (s2 & E2 & E). eapply PC_other with (b2 := true); eauto using penaltyStep_effect.
  - eapply PC_other with (b2 := false); eauto using pen_effect_refl.
Qed.

(** Cases of the tail of a pass *)
Inductive tail_case orc rand d s : iter T -> option ReturnValue -> Prop :=
| TC_iter : o_maxIterations (d_options d) < s_totalIter s -> tail_case orc rand d s s (Some MAX_ITERATIONS_REACHED)
| TC_pen : s_totalIter s <= o_maxIterations (d_options d) -> a_lt (o_maxPenaltyParameter (d_options d)) (s_rho s) = true ->
    tail_case orc rand d s s (Some MAX_PENALTY_REACHED)
| TC_fail s1 s2 r : s_totalIter s <= o_maxIterations (d_options d) ->
    a_lt (o_maxPenaltyParameter (d_options d)) (s_rho s) = false ->
    updateLinearization d s = Ok s1 -> solveQPSubproblem orc d false s1 = Ok (r, s2) -> is_success r = false ->
    tail_case orc rand d s (logI (EvMessage r) s2) (Some r)
| TC_next s1 s2 s3 s4 : s_totalIter s <= o_maxIterations (d_options d) ->
    a_lt (o_maxPenaltyParameter (d_options d)) (s_rho s) = false ->
    updateLinearization d s = Ok s1 -> solveQPSubproblem orc d false s1 = Ok (SUCCESSFUL_RETURN, s2) ->
    (if o_perturbStep (d_options d) then perturbStep rand d s2 = Ok s3 else s3 = s2) ->
    getOptimalStepLength d s3 = Ok s4 ->
    tail_case orc rand d s s4 None.

Lemma is_success_true r : is_success r = true -> r = SUCCESSFUL_RETURN.
Proof. destruct r; simpl; congruence. Qed.

Lemma pass_tail_inv orc rand d s s' e : pass_tail orc rand d s = Ok (s', e) -> tail_case orc rand d s s' e.
Proof.
  unfold pass_tail; intros E. cbv zeta in E.
  destruct (Z.ltb_spec (o_maxIterations (d_options d)) (s_totalIter s)).
  { inv_ok. apply TC_iter; auto. }
  destruct (a_lt _ _) eqn:Ep.
  { inv_ok. apply TC_pen; auto. }
  apply bind_ok in E; destruct E as (s1 & E1 & E).
  apply bind_ok in E; destruct E as ([r s2] & E2 & E).
  destruct (is_success r) eqn:Er; simpl in E.
  - apply is_success_true in Er; subst r.
    apply bind_ok in E; destruct E as (s3 & E3 & E).
    apply bind_ok in E; destruct E as (s4 & E4 & E). injection E as <- <-.
    eapply TC_next; eauto. destruct (o_perturbStep _); auto. injection E3 as <-; reflexivity.
  - inv_ok. eapply TC_fail; eauto.
Qed.

(** Induction principle for the loop *)
Lemma loop_ind orc rand d (I : iter T -> Prop) (P : ReturnValue -> iter T -> Prop) :
  (forall s s', I s -> pass orc rand d s = Ok (s', None) -> I s') ->
  (forall s s' r, I s -> pass orc rand d s = Ok (s', Some r) -> P r s') ->
  forall n s r s', I s -> loop n orc rand d s = Ok (r, s') -> P r s'.
Proof.
  intros H1 H2; induction n; intros s r s' HI E; cbn [loop] in E; [discriminate|].
  apply bind_ok in E; destruct E as ([s1 e] & E1 & E). destruct e as [r1|].
  - inv_ok. eauto.
  - eauto.
Qed.

End Control.
