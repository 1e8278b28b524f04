(** * PureFacts: induction over the list-level loop; the QPs it poses (no LCQPow code). *)
From Verif Require Import Base Arith Codes Utilities Options Stats FileIO Subsolver State LCQProblem Tactics Loops Kernels Pure.

Section PureFacts.
Context {T : Type} `{Arith T} {K : Type}.
Variable p : ops T K.

Lemma loop_inv (orc : oracle T) rand (I : vst T K -> Prop) (F : ReturnValue -> vst T K -> Prop) :
  (forall v v', I v -> v_pass p orc rand v = Ok (v', None) -> I v') ->
  (forall v v' r, I v -> v_pass p orc rand v = Ok (v', Some r) -> F r v') ->
  forall fuel v r v', I v -> v_loop p fuel orc rand v = Ok (r, v') -> F r v'.
Proof.
  intros HI HF. induction fuel as [|fuel IH]; intros v r v' Hv E; [discriminate|]. cbn [v_loop] in E.
  apply bind_ok in E. destruct E as ([v1 e] & E1 & E). destruct e as [r1|].
  - injection E as <- <-. eauto.
  - eapply IH; [|exact E]. eauto.
Qed.
Lemma run_inv (orc : oracle T) rand y0 v0 (I : vst T K -> Prop) (F : ReturnValue -> vst T K -> Prop) :
  (forall v r, v_first p orc y0 v0 = Ok (v, Some r) -> F r v) ->
  (forall v, v_first p orc y0 v0 = Ok (v, None) -> I v) ->
  (forall v v', I v -> v_pass p orc rand v = Ok (v', None) -> I v') ->
  (forall v v' r, I v -> v_pass p orc rand v = Ok (v', Some r) -> F r v') ->
  forall fuel r v', v_run p fuel orc rand y0 v0 = Ok (r, v') -> F r v'.
Proof.
  intros H1 H2 H3 H4 fuel r v' E. unfold v_run in E. apply bind_ok in E. destruct E as ([v1 e] & E1 & E). destruct e as [r1|].
  - injection E as <- <-. auto.
  - eapply loop_inv; [exact H3|exact H4| |exact E]. auto.
Qed.

(** Fields that stay fixed *)
Lemma f_print v v' : v_print p v = Ok v' -> v' = v.
Proof. unfold v_print. intros E. destruct (o_printLevel _); try congruence. apply bind_ok in E. destruct E as (k & _ & E). congruence. Qed.
Lemma f_store v v' : v_store p v = Ok v' -> exists st, v' = w_stats st v.
Proof.
  unfold v_store. intros E. apply bind_ok in E. destruct E as (k & _ & E). apply bind_ok in E. destruct E as (st & _ & E). injection E as <-. eauto.
Qed.
Lemma f_total (v v' : vst T K) : v_totalIter v = Ok v' -> exists st, v' = w_stats st (w_total (v_total v + 1) v) /\ exists r, updateIterTotal 1 (v_stats v) = Ok (r, st).
Proof.
  unfold v_totalIter. intros E. apply bind_ok in E. destruct E as (n & En & E). apply bind_ok in E. destruct E as ([r st] & Es & E). injection E as <-.
  apply chk_int_ok in En. destruct En as [-> _]. eauto.
Qed.
Lemma f_outer (v v' : vst T K) : v_outerIter v = Ok v' -> exists st, v' = w_stats st (w_outer (v_outer v + 1) v) /\ exists r, updateIterOuter 1 (v_stats v) = Ok (r, st).
Proof.
  unfold v_outerIter. intros E. apply bind_ok in E. destruct E as (n & En & E). apply bind_ok in E. destruct E as ([r st] & Es & E). injection E as <-.
  apply chk_int_ok in En. destruct En as [-> _]. eauto.
Qed.
Lemma f_leyffer v : exists h, snd (v_leyffer p v) = w_hist h v.
Proof.
  unfold v_leyffer. destruct (_ <=? 0); [exists (v_hist v); destruct v; reflexivity|]. destruct (_ <? _); [eexists; reflexivity|].
  destruct (v_complOK p v); eexists; reflexivity.
Qed.

Lemma penalty_calls v : v_calls (v_penalty p v) = v_calls v.
Proof. unfold v_penalty. destruct (p_gphi p), (0 <? _); reflexivity. Qed.
Lemma penaltyStep_calls v v' : v_penaltyStep p v = Ok v' -> v_calls v' = v_calls v.
Proof.
  unfold v_penaltyStep. intros E. apply bind_ok in E. destruct E as (w & Ew & E). injection E as <-. apply f_outer in Ew. destruct Ew as (st & -> & _).
  cbn. apply penalty_calls.
Qed.
Lemma head_calls v v' : v_head p v = Ok v' -> v_calls v' = v_calls v.
Proof.
  unfold v_head. set (w := v_station p (v_step p v)). intros E. apply bind_ok in E. destruct E as (w1 & E1 & E). apply f_print in E1. subst w1.
  apply bind_ok in E. destruct E as (w2 & E2 & E). assert (C2 : v_calls w2 = v_calls v).
  { destruct (o_storeSteps _); [apply f_store in E2; destruct E2 as (st & ->)|injection E2 as <-]; reflexivity. }
  apply bind_ok in E. destruct E as (w3 & E3 & E). apply f_total in E3. destruct E3 as (st & -> & _).
  apply bind_ok in E. destruct E as (k & _ & E). match type of E with context [v_leyffer p ?x] => set (w4 := x) in * end.
  destruct (f_leyffer w4) as (h & Eh). destruct (v_leyffer p w4) as [b w5]. cbn [snd] in Eh. subst w5.
  apply bind_ok in E. destruct E as (w6 & E6 & E). injection E as <-. cbn. destruct b.
  - apply penaltyStep_calls in E6. rewrite E6. exact C2.
  - injection E6 as <-. exact C2.
Qed.
Lemma solve_calls orc ini y0 v r v' : v_solve p orc ini y0 v = Ok (r, v') -> v_calls v' = v_call p ini (v_x v) y0 (v_gk v) :: v_calls v.
Proof.
  unfold v_solve. intros E.
  assert (C : sr_calls (v_sub p orc ini y0 v) = v_call p ini (v_x v) y0 (v_gk v) :: v_calls v).
  { unfold v_sub. destruct (p_solver p); try reflexivity. cbv zeta. repeat match goal with |- context [if ?b then _ else _] => destruct b; [try reflexivity|try reflexivity] end. }
  assert (C' : v_calls (v_record (v_sub p orc ini y0 v) v) = v_call p ini (v_x v) y0 (v_gk v) :: v_calls v).
  { unfold v_record. destruct (sr_iter _), (sr_flag _); exact C. }
  set (w := v_record _ _) in *. apply bind_ok in E. destruct E as (k & _ & E). apply bind_ok in E. destruct E as ([? st] & _ & E).
  apply bind_ok in E. destruct E as (fl & _ & E). destruct (negb _).
  - injection E as <- <-. exact C'.
  - apply bind_ok in E. destruct E as (raw & _ & E). injection E as <- <-. exact C'.
Qed.
Lemma tail_calls orc rand v v' e : v_tail p orc rand v = Ok (v', e) ->
  v_calls v' = v_calls v \/ v_calls v' = v_call p false (v_x v) None (p_affC p (v_rho v) (v_x v) (v_gt v)) :: v_calls v.
Proof.
  unfold v_tail. intros E. destruct (_ <? _); [injection E as <- <-; auto|]. destruct (a_lt _ _); [injection E as <- <-; auto|].
  apply bind_ok in E. destruct E as ([r w] & Ew & E). apply solve_calls in Ew. right. cbn in Ew.
  destruct (negb _); injection E as <- <-; [exact Ew|]. destruct (o_perturbStep _); exact Ew.
Qed.
Lemma pass_calls orc rand v v' e : v_pass p orc rand v = Ok (v', e) ->
  v_calls v' = v_calls v \/ exists x g, v_calls v' = v_call p false x None g :: v_calls v.
Proof.
  unfold v_pass. intros E. apply bind_ok in E. destruct E as (w & Ew & E). apply head_calls in Ew.
  assert (Tl : forall w2, v_calls w2 = v_calls v -> v_tail p orc rand w2 = Ok (v', e) -> v_calls v' = v_calls v \/ exists x g, v_calls v' = v_call p false x None g :: v_calls v).
  { intros w2 E2 E3. apply tail_calls in E3. rewrite E2 in E3. destruct E3; eauto. }
  destruct (v_statOK p w); [|eauto]. destruct (v_complOK p w).
  - injection E as <- <-. left. exact Ew.
  - apply bind_ok in E. destruct E as (w2 & E2 & E). apply penaltyStep_calls in E2. apply (Tl w2); congruence.
Qed.

(** All QPs of a run: the first has the guess and the linear term [g0], the others differ only in the linear term *)
Lemma run_calls fuel orc rand y0 x0 r v : v_run p fuel orc rand y0 (v_init p x0) = Ok (r, v) ->
  exists gs, v_calls v = map (v_call p false [] None) gs ++
    [v_call p true x0 y0 (if o_solveZeroPenaltyFirst (p_opt p) then p_g p else p_affC p (o_initialPenaltyParameter (p_opt p)) x0 (p_g p))].
Proof.
  set (c0 := v_call p true x0 y0 _).
  set (I := fun v : vst T K => exists gs, v_calls v = map (v_call p false [] None) gs ++ [c0]).
  assert (F0 : forall v e, v_first p orc y0 (v_init p x0) = Ok (v, e) -> I v).
  { intros w e E. unfold v_first in E. apply bind_ok in E. destruct E as ([r1 w1] & E1 & E). apply solve_calls in E1.
    assert (C : v_calls w1 = [c0]). { rewrite E1. unfold c0. destruct (o_solveZeroPenaltyFirst _); reflexivity. }
    destruct (negb _); injection E as <- <-; exists []; exact C. }
  assert (FP : forall v v' e, I v -> v_pass p orc rand v = Ok (v', e) -> I v').
  { intros w w' e (gs & Hg) E. apply pass_calls in E. destruct E as [E|(x & g & E)]; rewrite Hg in E; [exists gs; exact E|].
    exists (g :: gs). rewrite E. reflexivity. }
  intros E. apply (run_inv orc rand y0 (v_init p x0) I (fun _ => I)) in E; eauto.
Qed.

(** The status stays PROBLEM_NOT_SOLVED until success *)
Lemma penaltyStep_algo v v' : v_penaltyStep p v = Ok v' -> v_algo v' = v_algo v.
Proof.
  unfold v_penaltyStep. intros E. apply bind_ok in E. destruct E as (w & Ew & E). injection E as <-. apply f_outer in Ew. destruct Ew as (st & -> & _).
  cbn. unfold v_penalty. destruct (p_gphi p), (0 <? _); reflexivity.
Qed.
Lemma head_algo v v' : v_head p v = Ok v' -> v_algo v' = v_algo v.
Proof.
  unfold v_head. set (w := v_station p (v_step p v)). intros E. apply bind_ok in E. destruct E as (w1 & E1 & E). apply f_print in E1. subst w1.
  apply bind_ok in E. destruct E as (w2 & E2 & E). assert (C2 : v_algo w2 = v_algo v).
  { destruct (o_storeSteps _); [apply f_store in E2; destruct E2 as (st & ->)|injection E2 as <-]; reflexivity. }
  apply bind_ok in E. destruct E as (w3 & E3 & E). apply f_total in E3. destruct E3 as (st & -> & _).
  apply bind_ok in E. destruct E as (k & _ & E). match type of E with context [v_leyffer p ?x] => set (w4 := x) in * end.
  destruct (f_leyffer w4) as (h & Eh). destruct (v_leyffer p w4) as [b w5]. cbn [snd] in Eh. subst w5.
  apply bind_ok in E. destruct E as (w6 & E6 & E). injection E as <-. cbn. destruct b.
  - apply penaltyStep_algo in E6. rewrite E6. exact C2.
  - injection E6 as <-. exact C2.
Qed.
Lemma solve_algo orc ini y0 v r v' : v_solve p orc ini y0 v = Ok (r, v') -> v_algo v' = v_algo v.
Proof.
  unfold v_solve. intros E.
  assert (C' : v_algo (v_record (v_sub p orc ini y0 v) v) = v_algo v) by (unfold v_record; destruct (sr_iter _), (sr_flag _); reflexivity).
  set (w := v_record _ _) in *. apply bind_ok in E. destruct E as (k & _ & E). apply bind_ok in E. destruct E as ([? st] & _ & E).
  apply bind_ok in E. destruct E as (fl & _ & E). destruct (negb _).
  - injection E as <- <-. exact C'.
  - apply bind_ok in E. destruct E as (raw & _ & E). injection E as <- <-. exact C'.
Qed.
Lemma tail_algo orc rand v v' e : v_tail p orc rand v = Ok (v', e) -> v_algo v' = v_algo v.
Proof.
  unfold v_tail. intros E. destruct (_ <? _); [injection E as <- <-; auto|]. destruct (a_lt _ _); [injection E as <- <-; auto|].
  apply bind_ok in E. destruct E as ([r w] & Ew & E). apply solve_algo in Ew. cbn in Ew.
  destruct (negb _); injection E as <- <-; [exact Ew|]. destruct (o_perturbStep _); exact Ew.
Qed.
Lemma run_algo fuel orc rand y0 x0 r v : v_run p fuel orc rand y0 (v_init p x0) = Ok (r, v) -> exists a, v_algo v = Some a.
Proof.
  set (I := fun v : vst T K => exists a, v_algo v = Some a).
  assert (F0 : forall v e, v_first p orc y0 (v_init p x0) = Ok (v, e) -> I v).
  { intros w e E. unfold v_first in E. apply bind_ok in E. destruct E as ([r1 w1] & E1 & E). apply solve_algo in E1.
    assert (C : v_algo w1 = Some PROBLEM_NOT_SOLVED). { rewrite E1. destruct (o_solveZeroPenaltyFirst _); reflexivity. }
    destruct (negb _); injection E as <- <-; eexists; exact C. }
  assert (FP : forall v v' e, I v -> v_pass p orc rand v = Ok (v', e) -> I v').
  { intros w w' e (a & Ha) E. unfold v_pass in E. apply bind_ok in E. destruct E as (w1 & E1 & E). apply head_algo in E1.
    destruct (v_statOK p w1); [|apply tail_algo in E; exists a; congruence]. destruct (v_complOK p w1).
    - injection E as <- <-. eexists. reflexivity.
    - apply bind_ok in E. destruct E as (w2 & E2 & E). apply penaltyStep_algo in E2. apply tail_algo in E. exists a. congruence. }
  intros E. apply (run_inv orc rand y0 (v_init p x0) I (fun _ => I)) in E; eauto.
Qed.
End PureFacts.
