(** * PureShift: earlier QP calls, earlier random numbers and left-over work vectors do not influence a run of [Pure]
    (no LCQPow code). *)
From Verif Require Import Base Arith Codes Utilities Options Stats FileIO Subsolver State LCQProblem Tactics Loops Kernels Pure.

Section PureShift.
Context {T : Type} `{Arith T} {K : Type}.
Variables (p : ops T K) (orc : oracle T) (rand : nat -> Z) (c0 : list (qp_call T)) (r0 : nat) (wk : bool).
(** A history kept from earlier runs; only allowed if the dynamic penalty check is switched off *)
Variable (k : option (list T)).
Hypothesis (Hk : k <> None -> o_nDynamicPenalty (p_opt p) = 0).
Hypothesis (Hs : p_solver p <> OSQP_SPARSE).

(** The QP solver and the random numbers as seen after the earlier calls.  No LCQPow code. *)
Definition orc1 : oracle T := fun l => orc (l ++ c0).
(** No LCQPow code. *)
Definition rand1 : nat -> Z := fun i => rand (i + r0)%nat.

(** The same state in an object with a past.  No LCQPow code. *)
Definition sh (v : vst T K) : vst T K :=
  let v := w_work wk (w_rnd (v_rnd v + r0)%nat (w_calls (v_calls v ++ c0) v)) in
  match k with None => v | Some h => w_hist h v end.

(** Apply to the state of an outcome.  No LCQPow code. *)
Definition mapr {A B} (f : A -> B) (r : res A) : res B := let! a := r in Ok (f a).

Lemma mapr_bind {A B A' B'} (f : A -> B) (g : A' -> B') (r : res A) (F : A -> res A') (G : B -> res B') :
  (forall a, G (f a) = mapr g (F a)) -> bind (mapr f r) G = mapr g (bind r F).
Proof. destruct r; simpl; auto. Qed.

Ltac cases := unfold sh; destruct k; reflexivity.
Lemma sh_rho v : v_rho (sh v) = v_rho v. Proof. cases. Qed.
Lemma sh_x v : v_x (sh v) = v_x v. Proof. cases. Qed.
Lemma sh_y v : v_y (sh v) = v_y v. Proof. cases. Qed.
Lemma sh_stats v : v_stats (sh v) = v_stats v. Proof. cases. Qed.
Lemma sh_calls v : v_calls (sh v) = v_calls v ++ c0. Proof. cases. Qed.
Lemma sh_total v : v_total (sh v) = v_total v. Proof. cases. Qed.
Lemma sh_algo v : v_algo (sh v) = v_algo v. Proof. cases. Qed.

Lemma sh_lin v : v_lin p (sh v) = sh (v_lin p v). Proof. cases. Qed.
Lemma sh_step v : v_step p (sh v) = sh (v_step p v). Proof. cases. Qed.
Lemma sh_station v : v_station p (sh v) = sh (v_station p v). Proof. cases. Qed.
Lemma sh_steplen v : v_steplen p (sh v) = sh (v_steplen p v). Proof. cases. Qed.
Lemma sh_finish v : v_finish p (sh v) = sh (v_finish p v). Proof. cases. Qed.
Lemma sh_statOK v : v_statOK p (sh v) = v_statOK p v. Proof. cases. Qed.
Lemma sh_complOK v : v_complOK p (sh v) = v_complOK p v. Proof. cases. Qed.
Lemma sh_inner n v : w_inner n (sh v) = sh (w_inner n v). Proof. cases. Qed.

Lemma sh_w_rnd n a v : sh (w_rnd n (w_x a v)) = w_rnd (n + r0)%nat (w_x a (sh v)). Proof. cases. Qed.
Lemma sh_rnd v : v_rnd (sh v) = (v_rnd v + r0)%nat. Proof. cases. Qed.
Lemma sh_perturb v : v_perturb p rand (sh v) = sh (v_perturb p rand1 v).
Proof.
  unfold v_perturb, rand1. rewrite sh_w_rnd, sh_rnd, sh_x.
  assert (E : forall a, (v_rnd v + r0 + a = v_rnd v + a + r0)%nat) by (intros; lia).
  rewrite E. f_equal. f_equal. apply tab_ext. intros i Hi. rewrite E. reflexivity.
Qed.

Lemma sh_print v : v_print p (sh v) = mapr sh (v_print p v).
Proof. unfold v_print. destruct (o_printLevel (p_opt p)); try reflexivity. replace (v_qpit (sh v)) with (v_qpit v) by cases. destruct (v_qpit v); reflexivity. Qed.
Lemma sh_store v : v_store p (sh v) = mapr sh (v_store p v).
Proof.
  unfold v_store. replace (v_qpit (sh v)) with (v_qpit v) by cases. destruct (v_qpit v) as [q|]; [|reflexivity]. cbn [get bind].
  replace (updateTrackingVectors (Some (lift (v_x (sh v)))) (v_inner (sh v)) q (v_alpha (sh v)) (maxabs (v_p (sh v)) (p_nV p))
    (maxabs (v_stat (sh v)) (p_nV p)) (v_obj p (sh v)) (v_phi p (sh v)) (v_merit p (sh v)) (p_nV p) (v_stats (sh v)))
  with (updateTrackingVectors (Some (lift (v_x v))) (v_inner v) q (v_alpha v) (maxabs (v_p v) (p_nV p))
    (maxabs (v_stat v) (p_nV p)) (v_obj p v) (v_phi p v) (v_merit p v) (p_nV p) (v_stats v)) by cases.
  destruct (updateTrackingVectors _ _ _ _ _ _ _ _ _ _ _); [|reflexivity]. cbn. f_equal. cases.
Qed.
Lemma sh_totalIter v : v_totalIter (sh v) = mapr sh (v_totalIter v).
Proof.
  unfold v_totalIter. rewrite sh_total, sh_stats. destruct (chk_int _); [|reflexivity]. cbn [bind]. destruct (updateIterTotal _ _) as [[? ?]|]; [|reflexivity].
  cbn. f_equal. cases.
Qed.
Lemma sh_outerIter v : v_outerIter (sh v) = mapr sh (v_outerIter v).
Proof.
  unfold v_outerIter. rewrite sh_stats. replace (v_outer (sh v)) with (v_outer v) by cases. destruct (chk_int _); [|reflexivity]. cbn [bind].
  destruct (updateIterOuter _ _) as [[? ?]|]; [|reflexivity]. cbn. f_equal. cases.
Qed.
Lemma sh_penalty v : v_penalty p (sh v) = sh (v_penalty p v).
Proof.
  unfold v_penalty, sh. destruct k as [h|].
  - rewrite Hk by discriminate. cbn [Z.ltb Z.compare]. destruct (p_gphi p); reflexivity.
  - destruct (0 <? _), (p_gphi p); reflexivity.
Qed.
Lemma sh_penaltyStep v : v_penaltyStep p (sh v) = mapr sh (v_penaltyStep p v).
Proof.
  unfold v_penaltyStep. rewrite sh_penalty, sh_outerIter. apply mapr_bind. intros a. cbn. f_equal. apply sh_inner.
Qed.
Lemma sh_leyffer v : v_leyffer p (sh v) = (fst (v_leyffer p v), sh (snd (v_leyffer p v))).
Proof.
  assert (C : k = None \/ o_nDynamicPenalty (p_opt p) = 0) by (destruct k; [right; apply Hk; discriminate|auto]).
  unfold v_leyffer. cbv zeta. destruct C as [E|E]; [|rewrite E; reflexivity].
  replace (v_hist (sh v)) with (v_hist v) by (unfold sh; rewrite E; reflexivity).
  rewrite sh_complOK. replace (v_phi p (sh v)) with (v_phi p v) by cases.
  assert (Eh : forall l, w_hist l (sh v) = sh (w_hist l v)) by (intros; unfold sh; rewrite E; reflexivity). rewrite !Eh.
  destruct (_ <=? 0); [reflexivity|]. destruct (_ <? _); [reflexivity|]. destruct (v_complOK p v); reflexivity.
Qed.
Lemma sh_head v : v_head p (sh v) = mapr sh (v_head p v).
Proof.
  unfold v_head. rewrite sh_step, sh_station, sh_print. apply mapr_bind. intros a.
  assert (S : (if o_storeSteps (p_opt p) then v_store p (sh a) else Ok (sh a)) = mapr sh (if o_storeSteps (p_opt p) then v_store p a else Ok a))
    by (destruct (o_storeSteps (p_opt p)); [apply sh_store|reflexivity]).
  rewrite S. apply mapr_bind. intros b. rewrite sh_totalIter. apply mapr_bind. intros c.
  replace (v_inner (sh c)) with (v_inner c) by cases. destruct (chk_int _) as [n|]; [|reflexivity]. cbn [bind].
  rewrite sh_inner, sh_leyffer. destruct (v_leyffer p (w_inner n c)) as [[] d']; cbn [fst snd].
  - rewrite sh_penaltyStep. apply mapr_bind. intros e. cbn. f_equal. apply sh_lin.
  - cbn. f_equal. apply sh_lin.
Qed.

(** The state after the first QP has overwritten what earlier runs left: work vectors, counters of the QP solver.  No LCQPow code. *)
Definition stale (gk yA pk st : list T) (h : K) (qi fl : option Z) (v : vst T K) : vst T K :=
  w_gk gk (w_yA yA (w_p pk (w_stat st (w_h h (w_qpit qi (w_flag fl v)))))).

Lemma sh_sub b y0 v : v_sub p orc b y0 (sh v) =
  let r := v_sub p orc1 b y0 v in mkSubRes (sr_ret r) (sr_iter r) (sr_flag r) wk (sr_raw r) (sr_calls r ++ c0).
Proof.
  unfold v_sub. cbv zeta. rewrite sh_calls, sh_x. replace (v_gk (sh v)) with (v_gk v) by cases. replace (v_work (sh v)) with wk by cases.
  destruct (p_solver p); [| |congruence]; cbn [sr_ret sr_iter sr_flag sr_raw sr_calls]; reflexivity.
Qed.
Lemma sh_solve b y0 v : v_solve p orc b y0 (sh v) = mapr (fun a => (fst a, sh (snd a))) (v_solve p orc1 b y0 v).
Proof.
  unfold v_solve. rewrite sh_sub. cbv zeta. set (r := v_sub p orc1 b y0 v).
  assert (Er : exists q f, sr_iter r = Some q /\ sr_flag r = Some f /\ sr_work r = v_work v).
  { unfold r, v_sub. cbv zeta. destruct (p_solver p); [| |congruence]; do 2 eexists; cbn [sr_iter sr_flag sr_work]; auto. }
  destruct Er as (q & f & E1 & E2 & E3). unfold v_record. cbn [sr_ret sr_iter sr_flag sr_raw sr_calls sr_work]. rewrite E1, E2, E3.
  cbn [v_qpit v_flag v_stats w_qpit w_flag w_calls w_work get bind]. rewrite sh_stats.
  destruct (updateSubproblemIter q (v_stats v)) as [[? st]|]; [|reflexivity]. cbn [bind].
  destruct (negb (is_success (sr_ret r))).
  - cbn. do 2 f_equal. cases.
  - destruct (sr_raw r) as [raw|]; [|reflexivity]. cbn. do 2 f_equal. cases.
Qed.

Lemma sh_tail v : v_tail p orc rand (sh v) = mapr (fun a => (sh (fst a), snd a)) (v_tail p orc1 rand1 v).
Proof.
  unfold v_tail. rewrite sh_total, sh_rho. destruct (_ <? _); [reflexivity|]. destruct (a_lt _ _); [reflexivity|].
  rewrite sh_lin, sh_solve. apply mapr_bind. intros [r a]. cbn [fst snd]. destruct (negb _); [reflexivity|].
  cbn. do 2 f_equal. destruct (o_perturbStep (p_opt p)); rewrite ?sh_perturb, sh_steplen; reflexivity.
Qed.
Lemma sh_pass v : v_pass p orc rand (sh v) = mapr (fun a => (sh (fst a), snd a)) (v_pass p orc1 rand1 v).
Proof.
  unfold v_pass. rewrite sh_head. apply mapr_bind. intros a. rewrite sh_statOK, sh_complOK.
  destruct (v_statOK p a); [|apply sh_tail]. destruct (v_complOK p a); [cbn; rewrite sh_finish; reflexivity|].
  rewrite sh_penaltyStep. apply mapr_bind. intros b. apply sh_tail.
Qed.
Lemma sh_loop fuel v : v_loop p fuel orc rand (sh v) = mapr (fun a => (fst a, sh (snd a))) (v_loop p fuel orc1 rand1 v).
Proof.
  revert v. induction fuel as [|fuel IH]; intros v; [reflexivity|]. cbn [v_loop]. rewrite sh_pass. apply mapr_bind.
  intros [a [r|]]; cbn [fst snd]; [reflexivity|apply IH].
Qed.

(** What can be observed after a run *)
Definition vlike (a b : ReturnValue * vst T K) : Prop :=
  fst a = fst b /\ v_x (snd a) = v_x (snd b) /\ v_stats (snd a) = v_stats (snd b) /\ v_algo (snd a) = v_algo (snd b) /\ v_calls (snd a) = v_calls (snd b) ++ c0 /\
  (v_y (snd a) = v_y (snd b)).

(** Outcomes of two runs: undefined together, or related.  No LCQPow code. *)
Definition both {A B} (R : A -> B -> Prop) (a : res A) (b : res B) : Prop :=
  match a, b with Ok x, Ok y => R x y | UB u, UB w => u = w | _, _ => False end.

(** After the first QP two states can only differ in the stationarity vector *)
Lemma sh_stat_head st v : v_head p (w_stat st v) = v_head p v.
Proof. reflexivity. Qed.
Lemma stat_loop st fuel orc' rand' v : v_loop p fuel orc' rand' (w_stat st v) = v_loop p fuel orc' rand' v.
Proof. destruct fuel; [reflexivity|]. cbn [v_loop]. unfold v_pass. rewrite sh_stat_head. reflexivity. Qed.

Lemma sh_run fuel y0 gk yA pk st h qi fl v :
  both vlike (v_run p fuel orc rand y0 (stale gk yA pk st h qi fl (sh v))) (v_run p fuel orc1 rand1 y0 v).
Proof.
  unfold v_run.
  set (v1 := if o_solveZeroPenaltyFirst (p_opt p) then w_gk (p_g p) v else v_lin p v).
  assert (F : v_first p orc1 y0 v = let! '(r, v) := v_solve p orc1 true y0 v1 in
    if negb (is_success r) then Ok (v, Some r) else
    let v := w_h (p_setH p (v_rho v)) v in Ok (w_stats (snd (updateRhoOpt (v_rho v) (v_stats v))) v, None)) by reflexivity.
  rewrite F. clear F.
  set (v2 := w_yA yA (w_p pk (w_stat st (w_h h (w_qpit qi (w_flag fl v1)))))).
  assert (E : v_first p orc y0 (stale gk yA pk st h qi fl (sh v)) = let! '(r, v) := v_solve p orc true y0 (sh v2) in
    if negb (is_success r) then Ok (v, Some r) else
    let v := w_h (p_setH p (v_rho v)) v in Ok (w_stats (snd (updateRhoOpt (v_rho v) (v_stats v))) v, None)).
  { unfold v_first. assert (E : (if o_solveZeroPenaltyFirst (p_opt p) then w_gk (p_g p) (stale gk yA pk st h qi fl (sh v)) else v_lin p (stale gk yA pk st h qi fl (sh v))) = sh v2).
    { unfold v2, v1, stale. destruct (o_solveZeroPenaltyFirst (p_opt p)); cases. }
    rewrite E. reflexivity. }
  rewrite E. clear E. rewrite sh_solve.
  assert (S : v_solve p orc1 true y0 v2 = let! a := v_solve p orc1 true y0 v1 in
    Ok (if is_success (fst a) then (fst a, w_stat st (w_h h (snd a)))
        else (fst a, w_yA yA (w_p pk (w_stat st (w_h h (snd a))))))).
  { unfold v_solve. assert (Es : v_sub p orc1 true y0 v2 = v_sub p orc1 true y0 v1).
    { unfold v_sub. cbv zeta. destruct (p_solver p); [| |congruence]; reflexivity. }
    rewrite Es. cbv zeta. set (r := v_sub p orc1 true y0 v1).
    assert (Er : exists q f, sr_iter r = Some q /\ sr_flag r = Some f /\ sr_work r = v_work v1).
    { unfold r, v_sub. cbv zeta. destruct (p_solver p); [| |congruence]; do 2 eexists; cbn [sr_iter sr_flag sr_work]; auto. }
    destruct Er as (q & f & E1 & E2 & E3). unfold v_record. cbn [sr_ret sr_iter sr_flag sr_raw sr_calls sr_work]. rewrite E1, E2, E3.
    cbn [v_qpit v_flag v_stats w_qpit w_flag w_calls w_work get bind]. change (v_stats v2) with (v_stats v1).
    destruct (updateSubproblemIter q (v_stats v1)) as [[? s']|]; [|reflexivity]. cbn [bind].
    destruct (is_success (sr_ret r)) eqn:Sr; cbn [negb].
    - destruct (sr_raw r) as [raw|]; reflexivity.
    - cbn [bind fst]. rewrite Sr. reflexivity. }
  rewrite S. clear S. destruct (v_solve p orc1 true y0 v1) as [[r a]|]; cbn [mapr bind fst snd]; [|reflexivity].
  destruct (is_success r) eqn:Sr; cbn [fst snd negb bind]; rewrite ?Sr; cbn [negb bind].
  - set (b := w_stats (snd (updateRhoOpt (v_rho (w_h (p_setH p (v_rho a)) a)) (v_stats (w_h (p_setH p (v_rho a)) a)))) (w_h (p_setH p (v_rho a)) a)).
    match goal with |- context [v_loop p fuel orc rand ?z] => assert (Eb : z = sh (w_stat st b)) end.
    { unfold b. cases. }
    rewrite Eb. rewrite sh_loop. 
    rewrite stat_loop. destruct (v_loop p fuel orc1 rand1 b) as [[r' c]|]; cbn; [|reflexivity].
    unfold vlike. cbn [fst snd]. rewrite sh_x, sh_stats, sh_calls, sh_y, sh_algo. repeat split; reflexivity.
  - unfold vlike. cbn [both fst snd]. rewrite sh_x, sh_stats, sh_calls, sh_y, sh_algo. repeat split; reflexivity.
Qed.
End PureShift.
