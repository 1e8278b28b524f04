(** * Lockstep: two list-level loops on the same rational problem stay in lockstep (no LCQPow code). *)
From Coq Require Import QArith Qcanon.
From Verif Require Import Base Arith Codes Utilities Options Stats FileIO Subsolver State LCQProblem Tactics Loops Kernels Exact SpecSparse CscKernels CscBuild SpecMath QSum
  Pure PureFacts SpecLoad SpecExact SpecRun SpecTrace SpecSolve SpecModes StartSparse ExactOps.
Open Scope Z_scope.
Local Arguments Qc_ltb : simpl never.
Local Arguments Qc_leb : simpl never.

(** All fields of the loop's state except Hessian and calls.  No LCQPow code. *)
Record Eqv {T K K'} (v : vst T K) (w : vst T K') : Prop := mkEqv {
  q_rho' : v_rho v = v_rho w; q_alpha' : v_alpha v = v_alpha w; q_gt' : v_gt v = v_gt w; q_gk' : v_gk v = v_gk w;
  q_x' : v_x v = v_x w; q_y' : v_y v = v_y w; q_yA' : v_yA v = v_yA w; q_p' : v_p v = v_p w; q_stat' : v_stat v = v_stat w;
  q_outer' : v_outer v = v_outer w; q_inner' : v_inner v = v_inner w; q_total' : v_total v = v_total w;
  q_qpit' : v_qpit v = v_qpit w; q_flag' : v_flag v = v_flag w; q_algo' : v_algo v = v_algo w; q_hist' : v_hist v = v_hist w;
  q_stats' : v_stats v = v_stats w; q_work' : v_work v = v_work w; q_rnd' : v_rnd v = v_rnd w }.

Lemma solve_qpoases {K} (p : ops xq K) orc ini y0 v : p_solver p <> OSQP_SPARSE ->
  v_solve p orc ini y0 v =
  (let calls := v_call p ini (v_x v) y0 (v_gk v) :: v_calls v in let a := orc calls in
   let! '(_, st) := updateSubproblemIter (q_iter a) (v_stats v) in
   let w := w_stats (updateQPSolverExitFlag (q_ret a) st) (w_flag (Some (q_ret a)) (w_qpit (Some (q_iter a)) (w_calls calls v))) in
   if q_ret a =? 0 then Ok (SUCCESSFUL_RETURN, w_p (wadd a_one (a_x p a) a_mone (v_x v) (p_nV p)) (w_yA (tab (p_nA p) (fun i => at_ a_zero (a_y p a) (p_off p + i))) (w_y (a_y p a) w)))
   else Ok (SUBPROBLEM_SOLVER_ERROR, w)).
Proof.
  intros N. unfold v_solve, v_sub, v_record. destruct (p_solver p) eqn:E; [| |contradiction]; cbn [sr_calls sr_iter sr_flag sr_work sr_ret sr_raw v_qpit w_flag w_qpit get bind v_stats w_calls w_work];
    (destruct (updateSubproblemIter _ _) as [[r st]|]; cbn [bind]; [|reflexivity]); cbv zeta; destruct (q_ret _ =? 0); destruct v; reflexivity.
Qed.

Section Lock.
Context {K1 K2 : Type}.
Variables (p1 : ops xq K1) (p2 : ops xq K2) (e : qdata) (EH1 : K1 -> Qc -> Prop) (EH2 : K2 -> Qc -> Prop) (r0 fac : Qc).
Hypothesis X1 : exops p1 e EH1.
Hypothesis X2 : exops p2 e EH2.
Hypothesis Hpen : finite_penalty (p_opt p1) r0 fac.
Hypothesis Hopt : exists s, p_opt p2 = with_solver s (p_opt p1).
Hypothesis S1 : p_solver p1 <> OSQP_SPARSE.
Hypothesis S2 : p_solver p2 <> OSQP_SPARSE.
Hypothesis Hoff : p_off p1 = p_off p2.
Hypothesis HlbA : p_lbA p1 = p_lbA p2.
Hypothesis HubA : p_ubA p1 = p_ubA p2.
Hypothesis Hlb : p_lb p1 = p_lb p2.
Hypothesis Hub : p_ub p1 = p_ub p2.
Let n := e_nV e.
Let m := e_nA e.
Hypothesis HH : exists M, mat_is n n M (p_matH p1) /\ mat_is n n M (p_matH p2).
Hypothesis HA : exists M, mat_is m n M (p_matA p1) /\ mat_is m n M (p_matA p2).
Variables (orc1 orc2 : oracle xq) (rand : nat -> Z).
Hypothesis Horc : same_answers n m orc1 orc2.

Lemma Hpen2 : finite_penalty (p_opt p2) r0 fac.
Proof. destruct Hopt as (s & ->). exact Hpen. Qed.
Let St1 := St p1 e EH1 r0 fac.
Let St2 := St p2 e EH2 r0 fac.

(** The invariant *)
Record LS (v : vst xq K1) (w : vst xq K2) k x y a d : Prop := mkLS {
  l_eq : Eqv v w; l_calls : Forall2 (same_qp n m) (v_calls v) (v_calls w); l_1 : St1 v k x y a d; l_2 : St2 w k x y a d }.

Lemma transfer v w k x y a d : Eqv v w -> St1 v k x y a d -> EH2 (v_h w) (t_rho r0 fac k) -> St2 w k x y a d.
Proof.
  intros [] [] H. constructor; try congruence. rewrite <- Hoff. congruence.
Qed.

Lemma ls_x v w k x y a d : LS v w k x y a d -> v_x w = fins x /\ len x = n /\ EH2 (v_h w) (t_rho r0 fac k).
Proof. intros L. destruct (l_2 _ _ _ _ _ _ _ L). auto. Qed.

Lemma call_same ini x y0 g : same_qp n m (v_call p1 ini x y0 g) (v_call p2 ini x y0 g).
Proof. unfold v_call. repeat split; cbn; auto. Qed.

Lemma nV12 : p_nV p1 = p_nV p2. Proof. rewrite (x_nV _ _ _ X1), (x_nV _ _ _ X2). reflexivity. Qed.
Lemma nC12 : p_nC p1 = p_nC p2. Proof. rewrite (x_nC _ _ _ X1), (x_nC _ _ _ X2). reflexivity. Qed.
Lemma nComp12 : p_nComp p1 = p_nComp p2. Proof. rewrite (x_nComp _ _ _ X1), (x_nComp _ _ _ X2). reflexivity. Qed.
Lemma nA12 : p_nA p1 = p_nA p2. Proof. unfold p_nA. rewrite nC12, nComp12. reflexivity. Qed.
Lemma nD12 : p_nD p1 = p_nD p2. Proof. unfold p_nD. rewrite nA12, Hoff. reflexivity. Qed.
Lemma ax12 a : a_x p1 a = a_x p2 a. Proof. unfold a_x. rewrite nV12. reflexivity. Qed.
Lemma ay12 a : a_y p1 a = a_y p2 a.
Proof. unfold a_y. rewrite nD12. destruct (p_solver p1), (p_solver p2); try contradiction; reflexivity. Qed.

(** Opens [LS] *)
Ltac op := repeat match goal with L : LS _ _ _ _ _ _ _ |- _ => destruct L as [QE QC Q1 Q2] end; repeat match goal with E : Eqv _ _ |- _ => destruct E end.
(** Fields after an update *)
Ltac eqv := constructor; cbn [v_rho v_alpha v_gt v_gk v_x v_y v_yA v_p v_stat v_h v_outer v_inner v_total v_qpit v_flag v_algo v_hist v_stats v_work v_calls v_rnd
   w_rho w_alpha w_gt w_gk w_x w_y w_yA w_p w_stat w_h w_outer w_inner w_total w_qpit w_flag w_algo w_hist w_stats w_work w_calls w_rnd]; auto.

Lemma step_ls v w k x y a d : LS v w k x y a d -> LS (v_step p1 v) (v_step p2 w) k (tab n (fun i => qat x i + a * qat d i)%Qc) y a d.
Proof.
  intros L. pose proof (step_st _ _ _ _ _ X1 _ _ _ _ _ _ (l_1 _ _ _ _ _ _ _ L)) as T1. pose proof (step_st _ _ _ _ _ X2 _ _ _ _ _ _ (l_2 _ _ _ _ _ _ _ L)) as T2.
  op. constructor; auto. unfold v_step in *. eqv. rewrite nV12. congruence.
Qed.
Lemma station_ls v w k x y a d : LS v w k x y a d -> LS (v_station p1 v) (v_station p2 w) k x y a d.
Proof.
  intros L. pose proof (station_st _ _ _ _ _ X1 _ _ _ _ _ _ (l_1 _ _ _ _ _ _ _ L)) as (T1 & U1). pose proof (station_st _ _ _ _ _ X2 _ _ _ _ _ _ (l_2 _ _ _ _ _ _ _ L)) as (T2 & U2).
  op. constructor; auto. rewrite <- Hoff in U2. constructor; auto; try (unfold v_station; cbn; congruence). congruence.
Qed.
Lemma phi12 v w k x y a d : LS v w k x y a d -> v_phi p1 v = v_phi p2 w.
Proof. intros [? ? l_3 l_4]. rewrite (phi_st _ _ _ _ _ X1 _ _ _ _ _ _ l_3), (phi_st _ _ _ _ _ X2 _ _ _ _ _ _ l_4). reflexivity. Qed.
Lemma obj12 v w k x y a d : LS v w k x y a d -> v_obj p1 v = v_obj p2 w.
Proof. intros [? ? l_3 l_4]. rewrite (obj_st _ _ _ _ _ X1 _ _ _ _ _ _ l_3), (obj_st _ _ _ _ _ X2 _ _ _ _ _ _ l_4). reflexivity. Qed.
Lemma merit12 v w k x y a d : LS v w k x y a d -> v_merit p1 v = v_merit p2 w.
Proof. intros [? ? l_3 l_4]. rewrite (merit_st _ _ _ _ _ X1 _ _ _ _ _ _ l_3), (merit_st _ _ _ _ _ X2 _ _ _ _ _ _ l_4). reflexivity. Qed.
Lemma compl12 v w k x y a d : LS v w k x y a d -> v_complOK p1 v = v_complOK p2 w.
Proof. intros L. unfold v_complOK. rewrite (phi12 _ _ _ _ _ _ _ L). destruct Hopt as (s & ->). reflexivity. Qed.
Lemma stat12 v w k x y a d : LS v w k x y a d -> v_statOK p1 v = v_statOK p2 w.
Proof. intros L. unfold v_statOK. rewrite (q_stat' _ _ (l_eq _ _ _ _ _ _ _ L)), nV12. destruct Hopt as (s & ->). reflexivity. Qed.

Lemma rho_stats (v : vst xq K1) (w : vst xq K2) : Eqv v w ->
  snd (updateRhoOpt (v_rho v * o_penaltyUpdateFactor (p_opt p1))%num (v_stats v)) = snd (updateRhoOpt (v_rho w * o_penaltyUpdateFactor (p_opt p2))%num (v_stats w)).
Proof. intros []. destruct Hopt as (s & ->). cbn [with_solver o_penaltyUpdateFactor]. congruence. Qed.
(** What a penalty update does to the other fields *)
Lemma penalty_fields {K} (p : ops xq K) v :
  v_gk (v_penalty p v) = v_gk v /\ v_stat (v_penalty p v) = v_stat v /\ v_inner (v_penalty p v) = v_inner v /\ v_total (v_penalty p v) = v_total v /\
  v_qpit (v_penalty p v) = v_qpit v /\ v_flag (v_penalty p v) = v_flag v /\ v_algo (v_penalty p v) = v_algo v /\
  v_hist (v_penalty p v) = (if 0 <? o_nDynamicPenalty (p_opt p) then [] else v_hist v) /\
  v_stats (v_penalty p v) = snd (updateRhoOpt (v_rho v * o_penaltyUpdateFactor (p_opt p))%num (v_stats v)) /\
  v_work (v_penalty p v) = v_work v /\ v_rnd (v_penalty p v) = v_rnd v /\ v_outer (v_penalty p v) = v_outer v.
Proof. unfold v_penalty. destruct (0 <? _), (p_gphi p); repeat split. Qed.

Lemma penalty_ls v w k x y a d v' : LS v w k x y a d -> v_penaltyStep p1 v = Ok v' -> exists w', v_penaltyStep p2 w = Ok w' /\ LS v' w' (S k) x y a d.
Proof.
  intros L E. pose proof (penalty_st _ _ _ _ _ X1 Hpen _ _ _ _ _ _ _ (l_1 _ _ _ _ _ _ _ L) E) as (T1 & _).
  pose proof (penaltyStep_calls _ _ _ E) as C1.
  pose proof (rho_stats _ _ (l_eq _ _ _ _ _ _ _ L)) as RS.
  destruct (penalty_fields p1 v) as (F1 & F2 & F3 & F4 & F5 & F6 & F7 & F8 & F9 & F10 & F11 & F12).
  destruct (penalty_fields p2 w) as (G1 & G2 & G3 & G4 & G5 & G6 & G7 & G8 & G9 & G10 & G11 & G12).
  assert (EO : o_nDynamicPenalty (p_opt p2) = o_nDynamicPenalty (p_opt p1)) by (destruct Hopt as (s & ->); reflexivity).
  unfold v_penaltyStep, v_outerIter in E. rewrite F9, F12 in E.
  assert (exists w', v_penaltyStep p2 w = Ok w') as (w' & E').
  { unfold v_penaltyStep, v_outerIter. rewrite G9, G12, <- RS, <- (q_outer' _ _ (l_eq _ _ _ _ _ _ _ L)).
    apply bind_ok in E. destruct E as (v1 & E & _). apply bind_ok in E. destruct E as (z & -> & E). cbn [bind]. apply bind_ok in E. destruct E as ([r st] & -> & E). cbn [bind]. eauto. }
  exists w'. split; [exact E'|].
  pose proof (penalty_st _ _ _ _ _ X2 Hpen2 _ _ _ _ _ _ _ (l_2 _ _ _ _ _ _ _ L) E') as (T2 & _).
  pose proof (penaltyStep_calls _ _ _ E') as C2.
  unfold v_penaltyStep, v_outerIter in E'. rewrite G9, G12, <- RS, <- (q_outer' _ _ (l_eq _ _ _ _ _ _ _ L)) in E'.
  apply bind_ok in E. destruct E as (v1 & E & E1). apply bind_ok in E. destruct E as (z & Ez & E). apply bind_ok in E. destruct E as ([r st] & Es & E). injection E as <-. injection E1 as <-.
  rewrite Ez in E'. cbn [bind] in E'. rewrite Es in E'. cbn [bind] in E'. injection E' as <-.
  op. constructor; [|rewrite C1, C2; exact QC|exact T1|exact T2]. unfold St1, St2 in *. destruct T1, T2.
  constructor; try congruence; 
    cbn [v_gk v_stat v_inner v_total v_qpit v_flag v_algo v_hist v_stats v_work v_rnd w_inner w_stats w_outer]; try congruence.
  - rewrite s_yA', s_yA'0, Hoff. reflexivity.
  - rewrite F8, G8, EO, q_hist'0. reflexivity.
Qed.

Lemma lin_ls v w k x y a d : LS v w k x y a d -> LS (v_lin p1 v) (v_lin p2 w) k x y a d.
Proof.
  intros L. pose proof (lin_st _ _ _ _ _ X1 _ _ _ _ _ _ (l_1 _ _ _ _ _ _ _ L)) as (T1 & U1). pose proof (lin_st _ _ _ _ _ X2 _ _ _ _ _ _ (l_2 _ _ _ _ _ _ _ L)) as (T2 & U2).
  op. constructor; auto. constructor; auto. congruence.
Qed.

(** The part of [v_leyffer] that does not depend on the problem *)
Definition ley (nd : Z) (eta phi : xq) (ok : bool) (h : list xq) : bool * list xq :=
  let n := to_size_t nd in
  if n <=? 0 then (false, h) else if len h <? n then (false, h ++ [phi]) else if ok then (false, tl h ++ [phi]) else
  (negb (existsb (fun x => a_lt phi (eta * x)%num) (firstn (Z.to_nat n) h)), tl h ++ [phi]).
Lemma leyffer_eq {K} (p : ops xq K) v : v_leyffer p v =
  (let bh := ley (o_nDynamicPenalty (p_opt p)) (o_etaDynamicPenalty (p_opt p)) (v_phi p v) (v_complOK p v) (v_hist v) in (fst bh, w_hist (snd bh) v)).
Proof.
  unfold v_leyffer, ley. destruct (_ <=? 0); [destruct v; reflexivity|]. destruct (_ <? _); [reflexivity|]. destruct (v_complOK p v); reflexivity.
Qed.

(** Updates of fields that [St] does not mention *)
Ltac keep L := let T1 := fresh "T1" in let T2 := fresh "T2" in
  pose proof (l_1 _ _ _ _ _ _ _ L) as T1; pose proof (l_2 _ _ _ _ _ _ _ L) as T2; op;
  constructor; [eqv; try congruence|auto|destruct T1; constructor; auto|destruct T2; constructor; auto].

Lemma head_ls v w k x y a d v' : LS v w k x y a d -> v_head p1 v = Ok v' ->
  exists w' k' x', v_head p2 w = Ok w' /\ LS v' w' k' x' y a d.
Proof.
  intros L E. unfold v_head in E. apply step_ls in L. apply station_ls in L. unfold v_head.
  set (v1 := v_station p1 (v_step p1 v)) in *. set (w1 := v_station p2 (v_step p2 w)) in *. clearbody v1 w1. set (x1 := tab n _) in L. clearbody x1.
  destruct Hopt as (s & Eo).
  assert (EP : v_print p2 w1 = let! _ := v_print p1 v1 in Ok w1).
  { unfold v_print. rewrite Eo. cbn [with_solver o_printLevel]. rewrite <- (q_qpit' _ _ (l_eq _ _ _ _ _ _ _ L)). destruct (o_printLevel (p_opt p1)); try reflexivity.
    destruct (v_qpit v1); reflexivity. }
  rewrite EP. clear EP. apply bind_ok in E. destruct E as (v2 & E1 & E). rewrite E1. cbn [bind]. apply f_print in E1. subst v2.
  apply bind_ok in E. destruct E as (v2 & E2 & E).
  assert (exists w2, (if o_storeSteps (p_opt p2) then v_store p2 w1 else Ok w1) = Ok w2 /\ LS v2 w2 k x1 y a d) as (w2 & E2' & L2).
  { rewrite Eo. cbn [with_solver o_storeSteps]. destruct (o_storeSteps (p_opt p1)); [|injection E2 as <-; eauto].
    unfold v_store in *. rewrite <- (phi12 _ _ _ _ _ _ _ L), <- (obj12 _ _ _ _ _ _ _ L), <- (merit12 _ _ _ _ _ _ _ L), <- nV12.
    apply bind_ok in E2. destruct E2 as (q & Eq & E2). apply bind_ok in E2. destruct E2 as (st & Est & E2). injection E2 as <-. pose proof (l_eq _ _ _ _ _ _ _ L) as Q. destruct Q.
    rewrite <- q_qpit'0, Eq. cbn [bind]. rewrite <- q_x'0, <- q_inner'0, <- q_alpha'0, <- q_p'0, <- q_stat'0, <- q_stats'0, Est. cbn [bind]. eexists. split; [reflexivity|]. keep L. }
  rewrite E2'. cbn [bind]. clear E2 E2' L v1 w1.
  apply bind_ok in E. destruct E as (v3 & E3 & E). unfold v_totalIter in *. apply bind_ok in E3. destruct E3 as (z & Ez & E3). apply bind_ok in E3. destruct E3 as ([r st] & Es & E3). injection E3 as <-.
  rewrite <- (q_total' _ _ (l_eq _ _ _ _ _ _ _ L2)), <- (q_stats' _ _ (l_eq _ _ _ _ _ _ _ L2)), Ez. cbn [bind]. rewrite Es. cbn [bind].
  assert (L3 : LS (w_stats st (w_total z v2)) (w_stats st (w_total z w2)) k x1 y a d) by (keep L2).
  clear L2 Ez Es. set (v3 := w_stats st (w_total z v2)) in *. set (w3 := w_stats st (w_total z w2)) in *. clearbody v3 w3. clear v2 w2.
  apply bind_ok in E. destruct E as (k1 & Ek & E). rewrite <- (q_inner' _ _ (l_eq _ _ _ _ _ _ _ L3)), Ek. cbn [bind].
  assert (L4 : LS (w_inner k1 v3) (w_inner k1 w3) k x1 y a d) by (keep L3).
  clear L3. set (v4 := w_inner k1 v3) in *. set (w4 := w_inner k1 w3) in *. clearbody v4 w4. clear v3 w3 Ek.
  rewrite leyffer_eq in E. rewrite leyffer_eq. rewrite <- (phi12 _ _ _ _ _ _ _ L4), <- (compl12 _ _ _ _ _ _ _ L4), <- (q_hist' _ _ (l_eq _ _ _ _ _ _ _ L4)).
  rewrite Eo. cbn [with_solver o_nDynamicPenalty o_etaDynamicPenalty]. destruct (ley _ _ _ _ _) as [b h]. cbv zeta in E |- *. cbn [fst snd] in E |- *.
  assert (L5 : LS (w_hist h v4) (w_hist h w4) k x1 y a d) by (keep L4).
  apply bind_ok in E. destruct E as (v6 & E6 & E). injection E as <-. destruct b.
  - destruct (penalty_ls _ _ _ _ _ _ _ _ L5 E6) as (w6 & E6' & L6). rewrite E6'. cbn [bind]. exists (v_lin p2 w6), (S k), x1. split; [reflexivity|]. apply lin_ls. exact L6.
  - injection E6 as <-. cbn [bind]. exists (v_lin p2 (w_hist h w4)), k, x1. split; [reflexivity|]. apply lin_ls. exact L5.
Qed.

Lemma weak12 v w k x y a d : LS v w k x y a d -> v_weak p1 v = v_weak p2 w.
Proof.
  intros []. rewrite (weak_st _ _ _ _ _ X1 _ _ _ _ _ _ l_3), (weak_st _ _ _ _ _ X2 _ _ _ _ _ _ l_4). unfold weak. destruct Hopt as (s & ->). reflexivity.
Qed.
Lemma classify12 tol y w s t : v_classify p1 tol y w s t = v_classify p2 tol y w s t.
Proof. revert s t. induction w as [|i w IH]; intros; [reflexivity|]. cbn [v_classify]. rewrite nC12, nComp12, !IH. reflexivity. Qed.
Lemma finish_eqv v w k x y a d : LS v w k x y a d -> Eqv (v_finish p1 v) (v_finish p2 w) /\ Forall2 (same_qp n m) (v_calls (v_finish p1 v)) (v_calls (v_finish p2 w)).
Proof.
  intros L. pose proof (weak12 _ _ _ _ _ _ _ L) as W. unfold v_finish.
  assert (EQ : v_classify p1 (o_complementarityTolerance (p_opt p1)) (v_yA (v_duals p1 v)) (v_weak p1 (v_duals p1 v)) true true
             = v_classify p2 (o_complementarityTolerance (p_opt p2)) (v_yA (v_duals p2 w)) (v_weak p2 (v_duals p2 w)) true true).
  { change (v_yA (v_duals p1 v)) with (v_yA v). change (v_yA (v_duals p2 w)) with (v_yA w). change (v_weak p1 (v_duals p1 v)) with (v_weak p1 v). change (v_weak p2 (v_duals p2 w)) with (v_weak p2 w).
    rewrite W, classify12, (q_yA' _ _ (l_eq _ _ _ _ _ _ _ L)). destruct Hopt as (s & ->). reflexivity. }
  rewrite EQ. set (al := v_classify p2 _ _ _ _ _). clearbody al. split; [|exact (l_calls _ _ _ _ _ _ _ L)].
  assert (EY : v_y (v_duals p1 v) = v_y (v_duals p2 w)).
  { destruct (ls_x _ _ _ _ _ _ _ L) as (EX & LX & _). op. unfold v_duals. cbn [v_y w_y]. rewrite nD12, nC12, nComp12, Hoff, q_y'0, q_rho'0, q_x'0.
    rewrite EX. rewrite !(x_mulL _ _ _ X1), !(x_mulL _ _ _ X2), !(x_mulR _ _ _ X1), !(x_mulR _ _ _ X2) by auto. reflexivity. }
  op. constructor; auto; cbn [v_duals v_stats w_y w_stats w_algo]; try congruence; cbn; congruence.
Qed.

(** The answers given to the first run are finite. No LCQPow code. *)
Definition fin1 (cs : list (qp_call xq)) : Prop := Forall (fun ca => finite_answer n (p_off p1 + m) (snd ca)) (answers orc1 cs []).
Lemma fin1_cons c cs : fin1 (c :: cs) <-> finite_answer n (p_off p1 + m) (orc1 (c :: cs)) /\ fin1 cs.
Proof. unfold fin1. rewrite answers_cons. split; [intros F; inversion F; auto|intros []; constructor; auto]. Qed.
Lemma fin1_app l cs : fin1 (l ++ cs) -> fin1 cs.
Proof. induction l; auto. cbn. intros F. apply fin1_cons in F. tauto. Qed.

Lemma solve_ls v w k x y a d r v' : LS v w k x y a d -> v_gk v = fins (tab n (fun i => t_rho r0 fac k * mv (e_C e) n x i + t_lin e r0 fac k i)%Qc) ->
  v_solve p1 orc1 false None v = Ok (r, v') -> fin1 (v_calls v') ->
  exists w', v_solve p2 orc2 false None w = Ok (r, w') /\ exists y' d', LS v' w' k x y' a d'.
Proof.
  intros L G E F. pose proof (solve_st _ _ _ _ _ X1 _ _ _ _ _ _ _ _ _ (l_1 _ _ _ _ _ _ _ L) G E) as (c & Ec & _ & _ & U).
  assert (EX : v_x v = v_x w /\ v_gk v = v_gk w /\ v_stats v = v_stats w) by (op; auto). destruct EX as (EX & EG & ES).
  rewrite solve_qpoases in E by exact S1. rewrite solve_qpoases by exact S2. cbv zeta in E |- *.
  assert (FC : Forall2 (same_qp n m) (v_call p1 false (v_x v) None (v_gk v) :: v_calls v) (v_call p2 false (v_x w) None (v_gk w) :: v_calls w)).
  { constructor; [|apply (l_calls _ _ _ _ _ _ _ L)]. rewrite EX, EG. apply call_same. }
  rewrite <- (Horc _ _ FC), <- ES. set (c1 := v_call p1 _ _ _ _) in *. set (c2 := v_call p2 _ _ _ _) in *. set (an := orc1 (c1 :: v_calls v)) in *.
  apply bind_ok in E. destruct E as ([q st] & Es & E). rewrite Es. cbn [bind].
  pose proof (l_1 _ _ _ _ _ _ _ L) as T1. pose proof (l_2 _ _ _ _ _ _ _ L) as T2.
  destruct (q_ret an =? 0) eqn:Eq.
  - apply (f_equal (fun z => match z with Ok (r', v0) => (r', v0) | _ => (r, v') end)) in E. injection E as <- <-. eexists. split; [reflexivity|].
    destruct U as [(N & _)|(_ & _ & U)]; [congruence|].
    assert (Ec' : c = c1) by (injection Ec; auto). subst c. fold an in U.
    destruct U as (z & y' & T1' & _). { cbn in F. apply fin1_cons in F. apply F. }
    exists y', (tab n (fun i => qat z i - qat x i)%Qc).
    assert (Q : Eqv (w_p (wadd a_one (a_x p1 an) a_mone (v_x v) (p_nV p1)) (w_yA (tab (p_nA p1) (fun i => at_ a_zero (a_y p1 an) (p_off p1 + i))) (w_y (a_y p1 an)
        (w_stats (updateQPSolverExitFlag (q_ret an) st) (w_flag (Some (q_ret an)) (w_qpit (Some (q_iter an)) (w_calls (c1 :: v_calls v) v)))))))
      (w_p (wadd a_one (a_x p2 an) a_mone (v_x w) (p_nV p2)) (w_yA (tab (p_nA p2) (fun i => at_ a_zero (a_y p2 an) (p_off p2 + i))) (w_y (a_y p2 an)
        (w_stats (updateQPSolverExitFlag (q_ret an) st) (w_flag (Some (q_ret an)) (w_qpit (Some (q_iter an)) (w_calls (c2 :: v_calls w) w)))))))).
    { rewrite <- ax12, <- ay12, <- nV12, <- nA12, <- Hoff, <- EX. op. eqv. }
    constructor; [exact Q|exact FC|exact T1'|]. apply (transfer _ _ _ _ _ _ _ Q T1'). apply (ls_x _ _ _ _ _ _ _ L).
  - apply (f_equal (fun z => match z with Ok (r', v0) => (r', v0) | _ => (r, v') end)) in E. injection E as <- <-. eexists. split; [reflexivity|]. exists y, d.
    op. constructor; [eqv|exact FC|destruct T1; constructor; auto|destruct T2; constructor; auto].
Qed.

Lemma steplen_ls v w k x y a d : LS v w k x y a d -> exists a', LS (v_steplen p1 v) (v_steplen p2 w) k x y a' d.
Proof.
  intros L. pose proof (steplen_st _ _ _ _ _ X1 _ _ _ _ _ _ (l_1 _ _ _ _ _ _ _ L)) as T1. pose proof (steplen_st _ _ _ _ _ X2 _ _ _ _ _ _ (l_2 _ _ _ _ _ _ _ L)) as T2.
  exists (t_len e r0 fac k x d). op. constructor; auto. constructor; auto. unfold St1, St2 in *. destruct T1, T2. congruence.
Qed.
Lemma perturb_ls v w k x y a d : LS v w k x y a d -> exists x', LS (v_perturb p1 rand v) (v_perturb p2 rand w) k x' y a d.
Proof.
  intros L. pose proof (perturb_st _ _ _ _ _ X1 rand _ _ _ _ _ _ (l_1 _ _ _ _ _ _ _ L)) as (x' & T1 & _). exists x'.
  assert (Q : Eqv (v_perturb p1 rand v) (v_perturb p2 rand w)). { op. unfold v_perturb. rewrite nV12. eqv; rewrite ?q_rnd'0, ?q_x'0; reflexivity. }
  constructor; [exact Q|exact (l_calls _ _ _ _ _ _ _ L)|exact T1|]. apply (transfer _ _ _ _ _ _ _ Q T1). apply (ls_x _ _ _ _ _ _ _ L).
Qed.

Lemma tail_ls v w k x y a d v' ex : LS v w k x y a d -> v_tail p1 orc1 rand v = Ok (v', ex) -> fin1 (v_calls v') ->
  exists w', v_tail p2 orc2 rand w = Ok (w', ex) /\ exists k' x' y' a' d', LS v' w' k' x' y' a' d'.
Proof.
  intros L E F. unfold v_tail in *. destruct Hopt as (s & Eo). rewrite Eo. cbn [with_solver o_maxIterations o_maxPenaltyParameter o_perturbStep].
  rewrite <- (q_total' _ _ (l_eq _ _ _ _ _ _ _ L)), <- (q_rho' _ _ (l_eq _ _ _ _ _ _ _ L)).
  destruct (_ <? _); [injection E as <- <-; exists w; split; [reflexivity|eauto 10]|].
  destruct (a_lt _ _); [injection E as <- <-; exists w; split; [reflexivity|eauto 10]|].
  apply bind_ok in E. destruct E as ([r v1] & E1 & E). pose proof (lin_ls _ _ _ _ _ _ _ L) as L1.
  pose proof (lin_st _ _ _ _ _ X1 _ _ _ _ _ _ (l_1 _ _ _ _ _ _ _ L)) as (_ & G).
  assert (F1 : fin1 (v_calls v1)). { destruct (negb (is_success r)); injection E as <- <-; [exact F|]. destruct (o_perturbStep _); exact F. }
  destruct (solve_ls _ _ _ _ _ _ _ _ _ L1 G E1 F1) as (w1 & E1' & y' & d' & L2). rewrite E1'. cbn [bind].
  destruct (negb (is_success r)); injection E as <- <-.
  - exists w1. split; [reflexivity|]. eauto 10.
  - eexists. split; [reflexivity|]. destruct (o_perturbStep (p_opt p1)).
    + destruct (perturb_ls _ _ _ _ _ _ _ L2) as (x' & L3). destruct (steplen_ls _ _ _ _ _ _ _ L3) as (a' & L4). eauto 10.
    + destruct (steplen_ls _ _ _ _ _ _ _ L2) as (a' & L4). eauto 10.
Qed.

(** What both runs have in common at the end *)
Definition Fin2 (v : vst xq K1) (w : vst xq K2) : Prop := Eqv v w /\ Forall2 (same_qp n m) (v_calls v) (v_calls w).

Lemma pass_ls v w k x y a d v' ex : LS v w k x y a d -> v_pass p1 orc1 rand v = Ok (v', ex) -> fin1 (v_calls v') ->
  exists w', v_pass p2 orc2 rand w = Ok (w', ex) /\ Fin2 v' w' /\ (ex = None -> exists k' x' y' a' d', LS v' w' k' x' y' a' d').
Proof.
  intros L E F. unfold v_pass in *. apply bind_ok in E. destruct E as (v1 & E1 & E). destruct (head_ls _ _ _ _ _ _ _ _ L E1) as (w1 & k1 & x1 & E1' & L1). rewrite E1'. cbn [bind].
  rewrite <- (stat12 _ _ _ _ _ _ _ L1), <- (compl12 _ _ _ _ _ _ _ L1).
  assert (TL : forall v2 w2 k2 x2, LS v2 w2 k2 x2 y a d -> v_tail p1 orc1 rand v2 = Ok (v', ex) ->
    exists w', v_tail p2 orc2 rand w2 = Ok (w', ex) /\ Fin2 v' w' /\ (ex = None -> exists k' x' y' a' d', LS v' w' k' x' y' a' d')).
  { intros v2 w2 k2 x2 L2 E2. destruct (tail_ls _ _ _ _ _ _ _ _ _ L2 E2 F) as (w' & E' & k' & x' & y' & a' & d' & L'). exists w'. split; [exact E'|]. split; [|eauto 10].
    split; [apply (l_eq _ _ _ _ _ _ _ L')|apply (l_calls _ _ _ _ _ _ _ L')]. }
  destruct (v_statOK p1 v1); [|apply (TL v1 _ k1 x1); auto]. destruct (v_complOK p1 v1).
  - injection E as <- <-. eexists. split; [reflexivity|]. split; [apply (finish_eqv _ _ _ _ _ _ _ L1)|discriminate].
  - apply bind_ok in E. destruct E as (v2 & E2 & E). destruct (penalty_ls _ _ _ _ _ _ _ _ L1 E2) as (w2 & E2' & L2). rewrite E2'. cbn [bind]. apply (TL v2 _ (S k1) x1); auto.
Qed.

Lemma loop_calls fuel v r v' : v_loop p1 fuel orc1 rand v = Ok (r, v') -> exists l, v_calls v' = l ++ v_calls v.
Proof.
  intros E. apply (loop_inv p1 orc1 rand (fun u => exists l, v_calls u = l ++ v_calls v) (fun _ u => exists l, v_calls u = l ++ v_calls v)) in E; auto.
  - intros u u' (l & El) P. apply pass_calls in P. destruct P as [->|(g & ? & ->)]; eauto. rewrite El. eexists (_ :: l). reflexivity.
  - intros u u' q (l & El) P. apply pass_calls in P. destruct P as [->|(g & ? & ->)]; eauto. rewrite El. eexists (_ :: l). reflexivity.
  - exists []. reflexivity.
Qed.

Lemma loop_ls fuel : forall v w k x y a d r v', LS v w k x y a d -> v_loop p1 fuel orc1 rand v = Ok (r, v') -> fin1 (v_calls v') ->
  exists w', v_loop p2 fuel orc2 rand w = Ok (r, w') /\ Fin2 v' w'.
Proof.
  induction fuel as [|fuel IH]; intros v w k x y a d r v' L E F; [discriminate|]. cbn [v_loop] in *. apply bind_ok in E. destruct E as ([v1 ex] & E1 & E).
  assert (F1 : fin1 (v_calls v1)).
  { destruct ex; [injection E as <- <-; exact F|]. apply loop_calls in E. destruct E as (l & El). rewrite El in F. apply fin1_app in F. exact F. }
  destruct (pass_ls _ _ _ _ _ _ _ _ _ L E1 F1) as (w1 & E1' & Fi & Nx). rewrite E1'. cbn [bind]. destruct ex as [r'|].
  - injection E as <- <-. eauto.
  - destruct (Nx eq_refl) as (k' & x' & y' & a' & d' & L'). eapply IH; eauto.
Qed.

Variable x0 : list Qc.
Hypothesis Lx0 : len x0 = n.
Lemma first_ls y0 v ex : v_first p1 orc1 y0 (v_init p1 (fins x0)) = Ok (v, ex) -> fin1 (v_calls v) ->
  exists w, v_first p2 orc2 y0 (v_init p2 (fins x0)) = Ok (w, ex) /\ Fin2 v w /\ (ex = None -> exists k x y a d, LS v w k x y a d).
Proof.
  intros E F. pose proof (first_st _ _ _ _ _ X1 Hpen orc1 x0 Lx0 _ _ _ E F) as U. unfold v_first in *.
  destruct Hopt as (s & Eo). destruct Hpen as (P1 & P2 & P3).
  set (v0 := if o_solveZeroPenaltyFirst (p_opt p1) then _ else _) in E. set (w0 := if o_solveZeroPenaltyFirst (p_opt p2) then _ else _).
  assert (Q0 : Eqv v0 w0 /\ v_calls v0 = [] /\ v_calls w0 = [] /\ v_rho v0 = Fin r0).
  { assert (Qi : Eqv (v_init p1 (fins x0)) (v_init p2 (fins x0))).
    { unfold v_init. rewrite nV12, nA12, (x_g _ _ _ X1), (x_g _ _ _ X2), Eo. constructor; reflexivity. }
    unfold v0, w0. rewrite Eo. cbn [with_solver o_solveZeroPenaltyFirst]. rewrite (x_g _ _ _ X1), (x_g _ _ _ X2).
    split; [|split; [|split]].
    - destruct (o_solveZeroPenaltyFirst (p_opt p1)).
      + destruct Qi. eqv.
      + unfold v_lin. destruct Qi. eqv. rewrite <- q_rho'0, <- q_gt'0. cbn [v_init v_rho v_gt v_x]. rewrite (x_g _ _ _ X1), P1.
        rewrite (x_affC _ _ _ X1), (x_affC _ _ _ X2) by (auto; apply (x_len _ _ _ X1)). reflexivity.
    - destruct (o_solveZeroPenaltyFirst (p_opt p1)); reflexivity.
    - destruct (o_solveZeroPenaltyFirst (p_opt p1)); reflexivity.
    - destruct (o_solveZeroPenaltyFirst (p_opt p1)); exact P1. }
  clearbody v0 w0. destruct Q0 as (Q0 & C1 & C2 & R0). apply bind_ok in E. destruct E as ([r v1] & E1 & E).
  rewrite solve_qpoases in E1 by exact S1. rewrite solve_qpoases by exact S2. cbv zeta in E1 |- *.
  assert (FC : Forall2 (same_qp n m) (v_call p1 true (v_x v0) y0 (v_gk v0) :: v_calls v0) (v_call p2 true (v_x w0) y0 (v_gk w0) :: v_calls w0)).
  { rewrite C1, C2. destruct Q0. constructor; [|constructor]. rewrite q_x'0, q_gk'0. apply call_same. }
  rewrite <- (Horc _ _ FC), <- (q_stats' _ _ Q0). set (c1 := v_call p1 _ _ _ _) in *. set (c2 := v_call p2 _ _ _ _) in *. set (an := orc1 (c1 :: v_calls v0)) in *.
  apply bind_ok in E1. destruct E1 as ([q st] & Es & E1). rewrite Es. cbn [bind].
  destruct (q_ret an =? 0) eqn:Eq.
  - apply (f_equal (fun z => match z with Ok (r', u) => (r', u) | _ => (r, v1) end)) in E1. injection E1 as <- <-. cbn [is_success negb] in E |- *. cbn [bind].
    injection E as <- <-. eexists. split; [reflexivity|].
    destruct U as (f & _ & Pf & _). unfold Pst in Pf.
    match goal with |- Fin2 ?v ?w /\ _ => assert (Q : Eqv v w) end.
    { rewrite <- ax12, <- ay12, <- nV12, <- nA12, <- Hoff. destruct Q0. eqv; try congruence.
      rewrite q_x'0. reflexivity. }
    split; [split; [exact Q|exact FC]|]. intros _. exists (f_k f), (f_base f), (f_y f), (f_a f), (f_d e f).
    constructor; [exact Q|exact FC|exact Pf|]. apply (transfer _ _ _ _ _ _ _ Q Pf).
    cbn [v_h w_h w_stats w_p w_yA w_y v_rho w_flag w_qpit w_calls]. pose proof (s_rho' _ _ _ _ _ _ _ _ _ _ _ Pf) as ER. cbn [v_rho w_h w_stats w_p w_yA w_y w_flag w_qpit w_calls] in ER. rewrite <- (q_rho' _ _ Q0), ER. apply (x_setH _ _ _ X2).
  - apply (f_equal (fun z => match z with Ok (r', u) => (r', u) | _ => (r, v1) end)) in E1. injection E1 as <- <-. cbn [is_success negb] in E |- *. cbn [bind].
    injection E as <- <-. eexists. split; [reflexivity|]. split; [|discriminate]. split; [destruct Q0; eqv|exact FC].
Qed.

Lemma run_ls fuel y0 r v : v_run p1 fuel orc1 rand y0 (v_init p1 (fins x0)) = Ok (r, v) -> fin1 (v_calls v) ->
  exists w, v_run p2 fuel orc2 rand y0 (v_init p2 (fins x0)) = Ok (r, w) /\ Fin2 v w.
Proof.
  intros E F. unfold v_run in *. apply bind_ok in E. destruct E as ([v1 ex] & E1 & E).
  assert (F1 : fin1 (v_calls v1)).
  { destruct ex; [injection E as <- <-; exact F|]. apply loop_calls in E. destruct E as (l & El). rewrite El in F. apply fin1_app in F. exact F. }
  destruct (first_ls _ _ _ E1 F1) as (w1 & E1' & Fi & Nx). rewrite E1'. cbn [bind]. destruct ex as [r'|].
  - injection E as <- <-. eauto.
  - destruct (Nx eq_refl) as (k' & x' & y' & a' & d' & L'). eapply loop_ls; eauto.
Qed.
End Lock.
