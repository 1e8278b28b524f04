(** * ExactOps: the list-level loop on rational data produces a trace of frames (no LCQPow code). *)
From Coq Require Import QArith Qcanon.
From Verif Require Import Base Arith Codes Utilities Options Stats FileIO Subsolver State LCQProblem Tactics Loops Kernels Exact SpecSparse CscKernels CscBuild SpecMath QSum
  Pure PureFacts SpecLoad SpecExact SpecRun SpecTrace SpecSchedule PurePace.
Open Scope Z_scope.

Local Arguments Qc_ltb : simpl never.
Local Arguments Qc_leb : simpl never.

(** The operations [p] compute with the data [e]; [EH h rho]: [h] represents Q + rho C.  No LCQPow code. *)
Record exops {K} (p : ops xq K) (e : qdata) (EH : K -> Qc -> Prop) : Prop := mkExops {
  x_nV : p_nV p = e_nV e; x_nC : p_nC p = e_nC e; x_nComp : p_nComp p = e_nComp e;
  x_pV : 0 < e_nV e; x_pC : 0 <= e_nC e; x_pComp : 0 <= e_nComp e;
  x_len : len (e_g e) = e_nV e;
  x_box : p_box p = (0 <? p_off p); x_off : p_off p = 0 \/ p_off p = e_nV e;
  x_g : p_g p = fins (e_g e);
  x_gphi : match p_gphi p with
           | None => forall i, 0 <= i < e_nV e -> e_gphi e i = 0%Qc
           | Some l => l = fins (tab (e_nV e) (e_gphi e))
           end;
  x_phi : forall x, len x = e_nV e ->
    ((p_pc p + match p_gphi p with None => a_zero | Some gp => (a_zero + dot gp (fins x) (p_nV p))%num end)
      + p_quadC p (fins x) / a_two)%num = Fin (e_phi e x);
  x_setH : forall r, EH (p_setH p (Fin r)) r;
  x_updH : forall h r f, o_penaltyUpdateFactor (p_opt p) = Fin f -> f <> 0%Qc -> EH h r -> EH (p_updH p (Fin (r * f)%Qc) h) (r * f)%Qc;
  x_affH : forall h r x c, EH h r -> len x = e_nV e -> len c = e_nV e ->
    p_affH p h (fins x) (fins c) = fins (tab (e_nV e) (fun i => mv (e_H e r) (e_nV e) x i + qat c i)%Qc);
  x_quadH : forall h r x, EH h r -> len x = e_nV e -> p_quadH p h (fins x) = Fin (qform (e_H e r) (e_nV e) x);
  x_affC : forall r x c, len x = e_nV e -> len c = e_nV e ->
    p_affC p (Fin r) (fins x) (fins c) = fins (tab (e_nV e) (fun i => r * mv (e_C e) (e_nV e) x i + qat c i)%Qc);
  x_quadQ : forall x, len x = e_nV e -> p_quadQ p (fins x) = Fin (qform (e_Q e) (e_nV e) x);
  x_tA : forall y, len y = e_nA e -> p_tA p (fins y) = fins (tab (e_nV e) (fun j => tv (e_rows e) (e_nA e) y j));
  x_mulL : forall x, len x = e_nV e -> p_mulL p (fins x) = fins (tab (e_nComp e) (mv (e_L e) (e_nV e) x));
  x_mulR : forall x, len x = e_nV e -> p_mulR p (fins x) = fins (tab (e_nComp e) (mv (e_R e) (e_nV e) x)) }.

Lemma fins_inj a b : fins a = fins b -> a = b.
Proof.
  revert b. induction a as [|x a IH]; intros [|y b]; cbn; intros E; try discriminate; auto. injection E as -> E. f_equal. auto.
Qed.
Lemma tab_qat l m : len l = m -> tab m (qat l) = l.
Proof. intros <-. apply (tab_at 0%Qc). Qed.
Lemma fin_half a : (Fin a / a_two)%num = Fin (a * qhalf)%Qc.
Proof. unfold a_two. cbn [a_of_Z xq_arith]. rewrite fin_div by discriminate. reflexivity. Qed.
Lemma fins_cons a l : fins (a :: l) = Fin a :: fins l. Proof. reflexivity. Qed.

(** The recorded per-pass values *)
Definition lists (s : stats xq) : list (list xq) * list xq * list xq * list xq * list xq * list xq * list xq :=
  (st_xSteps s, st_stepLength s, st_stepSize s, st_statVals s, st_objVals s, st_phiVals s, st_meritVals s).

Section Run.
Context {K : Type}.
Variable p : ops xq K.
Variable e : qdata.
Variable EH : K -> Qc -> Prop.
Variable r0 fac : Qc.
Hypothesis X : exops p e EH.
Hypothesis Hpen : finite_penalty (p_opt p) r0 fac.
Let n := e_nV e.
Let nA := e_nA e.
Let off := p_off p.
Let zf := o_solveZeroPenaltyFirst (p_opt p).
Let pt := o_perturbStep (p_opt p).

Lemma pnA : p_nA p = nA.
Proof. unfold p_nA, nA, e_nA. rewrite (x_nC _ _ _ X), (x_nComp _ _ _ X). reflexivity. Qed.
Lemma pnD : p_nD p = off + nA.
Proof. unfold p_nD. rewrite pnA. reflexivity. Qed.

(** The state in terms of rationals: [k] penalty updates, iterate [x], multipliers [y], step length [a], direction [d] *)
Record St (v : vst xq K) (k : nat) (x y : list Qc) (a : Qc) (d : list Qc) : Prop := mkSt {
  s_rho' : v_rho v = Fin (t_rho r0 fac k);
  s_outer' : v_outer v = Z.of_nat k;
  s_alpha' : v_alpha v = Fin a;
  s_gt' : v_gt v = fins (tab n (t_lin e r0 fac k));
  s_x' : v_x v = fins x;
  s_y' : v_y v = fins y;
  s_yA' : v_yA v = fins (tab nA (fun i => qat y (off + i)));
  s_p' : v_p v = fins d;
  s_h' : EH (v_h v) (t_rho r0 fac k);
  s_lx : len x = n; s_ly : len y = off + nA; s_ld : len d = n }.

Ltac st := match goal with S : St _ _ _ _ _ _ |- _ => destruct S; constructor; cbn; auto end.

Lemma step_st v k x y a d : St v k x y a d -> St (v_step p v) k (tab n (fun i => qat x i + a * qat d i)%Qc) y a d.
Proof.
  intros S. pose proof (x_pV _ _ _ X). destruct S. constructor; cbn; auto.
  - rewrite s_x'0, s_alpha'0, s_p'0, (x_nV _ _ _ X). change a_one with (Fin 1). rewrite wadd_fin. f_equal. apply tab_ext. intros i Hi. ring.
  - apply len_tab. unfold n. lia.
Qed.

Lemma station_st v k x y a d : St v k x y a d ->
  St (v_station p v) k x y a d /\
  v_stat (v_station p v) = fins (tab n (fun j => mv (e_H e (t_rho r0 fac k)) n x j + t_lin e r0 fac k j - tv (e_rows e) nA (tab nA (fun i => qat y (off + i))) j
                  - (if 0 <? off then qat y j else 0))%Qc).
Proof.
  intros S. split; [st|]. pose proof (x_pV _ _ _ X). pose proof (x_pC _ _ _ X). pose proof (x_pComp _ _ _ X). destruct S. cbn.
  assert (NA : 0 <= nA) by (unfold nA, e_nA; lia).
  rewrite s_x'0, s_gt'0, s_yA'0, (x_nV _ _ _ X), (x_box _ _ _ X).
  rewrite (x_affH _ _ _ X _ _ _ _ s_h'0) by (auto; apply len_tab; unfold n; lia).
  rewrite (x_tA _ _ _ X) by (apply len_tab; auto). change a_one with (Fin 1). change (a_mone) with (Fin (- (1))%Qc). rewrite wadd_fin.
  fold off. destruct (0 <? off) eqn:Eo.
  - rewrite s_y'0, wadd_fin. f_equal. apply tab_ext. intros j Hj. fold n in Hj. fold n. rewrite !qat_tab by lia.
    fold nA. ring.
  - f_equal. apply tab_ext. intros j Hj. fold n in Hj. fold n. rewrite !qat_tab by lia. fold nA. ring.
Qed.

Lemma obj_st v k x y a d : St v k x y a d -> v_obj p v = Fin (e_obj e x).
Proof.
  intros S. destruct S. unfold v_obj. rewrite (x_g _ _ _ X), s_x'0, (x_nV _ _ _ X), dot_fin, (x_quadQ _ _ _ X), fin_half by auto. reflexivity.
Qed.
Lemma phi_st v k x y a d : St v k x y a d -> v_phi p v = Fin (e_phi e x).
Proof. intros S. destruct S. unfold v_phi. rewrite s_x'0. apply (x_phi _ _ _ X). auto. Qed.
Lemma merit_st v k x y a d : St v k x y a d -> v_merit p v = Fin (qdot n (e_g e) x + qform (e_H e (t_rho r0 fac k)) n x * qhalf)%Qc.
Proof.
  intros S. destruct S. unfold v_merit. rewrite (x_g _ _ _ X), s_x'0, (x_nV _ _ _ X), dot_fin, (x_quadH _ _ _ X _ _ _ s_h'0), fin_half by auto. reflexivity.
Qed.

Lemma rho_next k : (t_rho r0 fac k * fac)%Qc = t_rho r0 fac (S k).
Proof. unfold t_rho. cbn [Qcpower]. ring. Qed.

Lemma penalty_st v k x y a d v' : St v k x y a d -> v_penaltyStep p v = Ok v' -> St v' (S k) x y a d /\ lists (v_stats v') = lists (v_stats v).
Proof.
  intros Sv E. destruct Hpen as (H1 & H2 & H3). unfold v_penaltyStep in E. apply bind_ok in E. destruct E as (w & Ew & E). injection E as <-.
  apply f_outer in Ew. destruct Ew as (st & -> & r & Est).
  assert (L : lists st = lists (v_stats (v_penalty p v))).
  { unfold updateIterOuter in Est. destruct (1 <? 0); [congruence|]. apply bind_ok in Est. destruct Est as (z & _ & Est). injection Est as _ <-. reflexivity. }
  assert (L2 : lists (v_stats (v_penalty p v)) = lists (v_stats v)).
  { unfold v_penalty. destruct (p_gphi p), (0 <? _); cbn; unfold updateRhoOpt; destruct (a_le _ _); reflexivity. }
  split; [|cbn; congruence]. clear L L2 Est.
  pose proof (x_pV _ _ _ X). pose proof (x_gphi _ _ _ X) as G.
  destruct Sv.
  assert (R : (v_rho v * o_penaltyUpdateFactor (p_opt p))%num = Fin (t_rho r0 fac (S k))) by (rewrite s_rho'0, H2, fin_mul, rho_next; reflexivity).
  assert (HH : EH (p_updH p (Fin (t_rho r0 fac (S k))) (v_h v)) (t_rho r0 fac (S k))) by (rewrite <- rho_next; apply (x_updH _ _ _ X); auto).
  assert (O : v_outer (v_penalty p v) + 1 = Z.of_nat (S k)).
  { assert (v_outer (v_penalty p v) = v_outer v) as -> by (unfold v_penalty; destruct (p_gphi p), (0 <? _); reflexivity). lia. }
  constructor; cbn [v_rho v_outer v_alpha v_gt v_x v_y v_yA v_p v_h w_inner w_stats w_outer]; auto;
    unfold v_penalty; destruct (p_gphi p) as [gp|], (0 <? o_nDynamicPenalty (p_opt p));
    cbn [v_rho v_outer v_alpha v_gt v_x v_y v_yA v_p v_h w_gt w_h w_stats w_rho w_hist]; auto; rewrite ?R; auto.
  - rewrite G, (x_g _ _ _ X), (x_nV _ _ _ X). change a_one with (Fin 1). rewrite wadd_fin. f_equal. apply tab_ext. intros i Hi. rewrite qat_tab by auto.
    unfold t_lin. ring.
  - rewrite G, (x_g _ _ _ X), (x_nV _ _ _ X). change a_one with (Fin 1). rewrite wadd_fin. f_equal. apply tab_ext. intros i Hi. rewrite qat_tab by auto.
    unfold t_lin. ring.
  - rewrite s_gt'0. f_equal. apply tab_ext. intros i Hi. unfold t_lin. rewrite (G i Hi). destruct k; ring.
  - rewrite s_gt'0. f_equal. apply tab_ext. intros i Hi. unfold t_lin. rewrite (G i Hi). destruct k; ring.
Qed.

Lemma lin_st v k x y a d : St v k x y a d ->
  St (v_lin p v) k x y a d /\ v_gk (v_lin p v) = fins (tab n (fun i => t_rho r0 fac k * mv (e_C e) n x i + t_lin e r0 fac k i)%Qc).
Proof.
  intros S. split; [st|]. pose proof (x_pV _ _ _ X). destruct S. cbn. rewrite s_rho'0, s_x'0, s_gt'0, (x_affC _ _ _ X) by (auto; apply len_tab; unfold n; lia).
  f_equal. apply tab_ext. intros i Hi. rewrite qat_tab by auto. reflexivity.
Qed.

Lemma steplen_st v k x y a d : St v k x y a d -> St (v_steplen p v) k x y (t_len e r0 fac k x d) d.
Proof.
  intros S. pose proof (x_pV _ _ _ X). destruct S. constructor; cbn; auto.
  rewrite s_p'0, s_x'0, s_gt'0, (x_quadH _ _ _ X _ _ _ s_h'0) by auto. rewrite (x_affH _ _ _ X _ _ _ _ s_h'0) by (auto; apply len_tab; unfold n; lia).
  rewrite (x_nV _ _ _ X), dot_fin.
  match goal with |- context [qdot _ d (tab _ ?g)] => set (w := g) end.
  assert (Es : qdot (e_nV e) d (tab (e_nV e) w) = t_slope e r0 fac k x d).
  { unfold qdot, t_slope. fold n. apply qsum_ext. intros i Hi. rewrite qat_tab by auto. unfold w. fold n. rewrite qat_tab by auto. reflexivity. }
  rewrite Es. unfold t_len. fold (t_curv e r0 fac k d). change a_zero with (Fin 0). cbn [a_lt xq_arith x_lt].
  destruct (Qc_ltb 0 (t_curv e r0 fac k d)) eqn:E1; cbn [andb]; [|reflexivity].
  destruct (Qc_ltb (t_slope e r0 fac k x d) 0) eqn:E2; cbn [andb]; [|reflexivity].
  rewrite fin_neg, fin_div. 2: { intros C. rewrite C in E1. discriminate. }
  change a_one with (Fin 1). unfold std_min. cbn [a_lt xq_arith x_lt]. destruct (Qc_ltb 1 _); reflexivity.
Qed.

Lemma perturb_st rand v k x y a d : St v k x y a d -> exists x', St (v_perturb p rand v) k x' y a d /\ perturbed e x x'.
Proof.
  intros S. pose proof (x_pV _ _ _ X). destruct S.
  exists (tab n (fun i => qat x i + Q2Qc (inject_Z (rand (v_rnd v + Z.to_nat i)%nat mod 3 - 1)) * Qc_lit 2221 (-19))%Qc). split.
  - constructor; cbn; auto; [|apply len_tab; unfold n; lia]. rewrite s_x'0, (x_nV _ _ _ X), <- tab_fins. apply tab_ext. intros i Hi.
    change a_zero with (Fin 0). rewrite at_fins. reflexivity.
  - exists (fun i => rand (v_rnd v + Z.to_nat i)%nat mod 3 - 1). split; [|reflexivity]. intros i.
    pose proof (Z.mod_pos_bound (rand (v_rnd v + Z.to_nat i)%nat) 3 ltac:(lia)). lia.
Qed.

(** Outcome of one QP *)
Lemma solve_cases orc ini y0 v r v' : v_solve p orc ini y0 v = Ok (r, v') ->
  let c := v_call p ini (v_x v) y0 (v_gk v) in let a := orc (c :: v_calls v) in
  exists st q fl wk, let w := w_calls (c :: v_calls v) (w_work wk (w_stats st (w_qpit q (w_flag fl v)))) in
    lists st = lists (v_stats v) /\
    ((r <> SUCCESSFUL_RETURN /\ v' = w /\ (ini = true -> qp_error c a = Some r)) \/
     (r = SUCCESSFUL_RETURN /\ qp_error c a = None /\
      v' = w_p (wadd a_one (a_x p a) a_mone (v_x v) (p_nV p)) (w_yA (tab (p_nA p) (fun i => at_ a_zero (a_y p a) (p_off p + i))) (w_y (a_y p a) w)))).
Proof.
  intros E c a. unfold v_solve in E. set (sr := v_sub p orc ini y0 v) in *.
  assert (Q : sr_calls sr = c :: v_calls v /\ (sr_ret sr = SUCCESSFUL_RETURN -> sr_raw sr = Some a /\ qp_error c a = None) /\
    (sr_ret sr <> SUCCESSFUL_RETURN -> ini = true -> qp_error c a = Some (sr_ret sr))).
  { unfold sr, v_sub. fold c. fold a. unfold qp_error. destruct (p_solver p) eqn:Sol.
    - cbn. split; [reflexivity|]. rewrite Sol. destruct (q_ret a =? 0); split; intros R; auto; try congruence; discriminate.
    - cbn. split; [reflexivity|]. rewrite Sol. destruct (q_ret a =? 0); split; intros R; auto; try congruence; discriminate.
    - unfold osqp_setup_error. cbn [c v_call qc_solver qc_initial qc_x0 qc_y0]. rewrite Sol. cbv zeta.
      assert (G : given (if ini then Some (v_x v) else None) = ini) by (destruct ini; reflexivity). rewrite G, andb_diag.
      assert (G2 : ini && given (if ini then y0 else None) = ini && notNull y0) by (destruct ini, y0; reflexivity). rewrite G2.
      destruct (ini && q_wsx_fails a); [cbn; split; [reflexivity|split; [discriminate|reflexivity]]|].
      destruct (ini && notNull y0 && q_wsy_fails a); [cbn; split; [reflexivity|split; [discriminate|reflexivity]]|].
      destruct ini; cbn [andb negb].
      + destruct (q_work a); cbn; (split; [reflexivity|]); [|split; [discriminate|reflexivity]].
        destruct (q_ret a =? 0); cbn; [|split; [discriminate|reflexivity]]. destruct (Z.leb_spec (q_status a) 0); destruct (Z.ltb_spec 0 (q_status a)); try lia.
        * split; [discriminate|reflexivity].
        * split; [auto|congruence].
      + destruct (v_work v); cbn; (split; [reflexivity|]); [|split; discriminate].
        destruct (q_ret a =? 0); cbn; [|split; discriminate]. destruct (Z.leb_spec (q_status a) 0); [split; discriminate|]. split; [|discriminate].
        intros _. destruct (Z.ltb_spec 0 (q_status a)); [auto|lia]. }
  destruct Q as (QC & QR & QN).
  assert (RV : exists q fl, v_record sr v = w_calls (c :: v_calls v) (w_work (sr_work sr) (w_qpit q (w_flag fl v)))).
  { unfold v_record. rewrite QC. exists (match sr_iter sr with Some k => Some k | None => v_qpit v end), (match sr_flag sr with Some k => Some k | None => v_flag v end).
    clear QR QN E. clearbody sr. destruct (sr_iter sr), (sr_flag sr); destruct v; reflexivity. }
  destruct RV as (q & fl & RV). rewrite RV in E. clear RV.
  apply bind_ok in E. destruct E as (k & _ & E). apply bind_ok in E. destruct E as ([r1 st] & Es & E).
  apply bind_ok in E. destruct E as (f & _ & E).
  exists (updateQPSolverExitFlag f st), q, fl, (sr_work sr). cbv zeta.
  assert (L : lists st = lists (v_stats v)).
  { unfold updateSubproblemIter in Es. destruct (k <? 0); [injection Es as _ <-; reflexivity|]. apply bind_ok in Es. destruct Es as (z & _ & Es). injection Es as _ <-. reflexivity. }
  split; [exact L|]. destruct (is_success (sr_ret sr)) eqn:Su; cbn [negb] in E.
  - assert (Sr : sr_ret sr = SUCCESSFUL_RETURN) by (destruct (sr_ret sr); try discriminate; reflexivity). destruct (QR Sr) as (Ra & Qe).
    rewrite Ra in E. cbn [get bind] in E. injection E as <- <-. right. auto.
  - injection E as <- <-. assert (N : sr_ret sr <> SUCCESSFUL_RETURN) by (intros C; rewrite C in Su; discriminate). left. auto.
Qed.

Lemma neg_fin_inv (v : xq) q : (- v)%num = Fin q -> v = Fin (- q)%Qc.
Proof. destruct v; cbn; intros E; try discriminate. injection E as <-. f_equal. ring. Qed.

(** A finite answer as lists of rationals *)
Lemma answer_lists a : finite_answer n (off + nA) a -> exists z y,
  a_x p a = fins z /\ len z = n /\ a_y p a = fins y /\ len y = off + nA /\
  (forall i, 0 <= i < n -> q_x a i = Fin (qat z i)) /\
  (forall i, 0 <= i < off + nA -> q_y a i = Fin (match p_solver p with OSQP_SPARSE => - qat y i | _ => qat y i end)%Qc).
Proof.
  intros (F1 & F2). pose proof (x_pV _ _ _ X). pose proof (x_pC _ _ _ X). pose proof (x_pComp _ _ _ X). pose proof (x_off _ _ _ X).
  assert (P : 0 <= off + nA) by (unfold off, nA, e_nA; lia).
  set (fx := fun v : xq => match v with Fin q => q | _ => 0%Qc end).
  exists (tab n (fun i => fx (q_x a i))), (tab (off + nA) (fun i => match p_solver p with OSQP_SPARSE => - fx (q_y a i) | _ => fx (q_y a i) end)%Qc).
  split; [|split; [apply len_tab; unfold n; lia|split; [|split; [apply len_tab; auto|split]]]].
  - unfold a_x. rewrite (x_nV _ _ _ X), <- tab_fins. apply tab_ext. intros i Hi. destruct (F1 i Hi) as (q & ->). reflexivity.
  - unfold a_y. rewrite pnD, <- tab_fins. apply tab_ext. intros i Hi. destruct (F2 i Hi) as (q & Eq). destruct (p_solver p); rewrite Eq; reflexivity.
  - intros i Hi. rewrite qat_tab by auto. destruct (F1 i Hi) as (q & ->). reflexivity.
  - intros i Hi. rewrite qat_tab by auto. destruct (F2 i Hi) as (q & ->). cbn. destruct (p_solver p); auto. f_equal. ring.
Qed.

Lemma solve_st orc v k x y a d r v' : St v k x y a d -> v_gk v = fins (tab n (fun i => t_rho r0 fac k * mv (e_C e) n x i + t_lin e r0 fac k i)%Qc) ->
  v_solve p orc false None v = Ok (r, v') ->
  exists c, v_calls v' = c :: v_calls v /\ lists (v_stats v') = lists (v_stats v) /\
    qc_g c = fins (tab n (fun i => t_rho r0 fac k * mv (e_C e) n x i + t_lin e r0 fac k i)%Qc) /\
    ((r <> SUCCESSFUL_RETURN /\ St v' k x y a d) \/
     (r = SUCCESSFUL_RETURN /\ qp_error c (orc (c :: v_calls v)) = None /\
      (finite_answer n (off + nA) (orc (c :: v_calls v)) -> exists z y', 
        St v' k x y' a (tab n (fun i => qat z i - qat x i)%Qc) /\
        forall base al, f_answer e off (p_solver p) (mkFrame k x base z y' al) (orc (c :: v_calls v))))).
Proof.
  intros Sv G E. apply solve_cases in E. cbv zeta in E. set (c := v_call p false (v_x v) None (v_gk v)) in *.
  destruct E as (st & q & fl & wk & L & E). exists c.
  assert (Gc : qc_g c = v_gk v) by reflexivity. rewrite Gc, G. destruct E as [(N & -> & _)|(-> & Qe & ->)].
  - split; [reflexivity|]. split; [exact L|]. split; [reflexivity|]. left. split; auto. st.
  - split; [reflexivity|]. split; [exact L|]. split; [reflexivity|]. right. split; [reflexivity|]. split; [exact Qe|]. intros F.
    destruct (answer_lists _ F) as (z & y' & Ex & Lz & Ey & Ly & Qx & Qy). exists z, y'. split.
    + pose proof (x_pV _ _ _ X). destruct Sv. constructor; cbn [v_rho v_outer v_alpha v_gt v_x v_y v_yA v_p v_h w_p w_yA w_y w_calls w_work w_stats w_qpit w_flag]; auto.
      * rewrite pnA, Ey, <- tab_fins. apply tab_ext. intros i Hi. apply at_fins.
      * rewrite Ex, s_x'0, (x_nV _ _ _ X). change a_one with (Fin 1). change a_mone with (Fin (- (1))%Qc). rewrite wadd_fin. f_equal. apply tab_ext. intros i Hi. ring.
      * apply len_tab. unfold n. lia.
    + intros base al. unfold f_answer. cbn [f_z f_y]. auto.
Qed.

(** The recorded values are those of the frames *)
Definition recorded (tr : list frame) (s : stats xq) : Prop :=
  o_storeSteps (p_opt p) = true ->
  let l := rev tr in
  lists s = (map (fun f => fins (f_x e f)) l, map (fun f => Fin (f_a f)) l, map (fun f => maxabs (fins (f_d e f)) n) l,
    map (fun f => maxabs (fins (f_res e r0 fac off f)) n) l, map (fun f => Fin (e_obj e (f_x e f))) l, map (fun f => Fin (e_phi e (f_x e f))) l,
    map (fun f => Fin (qdot n (e_g e) (f_x e f) + qform (e_H e (t_rho r0 fac (f_k f))) n (f_x e f) * qhalf)%Qc) l).

(** [St] stated for a frame. No LCQPow code. *)
Definition Pst (v : vst xq K) (f : frame) : Prop := St v (f_k f) (f_base f) (f_y f) (f_a f) (f_d e f).

Lemma track_lists x ii k al sz sv ov pv mv_ m st st' : updateTrackingVectors (Some (lift x)) ii k al sz sv ov pv mv_ m st = Ok st' -> 0 <= m -> len x = m ->
  lists st' = (st_xSteps st ++ [x], st_stepLength st ++ [al], st_stepSize st ++ [sz], st_statVals st ++ [sv], st_objVals st ++ [ov], st_phiVals st ++ [pv], st_meritVals st ++ [mv_]).
Proof.
  intros E Hm Lx. unfold updateTrackingVectors in E. apply bind_ok in E. destruct E as (xs & Ex & E). apply bind_ok in E. destruct E as (ac & _ & E). injection E as <-.
  assert (xs = x) as ->; [|reflexivity].
  rewrite (for_seq _ (fun i => take i x) 0 m) in Ex; [|lia|].
  - rewrite <- Lx, take_all in Ex by lia. congruence.
  - intros i Hi. cbn [deref bind]. rewrite (rd_lift a_zero) by lia. cbn [bind]. rewrite (take_succ a_zero) by lia. reflexivity.
Qed.

Lemma head_st v f tr w : Pst v f -> recorded tr (v_stats v) -> v_head p v = Ok w ->
  exists k', St w k' (f_x e f) (f_y f) (f_a f) (f_d e f) /\ (f_k f <= k' <= f_k f + 1)%nat /\
    v_stat w = fins (f_res e r0 fac off f) /\ recorded (f :: tr) (v_stats w) /\ v_calls w = v_calls v /\
    (k' = f_k f \/ v_complOK p w = false).
Proof.
  intros Pv Rc E. pose proof (head_calls p _ _ E) as HC. unfold v_head in E. unfold Pst in Pv. pose proof (x_pV _ _ _ X).
  apply step_st in Pv. change (tab n (fun i => qat (f_base f) i + f_a f * qat (f_d e f) i)%Qc) with (f_x e f) in Pv.
  apply station_st in Pv. destruct Pv as (S1 & Es). change (tab n _) with (f_res e r0 fac off f) in Es.
  assert (Rc1 : recorded tr (v_stats (v_station p (v_step p v)))) by exact Rc. clear Rc.
  set (v1 := v_station p (v_step p v)) in *. clearbody v1.
  apply bind_ok in E. destruct E as (w1 & E1 & E). apply f_print in E1. subst w1.
  apply bind_ok in E. destruct E as (w2 & E2 & E).
  assert (Q2 : St w2 (f_k f) (f_x e f) (f_y f) (f_a f) (f_d e f) /\ v_stat w2 = fins (f_res e r0 fac off f) /\ recorded (f :: tr) (v_stats w2)).
  { destruct (o_storeSteps (p_opt p)) eqn:Sto.
    - unfold v_store in E2. apply bind_ok in E2. destruct E2 as (q & _ & E2). apply bind_ok in E2. destruct E2 as (st & Est & E2). injection E2 as <-.
      split; [st|]. split; [exact Es|]. cbn [v_stats w_stats].
      rewrite (obj_st _ _ _ _ _ _ S1), (phi_st _ _ _ _ _ _ S1), (merit_st _ _ _ _ _ _ S1), Es in Est. destruct S1. rewrite s_alpha'0, s_p'0, s_x'0, (x_nV _ _ _ X) in Est.
      apply track_lists in Est; [|lia|rewrite len_fins; auto]. intros _. rewrite Est. specialize (Rc1 Sto). unfold lists in Rc1. cbv zeta in Rc1.
      injection Rc1 as -> -> -> -> -> -> ->. cbn [rev]. rewrite !map_app. reflexivity.
    - injection E2 as <-. split; [auto|]. split; [auto|]. intros C. congruence. }
  destruct Q2 as (S2 & Es2 & Rc2). clear S1 Es Rc1 E2.
  apply bind_ok in E. destruct E as (w3 & E3 & E). apply f_total in E3. destruct E3 as (st & -> & r & Est).
  assert (L : lists st = lists (v_stats w2)).
  { unfold updateIterTotal in Est. destruct (1 <? 0); [congruence|]. apply bind_ok in Est. destruct Est as (z & _ & Est). injection Est as _ <-. reflexivity. }
  apply bind_ok in E. destruct E as (k1 & _ & E). match type of E with context [v_leyffer p ?x] => set (w4 := x) in * end.
  assert (S4 : St w4 (f_k f) (f_x e f) (f_y f) (f_a f) (f_d e f)) by (unfold w4; st).
  assert (Es4 : v_stat w4 = fins (f_res e r0 fac off f)) by exact Es2.
  assert (Rc4 : recorded (f :: tr) (v_stats w4)) by (unfold w4; cbn [v_stats w_inner w_stats]; unfold recorded; rewrite L; exact Rc2).
  clearbody w4. clear w2 S2 Es2 Rc2 st Est L.
  destruct (f_leyffer p w4) as (h & Eh).
  assert (Lb : fst (v_leyffer p w4) = true -> v_complOK p w4 = false).
  { unfold v_leyffer. destruct (_ <=? 0); [discriminate|]. destruct (_ <? _); [discriminate|]. destruct (v_complOK p w4); [discriminate|auto]. }
  destruct (v_leyffer p w4) as [b w5]. cbn [fst snd] in *. subst w5.
  apply bind_ok in E. destruct E as (w6 & E6 & E). injection E as <-.
  assert (S5 : St (w_hist h w4) (f_k f) (f_x e f) (f_y f) (f_a f) (f_d e f)) by st.
  destruct b.
  - pose proof E6 as E6'. apply (penalty_st _ _ _ _ _ _ _ S5) in E6. destruct E6 as (S6 & L6). exists (S (f_k f)).
    split; [apply lin_st; auto|]. split; [lia|]. split; [|split; [|split; [exact HC|]]].
    + cbn [v_stat v_lin w_gk]. unfold v_penaltyStep in E6'. apply bind_ok in E6'. destruct E6' as (w7 & E7 & E6'). injection E6' as <-.
      apply f_outer in E7. destruct E7 as (st & -> & _). cbn. unfold v_penalty. destruct (p_gphi p), (0 <? _); exact Es4.
    + cbn [v_stats v_lin w_gk]. unfold recorded. rewrite L6. exact Rc4.
    + right. unfold v_complOK in *. rewrite (phi_st _ _ _ _ _ _ S4) in Lb. rewrite (phi_st _ _ _ _ _ _ (proj1 (lin_st _ _ _ _ _ _ S6))). auto.
  - injection E6 as <-. exists (f_k f). split; [apply lin_st; auto|]. split; [lia|]. split; [exact Es4|]. split; [exact Rc4|]. split; [exact HC|]. auto.
Qed.

Variable orc : oracle xq.
Variable rand : nat -> Z.
Variable x0 : list Qc.
Hypothesis Lx0 : len x0 = n.
Let tracep := trace e r0 fac off zf pt (p_solver p) x0.
(** The answers given so far are finite. No LCQPow code. *)
Definition fin_calls (cs : list (qp_call xq)) : Prop := Forall (fun ca => finite_answer n (off + nA) (snd ca)) (answers orc cs []).

Lemma answers_cons c cs : answers orc (c :: cs) [] = (c, orc (c :: cs)) :: answers orc cs [].
Proof. cbn. rewrite app_nil_r. reflexivity. Qed.

Lemma tail_st w k f tr v' ex : St w k (f_x e f) (f_y f) (f_a f) (f_d e f) -> (f_k f <= k <= f_k f + 2)%nat ->
  tracep (f :: tr) (answers orc (v_calls w) []) -> recorded (f :: tr) (v_stats w) ->
  v_tail p orc rand w = Ok (v', ex) -> fin_calls (v_calls v') ->
  match ex with
  | None => exists f', tracep (f' :: f :: tr) (answers orc (v_calls v') []) /\ Pst v' f' /\ recorded (f :: tr) (v_stats v')
  | Some r => r <> SUCCESSFUL_RETURN /\ St v' k (f_x e f) (f_y f) (f_a f) (f_d e f) /\ recorded (f :: tr) (v_stats v') /\
      (v_calls v' = v_calls w \/ exists c, v_calls v' = c :: v_calls w /\
         qc_g c = fins (tab n (fun i => t_rho r0 fac k * mv (e_C e) n (f_x e f) i + t_lin e r0 fac k i)%Qc))
  end.
Proof.
  intros Sw Hk T Rc E F. unfold v_tail in E.
  destruct (_ <? _); [injection E as <- <-; split; [discriminate|auto]|].
  destruct (a_lt _ _); [injection E as <- <-; split; [discriminate|auto]|].
  apply bind_ok in E. destruct E as ([r w1] & Ew & E).
  destruct (lin_st _ _ _ _ _ _ Sw) as (Sl & Gl). apply (solve_st _ _ _ _ _ _ _ _ _ Sl Gl) in Ew. change (v_calls (v_lin p w)) with (v_calls w) in Ew.
  change (lists (v_stats (v_lin p w))) with (lists (v_stats w)) in Ew. destruct Ew as (c & Ec & L & Gc & [(N & S1)|(-> & Qe & S1)]).
  - destruct (is_success r) eqn:Su; [exfalso; apply N; destruct r; try discriminate; reflexivity|]. injection E as <- <-.
    split; [exact N|]. split; [exact S1|]. split; [unfold recorded; rewrite L; exact Rc|]. right. eauto.
  - cbn [is_success negb] in E. injection E as <- <-.
    set (w2 := if o_perturbStep (p_opt p) then v_perturb p rand w1 else w1) in *.
    assert (C2 : v_calls (v_steplen p w2) = c :: v_calls w) by (rewrite <- Ec; unfold w2; destruct (o_perturbStep _); reflexivity).
    assert (L2 : lists (v_stats (v_steplen p w2)) = lists (v_stats w)) by (rewrite <- L; unfold w2; destruct (o_perturbStep _); reflexivity).
    unfold fin_calls in F. rewrite C2, answers_cons in F. inversion F; subst. cbn [snd] in *.
    destruct (S1 ltac:(assumption)) as (z & y' & S2 & An).
    assert (B : exists base, St w2 k base y' (f_a f) (tab n (fun i => qat z i - qat (f_x e f) i)%Qc) /\
                 (if pt then perturbed e (f_x e f) base else base = f_x e f)).
    { unfold w2, pt. destruct (o_perturbStep _); [apply perturb_st; auto|]. eauto. }
    destruct B as (base & S3 & B). set (d := tab n (fun i => qat z i - qat (f_x e f) i)%Qc) in *.
    exists (mkFrame k (f_x e f) base z y' (t_len e r0 fac k base d)). split; [|split].
    + rewrite C2, answers_cons. apply tr_next; cbn [f_k f_prev f_base f_a]; auto.
    + unfold Pst. cbn [f_k f_base f_y f_a]. apply steplen_st with (a := f_a f). exact S3.
    + unfold recorded. rewrite L2. exact Rc.
Qed.

Let firstg : list xq := fins (tab n (fun i => if zf then qat (e_g e) i else t_rho r0 fac 0 * mv (e_C e) n x0 i + qat (e_g e) i)%Qc).
Lemma first_st y0 v ex : v_first p orc y0 (v_init p (fins x0)) = Ok (v, ex) -> fin_calls (v_calls v) ->
  match ex with
  | None => exists f, tracep [f] (answers orc (v_calls v) []) /\ Pst v f /\ recorded [] (v_stats v)
  | Some r => r <> SUCCESSFUL_RETURN /\ (exists c, v_calls v = [c] /\ qp_error c (orc [c]) = Some r /\ qc_g c = firstg) /\ v_x v = fins x0 /\ recorded [] (v_stats v)
  end.
Proof.
  intros E F. unfold v_first in E. set (w := if o_solveZeroPenaltyFirst (p_opt p) then _ else _) in *.
  pose proof (x_pV _ _ _ X). destruct Hpen as (H1 & H2 & H3).
  assert (R0 : t_rho r0 fac 0 = r0) by (unfold t_rho; cbn; ring).
  assert (Gw : v_gk w = fins (tab n (fun i => if zf then qat (e_g e) i else t_rho r0 fac 0 * mv (e_C e) n x0 i + qat (e_g e) i)%Qc)).
  { unfold w, zf. destruct (o_solveZeroPenaltyFirst _); cbn.
    - rewrite (x_g _ _ _ X). f_equal. symmetry. apply tab_qat. apply (x_len _ _ _ X).
    - rewrite (x_g _ _ _ X), H1, (x_affC _ _ _ X), R0 by (auto; apply (x_len _ _ _ X)). reflexivity. }
  assert (Iw : v_rho w = Fin r0 /\ v_outer w = 0 /\ v_alpha w = Fin 1 /\ v_gt w = fins (e_g e) /\ v_x w = fins x0 /\ v_calls w = [] /\ lists (v_stats w) = ([], [], [], [], [], [], [])).
  { unfold w. destruct (o_solveZeroPenaltyFirst _); cbn; rewrite (x_g _ _ _ X), H1; repeat split. }
  clearbody w. destruct Iw as (I1 & I2 & I3 & I4 & I5 & I6 & I7).
  apply bind_ok in E. destruct E as ([r v1] & Ev & E). apply solve_cases in Ev. cbv zeta in Ev. rewrite I6 in Ev. set (c := v_call p true (v_x w) y0 (v_gk w)) in *.
  destruct Ev as (st & q & fl & wk & L & [(N & Ev & Qn)|(-> & Qe & Ev)]).
  - destruct (is_success r) eqn:Su; [exfalso; apply N; destruct r; try discriminate; reflexivity|]. injection E as <- <-. subst v1. split; [exact N|].
    split; [exists c; split; [reflexivity|split; [apply Qn; reflexivity|exact Gw]]|]. split; [exact I5|]. intros _. cbn [v_stats w_calls w_work w_stats]. rewrite L, I7. reflexivity.
  - cbn [is_success negb] in E. injection E as <- <-.
    assert (C1 : v_calls v1 = [c]) by (subst v1; reflexivity).
    unfold fin_calls in F. cbn [v_calls w_stats w_h] in F. rewrite C1, answers_cons in F. inversion F; subst x l. cbn [snd] in *.
    destruct (answer_lists (orc [c]) ltac:(assumption)) as (z & y' & Ex & Lz & Ey & Ly & Qx & Qy).
    exists (mkFrame 0 x0 x0 z y' 1%Qc). split; [|split].
    + cbn [v_calls w_stats w_h]. rewrite C1, answers_cons. apply tr_first; cbn [f_k f_prev f_base f_a]; auto.
      split; [auto|]. split; [auto|]. split; auto.
    + unfold Pst. cbn [f_k f_base f_y f_a]. subst v1.
      constructor; cbn [v_rho v_outer v_alpha v_gt v_x v_y v_yA v_p v_h w_p w_yA w_y w_calls w_work w_stats w_qpit w_flag w_h]; auto; rewrite ?R0; auto.
      * rewrite I4. f_equal. unfold t_lin. symmetry. apply (tab_qat (e_g e)). apply (x_len _ _ _ X).
      * rewrite pnA, Ey, <- tab_fins. apply tab_ext. intros i Hi. apply at_fins.
      * rewrite Ex, I5, (x_nV _ _ _ X). change a_one with (Fin 1). change a_mone with (Fin (- (1))%Qc). rewrite wadd_fin.
        unfold f_d. cbn [f_z f_prev]. f_equal. apply tab_ext. intros i Hi. ring.
      * rewrite I1. apply (x_setH _ _ _ X).
      * unfold f_d. apply len_tab. lia.
    + intros _. subst v1. cbn [v_stats w_calls w_work w_stats w_h w_p w_yA w_y]. cbn [rev map].
      transitivity (lists st); [|rewrite L, I7; reflexivity]. unfold updateRhoOpt. destruct (a_le _ _); reflexivity.
Qed.

Lemma duals_st v k f : St v k (f_x e f) (f_y f) (f_a f) (f_d e f) -> k = f_k f -> v_y (v_duals p v) = fins (f_duals e r0 fac off f).
Proof.
  intros Sv ->. destruct Sv. unfold v_duals. cbn [v_y w_y]. rewrite s_x'0, s_rho'0, s_y'0, (x_mulL _ _ _ X), (x_mulR _ _ _ X), pnD by auto.
  unfold f_duals. fold nA. rewrite <- (tab_fins (off + nA)). apply tab_ext. intros i Hi. rewrite (x_nC _ _ _ X), (x_nComp _ _ _ X). fold off.
  change a_zero with (Fin 0). rewrite !at_fins.
  destruct ((off + e_nC e <=? i) && (i <? off + e_nC e + e_nComp e)) eqn:E1;
    destruct ((off + e_nC e + e_nComp e <=? i) && (i <? off + e_nC e + e_nComp e + e_nComp e)) eqn:E2;
    rewrite ?qat_tab, ?fin_mul, ?fin_sub by lia; f_equal; fold n; ring.
Qed.

(** The pairs the code treats as biactive *)
Definition weak (x : list Qc) : list Z :=
  let tol := o_complementarityTolerance (p_opt p) in
  filter (fun i => a_le (Fin (mv (e_L e) n x i)) tol && a_le (Fin (mv (e_R e) n x i)) tol) (tab (e_nComp e) (fun i => i)).
Lemma weak_st v k x y a d : St v k x y a d -> v_weak p v = weak x.
Proof.
  intros Sv. destruct Sv. unfold v_weak, weak. rewrite s_x'0, (x_mulL _ _ _ X), (x_mulR _ _ _ X), (x_nComp _ _ _ X) by auto.
  apply filter_ext_in. intros i Hi. apply in_tab in Hi. destruct Hi as (j & Hj & ->). change a_zero with (Fin 0). rewrite !at_fins, !qat_tab by auto. reflexivity.
Qed.
(** The phase of the rule after the passes of the frames *)
Definition phase_of (tr : list frame) : phase xq :=
  phase_from (p_opt p) [] (map (fun f => (Fin (e_phi e (f_x e f)), maxabs (fins (f_res e r0 fac off f)) n)) (rev tr)).
(** The number of updates in each frame is that of the rule *)
Fixpoint paced (tr : list frame) : Prop := match tr with [] => True | f :: tr => f_k f = ph_updates (phase_of tr) /\ paced tr end.
(** The option fits an int *)
Definition int_dyn : Prop := INT_MIN <= o_nDynamicPenalty (p_opt p) <= INT_MAX.
Lemma phase_of_cons f tr : phase_of (f :: tr) = after_pass (p_opt p) (phase_of tr) (Fin (e_phi e (f_x e f)), maxabs (fins (f_res e r0 fac off f)) n).
Proof. unfold phase_of, phase_from. cbn [rev]. rewrite map_app, fold_left_app. reflexivity. Qed.
(** What is known at the end of a run *)
Definition ended (r : ReturnValue) (v : vst xq K) : Prop :=
  (r <> SUCCESSFUL_RETURN /\ (exists c, v_calls v = [c] /\ qp_error c (orc [c]) = Some r /\ qc_g c = firstg) /\ v_x v = fins x0 /\ recorded [] (v_stats v)) \/
  exists f tr k cs, tracep (f :: tr) (answers orc cs []) /\
    (v_calls v = cs \/ exists c, v_calls v = c :: cs /\ r <> SUCCESSFUL_RETURN /\
       qc_g c = fins (tab n (fun i => t_rho r0 fac k * mv (e_C e) n (f_x e f) i + t_lin e r0 fac k i)%Qc)) /\
    v_rho v = Fin (t_rho r0 fac k) /\ v_outer v = Z.of_nat k /\ (f_k f <= k <= f_k f + 2)%nat /\
    v_x v = fins (f_x e f) /\ recorded (f :: tr) (v_stats v) /\
    (r <> SUCCESSFUL_RETURN -> v_y v = fins (f_y f)) /\
    (r = SUCCESSFUL_RETURN -> v_calls v = cs /\ k = f_k f /\ v_y v = fins (f_duals e r0 fac off f) /\
       a_lt (maxabs (fins (f_res e r0 fac off f)) n) (o_stationarityTolerance (p_opt p)) = true /\
       a_lt (Fin (e_phi e (f_x e f))) (o_complementarityTolerance (p_opt p)) = true /\
       v_algo v = Some (v_classify p (o_complementarityTolerance (p_opt p)) (fins (f_yA e off f)) (weak (f_x e f)) true true)) /\
    (int_dyn -> paced (f :: tr) /\ k = ph_updates (phase_of (f :: tr))).

Lemma pass_st v f tr v' ex : Pst v f -> tracep (f :: tr) (answers orc (v_calls v) []) -> recorded tr (v_stats v) ->
  (int_dyn -> paced (f :: tr) /\ v_phase p v (phase_of tr)) -> v_pass p orc rand v = Ok (v', ex) -> fin_calls (v_calls v') ->
  match ex with
  | None => exists f', tracep (f' :: f :: tr) (answers orc (v_calls v') []) /\ Pst v' f' /\ recorded (f :: tr) (v_stats v') /\
      (int_dyn -> paced (f' :: f :: tr) /\ v_phase p v' (phase_of (f :: tr)))
  | Some r => ended r v'
  end.
Proof.
  intros Pv T Rc Pc E F.
  assert (Vp : int_dyn -> v_phase p v' (phase_of (f :: tr))).
  { intros I. destruct (Pc I) as (_ & Pp). apply (pass_pace p I orc rand v _ v' ex Pp) in E. rewrite phase_of_cons.
    unfold Pst in Pv. apply step_st in Pv. change (tab n (fun i => qat (f_base f) i + f_a f * qat (f_d e f) i)%Qc) with (f_x e f) in Pv.
    rewrite (phi_st _ _ _ _ _ _ Pv) in E. apply station_st in Pv. destruct Pv as (_ & Es). change (tab n _) with (f_res e r0 fac off f) in Es. rewrite Es, (x_nV _ _ _ X) in E. exact E. }
  assert (Vk : int_dyn -> forall k, v_outer v' = Z.of_nat k -> paced (f :: tr) /\ k = ph_updates (phase_of (f :: tr))).
  { intros I k Ek. split; [apply Pc, I|]. destruct (Vp I) as [V1 _ _]. lia. }
  assert (Vf : int_dyn -> forall f', Pst v' f' -> paced (f' :: f :: tr) /\ v_phase p v' (phase_of (f :: tr))).
  { intros Hi f' P'. split; [|apply Vp, Hi]. destruct (Vk Hi (f_k f') (s_outer' _ _ _ _ _ _ P')) as (V1 & V2). split; [exact V2|exact V1]. }
  unfold v_pass in E. apply bind_ok in E. destruct E as (w & Ew & E).
  destruct (head_st _ _ _ _ Pv Rc Ew) as (k & Sw & Hk & Es & Rw & Cw & Hc).
  assert (Tl : forall w2 k2, St w2 k2 (f_x e f) (f_y f) (f_a f) (f_d e f) -> (f_k f <= k2 <= f_k f + 2)%nat -> v_calls w2 = v_calls v -> recorded (f :: tr) (v_stats w2) ->
    v_tail p orc rand w2 = Ok (v', ex) ->
    match ex with
    | None => exists f', tracep (f' :: f :: tr) (answers orc (v_calls v') []) /\ Pst v' f' /\ recorded (f :: tr) (v_stats v') /\
        (int_dyn -> paced (f' :: f :: tr) /\ v_phase p v' (phase_of (f :: tr)))
    | Some r => ended r v'
    end).
  { intros w2 k2 S2 H2 C2 R2 E2. pose proof (tail_st w2 k2 f tr v' ex S2 H2) as G. rewrite C2 in G. specialize (G T R2 E2 F). destruct ex as [r|].
    2: { destruct G as (f' & G1 & G2 & G3). exists f'. split; [exact G1|]. split; [exact G2|]. split; [exact G3|]. intros I. apply Vf; assumption. }
    destruct G as (N & S3 & R3 & C3). right. exists f, tr, k2, (v_calls v). destruct S3.
    split; [auto|]. split; [destruct C3 as [->|(c & -> & Gc)]; [auto|right; exists c; auto]|]. split; [auto|]. split; [auto|]. split; [auto|]. split; [auto|]. split; [auto|].
    split; [auto|]. split; [intros C; contradiction|]. intros I. apply Vk; assumption. }
  destruct (v_statOK p w) eqn:SO; [|apply (Tl w k); auto; lia].
  destruct (v_complOK p w) eqn:CO.
  - injection E as <- <-. assert (k = f_k f) as -> by (destruct Hc; [auto|congruence]).
    right. exists f, tr, (f_k f), (v_calls v). pose proof Sw as Sw'. destruct Sw'.
    assert (Fv : forall {Y} (g : vst xq K -> Y), True) by auto. clear Fv.
    unfold v_finish. cbn [v_calls v_rho v_outer v_x v_stats v_y v_algo w_stats w_algo]. cbn [v_duals v_calls v_rho v_outer v_x w_y].
    split; [auto|]. split; [auto|]. split; [auto|]. split; [auto|]. split; [lia|]. split; [auto|]. split; [exact Rw|]. split; [intros C; exfalso; apply C; reflexivity|].
    split; [|intros I; apply (Vk I); exact s_outer'0].
    intros _. split; [auto|]. split; [reflexivity|]. split; [apply (duals_st w (f_k f)); auto|]. split; [|split].
    + unfold v_statOK in SO. rewrite Es, (x_nV _ _ _ X) in SO. exact SO.
    + unfold v_complOK in CO. rewrite (phi_st _ _ _ _ _ _ Sw) in CO. exact CO.
    + change (v_yA (v_duals p w)) with (v_yA w). change (v_weak p (v_duals p w)) with (v_weak p w). rewrite (weak_st _ _ _ _ _ _ Sw), s_yA'0. reflexivity.
  - apply bind_ok in E. destruct E as (w2 & E2 & E). pose proof (penaltyStep_calls p _ _ E2) as C2. destruct (penalty_st _ _ _ _ _ _ _ Sw E2) as (S2 & L2).
    apply (Tl w2 (S k)); auto; [lia|congruence|]. unfold recorded. rewrite L2. exact Rw.
Qed.

Lemma fin_mono v v' : (v_calls v' = v_calls v \/ exists c, v_calls v' = c :: v_calls v) -> fin_calls (v_calls (v' : vst xq K)) -> fin_calls (v_calls (v : vst xq K)).
Proof.
  intros [E|(c & E)]; rewrite E; auto. unfold fin_calls. rewrite answers_cons. intros F. inversion F; auto.
Qed.

(** Every run has a trace *)
Lemma run_trace fuel y0 r v : v_run p fuel orc rand y0 (v_init p (fins x0)) = Ok (r, v) -> fin_calls (v_calls v) -> ended r v.
Proof.
  set (I := fun v => fin_calls (v_calls v) -> exists f tr, tracep (f :: tr) (answers orc (v_calls v) []) /\ Pst v f /\ recorded tr (v_stats v) /\ (int_dyn -> paced (f :: tr) /\ v_phase p v (phase_of tr))).
  set (F := fun r v => fin_calls (v_calls v) -> ended r v).
  intros E. apply (run_inv p orc rand y0 (v_init p (fins x0)) I F) in E; auto.
  - intros w r' E1 Fw. left. apply (first_st _ _ _ E1 Fw).
  - intros w E1 Fw. destruct (first_st _ _ _ E1 Fw) as (f & A1 & A2 & A3). exists f, []. split; [exact A1|]. split; [exact A2|]. split; [exact A3|].
    intros Hd. pose proof (first_pace p _ _ _ _ E1) as Vp. split; [|exact Vp]. split; [|exact Logic.I]. destruct A2. destruct Vp as [V1 _ _]. cbn in V1. unfold phase_of. cbn. lia.
  - intros w w' Iw E1 Fw. assert (Fw0 : fin_calls (v_calls w)). { apply (fin_mono w w'); auto. apply pass_calls in E1. destruct E1 as [|(? & ? & ?)]; eauto. }
    destruct (Iw Fw0) as (f & tr & A & B & C & D). destruct (pass_st _ _ _ _ _ B A C D E1 Fw) as (f' & ? & ? & ? & ?). exists f', (f :: tr). auto.
  - intros w w' r' Iw E1 Fw. assert (Fw0 : fin_calls (v_calls w)). { apply (fin_mono w w'); auto. apply pass_calls in E1. destruct E1 as [|(? & ? & ?)]; eauto. }
    destruct (Iw Fw0) as (f & tr & A & B & C & D). apply (pass_st _ _ _ _ _ B A C D E1 Fw).
Qed.
End Run.
