(** * Swap: the list-level loop does not see the order of the two sides of complementarity (no LCQPow code). *)
From Coq Require Import QArith Qcanon.
From Verif Require Import Base Arith Codes Utilities Options Stats FileIO Subsolver State LCQProblem Tactics Loops Kernels
  Pure PureFacts SpecLoad SpecSwap Refine CscBuild.
Open Scope Z_scope.

Lemma other_lo a b k : k < a -> other a b k = k.
Proof. intros. unfold other. destruct (Z.ltb_spec k a); lia. Qed.
Lemma other_mid a b k : a <= k < a + b -> other a b k = k + b.
Proof. intros. unfold other. destruct (Z.ltb_spec k a); [lia|]. destruct (Z.ltb_spec k (a + b)); lia. Qed.
Lemma other_hi a b k : 0 <= b -> a + b <= k -> other a b k = k - b.
Proof. intros. unfold other. destruct (Z.ltb_spec k a); [lia|]. destruct (Z.ltb_spec k (a + b)); lia. Qed.

Section Swap.
Context {T : Type} `{Arith T} {K : Type}.
Variables (p : ops T K) (mA : qp_mat T) (lA uA : list T) (tA : list T -> list T) (P : T -> Prop) (rand : nat -> Z).
(** The problem with exchanged sides *)
Let p' : ops T K :=
  mkOps T K (p_opt p) (p_solver p) (p_nV p) (p_nC p) (p_nComp p) (p_off p) (p_box p) (p_g p) (p_gphi p) (p_pc p) (p_matH p) mA lA uA
    (p_lb p) (p_ub p) (p_setH p) (p_updH p) (p_affH p) (p_quadH p) (p_affC p) (p_quadC p) (p_quadQ p) tA (p_mulR p) (p_mulL p).
Let n := p_nV p.
Let b := p_off p.
Let nC := p_nC p.
Let m := p_nComp p.
Hypothesis (Hb : 0 <= p_off p) (Ho : p_box p = true -> p_nV p <= p_off p) (Hc : 0 <= p_nC p) (Hm : 0 <= p_nComp p).
Hypothesis (HmA : exchanged_rows n nC m (p_matA p) mA) (HlA : exchanged nC m (p_lbA p) lA) (HuA : exchanged nC m (p_ubA p) uA).
Hypothesis (HtA : forall y y', exchanged nC m y y' -> tA y' = p_tA p y).
Hypothesis (Pneg : forall a, P a -> P (- a)%num) (Pmin : forall a b, P a -> P b -> std_min a b = std_min b a) (Mul : forall a b : T, (a * b = b * a)%num).

(** Related states: duals exchanged, QPs exchanged, all else equal.  No LCQPow code. *)
Definition Rel (v w : vst T K) : Prop := exists c y yA, w = w_calls c (w_yA yA (w_y y v)) /\
  Forall2 (exchanged_qp n b nC m) (v_calls v) c.
(** After a solved QP.  No LCQPow code. *)
Definition RelL (v w : vst T K) : Prop := exists c y yA, w = w_calls c (w_yA yA (w_y y v)) /\
  Forall2 (exchanged_qp n b nC m) (v_calls v) c /\ exchanged (b + nC) m (v_y v) y /\ exchanged nC m (v_yA v) yA /\
  (forall k, 0 <= k < nC + 2 * m -> P (at_ a_zero (v_yA v) k)).
Lemma RelL_Rel v w : RelL v w -> Rel v w.
Proof. intros (c & y & yA & E & F & _). exists c, y, yA. auto. Qed.

Variables (orc orc' : oracle T).
Hypothesis (HO : indifferent n b nC m orc orc').
Hypothesis (HP : forall h k, 0 <= k < b + nC + 2 * m -> P (q_y (orc h) k)).

Lemma sub_sw ini y0 y0' v w : (ini = true -> exchanged_opt (b + nC) m y0 y0') -> Rel v w -> exists h h',
  Forall2 (exchanged_qp n b nC m) h h' /\ exchanged_answer n b nC m (orc h) (orc' h') /\
  exists ret k f wk raw, (raw = true \/ is_success ret = false) /\
    v_sub p orc ini y0 v = mkSubRes ret k f wk (if raw then Some (orc h) else None) h /\
    v_sub p' orc' ini y0' w = mkSubRes ret k f wk (if raw then Some (orc' h') else None) h'.
Proof.
  intros HY (c & y & yA & -> & F).
  assert (F' : Forall2 (exchanged_qp n b nC m) (v_call p ini (v_x v) y0 (v_gk v) :: v_calls v) (v_call p' ini (v_x v) y0' (v_gk v) :: c)).
  { constructor; auto. constructor; try reflexivity; auto. cbn. destruct ini; auto. exact I. }
  pose proof (HO _ _ F') as A. eexists. eexists. split; [exact F'|]. split; [exact A|]. destruct A as [Er Ei Es Ew Ex0 Ey0 Ex Ey].
  assert (SS : p_solver p' = p_solver p) by reflexivity. unfold v_sub. rewrite SS. cbn [v_x w_calls w_yA w_y v_gk v_calls v_work v_stats].
  set (h := v_call p ini (v_x v) y0 (v_gk v) :: v_calls v) in *. set (h' := v_call p' ini (v_x v) y0' (v_gk v) :: c) in *.
  assert (EN : ini && notNull y0' = ini && notNull y0).
  { destruct ini; [|reflexivity]. specialize (HY eq_refl). destruct y0, y0'; try contradiction; reflexivity. }
  cbv zeta. rewrite Er, Ei, Es, Ew, Ex0, Ey0. clear SS HY. clearbody h h'. destruct (p_solver p).
  - do 4 eexists. exists true. split; [|split; reflexivity]. left; reflexivity.
  - do 4 eexists. exists true. split; [|split; reflexivity]. left; reflexivity.
  - destruct (ini && q_wsx_fails (orc h)); [do 4 eexists; exists false; split; [|split; reflexivity]; right; reflexivity|].
    rewrite EN. destruct (ini && notNull y0 && q_wsy_fails (orc h)); [do 4 eexists; exists false; split; [|split; reflexivity]; right; reflexivity|].
    destruct (negb _); [do 4 eexists; exists false; split; [|split; reflexivity]; right; reflexivity|].
    do 4 eexists. exists true. split; [|split; reflexivity]. left; reflexivity.
Qed.

Lemma solve_sw ini y0 y0' v w : (ini = true -> exchanged_opt (b + nC) m y0 y0') -> Rel v w ->
  sim (fun a b => fst b = fst a /\ Rel (snd a) (snd b) /\ (fst a = SUCCESSFUL_RETURN -> RelL (snd a) (snd b)))
    (v_solve p orc ini y0 v) (v_solve p' orc' ini y0' w).
Proof.
  intros HY R. destruct (sub_sw ini y0 y0' v w HY R) as (h & h' & F & [Er Ei Es Ew Ex0 Ey0 Ex Ey] & ret & k & f & wk & raw & HR & E1 & E2).
  destruct R as (c & y & yA & -> & _). unfold v_solve. rewrite E1, E2. cbv zeta.
  set (v1 := v_record (mkSubRes ret k f wk (if raw then Some (orc h) else None) h) v).
  set (w1 := v_record (mkSubRes ret k f wk (if raw then Some (orc' h') else None) h') (w_calls c (w_yA yA (w_y y v)))).
  assert (EW : w1 = w_calls h' (w_yA yA (w_y y v1))) by (unfold v1, w1, v_record; destruct k, f, v; reflexivity).
  assert (EV : v_calls v1 = h) by (unfold v1, v_record; destruct k, f, v; reflexivity).
  assert (EX : v_x v1 = v_x v) by (unfold v1, v_record; destruct k, f, v; reflexivity).
  clearbody v1 w1. subst w1. cbn [v_qpit v_flag v_stats w_calls w_y w_yA sr_ret sr_raw].
  destruct (v_qpit v1) as [q|]; [|reflexivity]. cbn [get bind]. destruct (updateSubproblemIter q (v_stats v1)) as [[? st]|]; [|reflexivity]. cbn [bind].
  destruct (v_flag v1) as [fl|]; [|reflexivity]. cbn [get bind].
  destruct (is_success ret) eqn:ES; cbn [negb].
  2: { split; [reflexivity|]. split; [|cbn; intros ->; discriminate]. exists h', y, yA. split; [destruct v1; reflexivity|]. cbn [snd w_stats v_calls]. rewrite EV. exact F. }
  destruct HR as [->|]; [|discriminate]. cbn [get bind sim].
  assert (EXx : a_x p' (orc' h') = a_x p (orc h)) by (apply tab_ext; intros; apply Ex; auto).
  assert (EY : exchanged (b + nC) m (a_y p (orc h)) (a_y p' (orc' h'))).
  { unfold a_y, p_nD, p_nA. cbn [p' p_off p_nC p_nComp p_solver]. fold b nC m. split; [rewrite len_tab; lia|]. split; [rewrite len_tab; lia|]. intros i Hi.
    assert (0 <= other (b + nC) m i < b + nC + 2 * m) by (unfold other; destruct (Z.ltb_spec i (b + nC)); [lia|]; destruct (Z.ltb_spec i (b + nC + m)); lia).
    rewrite !at_tab by lia. destruct (p_solver p); [| |f_equal]; apply Ey; lia. }
  assert (EYA : exchanged nC m (tab (p_nA p) (fun i => at_ a_zero (a_y p (orc h)) (p_off p + i))) (tab (p_nA p) (fun i => at_ a_zero (a_y p' (orc' h')) (p_off p + i)))).
  { unfold p_nA. fold b nC m. split; [rewrite len_tab; lia|]. split; [rewrite len_tab; lia|]. intros i Hi.
    assert (0 <= other nC m i < nC + 2 * m) by (unfold other; destruct (Z.ltb_spec i nC); [lia|]; destruct (Z.ltb_spec i (nC + m)); lia).
    rewrite !at_tab by lia. destruct EY as (_ & _ & EY). rewrite EY by lia. f_equal.
    unfold other. destruct (Z.ltb_spec i nC); [rewrite (proj2 (Z.ltb_lt _ _)) by lia; reflexivity|].
    rewrite (proj2 (Z.ltb_ge (b + i) (b + nC))) by lia. destruct (Z.ltb_spec i (nC + m)); [rewrite (proj2 (Z.ltb_lt _ _)) by lia; lia|rewrite (proj2 (Z.ltb_ge _ _)) by lia; lia]. }
  assert (EP : forall i, 0 <= i < nC + 2 * m -> P (at_ a_zero (tab (p_nA p) (fun i => at_ a_zero (a_y p (orc h)) (p_off p + i))) i)).
  { intros i Hi. unfold p_nA. fold b nC m. rewrite at_tab by lia. unfold a_y, p_nD, p_nA. fold b nC m. rewrite at_tab by lia. destruct (p_solver p); [| |apply Pneg]; apply HP; lia. }
  match goal with |- _ /\ Rel (snd (_, ?A)) (snd (_, ?B)) /\ _ => assert (RR : RelL A B) end.
  { exists h', (a_y p' (orc' h')), (tab (p_nA p) (fun i => at_ a_zero (a_y p' (orc' h')) (p_off p + i))).
    split; [cbn [v_x w_stats w_calls w_y w_yA]; rewrite EXx; destruct v1; reflexivity|]. split; [cbn [v_calls w_p w_y w_yA w_stats]; rewrite EV; exact F|].
    split; [exact EY|]. split; [exact EYA|exact EP]. }
  split; [reflexivity|]. split; [apply RelL_Rel; exact RR|intros _; exact RR].
Qed.

(** Operations that only read and write what is equal *)
Lemma lin_sw v w : Rel v w -> Rel (v_lin p v) (v_lin p' w).
Proof. intros (c & y & yA & -> & F). exists c, y, yA. split; [destruct v; reflexivity|exact F]. Qed.
Lemma lin_swL v w : RelL v w -> RelL (v_lin p v) (v_lin p' w).
Proof. intros (c & y & yA & -> & F). exists c, y, yA. split; [destruct v; reflexivity|exact F]. Qed.
Lemma station_swL v w : RelL v w -> RelL (v_station p v) (v_station p' w).
Proof.
  intros (c & y & yA & -> & F & Y & YA & Q). exists c, y, yA. split; [|auto 6].
  assert (E1 : p_tA p' yA = p_tA p (v_yA v)) by (cbn; apply HtA; auto).
  assert (E2 : p_box p = true -> forall st, wadd a_one st a_mone y n = wadd a_one st a_mone (v_y v) n).
  { intros B st. specialize (Ho B). apply tab_ext. intros i Hi. destruct Y as (_ & _ & Y). rewrite (Y i) by (unfold n, b in *; lia). rewrite other_lo by (unfold n, b in *; lia). reflexivity. }
  unfold v_station. cbn [v_h v_x v_gt v_yA v_y w_calls w_yA w_y]. rewrite E1. change (p_nV p') with n. change (p_box p') with (p_box p). destruct (p_box p) eqn:B; [rewrite (E2 eq_refl)|]; destruct v; reflexivity.
Qed.
Lemma step_swL v w : RelL v w -> RelL (v_step p v) (v_step p' w).
Proof. intros (c & y & yA & -> & F). exists c, y, yA. split; [destruct v; reflexivity|exact F]. Qed.
Lemma steplen_swL v w : RelL v w -> RelL (v_steplen p v) (v_steplen p' w).
Proof. intros (c & y & yA & -> & F). exists c, y, yA. split; [destruct v; reflexivity|exact F]. Qed.
Lemma perturb_swL v w : RelL v w -> RelL (v_perturb p rand v) (v_perturb p' rand w).
Proof. intros (c & y & yA & -> & F). exists c, y, yA. split; [destruct v; reflexivity|exact F]. Qed.
Lemma print_swL v w : RelL v w -> sim RelL (v_print p v) (v_print p' w).
Proof.
  intros R. assert (E : v_qpit w = v_qpit v) by (destruct R as (c & y & yA & -> & F); destruct v; reflexivity).
  unfold v_print. change (p_opt p') with (p_opt p). rewrite E. destruct (o_printLevel _); try exact R. destruct (v_qpit v); [exact R|reflexivity].
Qed.
Lemma store_swL v w : RelL v w -> sim RelL (v_store p v) (v_store p' w).
Proof.
  intros (c & y & yA & -> & F). unfold v_store. cbn [v_qpit w_calls w_yA w_y]. destruct (v_qpit v); [|reflexivity]. cbn [get bind].
  change (v_obj p' (w_calls c (w_yA yA (w_y y v)))) with (v_obj p v). change (v_phi p' (w_calls c (w_yA yA (w_y y v)))) with (v_phi p v).
  change (v_merit p' (w_calls c (w_yA yA (w_y y v)))) with (v_merit p v). cbn [v_x v_inner v_alpha v_p v_stat v_stats]. change (p_nV p') with (p_nV p).
  destruct (updateTrackingVectors _ _ _ _ _ _ _ _ _ _ _); [|reflexivity]. exists c, y, yA. split; [destruct v; reflexivity|exact F].
Qed.
Lemma total_swL v w : RelL v w -> sim RelL (v_totalIter v) (v_totalIter w).
Proof.
  intros (c & y & yA & -> & F). unfold v_totalIter. cbn [v_total v_stats w_calls w_yA w_y]. destruct (chk_int _); [|reflexivity]. cbn [bind].
  destruct (updateIterTotal _ _) as [[? ?]|]; [|reflexivity]. exists c, y, yA. split; [destruct v; reflexivity|exact F].
Qed.
Lemma inner_swL k v w : RelL v w -> RelL (w_inner k v) (w_inner k w).
Proof. intros (c & y & yA & -> & F). exists c, y, yA. split; [destruct v; reflexivity|exact F]. Qed.
Lemma leyffer_swL v w : RelL v w -> fst (v_leyffer p' w) = fst (v_leyffer p v) /\ RelL (snd (v_leyffer p v)) (snd (v_leyffer p' w)).
Proof.
  intros (c & y & yA & -> & F). unfold v_leyffer, v_complOK. change (p_opt p') with (p_opt p). change (v_phi p' (w_calls c (w_yA yA (w_y y v)))) with (v_phi p v). cbn [v_hist w_calls w_yA w_y].
  destruct (_ <=? 0); [split; [reflexivity|]; exists c, y, yA; split; [destruct v; reflexivity|exact F]|].
  destruct (_ <? _); [split; [reflexivity|]; exists c, y, yA; split; [destruct v; reflexivity|exact F]|].
  destruct (a_lt _ _); split; try reflexivity; exists c, y, yA; (split; [destruct v; reflexivity|exact F]).
Qed.
Lemma penaltyStep_swL v w : RelL v w -> sim RelL (v_penaltyStep p v) (v_penaltyStep p' w).
Proof.
  intros (c & y & yA & -> & F). unfold v_penaltyStep, v_outerIter, v_penalty. change (p_opt p') with (p_opt p). change (p_gphi p') with (p_gphi p).
  destruct (0 <? _); destruct (p_gphi p); cbn [v_rho v_stats v_h v_outer w_calls w_yA w_y w_hist w_rho w_stats w_h w_gt];
    (destruct (chk_int _); [|reflexivity]); cbn [bind]; (destruct (updateIterOuter _ _) as [[? ?]|]; [|reflexivity]); cbn [bind sim];
    exists c, y, yA; (split; [destruct v; reflexivity|exact F]).
Qed.

Lemma head_swL v w : RelL v w -> sim RelL (v_head p v) (v_head p' w).
Proof.
  intros R. unfold v_head. eapply sim_bind; [apply print_swL, station_swL, step_swL; exact R|]. intros v1 w1 R1.
  change (p_opt p') with (p_opt p). eapply sim_bind with (R := RelL); [destruct (o_storeSteps _); [apply store_swL; exact R1|exact R1]|]. intros v2 w2 R2.
  eapply sim_bind; [apply total_swL; exact R2|]. intros v3 w3 R3.
  assert (E : v_inner w3 = v_inner v3) by (destruct R3 as (c & y & yA & -> & F); destruct v3; reflexivity). rewrite E.
  destruct (chk_int _) as [k|]; [|reflexivity]. cbn [bind].
  destruct (leyffer_swL _ _ (inner_swL k _ _ R3)) as [L1 L2].
  destruct (v_leyffer p (w_inner k v3)) as [bl v4]. destruct (v_leyffer p' (w_inner k w3)) as [b' w4]. cbn [fst snd] in *. subst b'.
  eapply sim_bind with (R := RelL); [destruct bl; [apply penaltyStep_swL; exact L2|exact L2]|]. intros v5 w5 R5. apply lin_swL. exact R5.
Qed.

Lemma classify_sw tol yA yA' : exchanged nC m yA yA' -> (forall k, 0 <= k < nC + 2 * m -> P (at_ a_zero yA k)) ->
  forall ws, (forall i, In i ws -> 0 <= i < m) -> forall s t, v_classify p' tol yA' ws s t = v_classify p tol yA ws s t.
Proof.
  intros (_ & _ & Y) Q. induction ws as [|i ws IH]; intros Hi s t; [reflexivity|].
  assert (0 <= i < m) by (apply Hi; left; auto). cbn [v_classify]. change (p_nC p') with nC. change (p_nComp p') with m. fold nC m.
  rewrite (Y (nC + i)), (Y (nC + m + i)) by lia. rewrite other_mid, other_hi by lia.
  replace (nC + i + m) with (nC + m + i) by ring. replace (nC + m + i - m) with (nC + i) by ring.
  set (a := at_ a_zero yA (nC + i)). set (a' := at_ a_zero yA (nC + m + i)).
  rewrite (Pmin a' a) by (apply Q; lia). rewrite (Mul a' a).
  assert (IH' := IH (fun j Hj => Hi j (or_intror Hj))). destruct (_ && _); [destruct (a_le (a * a')%num tol); [reflexivity|apply IH']|apply IH'].
Qed.

Lemma finish_swL v w : RelL v w -> RelL (v_finish p v) (v_finish p' w).
Proof.
  intros (c & y & yA & -> & F & Y & YA & Q). unfold v_finish. change (p_opt p') with (p_opt p).
  assert (EW : v_weak p' (v_duals p' (w_calls c (w_yA yA (w_y y v)))) = v_weak p (v_duals p v)).
  { unfold v_weak. cbn. apply filter_ext. intros i. apply andb_comm. }
  rewrite EW. change (v_yA (v_duals p' (w_calls c (w_yA yA (w_y y v))))) with yA. change (v_yA (v_duals p v)) with (v_yA v).
  assert (EC : v_classify p' (o_complementarityTolerance (p_opt p)) yA (v_weak p (v_duals p v)) true true =
               v_classify p (o_complementarityTolerance (p_opt p)) (v_yA v) (v_weak p (v_duals p v)) true true).
  { apply classify_sw; auto. intros i Hi. unfold v_weak in Hi. apply filter_In in Hi. destruct Hi as [Hi _]. apply in_tab in Hi. destruct Hi as (j & Hj & ->). exact Hj. }
  rewrite EC. set (a := v_classify _ _ _ _ _ _).
  exists c, (v_y (v_duals p' (w_calls c (w_yA yA (w_y y v))))), yA. split; [destruct v; reflexivity|]. split; [exact F|]. split; [|split; [exact YA|exact Q]].
  cbn [v_duals v_y w_stats w_algo w_y w_calls w_yA v_rho v_x v_stats]. unfold p_nD, p_nA. cbn [p' p_off p_nC p_nComp p_mulL p_mulR]. fold b nC m.
  split; [rewrite len_tab; lia|]. split; [rewrite len_tab; lia|]. intros k Hk. destruct Y as (_ & _ & Y).
  assert (D : k < b + nC \/ b + nC <= k < b + nC + m \/ b + nC + m <= k) by lia.
  destruct D as [D|[D|D]].
  - rewrite other_lo by lia. rewrite !at_tab by lia. rewrite (Y k) by lia. rewrite other_lo by lia.
    rewrite !(proj2 (Z.leb_gt _ _)) by lia. reflexivity.
  - rewrite other_mid by lia. rewrite !at_tab by lia. rewrite (Y k) by lia. rewrite other_mid by lia.
    rewrite (proj2 (Z.leb_gt (b + nC + m) k)) by lia. rewrite (proj2 (Z.leb_le (b + nC) k)) by lia. rewrite (proj2 (Z.ltb_lt k (b + nC + m))) by lia.
    rewrite (proj2 (Z.leb_le (b + nC + m) (k + m))) by lia. rewrite (proj2 (Z.ltb_lt (k + m) (b + nC + m + m))) by lia.
    rewrite (proj2 (Z.ltb_ge (k + m) (b + nC + m))) by lia. rewrite andb_false_r. cbn [andb]. replace (k + m - (b + nC + m)) with (k - (b + nC)) by ring. reflexivity.
  - rewrite other_hi by lia. rewrite !at_tab by lia. rewrite (Y k) by lia. rewrite other_hi by lia.
    rewrite (proj2 (Z.leb_le (b + nC + m) k)) by lia. rewrite (proj2 (Z.ltb_lt k (b + nC + m + m))) by lia. rewrite (proj2 (Z.ltb_ge k (b + nC + m))) by lia. rewrite andb_false_r.
    rewrite (proj2 (Z.leb_gt (b + nC + m) (k - m))) by lia. rewrite (proj2 (Z.leb_le (b + nC) (k - m))) by lia. rewrite (proj2 (Z.ltb_lt (k - m) (b + nC + m))) by lia.
    cbn [andb]. replace (k - m - (b + nC)) with (k - (b + nC + m)) by ring. reflexivity.
Qed.

(** A step of the loop *)
Definition RelO (a b : vst T K * option ReturnValue) : Prop :=
  snd b = snd a /\ Rel (fst a) (fst b) /\ (snd a = None \/ snd a = Some SUCCESSFUL_RETURN -> RelL (fst a) (fst b)).

Lemma tail_swL v w : RelL v w -> sim RelO (v_tail p orc rand v) (v_tail p' orc' rand w).
Proof.
  intros R. unfold v_tail. change (p_opt p') with (p_opt p).
  assert (E1 : v_total w = v_total v) by (destruct R as (c & y & yA & -> & F); destruct v; reflexivity).
  assert (E2 : v_rho w = v_rho v) by (destruct R as (c & y & yA & -> & F); destruct v; reflexivity). rewrite E1, E2.
  destruct (_ <? _); [split; [reflexivity|]; split; [apply RelL_Rel; exact R|intros [?|?]; discriminate]|].
  destruct (a_lt _ _); [split; [reflexivity|]; split; [apply RelL_Rel; exact R|intros [?|?]; discriminate]|].
  eapply sim_bind; [apply (solve_sw false None None); [discriminate|apply lin_sw, RelL_Rel, R]|].
  intros [r v1] [r' w1] (Er & R1 & R2). cbn [fst snd] in *. subst r'. destruct (is_success r) eqn:ES; cbn [negb].
  - assert (R3 : RelL v1 w1) by (apply R2; destruct r; try discriminate; reflexivity). cbn [sim].
    assert (R4 : RelL (v_steplen p (if o_perturbStep (p_opt p) then v_perturb p rand v1 else v1)) (v_steplen p' (if o_perturbStep (p_opt p) then v_perturb p' rand w1 else w1))).
    { apply steplen_swL. destruct (o_perturbStep _); [apply perturb_swL; exact R3|exact R3]. }
    split; [reflexivity|]. split; [apply RelL_Rel; exact R4|intros _; exact R4].
  - split; [reflexivity|]. split; [exact R1|]. cbn [fst snd]. intros [?|E]; [discriminate|]. injection E as ->. discriminate.
Qed.
Lemma pass_swL v w : RelL v w -> sim RelO (v_pass p orc rand v) (v_pass p' orc' rand w).
Proof.
  intros R. unfold v_pass. eapply sim_bind; [apply head_swL; exact R|]. intros v1 w1 R1.
  assert (E1 : v_statOK p' w1 = v_statOK p v1) by (destruct R1 as (c & y & yA & -> & F); destruct v1; reflexivity).
  assert (E2 : v_complOK p' w1 = v_complOK p v1) by (destruct R1 as (c & y & yA & -> & F); destruct v1; reflexivity). rewrite E1, E2.
  destruct (v_statOK p v1); [|apply tail_swL; exact R1]. destruct (v_complOK p v1).
  - pose proof (finish_swL _ _ R1) as R2. split; [reflexivity|]. split; [apply RelL_Rel; exact R2|intros _; exact R2].
  - eapply sim_bind; [apply penaltyStep_swL; exact R1|]. intros v2 w2 R2. apply tail_swL. exact R2.
Qed.
(** Results of a run *)
Definition RelR (a b : ReturnValue * vst T K) : Prop :=
  fst b = fst a /\ Rel (snd a) (snd b) /\ (fst a = SUCCESSFUL_RETURN -> RelL (snd a) (snd b)).
Lemma loop_swL fuel : forall v w, RelL v w -> sim RelR (v_loop p fuel orc rand v) (v_loop p' fuel orc' rand w).
Proof.
  induction fuel as [|fuel IH]; intros v w R; [reflexivity|]. cbn [v_loop]. eapply sim_bind; [apply pass_swL; exact R|].
  intros [v1 e] [w1 e'] (Ee & R1 & R2). cbn [fst snd] in *. subst e'. destruct e as [r|]; [|apply IH; auto].
  split; [reflexivity|]. split; [exact R1|]. cbn [fst snd]. intros ->. apply R2. auto.
Qed.
Lemma run_sw fuel y0 y0' x0 : exchanged_opt (b + nC) m y0 y0' ->
  sim RelR (v_run p fuel orc rand y0 (v_init p x0)) (v_run p' fuel orc' rand y0' (v_init p' x0)).
Proof.
  intros HY. assert (R0 : Rel (v_init p x0) (v_init p' x0)).
  { exists [], [], (tab (p_nA p) (fun _ => a_zero)). split; [reflexivity|constructor]. }
  unfold v_run. eapply sim_bind with (R := RelO).
  - unfold v_first. change (p_opt p') with (p_opt p). eapply sim_bind; [apply (solve_sw true y0 y0'); [auto|]|].
    + destruct (o_solveZeroPenaltyFirst _); [|apply lin_sw; exact R0]. destruct R0 as (c & y & yA & E & F). rewrite E. exists c, y, yA. split; [reflexivity|exact F].
    + intros [r v1] [r' w1] (Er & R1 & R2). cbn [fst snd] in *. subst r'. destruct (is_success r) eqn:ES; cbn [negb].
      * assert (R3 : RelL v1 w1) by (apply R2; destruct r; try discriminate; reflexivity). cbn [sim].
        assert (R4 : RelL (w_stats (snd (updateRhoOpt (v_rho (w_h (p_setH p (v_rho v1)) v1)) (v_stats (w_h (p_setH p (v_rho v1)) v1)))) (w_h (p_setH p (v_rho v1)) v1))
                          (w_stats (snd (updateRhoOpt (v_rho (w_h (p_setH p' (v_rho w1)) w1)) (v_stats (w_h (p_setH p' (v_rho w1)) w1)))) (w_h (p_setH p' (v_rho w1)) w1))).
        { destruct R3 as (c & y & yA & -> & F). exists c, y, yA. split; [destruct v1; reflexivity|exact F]. }
        split; [reflexivity|]. split; [apply RelL_Rel; exact R4|intros _; exact R4].
      * split; [reflexivity|]. split; [exact R1|]. cbn [fst snd]. intros [?|E]; [discriminate|]. injection E as ->. discriminate.
  - intros [v1 e] [w1 e'] (Ee & R1 & R2). cbn [fst snd] in *. subst e'. destruct e as [r|]; [|apply loop_swL; auto].
    split; [reflexivity|]. split; [exact R1|]. cbn [fst snd]. intros ->. apply R2. auto.
Qed.
End Swap.
