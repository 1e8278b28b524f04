(** * Renumber: the list-level loop does not see the order of constraints and complementarity pairs (no LCQPow code). *)
From Coq Require Import Permutation QArith Qcanon.
From Verif Require Import Base Arith Codes Utilities Options Stats FileIO Subsolver State LCQProblem Tactics Loops Kernels
  Pure PureFacts SpecLoad SpecRenumber Refine CscBuild.
Open Scope Z_scope.

Section Perm.
Lemma perm_tab k f : permutes k f -> Permutation (tab k f) (tab k (fun i => i)).
Proof.
  intros [R I]. apply NoDup_Permutation_bis.
  - unfold tab. assert (G : forall l, NoDup l -> (forall a, In a l -> (a < Z.to_nat k)%nat) -> NoDup (map (fun i => f (Z.of_nat i)) l)).
    { induction l as [|a l IH]; intros ND Hl; [constructor|]. inversion ND; subst. cbn [map]. constructor; [|apply IH; auto; intros; apply Hl; right; auto].
      intros Hi. apply in_map_iff in Hi. destruct Hi as (b & E & Hb). pose proof (Hl a (or_introl eq_refl)). pose proof (Hl b (or_intror Hb)).
      apply I in E; [|lia|lia]. assert (a = b) by lia. subst b. contradiction. }
    apply G; [apply seq_NoDup|]. intros a Ha. apply in_seq in Ha. lia.
  - unfold tab. rewrite !map_length. lia.
  - intros x Hx. apply in_tab in Hx. destruct Hx as (i & Hi & ->). specialize (R i Hi). unfold tab. apply in_map_iff. exists (Z.to_nat (f i)). split; [lia|]. apply in_seq. lia.
Qed.
Lemma existsb_perm {X} (g : X -> bool) l l' : Permutation l l' -> existsb g l = existsb g l'.
Proof. induction 1; cbn; congruence || (destruct (g x), (g y); reflexivity). Qed.
Lemma existsb_filter {X} (q g : X -> bool) l : existsb g (filter q l) = existsb (fun i => q i && g i) l.
Proof. induction l as [|a l IH]; [reflexivity|]. cbn. destruct (q a); cbn; rewrite IH; reflexivity. Qed.
Lemma existsb_ext {X} (g h : X -> bool) l : (forall a, In a l -> g a = h a) -> existsb g l = existsb h l.
Proof. induction l as [|a l IH]; intros E; [reflexivity|]. cbn. rewrite E by (left; auto). f_equal. apply IH. intros; apply E; right; auto. Qed.
Lemma existsb_map {X Y} (h : X -> Y) g l : existsb g (map h l) = existsb (fun x => g (h x)) l.
Proof. induction l as [|a l IH]; [reflexivity|]. cbn. rewrite IH. reflexivity. Qed.
Lemma existsb_renum k f (q q' g g' : Z -> bool) : permutes k f -> (forall i, 0 <= i < k -> q' i = q (f i) /\ g' i = g (f i)) ->
  existsb g' (filter q' (tab k (fun i => i))) = existsb g (filter q (tab k (fun i => i))).
Proof.
  intros F E. rewrite !existsb_filter. rewrite <- (existsb_perm (fun i => q i && g i) _ _ (perm_tab k f F)). unfold tab. rewrite !existsb_map. apply existsb_ext.
  intros a Ha. apply in_seq in Ha. destruct (E (Z.of_nat a)) as [E1 E2]; [lia|]; cbv beta; rewrite E1, E2; reflexivity.
Qed.
End Perm.

Section Place.
Variables (nC m : Z) (r : numbering).
Lemma place_lo k : k < nC -> place nC m r k = nb_row r k.
Proof. intros. unfold place. destruct (Z.ltb_spec k nC); [reflexivity|lia]. Qed.
Lemma place_L i : 0 <= i < m -> place nC m r (nC + i) = (if nb_flip r i then nC + m else nC) + nb_pair r i.
Proof. intros. unfold place. destruct (Z.ltb_spec (nC + i) nC); [lia|]. destruct (Z.ltb_spec (nC + i) (nC + m)); [|lia]. replace (nC + i - nC) with i by ring. reflexivity. Qed.
Lemma place_R i : 0 <= i < m -> place nC m r (nC + m + i) = (if nb_flip r i then nC else nC + m) + nb_pair r i.
Proof. intros. unfold place. destruct (Z.ltb_spec (nC + m + i) nC); [lia|]. destruct (Z.ltb_spec (nC + m + i) (nC + m)); [lia|]. replace (nC + m + i - nC - m) with i by ring. reflexivity. Qed.
Lemma place_cases k : 0 <= k < nC + 2 * m -> (0 <= k < nC) \/ (exists i, 0 <= i < m /\ k = nC + i) \/ (exists i, 0 <= i < m /\ k = nC + m + i).
Proof. intros. destruct (Z.ltb_spec k nC); [left; lia|]. destruct (Z.ltb_spec k (nC + m)); right; [left; exists (k - nC)|right; exists (k - nC - m)]; lia. Qed.
Lemma place_range : renumbers nC m r -> 0 <= nC -> 0 <= m -> forall k, 0 <= k < nC + 2 * m -> 0 <= place nC m r k < nC + 2 * m.
Proof.
  intros [[R _] [P _]] Hc Hm k Hk. destruct (place_cases k Hk) as [K|[(i & Hi & ->)|(i & Hi & ->)]].
  - rewrite place_lo by lia. specialize (R k K). lia.
  - rewrite place_L by auto. specialize (P i Hi). destruct (nb_flip r i); lia.
  - rewrite place_R by auto. specialize (P i Hi). destruct (nb_flip r i); lia.
Qed.
End Place.

Section Renumber.
Context {T : Type} `{Arith T} {K : Type}.
Variables (p : ops T K) (mA : qp_mat T) (lA uA : list T) (tA mL mR : list T -> list T) (nu : numbering) (P : T -> Prop) (rand : nat -> Z).
(** The renumbered problem *)
Let p' : ops T K :=
  mkOps T K (p_opt p) (p_solver p) (p_nV p) (p_nC p) (p_nComp p) (p_off p) (p_box p) (p_g p) (p_gphi p) (p_pc p) (p_matH p) mA lA uA
    (p_lb p) (p_ub p) (p_setH p) (p_updH p) (p_affH p) (p_quadH p) (p_affC p) (p_quadC p) (p_quadQ p) tA mL mR.
Let n := p_nV p.
Let b := p_off p.
Let nC := p_nC p.
Let m := p_nComp p.
Let N := nC + 2 * m.
Let pl := place nC m nu.
Hypothesis (Hb : 0 <= p_off p) (Ho : p_box p = true -> p_nV p <= p_off p) (Hc : 0 <= p_nC p) (Hm : 0 <= p_nComp p).
Hypothesis (HmA : renum_rows n N pl (p_matA p) mA) (HlA : renum 0 N pl (p_lbA p) lA) (HuA : renum 0 N pl (p_ubA p) uA).
Hypothesis (HtA : forall y y', renum 0 N pl y y' -> tA y' = p_tA p y).
Hypothesis (HmL : forall x i, 0 <= i < m -> at_ a_zero (mL x) i = at_ a_zero (if nb_flip nu i then p_mulR p x else p_mulL p x) (nb_pair nu i)).
Hypothesis (HmR : forall x i, 0 <= i < m -> at_ a_zero (mR x) i = at_ a_zero (if nb_flip nu i then p_mulL p x else p_mulR p x) (nb_pair nu i)).
Hypothesis (Hr : renumbers nC m nu) (Pneg : forall a, P a -> P (- a)%num) (Mul : forall a b : T, (a * b = b * a)%num).
Hypothesis (Pmin : forall i, 0 <= i < m -> nb_flip nu i = true -> forall a b, P a -> P b -> std_min a b = std_min b a).

(** Related states: duals and QPs renumbered, all else equal.  No LCQPow code. *)
Definition Rel (v w : vst T K) : Prop := exists c y yA, w = w_calls c (w_yA yA (w_y y v)) /\
  Forall2 (renum_qp n b N pl) (v_calls v) c.
(** After a solved QP.  No LCQPow code. *)
Definition RelL (v w : vst T K) : Prop := exists c y yA, w = w_calls c (w_yA yA (w_y y v)) /\
  Forall2 (renum_qp n b N pl) (v_calls v) c /\ renum b N pl (v_y v) y /\ renum 0 N pl (v_yA v) yA /\
  (forall k, 0 <= k < N -> P (at_ a_zero (v_yA v) k)).
Lemma RelL_Rel v w : RelL v w -> Rel v w.
Proof. intros (c & y & yA & E & F & _). exists c, y, yA. auto. Qed.

Variables (orc orc' : oracle T).
Hypothesis (HO : order_blind n b N pl orc orc').
Hypothesis (HP : forall h k, 0 <= k < b + N -> P (q_y (orc h) k)).

Lemma sub_rn ini y0 y0' v w : (ini = true -> renum_opt b N pl y0 y0') -> Rel v w -> exists h h',
  Forall2 (renum_qp n b N pl) h h' /\ renum_answer n b N pl (orc h) (orc' h') /\
  exists ret k f wk raw, (raw = true \/ is_success ret = false) /\
    v_sub p orc ini y0 v = mkSubRes ret k f wk (if raw then Some (orc h) else None) h /\
    v_sub p' orc' ini y0' w = mkSubRes ret k f wk (if raw then Some (orc' h') else None) h'.
Proof.
  intros HY (c & y & yA & -> & F).
  assert (F' : Forall2 (renum_qp n b N pl) (v_call p ini (v_x v) y0 (v_gk v) :: v_calls v) (v_call p' ini (v_x v) y0' (v_gk v) :: c)).
  { constructor; auto. constructor; try reflexivity; auto. cbn. destruct ini; auto. exact I. }
  pose proof (HO _ _ F') as A. eexists. eexists. split; [exact F'|]. split; [exact A|]. destruct A as [Er Ei Es Ew Ex0 Ey0 Ex Eb Ey].
  assert (SS : p_solver p' = p_solver p) by reflexivity. unfold v_sub. rewrite SS. cbn [v_x w_calls w_yA w_y v_gk v_calls v_work v_stats].
  set (h := v_call p ini (v_x v) y0 (v_gk v) :: v_calls v) in *. set (h' := v_call p' ini (v_x v) y0' (v_gk v) :: c) in *.
  assert (EN : ini && notNull y0' = ini && notNull y0).
  { destruct ini; [|reflexivity]. specialize (HY eq_refl). destruct y0, y0'; try contradiction; reflexivity. }
  cbv zeta. rewrite Er, Ei, Es, Ew, Ex0, Ey0. clear SS HY. clearbody h h'. destruct (p_solver p).
  - do 4 eexists. exists true. split; [|split; reflexivity]. left; reflexivity.
  - do 4 eexists. exists true. split; [|split; reflexivity]. left; reflexivity.
  - destruct (ini && q_wsx_fails (orc h)); [do 4 eexists; exists false; split; [|split; reflexivity]; right; reflexivity|].
    rewrite EN. destruct (ini && notNull y0 && q_wsy_fails (orc h)); [do 4 eexists; exists false; split; [|split; reflexivity]; right; reflexivity|].
    destruct (negb _); [do 4 eexists; exists false; split; [|split; reflexivity]; right; reflexivity|].
    do 4 eexists. exists true. split; [|split; reflexivity]. left; reflexivity.
Qed.

Lemma solve_rn ini y0 y0' v w : (ini = true -> renum_opt b N pl y0 y0') -> Rel v w ->
  sim (fun a b => fst b = fst a /\ Rel (snd a) (snd b) /\ (fst a = SUCCESSFUL_RETURN -> RelL (snd a) (snd b)))
    (v_solve p orc ini y0 v) (v_solve p' orc' ini y0' w).
Proof.
  intros HY R. destruct (sub_rn ini y0 y0' v w HY R) as (h & h' & F & [Er Ei Es Ew Ex0 Ey0 Ex Eb Ey] & ret & k & f & wk & raw & HR & E1 & E2).
  destruct R as (c & y & yA & -> & _). unfold v_solve. rewrite E1, E2. cbv zeta.
  set (v1 := v_record (mkSubRes ret k f wk (if raw then Some (orc h) else None) h) v).
  set (w1 := v_record (mkSubRes ret k f wk (if raw then Some (orc' h') else None) h') (w_calls c (w_yA yA (w_y y v)))).
  assert (EW : w1 = w_calls h' (w_yA yA (w_y y v1))) by (unfold v1, w1, v_record; destruct k, f, v; reflexivity).
  assert (EV : v_calls v1 = h) by (unfold v1, v_record; destruct k, f, v; reflexivity).
  assert (EX : v_x v1 = v_x v) by (unfold v1, v_record; destruct k, f, v; reflexivity).
  clearbody v1 w1. subst w1. cbn [v_qpit v_flag v_stats w_calls w_y w_yA sr_ret sr_raw].
  destruct (v_qpit v1) as [q|]; [|reflexivity]. cbn [get bind]. destruct (updateSubproblemIter q (v_stats v1)) as [[? st]|]; [|reflexivity]. cbn [bind].
  destruct (v_flag v1) as [fl|]; [|reflexivity]. cbn [get bind].
  destruct (is_success ret) eqn:ES; cbn [negb].
  2: { split; [reflexivity|]. split; [|cbn; intros ->; discriminate]. exists h', y, yA. split; [destruct v1; reflexivity|]. cbn [snd w_stats v_calls]. rewrite EV. exact F. }
  destruct HR as [->|]; [|discriminate]. cbn [get bind sim].
  assert (EXx : a_x p' (orc' h') = a_x p (orc h)) by (apply tab_ext; intros; apply Ex; auto).
  pose proof (place_range nC m nu Hr Hc Hm) as PR.
  assert (EY : renum b N pl (a_y p (orc h)) (a_y p' (orc' h'))).
  { unfold a_y, p_nD, p_nA. cbn [p' p_off p_nC p_nComp p_solver]. fold b nC m N. split; [apply len_tab; lia|]. split; [apply len_tab; lia|]. split; intros i Hi.
    - rewrite !at_tab by lia. destruct (p_solver p); [| |f_equal]; apply Eb; lia.
    - specialize (PR i Hi). fold pl N in PR. rewrite !at_tab by lia. destruct (p_solver p); [| |f_equal]; apply Ey; lia. }
  assert (EYA : renum 0 N pl (tab (p_nA p) (fun i => at_ a_zero (a_y p (orc h)) (p_off p + i))) (tab (p_nA p) (fun i => at_ a_zero (a_y p' (orc' h')) (p_off p + i)))).
  { unfold p_nA. fold b nC m N. split; [apply len_tab; lia|]. split; [apply len_tab; lia|]. split; intros i Hi; [lia|].
    specialize (PR i Hi). fold pl N in PR. rewrite !Z.add_0_l. rewrite !at_tab by lia. destruct EY as (_ & _ & _ & EY). apply EY. exact Hi. }
  assert (EP : forall i, 0 <= i < N -> P (at_ a_zero (tab (p_nA p) (fun i => at_ a_zero (a_y p (orc h)) (p_off p + i))) i)).
  { intros i Hi. unfold p_nA. fold b nC m N. rewrite at_tab by lia. unfold a_y, p_nD, p_nA. fold b nC m N. rewrite at_tab by lia. destruct (p_solver p); [| |apply Pneg]; apply HP; lia. }
  match goal with |- _ /\ Rel (snd (_, ?A)) (snd (_, ?B)) /\ _ => assert (RR : RelL A B) end.
  { exists h', (a_y p' (orc' h')), (tab (p_nA p) (fun i => at_ a_zero (a_y p' (orc' h')) (p_off p + i))).
    split; [cbn [v_x w_stats w_calls w_y w_yA]; rewrite EXx; destruct v1; reflexivity|]. split; [cbn [v_calls w_p w_y w_yA w_stats]; rewrite EV; exact F|].
    split; [exact EY|]. split; [exact EYA|exact EP]. }
  split; [reflexivity|]. split; [apply RelL_Rel; exact RR|intros _; exact RR].
Qed.

(** Operations that only read and write what is equal *)
Lemma lin_rn v w : Rel v w -> Rel (v_lin p v) (v_lin p' w).
Proof. intros (c & y & yA & -> & F). exists c, y, yA. split; [destruct v; reflexivity|exact F]. Qed.
Lemma lin_rnL v w : RelL v w -> RelL (v_lin p v) (v_lin p' w).
Proof. intros (c & y & yA & -> & F). exists c, y, yA. split; [destruct v; reflexivity|exact F]. Qed.
Lemma station_rnL v w : RelL v w -> RelL (v_station p v) (v_station p' w).
Proof.
  intros (c & y & yA & -> & F & Y & YA & Q). exists c, y, yA. split; [|auto 6].
  assert (E1 : p_tA p' yA = p_tA p (v_yA v)) by (cbn; apply HtA; auto).
  assert (E2 : p_box p = true -> forall st, wadd a_one st a_mone y n = wadd a_one st a_mone (v_y v) n).
  { intros B st. specialize (Ho B). apply tab_ext. intros i Hi. destruct Y as (_ & _ & Y & _). rewrite (Y i) by (unfold n, b in *; lia). reflexivity. }
  unfold v_station. cbn [v_h v_x v_gt v_yA v_y w_calls w_yA w_y]. rewrite E1. change (p_nV p') with n. change (p_box p') with (p_box p). destruct (p_box p) eqn:B; [rewrite (E2 eq_refl)|]; destruct v; reflexivity.
Qed.
Lemma step_rnL v w : RelL v w -> RelL (v_step p v) (v_step p' w).
Proof. intros (c & y & yA & -> & F). exists c, y, yA. split; [destruct v; reflexivity|exact F]. Qed.
Lemma steplen_rnL v w : RelL v w -> RelL (v_steplen p v) (v_steplen p' w).
Proof. intros (c & y & yA & -> & F). exists c, y, yA. split; [destruct v; reflexivity|exact F]. Qed.
Lemma perturb_rnL v w : RelL v w -> RelL (v_perturb p rand v) (v_perturb p' rand w).
Proof. intros (c & y & yA & -> & F). exists c, y, yA. split; [destruct v; reflexivity|exact F]. Qed.
Lemma print_rnL v w : RelL v w -> sim RelL (v_print p v) (v_print p' w).
Proof.
  intros R. assert (E : v_qpit w = v_qpit v) by (destruct R as (c & y & yA & -> & F); destruct v; reflexivity).
  unfold v_print. change (p_opt p') with (p_opt p). rewrite E. destruct (o_printLevel _); try exact R. destruct (v_qpit v); [exact R|reflexivity].
Qed.
Lemma store_rnL v w : RelL v w -> sim RelL (v_store p v) (v_store p' w).
Proof.
  intros (c & y & yA & -> & F). unfold v_store. cbn [v_qpit w_calls w_yA w_y]. destruct (v_qpit v); [|reflexivity]. cbn [get bind].
  change (v_obj p' (w_calls c (w_yA yA (w_y y v)))) with (v_obj p v). change (v_phi p' (w_calls c (w_yA yA (w_y y v)))) with (v_phi p v).
  change (v_merit p' (w_calls c (w_yA yA (w_y y v)))) with (v_merit p v). cbn [v_x v_inner v_alpha v_p v_stat v_stats]. change (p_nV p') with (p_nV p).
  destruct (updateTrackingVectors _ _ _ _ _ _ _ _ _ _ _); [|reflexivity]. exists c, y, yA. split; [destruct v; reflexivity|exact F].
Qed.
Lemma total_rnL v w : RelL v w -> sim RelL (v_totalIter v) (v_totalIter w).
Proof.
  intros (c & y & yA & -> & F). unfold v_totalIter. cbn [v_total v_stats w_calls w_yA w_y]. destruct (chk_int _); [|reflexivity]. cbn [bind].
  destruct (updateIterTotal _ _) as [[? ?]|]; [|reflexivity]. exists c, y, yA. split; [destruct v; reflexivity|exact F].
Qed.
Lemma inner_rnL k v w : RelL v w -> RelL (w_inner k v) (w_inner k w).
Proof. intros (c & y & yA & -> & F). exists c, y, yA. split; [destruct v; reflexivity|exact F]. Qed.
Lemma leyffer_rnL v w : RelL v w -> fst (v_leyffer p' w) = fst (v_leyffer p v) /\ RelL (snd (v_leyffer p v)) (snd (v_leyffer p' w)).
Proof.
  intros (c & y & yA & -> & F). unfold v_leyffer, v_complOK. change (p_opt p') with (p_opt p). change (v_phi p' (w_calls c (w_yA yA (w_y y v)))) with (v_phi p v). cbn [v_hist w_calls w_yA w_y].
  destruct (_ <=? 0); [split; [reflexivity|]; exists c, y, yA; split; [destruct v; reflexivity|exact F]|].
  destruct (_ <? _); [split; [reflexivity|]; exists c, y, yA; split; [destruct v; reflexivity|exact F]|].
  destruct (a_lt _ _); split; try reflexivity; exists c, y, yA; (split; [destruct v; reflexivity|exact F]).
Qed.
Lemma penaltyStep_rnL v w : RelL v w -> sim RelL (v_penaltyStep p v) (v_penaltyStep p' w).
Proof.
  intros (c & y & yA & -> & F). unfold v_penaltyStep, v_outerIter, v_penalty. change (p_opt p') with (p_opt p). change (p_gphi p') with (p_gphi p).
  destruct (0 <? _); destruct (p_gphi p); cbn [v_rho v_stats v_h v_outer w_calls w_yA w_y w_hist w_rho w_stats w_h w_gt];
    (destruct (chk_int _); [|reflexivity]); cbn [bind]; (destruct (updateIterOuter _ _) as [[? ?]|]; [|reflexivity]); cbn [bind sim];
    exists c, y, yA; (split; [destruct v; reflexivity|exact F]).
Qed.

Lemma head_rnL v w : RelL v w -> sim RelL (v_head p v) (v_head p' w).
Proof.
  intros R. unfold v_head. eapply sim_bind; [apply print_rnL, station_rnL, step_rnL; exact R|]. intros v1 w1 R1.
  change (p_opt p') with (p_opt p). eapply sim_bind with (R := RelL); [destruct (o_storeSteps _); [apply store_rnL; exact R1|exact R1]|]. intros v2 w2 R2.
  eapply sim_bind; [apply total_rnL; exact R2|]. intros v3 w3 R3.
  assert (E : v_inner w3 = v_inner v3) by (destruct R3 as (c & y & yA & -> & F); destruct v3; reflexivity). rewrite E.
  destruct (chk_int _) as [k|]; [|reflexivity]. cbn [bind].
  destruct (leyffer_rnL _ _ (inner_rnL k _ _ R3)) as [L1 L2].
  destruct (v_leyffer p (w_inner k v3)) as [bl v4]. destruct (v_leyffer p' (w_inner k w3)) as [b' w4]. cbn [fst snd] in *. subst b'.
  eapply sim_bind with (R := RelL); [destruct bl; [apply penaltyStep_rnL; exact L2|exact L2]|]. intros v5 w5 R5. apply lin_rnL. exact R5.
Qed.

(** One pair spoils S-, M- or C-stationarity.  No LCQPow code. *)
Definition spoil_s (yA : list T) (i : Z) : bool := a_lt (std_min (at_ a_zero yA (nC + i)) (at_ a_zero yA (nC + m + i))) a_zero.
(** No LCQPow code. *)
Definition spoil_m (tol : T) (yA : list T) (i : Z) : bool :=
  let a := at_ a_zero yA (nC + i) in let b := at_ a_zero yA (nC + m + i) in a_le tol (a_abs (a * b)%num) && a_le (std_min a b) a_zero.
(** No LCQPow code. *)
Definition spoil_c (tol : T) (yA : list T) (i : Z) : bool :=
  let a := at_ a_zero yA (nC + i) in let b := at_ a_zero yA (nC + m + i) in spoil_m tol yA i && a_le (a * b)%num tol.
Lemma classify_exists tol yA ws : forall s t, v_classify p tol yA ws s t =
  if existsb (spoil_c tol yA) ws then W_STATIONARY_SOLUTION
  else if s && negb (existsb (spoil_s yA) ws) then S_STATIONARY_SOLUTION
  else if t && negb (existsb (spoil_m tol yA) ws) then M_STATIONARY_SOLUTION else C_STATIONARY_SOLUTION.
Proof.
  induction ws as [|i ws IH]; intros s t; [cbn; rewrite !andb_true_r; reflexivity|]. cbn [v_classify existsb]. fold nC m.
  change (a_lt (std_min (at_ a_zero yA (nC + i)) (at_ a_zero yA (nC + m + i))) a_zero) with (spoil_s yA i).
  change (a_le tol (a_abs (at_ a_zero yA (nC + i) * at_ a_zero yA (nC + m + i))%num) && a_le (std_min (at_ a_zero yA (nC + i)) (at_ a_zero yA (nC + m + i))) a_zero) with (spoil_m tol yA i).
  change (spoil_c tol yA i) with (spoil_m tol yA i && a_le (at_ a_zero yA (nC + i) * at_ a_zero yA (nC + m + i))%num tol).
  rewrite !IH. destruct (spoil_m tol yA i) eqn:M; destruct (spoil_s yA i) eqn:S; destruct (a_le (at_ a_zero yA (nC + i) * at_ a_zero yA (nC + m + i))%num tol);
    destruct (existsb (spoil_c tol yA) ws), (existsb (spoil_s yA) ws), (existsb (spoil_m tol yA) ws), s, t; reflexivity.
Qed.
Lemma classify_cong tol yA ws s t : v_classify p' tol yA ws s t = v_classify p tol yA ws s t.
Proof. revert s t. induction ws as [|i ws IH]; intros s t; [reflexivity|]. cbn [v_classify]. change (p_nC p') with (p_nC p). change (p_nComp p') with (p_nComp p). destruct (_ && _); [destruct (a_le _ tol)|]; auto. Qed.
Lemma spoil_rn tol yA yA' : renum 0 N pl yA yA' -> (forall k, 0 <= k < N -> P (at_ a_zero yA k)) -> forall i, 0 <= i < m ->
  spoil_s yA' i = spoil_s yA (nb_pair nu i) /\ spoil_m tol yA' i = spoil_m tol yA (nb_pair nu i) /\ spoil_c tol yA' i = spoil_c tol yA (nb_pair nu i).
Proof.
  intros (_ & _ & _ & Y) Q i Hi. unfold spoil_c, spoil_m, spoil_s. pose proof (proj1 (proj2 Hr) i Hi) as Hp. cbv zeta.
  assert (E1 : at_ a_zero yA' (nC + i) = at_ a_zero yA ((if nb_flip nu i then nC + m else nC) + nb_pair nu i)).
  { rewrite <- (Z.add_0_l (nC + i)). rewrite Y by (unfold N; lia). unfold pl. rewrite place_L by auto. reflexivity. }
  assert (E2 : at_ a_zero yA' (nC + m + i) = at_ a_zero yA ((if nb_flip nu i then nC else nC + m) + nb_pair nu i)).
  { rewrite <- (Z.add_0_l (nC + m + i)). rewrite Y by (unfold N; lia). unfold pl. rewrite place_R by auto. reflexivity. }
  rewrite E1, E2. destruct (nb_flip nu i) eqn:F; [|auto].
  set (a := at_ a_zero yA (nC + nb_pair nu i)). set (a' := at_ a_zero yA (nC + m + nb_pair nu i)).
  rewrite (Pmin i Hi F a' a) by (apply Q; unfold N; lia). rewrite (Mul a' a). auto.
Qed.

Lemma finish_rnL v w : RelL v w -> RelL (v_finish p v) (v_finish p' w).
Proof.
  intros (c & y & yA & -> & F & Y & YA & Q). unfold v_finish. change (p_opt p') with (p_opt p).
  assert (EC : v_classify p' (o_complementarityTolerance (p_opt p)) (v_yA (v_duals p' (w_calls c (w_yA yA (w_y y v))))) (v_weak p' (v_duals p' (w_calls c (w_yA yA (w_y y v))))) true true =
               v_classify p (o_complementarityTolerance (p_opt p)) (v_yA (v_duals p v)) (v_weak p (v_duals p v)) true true).
  { change (v_yA (v_duals p' (w_calls c (w_yA yA (w_y y v))))) with yA. change (v_yA (v_duals p v)) with (v_yA v).
    rewrite classify_cong, !classify_exists. pose proof (spoil_rn (o_complementarityTolerance (p_opt p)) _ _ YA Q) as SR. unfold v_weak.
    change (p_nComp p') with m. change (p_opt p') with (p_opt p). change (p_mulL p') with mL. change (p_mulR p') with mR.
    change (v_x (v_duals p' (w_calls c (w_yA yA (w_y y v))))) with (v_x v). change (v_x (v_duals p v)) with (v_x v). fold m.
    set (tol := o_complementarityTolerance (p_opt p)) in *.
    set (q' := fun i => a_le (at_ a_zero (mL (v_x v)) i) tol && a_le (at_ a_zero (mR (v_x v)) i) tol).
    set (q := fun i => a_le (at_ a_zero (p_mulL p (v_x v)) i) tol && a_le (at_ a_zero (p_mulR p (v_x v)) i) tol).
    assert (EQ : forall i, 0 <= i < m -> q' i = q (nb_pair nu i)).
    { intros i Hi. unfold q, q'. rewrite HmL, HmR by auto. destruct (nb_flip nu i); [apply andb_comm|reflexivity]. }
    rewrite (existsb_renum m (nb_pair nu) q q' (spoil_c tol (v_yA v)) (spoil_c tol yA)) by (first [exact (proj2 Hr)|intros i Hi; split; [apply EQ; auto|apply SR; auto]]).
    rewrite (existsb_renum m (nb_pair nu) q q' (spoil_s (v_yA v)) (spoil_s yA)) by (first [exact (proj2 Hr)|intros i Hi; split; [apply EQ; auto|apply SR; auto]]).
    rewrite (existsb_renum m (nb_pair nu) q q' (spoil_m tol (v_yA v)) (spoil_m tol yA)) by (first [exact (proj2 Hr)|intros i Hi; split; [apply EQ; auto|apply SR; auto]]).
    reflexivity. }
  rewrite EC. set (a := v_classify _ _ _ _ _ _).
  exists c, (v_y (v_duals p' (w_calls c (w_yA yA (w_y y v))))), yA. split; [destruct v; reflexivity|]. split; [exact F|]. split; [|split; [exact YA|exact Q]].
  cbn [v_duals v_y w_stats w_algo w_y w_calls w_yA v_rho v_x v_stats]. unfold p_nD, p_nA. cbn [p' p_off p_nC p_nComp p_mulL p_mulR]. fold b nC m N.
  split; [apply len_tab; unfold N; lia|]. split; [apply len_tab; unfold N; lia|]. destruct Y as (_ & _ & Yb & Y).
  pose proof (Hb : 0 <= b) as Hb'. pose proof (Hc : 0 <= nC) as Hc'. pose proof (Hm : 0 <= m) as Hm'.
  assert (SL : forall k, k < b + nC -> forall (g1 g2 : T -> T) (z : T), (if (b + nC + m <=? k) && (k <? b + nC + m + m) then g1 (if (b + nC <=? k) && (k <? b + nC + m) then g2 z else z) else (if (b + nC <=? k) && (k <? b + nC + m) then g2 z else z)) = z).
  { intros k Hk g1 g2 z. rewrite !(proj2 (Z.leb_gt _ k)) by lia. reflexivity. }
  assert (SM : forall k, b + nC <= k < b + nC + m -> forall (g1 g2 : T -> T) (z : T), (if (b + nC + m <=? k) && (k <? b + nC + m + m) then g1 (if (b + nC <=? k) && (k <? b + nC + m) then g2 z else z) else (if (b + nC <=? k) && (k <? b + nC + m) then g2 z else z)) = g2 z).
  { intros k Hk g1 g2 z. rewrite (proj2 (Z.leb_gt (b + nC + m) k)) by lia. rewrite (proj2 (Z.leb_le (b + nC) k)) by lia. rewrite (proj2 (Z.ltb_lt k (b + nC + m))) by lia. reflexivity. }
  assert (SH : forall k, b + nC + m <= k < b + nC + m + m -> forall (g1 g2 : T -> T) (z : T), (if (b + nC + m <=? k) && (k <? b + nC + m + m) then g1 (if (b + nC <=? k) && (k <? b + nC + m) then g2 z else z) else (if (b + nC <=? k) && (k <? b + nC + m) then g2 z else z)) = g1 z).
  { intros k Hk g1 g2 z. rewrite (proj2 (Z.ltb_ge k (b + nC + m))) by lia. rewrite (proj2 (Z.leb_le (b + nC + m) k)) by lia. rewrite (proj2 (Z.ltb_lt k (b + nC + m + m))) by lia. rewrite andb_false_r. reflexivity. }
  set (D' := fun k => if (b + nC + m <=? k) && (k <? b + nC + m + m) then ((if ((b + nC <=? k) && (k <? b + nC + m))%Z%bool then (at_ a_zero y k - v_rho v * at_ a_zero (mR (v_x v)) (k - (b + nC)))%num else at_ a_zero y k) - v_rho v * at_ a_zero (mL (v_x v)) (k - (b + nC + m)))%num
                      else (if (b + nC <=? k) && (k <? b + nC + m) then (at_ a_zero y k - v_rho v * at_ a_zero (mR (v_x v)) (k - (b + nC)))%num else at_ a_zero y k)).
  set (D := fun k => if (b + nC + m <=? k) && (k <? b + nC + m + m) then ((if ((b + nC <=? k) && (k <? b + nC + m))%Z%bool then (at_ a_zero (v_y v) k - v_rho v * at_ a_zero (p_mulR p (v_x v)) (k - (b + nC)))%num else at_ a_zero (v_y v) k) - v_rho v * at_ a_zero (p_mulL p (v_x v)) (k - (b + nC + m)))%num
                      else (if (b + nC <=? k) && (k <? b + nC + m) then (at_ a_zero (v_y v) k - v_rho v * at_ a_zero (p_mulR p (v_x v)) (k - (b + nC)))%num else at_ a_zero (v_y v) k)).
  assert (DL : forall k, k < b + nC -> D k = at_ a_zero (v_y v) k) by (intros k Hk; exact (SL k Hk (fun z => (z - v_rho v * at_ a_zero (p_mulL p (v_x v)) (k - (b + nC + m)))%num) (fun z => (z - v_rho v * at_ a_zero (p_mulR p (v_x v)) (k - (b + nC)))%num) _)).
  assert (DM : forall i, 0 <= i < m -> D (b + (nC + i)) = (at_ a_zero (v_y v) (b + (nC + i)) - v_rho v * at_ a_zero (p_mulR p (v_x v)) i)%num).
  { intros i Hi. unfold D. rewrite (SM (b + (nC + i)) ltac:(lia) (fun z => (z - v_rho v * at_ a_zero (p_mulL p (v_x v)) (b + (nC + i) - (b + nC + m)))%num) (fun z => (z - v_rho v * at_ a_zero (p_mulR p (v_x v)) (b + (nC + i) - (b + nC)))%num)). replace (b + (nC + i) - (b + nC)) with i by ring. reflexivity. }
  assert (DH : forall i, 0 <= i < m -> D (b + (nC + m + i)) = (at_ a_zero (v_y v) (b + (nC + m + i)) - v_rho v * at_ a_zero (p_mulL p (v_x v)) i)%num).
  { intros i Hi. unfold D. rewrite (SH (b + (nC + m + i)) ltac:(lia) (fun z => (z - v_rho v * at_ a_zero (p_mulL p (v_x v)) (b + (nC + m + i) - (b + nC + m)))%num) (fun z => (z - v_rho v * at_ a_zero (p_mulR p (v_x v)) (b + (nC + m + i) - (b + nC)))%num)). replace (b + (nC + m + i) - (b + nC + m)) with i by ring. reflexivity. }
  assert (DL' : forall k, k < b + nC -> D' k = at_ a_zero y k) by (intros k Hk; exact (SL k Hk (fun z => (z - v_rho v * at_ a_zero (mL (v_x v)) (k - (b + nC + m)))%num) (fun z => (z - v_rho v * at_ a_zero (mR (v_x v)) (k - (b + nC)))%num) _)).
  assert (DM' : forall i, 0 <= i < m -> D' (b + (nC + i)) = (at_ a_zero y (b + (nC + i)) - v_rho v * at_ a_zero (mR (v_x v)) i)%num).
  { intros i Hi. unfold D'. rewrite (SM (b + (nC + i)) ltac:(lia) (fun z => (z - v_rho v * at_ a_zero (mL (v_x v)) (b + (nC + i) - (b + nC + m)))%num) (fun z => (z - v_rho v * at_ a_zero (mR (v_x v)) (b + (nC + i) - (b + nC)))%num)). replace (b + (nC + i) - (b + nC)) with i by ring. reflexivity. }
  assert (DH' : forall i, 0 <= i < m -> D' (b + (nC + m + i)) = (at_ a_zero y (b + (nC + m + i)) - v_rho v * at_ a_zero (mL (v_x v)) i)%num).
  { intros i Hi. unfold D'. rewrite (SH (b + (nC + m + i)) ltac:(lia) (fun z => (z - v_rho v * at_ a_zero (mL (v_x v)) (b + (nC + m + i) - (b + nC + m)))%num) (fun z => (z - v_rho v * at_ a_zero (mR (v_x v)) (b + (nC + m + i) - (b + nC)))%num)). replace (b + (nC + m + i) - (b + nC + m)) with i by ring. reflexivity. }
  pose proof (place_range nC m nu Hr Hc Hm) as PR. fold pl N in PR. destruct Hr as [[HR1 _] [HR2 _]].
  split; intros k Hk.
  - rewrite !at_tab by (unfold N in *; lia). change (D' k = D k). rewrite DL, DL' by lia. apply Yb. auto.
  - pose proof (PR k Hk). rewrite !at_tab by lia. change (D' (b + k) = D (b + pl k)). unfold N in Hk. unfold pl. destruct (place_cases nC m k Hk) as [Kl|[(i & Hi & ->)|(i & Hi & ->)]].
    + rewrite DL' by lia. rewrite Y by (unfold N; lia). unfold pl. rewrite place_lo by lia. specialize (HR1 k Kl). rewrite DL by lia. reflexivity.
    + rewrite DM' by auto. rewrite Y by (unfold N; lia). unfold pl. rewrite HmR by auto. rewrite place_L by auto. specialize (HR2 i Hi).
      destruct (nb_flip nu i); [rewrite DH by auto|rewrite DM by auto]; reflexivity.
    + rewrite DH' by auto. rewrite Y by (unfold N; lia). unfold pl. rewrite HmL by auto. rewrite place_R by auto. specialize (HR2 i Hi).
      destruct (nb_flip nu i); [rewrite DM by auto|rewrite DH by auto]; reflexivity.
Qed.

(** A step of the loop *)
Definition RelO (a b : vst T K * option ReturnValue) : Prop :=
  snd b = snd a /\ Rel (fst a) (fst b) /\ (snd a = None \/ snd a = Some SUCCESSFUL_RETURN -> RelL (fst a) (fst b)).

Lemma tail_rnL v w : RelL v w -> sim RelO (v_tail p orc rand v) (v_tail p' orc' rand w).
Proof.
  intros R. unfold v_tail. change (p_opt p') with (p_opt p).
  assert (E1 : v_total w = v_total v) by (destruct R as (c & y & yA & -> & F); destruct v; reflexivity).
  assert (E2 : v_rho w = v_rho v) by (destruct R as (c & y & yA & -> & F); destruct v; reflexivity). rewrite E1, E2.
  destruct (_ <? _); [split; [reflexivity|]; split; [apply RelL_Rel; exact R|intros [?|?]; discriminate]|].
  destruct (a_lt _ _); [split; [reflexivity|]; split; [apply RelL_Rel; exact R|intros [?|?]; discriminate]|].
  eapply sim_bind; [apply (solve_rn false None None); [discriminate|apply lin_rn, RelL_Rel, R]|].
  intros [r v1] [r' w1] (Er & R1 & R2). cbn [fst snd] in *. subst r'. destruct (is_success r) eqn:ES; cbn [negb].
  - assert (R3 : RelL v1 w1) by (apply R2; destruct r; try discriminate; reflexivity). cbn [sim].
    assert (R4 : RelL (v_steplen p (if o_perturbStep (p_opt p) then v_perturb p rand v1 else v1)) (v_steplen p' (if o_perturbStep (p_opt p) then v_perturb p' rand w1 else w1))).
    { apply steplen_rnL. destruct (o_perturbStep _); [apply perturb_rnL; exact R3|exact R3]. }
    split; [reflexivity|]. split; [apply RelL_Rel; exact R4|intros _; exact R4].
  - split; [reflexivity|]. split; [exact R1|]. cbn [fst snd]. intros [?|E]; [discriminate|]. injection E as ->. discriminate.
Qed.
Lemma pass_rnL v w : RelL v w -> sim RelO (v_pass p orc rand v) (v_pass p' orc' rand w).
Proof.
  intros R. unfold v_pass. eapply sim_bind; [apply head_rnL; exact R|]. intros v1 w1 R1.
  assert (E1 : v_statOK p' w1 = v_statOK p v1) by (destruct R1 as (c & y & yA & -> & F); destruct v1; reflexivity).
  assert (E2 : v_complOK p' w1 = v_complOK p v1) by (destruct R1 as (c & y & yA & -> & F); destruct v1; reflexivity). rewrite E1, E2.
  destruct (v_statOK p v1); [|apply tail_rnL; exact R1]. destruct (v_complOK p v1).
  - pose proof (finish_rnL _ _ R1) as R2. split; [reflexivity|]. split; [apply RelL_Rel; exact R2|intros _; exact R2].
  - eapply sim_bind; [apply penaltyStep_rnL; exact R1|]. intros v2 w2 R2. apply tail_rnL. exact R2.
Qed.
(** Results of a run *)
Definition RelR (a b : ReturnValue * vst T K) : Prop :=
  fst b = fst a /\ Rel (snd a) (snd b) /\ (fst a = SUCCESSFUL_RETURN -> RelL (snd a) (snd b)).
Lemma loop_rnL fuel : forall v w, RelL v w -> sim RelR (v_loop p fuel orc rand v) (v_loop p' fuel orc' rand w).
Proof.
  induction fuel as [|fuel IH]; intros v w R; [reflexivity|]. cbn [v_loop]. eapply sim_bind; [apply pass_rnL; exact R|].
  intros [v1 e] [w1 e'] (Ee & R1 & R2). cbn [fst snd] in *. subst e'. destruct e as [r|]; [|apply IH; auto].
  split; [reflexivity|]. split; [exact R1|]. cbn [fst snd]. intros ->. apply R2. auto.
Qed.
Lemma run_rn fuel y0 y0' x0 : renum_opt b N pl y0 y0' ->
  sim RelR (v_run p fuel orc rand y0 (v_init p x0)) (v_run p' fuel orc' rand y0' (v_init p' x0)).
Proof.
  intros HY. assert (R0 : Rel (v_init p x0) (v_init p' x0)).
  { exists [], [], (tab (p_nA p) (fun _ => a_zero)). split; [reflexivity|constructor]. }
  unfold v_run. eapply sim_bind with (R := RelO).
  - unfold v_first. change (p_opt p') with (p_opt p). eapply sim_bind; [apply (solve_rn true y0 y0'); [auto|]|].
    + destruct (o_solveZeroPenaltyFirst _); [|apply lin_rn; exact R0]. destruct R0 as (c & y & yA & E & F). rewrite E. exists c, y, yA. split; [reflexivity|exact F].
    + intros [r v1] [r' w1] (Er & R1 & R2). cbn [fst snd] in *. subst r'. destruct (is_success r) eqn:ES; cbn [negb].
      * assert (R3 : RelL v1 w1) by (apply R2; destruct r; try discriminate; reflexivity). cbn [sim].
        assert (R4 : RelL (w_stats (snd (updateRhoOpt (v_rho (w_h (p_setH p (v_rho v1)) v1)) (v_stats (w_h (p_setH p (v_rho v1)) v1)))) (w_h (p_setH p (v_rho v1)) v1))
                          (w_stats (snd (updateRhoOpt (v_rho (w_h (p_setH p' (v_rho w1)) w1)) (v_stats (w_h (p_setH p' (v_rho w1)) w1)))) (w_h (p_setH p' (v_rho w1)) w1))).
        { destruct R3 as (c & y & yA & -> & F). exists c, y, yA. split; [destruct v1; reflexivity|exact F]. }
        split; [reflexivity|]. split; [apply RelL_Rel; exact R4|intros _; exact R4].
      * split; [reflexivity|]. split; [exact R1|]. cbn [fst snd]. intros [?|E]; [discriminate|]. injection E as ->. discriminate.
  - intros [v1 e] [w1 e'] (Ee & R1 & R2). cbn [fst snd] in *. subst e'. destruct e as [r|]; [|apply loop_rnL; auto].
    split; [reflexivity|]. split; [exact R1|]. cbn [fst snd]. intros ->. apply R2. auto.
Qed.
End Renumber.
