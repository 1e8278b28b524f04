(** * SwapFacts: exchanging the two sides of complementarity in dense mode (no LCQPow code). *)
From Coq Require Import QArith Qcanon.
From Verif Require Import Base Arith Codes Utilities Options Stats FileIO Subsolver State LCQProblem Tactics Loops Kernels Exact SpecSparse CscKernels CscBuild CscMerge
  Pure PureFacts SpecLoad SpecSwap Refine LoadDense LoadSparse StartDense StartSparse SpecApi ApiFacts Swap.
Open Scope Z_scope.

(** ** Laws of exact arithmetic *)
Lemma x_add_comm (a b : xq) : (a + b = b + a)%num.
Proof. destruct a, b; try reflexivity. cbn. f_equal. apply Qcplus_comm. Qed.
Lemma x_add_assoc (a b c : xq) : (a + b + c = a + (b + c))%num.
Proof. destruct a, b, c; try reflexivity. cbn. f_equal. symmetry. apply Qcplus_assoc. Qed.
Lemma x_mul_comm (a b : xq) : (a * b = b * a)%num.
Proof. destruct a, b; try reflexivity. cbn. f_equal. apply Qcmult_comm. Qed.
Lemma x_add_0 (a : xq) : (a + a_zero = a)%num.
Proof. destruct a; try reflexivity. cbn. f_equal. ring. Qed.
Lemma x_min_comm (a b : xq) : a <> NaN -> b <> NaN -> std_min a b = std_min b a.
Proof.
  intros Ha Hb. unfold std_min. destruct a as [p| | |], b as [q| | |]; try reflexivity; try contradiction. cbn.
  destruct (Qc_ltb q p) eqn:E1; destruct (Qc_ltb p q) eqn:E2; try reflexivity.
  - apply Qc_ltb_spec in E1. apply Qc_ltb_spec in E2. exfalso. exact (Qclt_not_eq _ _ (Qclt_trans _ _ _ E1 E2) eq_refl).
  - f_equal. apply Qc_ltb_false in E1. apply Qc_ltb_false in E2. apply Qcle_antisym; auto.
Qed.

Lemma x_neg_nan (a : xq) : a <> NaN -> (- a)%num <> NaN.
Proof. destruct a; cbn; congruence. Qed.

Lemma fsum_from_add (a b : xq) k f : 0 <= k -> fsum_from (a + b)%num k f = (a + fsum_from b k f)%num.
Proof.
  intros Hk. revert k Hk. apply natlike_ind; [reflexivity|]. intros k Hk IH. unfold Z.succ. rewrite !fsum_from_succ by auto. rewrite IH. apply x_add_assoc.
Qed.
Lemma fsum_from_split (a : xq) k f : 0 <= k -> fsum_from a k f = (a + fsum k f)%num.
Proof. intros Hk. rewrite <- (x_add_0 a) at 1. apply fsum_from_add. auto. Qed.
Lemma fsum_from_swap (a : xq) k f g : 0 <= k -> fsum_from (fsum_from a k f) k g = fsum_from (fsum_from a k g) k f.
Proof. intros Hk. rewrite !fsum_from_split by auto. rewrite !x_add_assoc. f_equal. apply x_add_comm. Qed.
Lemma fsum_from_ext (a : xq) k f g : 0 <= k -> (forall i, 0 <= i < k -> f i = g i) -> fsum_from a k f = fsum_from a k g.
Proof. intros Hk E. rewrite !fsum_from_split by auto. f_equal. apply fsum_ext. auto. Qed.
Lemma fsum_from_app (a : xq) k l f : 0 <= k -> 0 <= l -> fsum_from a (k + l) f = fsum_from (fsum_from a k f) l (fun i => f (k + i)).
Proof.
  intros Hk Hl. revert l Hl. apply natlike_ind; [rewrite Z.add_0_r; reflexivity|]. intros l Hl IH. unfold Z.succ. rewrite Z.add_assoc. rewrite fsum_from_succ by lia. rewrite IH. rewrite fsum_from_succ by lia. reflexivity.
Qed.

(** ** The exchanged problem *)
Lemma swap_C y0 (u : udense xq) : ud_C (swap_dense y0 u) = ud_C u.
Proof.
  unfold ud_C, swap_dense, swap_vec. cbn [ud_L ud_R ud_v u_nComp u_nV]. unfold symm. apply tab_ext. intros i _. unfold sym_ent. apply fsum_ext. intros k _.
  rewrite x_add_comm. f_equal; reflexivity.
Qed.
Lemma swap_pc y0 (v : uvec xq) : u_pc (swap_vec y0 v) = u_pc v.
Proof.
  unfold u_pc, swap_vec. cbn [u_lbL u_lbR u_nComp]. destruct (u_lbL v), (u_lbR v); try reflexivity. apply fsum_ext. intros. apply x_mul_comm.
Qed.
Lemma swap_gphi y0 (u : udense xq) : wf_dense u -> dense_gphi (swap_dense y0 u) = dense_gphi u.
Proof.
  intros W. pose proof (wv_nComp _ (wu_v _ W)). pose proof (wv_nV _ (wu_v _ W)).
  unfold dense_gphi, swap_dense, swap_vec. cbn [ud_v ud_L ud_R u_lbL u_lbR u_nComp u_nV]. destruct (u_lbL (ud_v u)) as [l|], (u_lbR (ud_v u)) as [r|]; try reflexivity.
  f_equal. apply tab_ext. intros i Hi. f_equal. f_equal. unfold addtmul. apply tab_ext. intros j Hj. rewrite !at_tab by lia.
  apply fsum_from_swap. lia.
Qed.

Lemma other_range a b k : 0 <= a -> 0 <= b -> 0 <= k < a + 2 * b -> 0 <= other a b k < a + 2 * b.
Proof. intros. unfold other. destruct (Z.ltb_spec k a); [lia|]. destruct (Z.ltb_spec k (a + b)); lia. Qed.

Lemma app3_at {X} (d : X) a l1 l2 l3 b i : 0 <= a -> 0 <= b -> len l1 = a -> len l2 = b -> len l3 = b -> 0 <= i < a + 2 * b ->
  at_ d (l1 ++ l3 ++ l2) i = at_ d (l1 ++ l2 ++ l3) (other a b i).
Proof.
  intros Ha Hb L1 L2 L3 Hi. unfold other. destruct (Z.ltb_spec i a).
  - rewrite !at_app_l by lia. reflexivity.
  - destruct (Z.ltb_spec i (a + b)).
    + rewrite at_app_r by lia. rewrite at_app_l by lia. rewrite at_app_r by lia. rewrite at_app_r by lia. f_equal. lia.
    + rewrite at_app_r by lia. rewrite at_app_r by lia. rewrite at_app_r by lia. rewrite at_app_l by lia. f_equal. lia.
Qed.
Lemma bnd_len k (l : option (list xq)) d : 0 <= k -> fits k l -> len (bnd k l d) = k.
Proof. intros Hk F. destruct l as [l|]; cbn in *; [exact F|apply len_tab; auto]. Qed.

Lemma swap_lower (v : uvec xq) y0 : wf_vec v -> exchanged (u_nC v) (u_nComp v) (u_lower v) (u_lower (swap_vec y0 v)).
Proof.
  intros V. pose proof (wv_nC _ V). pose proof (wv_nComp _ V). unfold u_lower, swap_vec. cbn [u_nC u_lbA u_lbL u_lbR u_nComp].
  assert (L1 : len (bnd (u_nC v) (u_lbA v) a_ninf) = u_nC v) by (apply bnd_len; [auto|apply wv_lbA; auto]).
  assert (L2 : len (bnd (u_nComp v) (u_lbL v) a_zero) = u_nComp v) by (apply bnd_len; [lia|apply wv_lbL; auto]).
  assert (L3 : len (bnd (u_nComp v) (u_lbR v) a_zero) = u_nComp v) by (apply bnd_len; [lia|apply wv_lbR; auto]).
  split; [rewrite !len_app, L1, L2, L3; lia|]. split; [rewrite !len_app, L1, L2, L3; lia|]. intros k Hk. apply app3_at; auto; lia.
Qed.
Lemma swap_upper (v : uvec xq) y0 : wf_vec v -> exchanged (u_nC v) (u_nComp v) (u_upper v) (u_upper (swap_vec y0 v)).
Proof.
  intros V. pose proof (wv_nC _ V). pose proof (wv_nComp _ V). unfold u_upper, swap_vec. cbn [u_nC u_ubA u_ubL u_ubR u_nComp].
  assert (L1 : len (bnd (u_nC v) (u_ubA v) a_pinf) = u_nC v) by (apply bnd_len; [auto|apply wv_ubA; auto]).
  assert (L2 : len (bnd (u_nComp v) (u_ubL v) a_pinf) = u_nComp v) by (apply bnd_len; [lia|apply wv_ubL; auto]).
  assert (L3 : len (bnd (u_nComp v) (u_ubR v) a_pinf) = u_nComp v) by (apply bnd_len; [lia|apply wv_ubR; auto]).
  split; [rewrite !len_app, L1, L2, L3; lia|]. split; [rewrite !len_app, L1, L2, L3; lia|]. intros k Hk. apply app3_at; auto; lia.
Qed.

Section Dense.
Variables (u : udense xq) (y0 : option (list xq)).
Hypothesis (W : wf_dense u).
Let n := u_nV (ud_v u).
Let nC := u_nC (ud_v u).
Let m := u_nComp (ud_v u).

Lemma swap_ent i j : 0 <= i < nC + 2 * m -> 0 <= j < n -> ent (ud_ALR (swap_dense y0 u)) n i j = ent (ud_ALR u) n (other nC m i) j.
Proof.
  intros Hi Hj. pose proof (wu_v _ W) as V. pose proof (wv_nC _ V : 0 <= nC). pose proof (wv_nComp _ V : 0 < m). pose proof (wv_nV _ V : 0 < n).
  pose proof (wu_L _ W : len (ud_L u) = m * n) as LL. pose proof (wu_R _ W : len (ud_R u) = m * n) as LR. pose proof (wu_A _ W : len (ud_A u) = nC * n) as LA.
  unfold ent, ud_ALR, swap_dense. cbn [ud_A ud_L ud_R]. rewrite (app3_at a_zero (nC * n) (ud_A u) (ud_L u) (ud_R u) (m * n)) by (auto; nia). f_equal.
  unfold other. destruct (Z.ltb_spec i nC).
  - destruct (Z.ltb_spec (i * n + j) (nC * n)); nia.
  - destruct (Z.ltb_spec (i * n + j) (nC * n)); [nia|]. destruct (Z.ltb_spec i (nC + m)).
    + destruct (Z.ltb_spec (i * n + j) (nC * n + m * n)); nia.
    + destruct (Z.ltb_spec (i * n + j) (nC * n + m * n)); nia.
Qed.
Lemma swap_rows : exchanged_rows n nC m (MDense (ud_ALR u)) (MDense (ud_ALR (swap_dense y0 u))).
Proof. left. exists (ud_A u), (ud_L u), (ud_R u). split; [exact (wu_A _ W)|]. split; [exact (wu_L _ W)|]. split; [exact (wu_R _ W)|]. split; reflexivity. Qed.
Lemma swap_tA y y' : exchanged nC m y y' -> tmul (ud_ALR (swap_dense y0 u)) y' (nC + 2 * m) n 1 = tmul (ud_ALR u) y (nC + 2 * m) n 1.
Proof.
  intros (_ & _ & Y). pose proof (wu_v _ W) as V. pose proof (wv_nC _ V : 0 <= nC). pose proof (wv_nComp _ V : 0 < m). pose proof (wv_nV _ V : 0 < n).
  unfold tmul. apply tab_ext. intros c Hc. rewrite Z.div_1_r, Z.mod_1_r. set (f := fun k => (ent (ud_ALR u) n k c * ent y 1 k 0)%num).
  assert (E : forall k, 0 <= k < nC + 2 * m -> (ent (ud_ALR (swap_dense y0 u)) n k c * ent y' 1 k 0)%num = f (other nC m k)).
  { intros k Hk. unfold f. rewrite swap_ent by lia. f_equal. unfold ent. rewrite !Z.mul_1_r, !Z.add_0_r. apply Y. auto. }
  unfold fsum. assert (N : 0 <= nC + 2 * m) by lia. rewrite (fsum_from_ext _ _ _ _ N E). clear N. replace (nC + 2 * m) with (nC + (m + m)) by ring.
  rewrite !fsum_from_app by lia.
  assert (E1 : forall i, 0 <= i < nC -> f (other nC m i) = f i) by (intros i Hi; rewrite other_lo by lia; reflexivity).
  assert (E2 : forall i, 0 <= i < m -> f (other nC m (nC + i)) = f (nC + (m + i))) by (intros i Hi; rewrite other_mid by lia; f_equal; ring).
  assert (E3 : forall i, 0 <= i < m -> f (other nC m (nC + (m + i))) = f (nC + i)) by (intros i Hi; rewrite other_hi by lia; f_equal; ring).
  assert (Hm : 0 <= m) by lia.
  rewrite (fsum_from_ext a_zero nC _ f) by auto.
  rewrite (fsum_from_ext (fsum_from a_zero nC f) m _ (fun i => f (nC + (m + i)))) by auto.
  rewrite (fsum_from_ext _ m (fun i => f (other nC m (nC + (m + i)))) (fun i => f (nC + i))) by auto.
  apply fsum_from_swap. lia.
Qed.
Lemma swap_wf : exchanged_opt (n + nC) m (u_y0 (ud_v u)) y0 -> wf_dense (swap_dense y0 u).
Proof.
  intros HY. destruct W as [V LQ LL LR LA]. destruct V. constructor; auto. constructor; auto.
  cbn. destruct y0 as [l|]; [|exact I]. destruct (u_y0 (ud_v u)); [|contradiction]. destruct HY as (_ & L & _). change (len l = n + (nC + 2 * m)). lia.
Qed.
End Dense.

Lemma dense_algo (u : udense xq) opt orc rand r o : wf_dense u -> paired (ud_v u) -> fin_lower (ud_v u) -> o_qpSolver opt = QPOASES_DENSE ->
  solve_dense u opt orc rand = Ok (r, o) -> exists a, s_algoStat (it o) = Some a.
Proof.
  intros W P F Hq E. unfold solve_dense in E. rewrite new_object_ok in E by apply (wu_v _ W). cbn [bind] in E. rewrite load_dense_ok in E by (first [exact W|exact F|apply fresh_dims]). cbn [bind is_success] in E.
  eapply run_algo; [|exact E]. apply start_dense; auto.
Qed.

(** From the list level to the objects *)
Lemma swap_conclude {K} (p p2 : ops xq K) KR KR' (P : xq -> Prop) n b nC m d d' (s1 s2 : res (ReturnValue * lcqp xq)) v1 v2 :
  p_nV p = n -> p_off p = b -> p_nC p = nC -> p_nComp p = m -> p_nD p2 = p_nD p -> d_nV d' = d_nV d -> d_nDuals d = Some (p_nD p) -> d_nDuals d' = Some (p_nD p) ->
  (forall r o, s1 = Ok (r, o) -> exists a, s_algoStat (it o) = Some a) ->
  sim (fun a b => pd (snd a) = d /\ relT p KR (fst a, it (snd a)) b) s1 v1 -> sim (fun a b => pd (snd a) = d' /\ relT p2 KR' (fst a, it (snd a)) b) s2 v2 ->
  sim (RelR p P) v1 v2 -> exchanged_runs n b nC m s1 s2.
Proof.
  intros En Eb Ec Em EN DV DN DN' HA S1 S2 R. subst n b nC m.
  destruct v1 as [[r v]|e]; destruct v2 as [[r' w]|e']; try contradiction.
  2: { destruct s1 as [[? ?]|]; [contradiction|]. destruct s2 as [[? ?]|]; [contradiction|]. cbn in *. congruence. }
  destruct s1 as [[r1 o]|]; [|contradiction]. destruct s2 as [[r2 o']|]; [|contradiction].
  destruct R as (Er & R & RS). destruct S1 as (D & E1 & RB & RI). destruct S2 as (D' & E2 & RB' & RI'). cbn [fst snd] in *. subst r1 r2 r'.
  assert (XE : s_xk (it o') = s_xk (it o)). { rewrite (proj1 (rb_x _ _ _ RB)), (proj1 (rb_x _ _ _ RB')). destruct R as (c & y & yA & -> & F). reflexivity. }
  assert (AE : s_algoStat (it o') = s_algoStat (it o)). { rewrite (rb_algo _ _ _ RB), (rb_algo _ _ _ RB'). destruct R as (c & y & yA & -> & F). reflexivity. }
  assert (ND : d_nV (pd o') = d_nV (pd o)) by (rewrite D, D'; exact DV).
  cbn [exchanged_runs]. split; [reflexivity|]. split.
  { change (getOutputStatistics o') with (s_stats (it o')). change (getOutputStatistics o) with (s_stats (it o)). rewrite (rb_stats _ _ _ RB), (rb_stats _ _ _ RB'). destruct R as (c & y & yA & -> & F). reflexivity. }
  split; [intros buf; unfold getPrimalSolution; rewrite XE, AE, ND; reflexivity|]. split.
  { rewrite (rb_calls _ _ _ RB), (rb_calls _ _ _ RB'). destruct R as (c & y & yA & -> & F). exact F. }
  intros Su. destruct (RI Su) as [RR _]. destruct (RI' Su) as [RR' _]. pose proof (rl_y _ _ _ _ RR) as Y. pose proof (rl_y _ _ _ _ RR') as Y'. cbn [snd] in Y, Y'.
  destruct (HA _ _ eq_refl) as (a & Ea).
  exists a, (v_y v), (v_y w). split; [destruct (RS Su) as (c & y & yA & -> & _ & EY & _); exact EY|].
  intros buf Hb. destruct Y as [Y LY], Y' as [Y' LY']. rewrite EN in LY'.
  assert (LB : len buf = p_nD p) by (rewrite Hb; unfold p_nD, p_nA; ring).
  unfold getDualSolution. rewrite Y, Y', D, D', DN, DN', AE, Ea. cbn [get bind]. rewrite !copy_out by lia. split; reflexivity.
Qed.

Lemma p_C73_dense u y0 opt orc orc' rand : wf_dense u -> paired (ud_v u) -> fin_lower (ud_v u) -> o_qpSolver opt = QPOASES_DENSE ->
  exchanged_opt (u_nV (ud_v u) + u_nC (ud_v u)) (u_nComp (ud_v u)) (u_y0 (ud_v u)) y0 ->
  indifferent (u_nV (ud_v u)) (u_nV (ud_v u)) (u_nC (ud_v u)) (u_nComp (ud_v u)) orc orc' -> (forall h k, q_y (orc h) k <> NaN) ->
  exchanged_runs (u_nV (ud_v u)) (u_nV (ud_v u)) (u_nC (ud_v u)) (u_nComp (ud_v u)) (solve_dense u opt orc rand) (solve_dense (swap_dense y0 u) opt orc' rand).
Proof.
  intros W Pa FL Hq HY HO HN. pose proof (wu_v _ W) as V. pose proof (wv_nV _ V). pose proof (wv_nC _ V). pose proof (wv_nComp _ V).
  pose proof (swap_wf u y0 W HY) as W'.
  assert (Pa' : paired (ud_v (swap_dense y0 u))) by (unfold paired in *; cbn; tauto).
  assert (FL' : fin_lower (ud_v (swap_dense y0 u))) by (destruct FL; split; auto).
  pose proof (solve_dense_ref u opt orc rand W Pa FL Hq) as S1. pose proof (solve_dense_ref (swap_dense y0 u) opt orc' rand W' Pa' FL' Hq) as S2.
  eapply swap_conclude with (p := dense_ops u opt) (P := fun a => a <> NaN); [| | | | | | | | |exact S1|exact S2|]; try reflexivity.
  { unfold p_nD, p_nA. cbn. f_equal. lia. }
  { unfold p_nD, p_nA. cbn. f_equal. lia. }
  { intros r o ES. eapply dense_algo; [exact W|exact Pa|exact FL|exact Hq|exact ES]. }
  set (n := u_nV (ud_v u)) in *. set (nC := u_nC (ud_v u)) in *. set (m := u_nComp (ud_v u)) in *.
  pose proof (run_sw (dense_ops u opt) (MDense (ud_ALR (swap_dense y0 u))) (u_lower (swap_vec y0 (ud_v u))) (u_upper (swap_vec y0 (ud_v u)))
    (fun y => tmul (ud_ALR (swap_dense y0 u)) y (u_nA (ud_v u)) n 1) (fun a => a <> NaN) rand) as R.
  assert (EO : dense_ops (swap_dense y0 u) opt =
    mkOps xq (list xq) opt QPOASES_DENSE n nC m n true (u_g (ud_v u)) (dense_gphi u) (u_pc (ud_v u))
    (MDense (ud_Q u)) (MDense (ud_ALR (swap_dense y0 u))) (u_lower (swap_vec y0 (ud_v u))) (u_upper (swap_vec y0 (ud_v u)))
    (Some (bnd n (u_lb (ud_v u)) a_ninf)) (Some (bnd n (u_ub (ud_v u)) a_pinf))
    (fun rho => wadd a_one (ud_Q u) rho (ud_C u) (n * n)) (fun rho _ => wadd a_one (ud_Q u) rho (ud_C u) (n * n))
    (fun h x c => affine a_one h x c n n) (fun h x => quad h x n) (fun rho x c => affine rho (ud_C u) x c n n) (fun x => quad (ud_C u) x n) (fun x => quad (ud_Q u) x n)
    (fun y => tmul (ud_ALR (swap_dense y0 u)) y (u_nA (ud_v u)) n 1) (fun x => mmul (ud_R u) x m n 1) (fun x => mmul (ud_L u) x m n 1)).
  { unfold dense_ops. rewrite swap_C, swap_gphi by auto. cbn [swap_dense ud_v]. rewrite swap_pc. reflexivity. }
  cbn zeta in R. cbn [dense_ops p_opt p_solver p_nV p_nC p_nComp p_off p_box p_g p_gphi p_pc p_matH p_matA p_lbA p_ubA p_lb p_ub p_setH p_updH p_affH p_quadH p_affC p_quadC p_quadQ p_tA p_mulL p_mulR] in R.
  fold n nC m in R. rewrite <- EO in R.
  assert (Hn : 0 <= n) by lia. assert (Hc : 0 <= nC) by lia. assert (Hm : 0 <= m) by lia.
  specialize (R Hn (fun _ => Z.le_refl _) Hc Hm (swap_rows u y0 W) (swap_lower (ud_v u) y0 V) (swap_upper (ud_v u) y0 V)).
  assert (HT : forall y y', exchanged nC m y y' -> tmul (ud_ALR (swap_dense y0 u)) y' (u_nA (ud_v u)) n 1 = tmul (ud_ALR u) y (u_nA (ud_v u)) n 1) by (intros; apply swap_tA; auto).
  exact (R HT x_neg_nan x_min_comm x_mul_comm orc orc' HO (fun h k _ => HN h k) (Z.to_nat (o_maxIterations opt) + 2)%nat (u_y0 (ud_v u)) y0 (u_x (ud_v u)) HY).
Qed.

(** ** Sparse mode *)
Section Fold.
Context {X : Type}.
(** No LCQPow code. *)
Definition additive (g : xq -> X -> xq) : Prop := forall a b e, g (a + b)%num e = (a + g b e)%num.
Lemma fold_add g (l : list X) a b : additive g -> fold_left g l (a + b)%num = (a + fold_left g l b)%num.
Proof. intros G. revert b. induction l as [|e l IH]; intros b; [reflexivity|]. cbn [fold_left]. rewrite G. apply IH. Qed.
Lemma fold_split g (l : list X) a : additive g -> fold_left g l a = (a + fold_left g l a_zero)%num.
Proof. intros G. rewrite <- (x_add_0 a) at 1. apply fold_add. auto. Qed.
Lemma fold_ext (g g' : xq -> X -> xq) l : (forall a e, In e l -> g a e = g' a e) -> forall a, fold_left g l a = fold_left g' l a.
Proof. induction l as [|e l IH]; intros E a; [reflexivity|]. cbn [fold_left]. rewrite E by (left; auto). apply IH. intros. apply E. right. auto. Qed.
End Fold.
Lemma fold_swap {X Y} (g : xq -> X -> xq) (g' : xq -> Y -> xq) l l' a : additive g -> additive g' ->
  fold_left g l (fold_left g' l' a) = fold_left g' l' (fold_left g l a).
Proof. intros G G'. rewrite (fold_split g l), (fold_split g' l' a), (fold_split g' l' (fold_left g l a)), (fold_split g l a) by auto. rewrite !x_add_assoc. f_equal. apply x_add_comm. Qed.
Lemma additive_sym c : additive (symstep c).
Proof. intros a b e. unfold symstep. destruct (find_row c (fst e)); [apply x_add_assoc|reflexivity]. Qed.
Lemma additive_t (h : Z * xq -> xq) : additive (fun t e => (t + h e)%num).
Proof. intros a b e. apply x_add_assoc. Qed.

Lemma fold_left_map' {A B C} (f : A -> B) (g : C -> B -> C) l a : fold_left g (map f l) a = fold_left (fun c x => g c (f x)) l a.
Proof. revert a. induction l; intros; [reflexivity|]. apply IHl. Qed.

Lemma swap_C_csc y0 (u : usparse xq) : us_C (swap_sparse y0 u) = us_C u.
Proof.
  unfold us_C, symm_cols, swap_sparse, swap_vec. cbn [us_v us_L us_R u_nV]. apply tab_ext. intros j _. unfold tabcat. f_equal. apply tab_ext. intros i _.
  assert (E : sym_csc (us_R u) (us_L u) i j = sym_csc (us_L u) (us_R u) i j) by (unfold sym_csc; apply fold_swap; apply additive_sym). rewrite E. reflexivity.
Qed.
Lemma swap_gphi_csc y0 (u : usparse xq) : wf_sparse u -> sparse_gphi (swap_sparse y0 u) = sparse_gphi u.
Proof.
  intros W. pose proof (wv_nV _ (ws_v _ W)). unfold sparse_gphi, swap_sparse, swap_vec. cbn [us_v us_L us_R u_lbL u_lbR u_nV].
  destruct (u_lbL (us_v u)) as [l|], (u_lbR (us_v u)) as [r|]; try reflexivity. f_equal. apply tab_ext. intros i Hi. f_equal. f_equal. unfold addtmul_csc. apply tab_ext. intros j Hj.
  rewrite !at_tab by lia. unfold tcolsum. apply fold_swap; apply additive_t.
Qed.
Lemma swap_tA_csc y0 (u : usparse xq) y y' : wf_sparse u -> exchanged (u_nC (us_v u)) (u_nComp (us_v u)) y y' ->
  tmul_csc (us_ALR (swap_sparse y0 u)) y' (u_nV (us_v u)) = tmul_csc (us_ALR u) y (u_nV (us_v u)).
Proof.
  intros W (_ & _ & Y). pose proof (wv_nC _ (ws_v _ W)) as Hc. pose proof (wv_nComp _ (ws_v _ W)) as Hm. unfold tmul_csc. apply tab_ext. intros j Hj.
  unfold us_ALR, swap_sparse, swap_vec. cbn [us_v us_L us_R u_nV u_nC u_nComp]. change (us_Acols (mkUsparse (mkUvec _ _ _ _ _ _ _ _ _ _ _ _ _ _) (us_Q u) (us_R u) (us_L u) (us_A u))) with (us_Acols u).
  set (n := u_nV (us_v u)) in *. set (nC := u_nC (us_v u)) in *. set (m := u_nComp (us_v u)) in *.
  unfold stack_cols, col at 1 5. rewrite !at_tab by lia. unfold tcolsum. rewrite !fold_left_app. unfold shift_col. rewrite !fold_left_map'. cbv beta. cbn [fst snd].
  assert (RA : forall e, In e (col (us_Acols u) j) -> 0 <= fst e < nC).
  { intros [r x] He. destruct (ws_A _ W) as (L & B & _). eapply B; [|exact He]. unfold col, at_. apply nth_In. fold n in L. unfold len in L. lia. }
  assert (RL : forall e, In e (col (us_L u) j) -> 0 <= fst e < m).
  { intros [r x] He. destruct (ws_L _ W) as (L & B & _). eapply B; [|exact He]. unfold col, at_. apply nth_In. fold n in L. unfold len in L. lia. }
  assert (RR : forall e, In e (col (us_R u) j) -> 0 <= fst e < m).
  { intros [r x] He. destruct (ws_R _ W) as (L & B & _). eapply B; [|exact He]. unfold col, at_. apply nth_In. fold n in L. unfold len in L. lia. }
  rewrite (fold_ext (fun t e => (t + at_ a_zero y' (fst e) * snd e)%num) (fun t e => (t + at_ a_zero y (fst e) * snd e)%num) (col (us_Acols u) j)).
  2: { intros a e He. specialize (RA e He). rewrite Y by lia. rewrite other_lo by lia. reflexivity. }
  set (a := fold_left _ (col (us_Acols u) j) a_zero).
  rewrite (fold_ext (fun t e => (t + at_ a_zero y' (nC + fst e) * snd e)%num) (fun t e => (t + at_ a_zero y (nC + m + fst e) * snd e)%num) (col (us_R u) j)).
  2: { intros b e He. specialize (RR e He). cbn [fst snd]. rewrite Y by lia. rewrite other_mid by lia. f_equal. f_equal. f_equal. lia. }
  rewrite (fold_ext (fun t e => (t + at_ a_zero y' (nC + m + fst e) * snd e)%num) (fun t e => (t + at_ a_zero y (nC + fst e) * snd e)%num) (col (us_L u) j)).
  2: { intros b e He. specialize (RL e He). cbn [fst snd]. rewrite Y by lia. rewrite other_hi by lia. f_equal. f_equal. f_equal. lia. }
  cbn [fst snd]. apply fold_swap; apply (additive_t (fun e => (at_ a_zero y _ * snd e)%num)).
Qed.
Lemma swap_wf_csc y0 (u : usparse xq) : wf_sparse u -> match y0 with Some l => len l = u_nV (us_v u) + u_nA (us_v u) | None => True end -> wf_sparse (swap_sparse y0 u).
Proof. intros [V WQ WL WR WA WM] HY. destruct V. constructor; auto. constructor; auto. Qed.
Lemma sparse_algo (u : usparse xq) opt orc rand r o : wf_sparse u -> paired (us_v u) -> fin_lower (us_v u) -> concat (us_C u) <> [] ->
  o_qpSolver opt <> QPOASES_DENSE -> osqp_ok (us_v u) opt -> solve_sparse u opt orc rand = Ok (r, o) -> exists a, s_algoStat (it o) = Some a.
Proof.
  intros W P F NZ Hq Ho E. unfold solve_sparse in E. rewrite new_object_ok in E by apply (ws_v _ W). cbn [bind] in E. rewrite load_sparse_ok in E by (first [exact W|exact F|exact NZ|exact Ho|apply fresh_dims]). cbn [bind is_success] in E.
  eapply run_algo; [|exact E]. apply start_sparse; auto.
Qed.
Lemma p_C73_sparse u y0 opt orc orc' rand b : wf_sparse u -> paired (us_v u) -> fin_lower (us_v u) -> concat (us_C u) <> [] ->
  o_qpSolver opt <> QPOASES_DENSE -> osqp_ok (us_v u) opt -> b = (match o_qpSolver opt with OSQP_SPARSE => 0 | _ => u_nV (us_v u) end) ->
  exchanged_opt (b + u_nC (us_v u)) (u_nComp (us_v u)) (u_y0 (us_v u)) y0 ->
  indifferent (u_nV (us_v u)) b (u_nC (us_v u)) (u_nComp (us_v u)) orc orc' -> (forall h k, q_y (orc h) k <> NaN) ->
  exchanged_runs (u_nV (us_v u)) b (u_nC (us_v u)) (u_nComp (us_v u)) (solve_sparse u opt orc rand) (solve_sparse (swap_sparse y0 u) opt orc' rand).
Proof.
  intros W Pa FL NZ Hq Ho Eb HY HO HN. pose proof (ws_v _ W) as V. pose proof (wv_nV _ V). pose proof (wv_nC _ V). pose proof (wv_nComp _ V).
  assert (Eb' : b = if osqp opt then 0 else u_nV (us_v u)) by (rewrite Eb; unfold osqp; destruct (o_qpSolver opt); reflexivity).
  assert (W' : wf_sparse (swap_sparse y0 u)).
  { apply swap_wf_csc; auto. destruct y0 as [l|]; [|exact I]. destruct (u_y0 (us_v u)) as [l0|] eqn:E0; [|contradiction]. destruct HY as (_ & L & _).
    destruct (o_qpSolver opt) eqn:Q; [contradiction| |destruct (Ho Q) as (_ & _ & N); congruence]. subst b. unfold u_nA. lia. }
  assert (Ho' : osqp_ok (us_v (swap_sparse y0 u)) opt).
  { intros Q. destruct (Ho Q) as (A & B & C). split; [exact A|]. split; [exact B|]. cbn. rewrite C in HY. destruct y0; [contradiction|reflexivity]. }
  assert (NZ' : concat (us_C (swap_sparse y0 u)) <> []) by (rewrite swap_C_csc; exact NZ).
  assert (Pa' : paired (us_v (swap_sparse y0 u))) by (unfold paired in *; cbn; tauto).
  assert (FL' : fin_lower (us_v (swap_sparse y0 u))) by (destruct FL; split; auto).
  pose proof (solve_sparse_ref u opt orc rand W Pa FL NZ Hq Ho) as S1. pose proof (solve_sparse_ref (swap_sparse y0 u) opt orc' rand W' Pa' FL' NZ' Hq Ho') as S2.
  eapply swap_conclude with (p := sparse_ops u opt) (P := fun a => a <> NaN); [| | | | | | | | |exact S1|exact S2|]; try reflexivity.
  { symmetry. exact Eb'. }
  { unfold sparse_pd, sparse_pd0. destruct (osqp opt); reflexivity. }
  { unfold sparse_pd, sparse_pd0, p_nD, p_nA. cbn [sparse_ops p_off p_nC p_nComp]. destruct (osqp opt); cbn; f_equal; lia. }
  { unfold sparse_pd, sparse_pd0, p_nD, p_nA. cbn [sparse_ops p_off p_nC p_nComp]. destruct (osqp opt); cbn; f_equal; lia. }
  { intros r o ES. eapply sparse_algo; [exact W|exact Pa|exact FL|exact NZ|exact Hq|exact Ho|exact ES]. }
  set (n := u_nV (us_v u)) in *. set (nC := u_nC (us_v u)) in *. set (m := u_nComp (us_v u)) in *.
  pose proof (run_sw (sparse_ops u opt) (csc_mat (u_nA (us_v u)) n (us_ALR (swap_sparse y0 u))) (u_lower (swap_vec y0 (us_v u))) (u_upper (swap_vec y0 (us_v u)))
    (fun y => tmul_csc (us_ALR (swap_sparse y0 u)) y n) (fun a => a <> NaN) rand) as R.
  assert (EO : sparse_ops (swap_sparse y0 u) opt =
    mkOps xq (@tag xq -> xq) opt (o_qpSolver opt) n nC m (if osqp opt then 0 else n) (negb (osqp opt)) (u_g (us_v u)) (sparse_gphi u) (u_pc (us_v u))
    (csc_mat n n (sparse_H u opt)) (csc_mat (u_nA (us_v u)) n (us_ALR (swap_sparse y0 u))) (u_lower (swap_vec y0 (us_v u))) (u_upper (swap_vec y0 (us_v u)))
    (if osqp opt then None else Some (bnd n (u_lb (us_v u)) a_ninf)) (if osqp opt then None else Some (bnd n (u_ub (us_v u)) a_pinf))
    (fun rho => tval rho) (fun rho h => bump (rho * (a_one - a_one / o_penaltyUpdateFactor opt))%num h)
    (fun h x c => affine_csc a_one (vcols h (us_tags u)) x c n) (fun h x => quad_csc (vcols h (us_tags u)) x n)
    (fun rho x c => affine_csc rho (us_C u) x c n) (fun x => quad_csc (us_C u) x n) (fun x => quad_csc (us_Q u) x n)
    (fun y => tmul_csc (us_ALR (swap_sparse y0 u)) y n) (fun x => mul_csc (us_R u) x m n) (fun x => mul_csc (us_L u) x m n)).
  { unfold sparse_ops. rewrite swap_gphi_csc by auto. unfold us_tags. rewrite swap_C_csc. cbn [swap_sparse us_v]. rewrite swap_pc. reflexivity. }
  cbn zeta in R. cbn [sparse_ops p_opt p_solver p_nV p_nC p_nComp p_off p_box p_g p_gphi p_pc p_matH p_matA p_lbA p_ubA p_lb p_ub p_setH p_updH p_affH p_quadH p_affC p_quadC p_quadQ p_tA p_mulL p_mulR] in R.
  fold n nC m in R. rewrite <- EO in R.
  assert (Hc : 0 <= nC) by lia. assert (Hm : 0 <= m) by lia. assert (Hb : 0 <= if osqp opt then 0 else n) by (destruct (osqp opt); lia).
  assert (Hx : negb (osqp opt) = true -> n <= if osqp opt then 0 else n) by (destruct (osqp opt); [discriminate|lia]).
  assert (HR : exchanged_rows n nC m (csc_mat (u_nA (us_v u)) n (us_ALR u)) (csc_mat (u_nA (us_v u)) n (us_ALR (swap_sparse y0 u)))).
  { right. exists (us_Acols u), (us_L u), (us_R u). split; reflexivity. }
  specialize (R Hb Hx Hc Hm HR (swap_lower (us_v u) y0 V) (swap_upper (us_v u) y0 V)).
  assert (HT : forall y y', exchanged nC m y y' -> tmul_csc (us_ALR (swap_sparse y0 u)) y' n = tmul_csc (us_ALR u) y n) by (intros; apply swap_tA_csc; auto).
  rewrite <- Eb' in R.
  exact (R HT x_neg_nan x_min_comm x_mul_comm orc orc' HO (fun h k _ => HN h k) (Z.to_nat (o_maxIterations opt) + 2)%nat (u_y0 (us_v u)) y0 (u_x (us_v u)) HY).
Qed.
