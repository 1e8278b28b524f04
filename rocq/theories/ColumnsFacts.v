(** * ColumnsFacts: another order of the variables (no LCQPow code). *)
From Coq Require Import Permutation QArith Qcanon Lqa.
From Verif Require Import Base Arith Codes Utilities Options Stats FileIO Subsolver State LCQProblem Tactics Loops Kernels Exact SpecSparse CscKernels CscBuild CscMerge
  Pure PureFacts SpecLoad Refine LoadDense LoadSparse StartDense StartSparse SpecApi ApiFacts SpecSwap Swap SwapFacts SpecRenumber Renumber RenumberFacts SpecColumns Columns.
Open Scope Z_scope.

(** ** Largest absolute value in another order *)
(** No LCQPow code. *)
Definition up (a v : xq) : xq := if x_lt a v then v else a.
(** No LCQPow code. *)
Definition dn (a v : xq) : xq := if x_lt v a then v else a.
Ltac qc := repeat match goal with
  | E : Qc_ltb _ _ = true |- _ => apply Qc_ltb_spec in E
  | E : Qc_ltb _ _ = false |- _ => apply Qc_ltb_false in E end;
  unfold Qclt, Qcle in *.
Lemma up_swap a x y : up (up a x) y = up (up a y) x.
Proof.
  destruct a as [a| | |], x as [x| | |], y as [y| | |]; try reflexivity; unfold up; cbn [x_lt];
    repeat (match goal with |- context [Qc_ltb ?a ?b] => destruct (Qc_ltb a b) eqn:? end; cbn [x_lt]); try reflexivity;
    qc; try (exfalso; lra); f_equal; apply Qc_is_canon; lra.
Qed.
Lemma dn_swap a x y : dn (dn a x) y = dn (dn a y) x.
Proof.
  destruct a as [a| | |], x as [x| | |], y as [y| | |]; try reflexivity; unfold dn; cbn [x_lt];
    repeat (match goal with |- context [Qc_ltb ?a ?b] => destruct (Qc_ltb a b) eqn:? end; cbn [x_lt]); try reflexivity;
    qc; try (exfalso; lra); f_equal; apply Qc_is_canon; lra.
Qed.
(** One step of the loop of MaxAbs.  No LCQPow code. *)
Definition mm (s : xq * xq) (v : xq) : xq * xq := if x_lt (fst s) v then (v, snd s) else if x_lt v (snd s) then (fst s, v) else s.
Lemma mm_split s v : x_le (snd s) (fst s) = true -> mm s v = (up (fst s) v, dn (snd s) v) /\ x_le (snd (mm s v)) (fst (mm s v)) = true.
Proof.
  destruct s as [[M| | |] [m| | |]]; cbn [fst snd]; intros L; try discriminate; destruct v as [v| | |]; unfold mm, up, dn; cbn [fst snd x_lt];
    repeat (match goal with |- context [Qc_ltb ?a ?b] => destruct (Qc_ltb a b) eqn:? end; cbn [fst snd x_lt]); (split; [try reflexivity|]); cbn [fst snd x_le] in *; try reflexivity; try exact L;
    try (apply Qc_leb_spec in L); try (apply Qc_leb_spec); qc; try lra; exfalso; lra.
Qed.
Lemma mm_fold l : forall s, x_le (snd s) (fst s) = true -> fold_left mm l s = (fold_left up l (fst s), fold_left dn l (snd s)).
Proof.
  induction l as [|v l IH]; intros s L; [destruct s; reflexivity|]. cbn [fold_left]. destruct (mm_split s v L) as [E L']. rewrite IH by exact L'. rewrite E. reflexivity.
Qed.
Lemma maxmin_tab (x : list xq) k : maxmin x k = fold_left mm (tab k (at_ a_zero x)) (a_zero, a_zero).
Proof. unfold maxmin, tab. rewrite fold_left_map'. reflexivity. Qed.
Section Moved.
Variables (n : Z) (f : Z -> Z).
Hypothesis (Hn : 0 <= n) (Hf : permutes n f).
Lemma moved_perm (x x' : list xq) : moved n f x x' -> Permutation (tab n (at_ a_zero x')) (tab n (at_ a_zero x)).
Proof.
  intros (_ & _ & X). assert (E : tab n (at_ a_zero x') = map (at_ a_zero x) (tab n f)) by (rewrite map_tab; apply tab_ext; auto). rewrite E.
  assert (E2 : tab n (at_ a_zero x) = map (at_ a_zero x) (tab n (fun i => i))) by (rewrite map_tab; reflexivity). rewrite E2. apply Permutation_map, perm_tab, Hf.
Qed.
Lemma moved_maxabs (x x' : list xq) : moved n f x x' -> maxabs x' n = maxabs x n.
Proof.
  intros X. pose proof (moved_perm x x' X) as P. unfold maxabs. rewrite !maxmin_tab, !mm_fold by reflexivity. cbn [fst snd].
  rewrite (fold_perm up _ _ up_swap P), (fold_perm dn _ _ dn_swap P). reflexivity.
Qed.
Lemma fsum_moved (g g' : Z -> xq) : (forall i, 0 <= i < n -> g' i = g (f i)) -> fsum n g' = fsum n g.
Proof. intros E. unfold fsum. rewrite <- (fsum_from_perm a_zero n f g Hf). apply fsum_from_ext; auto. Qed.
Lemma moved_dot (x x' y y' : list xq) : moved n f x x' -> moved n f y y' -> dot x' y' n = dot x y n.
Proof. intros (_ & _ & X) (_ & _ & Y). apply (fsum_moved (fun i => (at_ a_zero x i * at_ a_zero y i)%num)). intros i Hi. rewrite X, Y by auto. reflexivity. Qed.

(** Square matrices with rows and columns in the new order.  No LCQPow code. *)
Definition sq (M M' : list xq) : Prop := forall i j, 0 <= i < n -> 0 <= j < n -> ent M' n i j = ent M n (f i) (f j).
Lemma sq_affine a M M' x x' c c' : sq M M' -> moved n f x x' -> moved n f c c' -> moved n f (affine a M x c n n) (affine a M' x' c' n n).
Proof.
  intros S (_ & _ & X) (_ & _ & C). apply (moved_tab n f Hn Hf). intros i Hi. rewrite C by auto. f_equal. f_equal.
  apply (fsum_moved (fun k => (ent M n (f i) k * at_ a_zero x k)%num)). intros k Hk. rewrite S, X by auto. reflexivity.
Qed.
Lemma sq_quad M M' x x' : sq M M' -> moved n f x x' -> quad M' x' n = quad M x n.
Proof.
  intros S (_ & _ & X). unfold quad. apply (fsum_moved (fun i => (fsum n (fun j => ent M n i j * at_ a_zero x j) * at_ a_zero x i)%num)). intros i Hi. rewrite X by auto. f_equal.
  apply (fsum_moved (fun j => (ent M n (f i) j * at_ a_zero x j)%num)). intros j Hj. rewrite S, X by auto. reflexivity.
Qed.
Lemma mod_div i j : 0 <= i < n -> 0 <= j < n -> (i * n + j) / n = i /\ (i * n + j) mod n = j /\ 0 <= i * n + j < n * n.
Proof.
  intros Hi Hj. split; [|split]; [rewrite Z.div_add_l by lia; rewrite Z.div_small by lia; ring|rewrite Z.add_comm, Z.mod_add by lia; apply Z.mod_small; lia|nia].
Qed.
Lemma sq_wadd a c M M' Q Q' : sq M M' -> sq Q Q' -> sq (wadd a M c Q (n * n)) (wadd a M' c Q' (n * n)).
Proof.
  intros S1 S2 i j Hi Hj. pose proof (proj1 Hf i Hi) as Fi. pose proof (proj1 Hf j Hj) as Fj. destruct (mod_div i j Hi Hj) as (_ & _ & B1). destruct (mod_div _ _ Fi Fj) as (_ & _ & B2).
  unfold ent, wadd. rewrite !at_tab by auto. specialize (S1 i j Hi Hj). specialize (S2 i j Hi Hj). unfold ent in S1, S2. rewrite S1, S2. reflexivity.
Qed.

(** Matrices with columns in the new order *)
Variables (k : Z).
Hypothesis (Hk : 0 <= k).
Lemma cm_tmul M M' (y : list xq) : cols_moved k n f M M' -> moved n f (tmul M y k n 1) (tmul M' y k n 1).
Proof.
  intros C. unfold tmul. rewrite Z.mul_1_r. apply (moved_tab n f Hn Hf). intros i Hi. rewrite !Z.div_1_r, !Z.mod_1_r. apply fsum_ext. intros r Hr. f_equal. apply C; auto.
Qed.
Lemma cm_mmul M M' (x x' : list xq) : cols_moved k n f M M' -> moved n f x x' -> mmul M' x' k n 1 = mmul M x k n 1.
Proof.
  intros C (_ & _ & X). unfold mmul. rewrite Z.mul_1_r. apply tab_ext. intros i Hi. rewrite !Z.div_1_r, !Z.mod_1_r.
  apply (fsum_moved (fun j => (ent M n i j * ent x 1 j 0)%num)). intros j Hj. unfold ent at 2 4. rewrite !Z.mul_1_r, !Z.add_0_r. rewrite X by auto. f_equal. apply C; auto.
Qed.
Lemma cm_symm L L' R R' : cols_moved k n f L L' -> cols_moved k n f R R' -> sq (symm L R k n) (symm L' R' k n).
Proof.
  intros CL CR i j Hi Hj. pose proof (proj1 Hf i Hi) as Fi. pose proof (proj1 Hf j Hj) as Fj. destruct (mod_div i j Hi Hj) as (D1 & D2 & B1). destruct (mod_div _ _ Fi Fj) as (D3 & D4 & B2).
  unfold ent, symm. rewrite !at_tab by auto. rewrite D1, D2, D3, D4.
  assert (S : forall (A B : list xq) r c, sym_ent A B k n r c = fsum k (fun q => (ent A n q r * ent B n q c + ent B n q r * ent A n q c)%num)).
  { intros A B r c. unfold sym_ent. destruct (Z.le_ge_cases c r) as [L0|L0]; [rewrite Z.max_l, Z.min_r by lia; reflexivity|]. rewrite Z.max_r, Z.min_l by lia.
    apply fsum_ext. intros q Hq. rewrite x_add_comm. f_equal; apply x_mul_comm. }
  rewrite !S. apply fsum_ext. intros q Hq. assert (EL : forall c, 0 <= c < n -> ent L' n q c = ent L n q (f c)) by (intros; apply CL; auto).
  assert (ER : forall c, 0 <= c < n -> ent R' n q c = ent R n q (f c)) by (intros; apply CR; auto). rewrite !EL, !ER by auto. reflexivity.
Qed.
Lemma cm_addtmul M M' (y c c' : list xq) : cols_moved k n f M M' -> moved n f c c' -> moved n f (addtmul M y c k n 1) (addtmul M' y c' k n 1).
Proof.
  intros C (_ & _ & X). unfold addtmul. rewrite Z.mul_1_r. apply (moved_tab n f Hn Hf). intros i Hi. rewrite !Z.div_1_r, !Z.mod_1_r. rewrite X by auto. apply fsum_from_ext; [exact Hk|]. intros r Hr. f_equal. apply C; auto.
Qed.
End Moved.

(** ** Dense mode *)
Section Dense.
Variables (f : Z -> Z) (u u' : udense xq).
Hypothesis (W : wf_dense u) (W' : wf_dense u') (MD : moved_dense f u u') (Hf : permutes (u_nV (ud_v u)) f).
Let n := u_nV (ud_v u).
Let nC := u_nC (ud_v u).
Let m := u_nComp (ud_v u).
Let MV := md_v _ _ _ MD.
Let V := wu_v _ W.
Lemma cd_dims : u_nV (ud_v u') = n /\ u_nC (ud_v u') = nC /\ u_nComp (ud_v u') = m.
Proof. split; [|split]; apply MV. Qed.
Lemma cd_sizes : 0 < n /\ 0 <= nC /\ 0 < m.
Proof. split; [|split]; apply V. Qed.
Lemma cd_n : 0 <= n. Proof. destruct cd_sizes; lia. Qed.
Lemma cd_m : 0 <= m. Proof. destruct cd_sizes as (_ & _ & ?); lia. Qed.
Lemma cd_lens : len (ud_A u) = nC * n /\ len (ud_L u) = m * n /\ len (ud_R u) = m * n /\ len (ud_A u') = nC * n /\ len (ud_L u') = m * n /\ len (ud_R u') = m * n.
Proof.
  destruct cd_dims as (E1 & E2 & E3). pose proof (wu_L _ W') as LL'. pose proof (wu_R _ W') as LR'. pose proof (wu_A _ W') as LA'. rewrite E1, E3 in LL'. rewrite E1, E3 in LR'. rewrite E1, E2 in LA'.
  repeat (split; [first [exact (wu_A _ W)|exact (wu_L _ W)|exact (wu_R _ W)|assumption]|]). assumption.
Qed.
Lemma cd_ALR : cols_moved (nC + 2 * m) n f (ud_ALR u) (ud_ALR u').
Proof.
  intros i j Hi Hj. destruct cd_sizes as (S1 & S2 & S3). destruct cd_lens as (LA & LL & LR & LA' & LL' & LR').
  pose proof (proj1 Hf j Hj : 0 <= f j < n) as Fj.
  assert (X1 : forall w : udense xq, len (ud_A w) = nC * n -> forall k c, 0 <= k < nC -> 0 <= c < n -> at_ a_zero (ud_ALR w) (k * n + c) = at_ a_zero (ud_A w) (k * n + c)).
  { intros w Lw k c Hk Hc. unfold ud_ALR. apply stack_lo. rewrite Lw. nia. }
  assert (X2 : forall w : udense xq, len (ud_A w) = nC * n -> len (ud_L w) = m * n -> forall k c, 0 <= k < m -> 0 <= c < n -> at_ a_zero (ud_ALR w) ((nC + k) * n + c) = at_ a_zero (ud_L w) (k * n + c)).
  { intros w Lw Mw k c Hk Hc. unfold ud_ALR. replace ((nC + k) * n + c) with (len (ud_A w) + (k * n + c)) by (rewrite Lw; ring). apply stack_mid. rewrite Mw. nia. }
  assert (X3 : forall w : udense xq, len (ud_A w) = nC * n -> len (ud_L w) = m * n -> len (ud_R w) = m * n -> forall k c, 0 <= k < m -> 0 <= c < n -> at_ a_zero (ud_ALR w) ((nC + m + k) * n + c) = at_ a_zero (ud_R w) (k * n + c)).
  { intros w Lw Mw Rw k c Hk Hc. unfold ud_ALR. replace ((nC + m + k) * n + c) with (len (ud_A w) + len (ud_L w) + (k * n + c)) by (rewrite Lw, Mw; ring). apply stack_hi. rewrite Rw. nia. }
  destruct (place_cases nC m i Hi) as [Kl|[(k & Hk & ->)|(k & Hk & ->)]].
  - rewrite !X1 by auto. apply (md_A _ _ _ MD); auto.
  - rewrite !X2 by auto. apply (md_L _ _ _ MD); auto.
  - rewrite !X3 by auto. apply (md_R _ _ _ MD); auto.
Qed.
Lemma cd_Q : sq n f (ud_Q u) (ud_Q u').
Proof. intros i j Hi Hj. exact (md_Q _ _ _ MD i j Hi Hj). Qed.
Lemma cd_C : sq n f (ud_C u) (ud_C u').
Proof. unfold ud_C. destruct cd_dims as (-> & _ & ->). apply (cm_symm n f cd_n Hf m); [exact (md_L _ _ _ MD)|exact (md_R _ _ _ MD)]. Qed.
Lemma cd_gphi : moved_opt n f (dense_gphi u) (dense_gphi u').
Proof.
  unfold dense_gphi. destruct cd_dims as (-> & _ & ->). fold n m. rewrite (mv_lbL _ _ _ _ MV), (mv_lbR _ _ _ _ MV). destruct (u_lbL (ud_v u)); [|exact I]. destruct (u_lbR (ud_v u)); [|exact I].
  cbn [moved_opt]. apply (moved_tab n f cd_n Hf). intros i Hi. f_equal.
  match goal with |- at_ _ ?a _ = at_ _ ?c _ => assert (G : moved n f c a) end; [|exact (proj2 (proj2 G) i Hi)].
  apply (cm_addtmul n f cd_n Hf m cd_m); [exact (md_L _ _ _ MD)|]. apply (cm_addtmul n f cd_n Hf m cd_m); [exact (md_R _ _ _ MD)|]. apply (moved_const n f cd_n Hf).
Qed.
Lemma cd_bnd (l l' : option (list xq)) d : fits n l -> fits n l' -> (forall i, 0 <= i < n -> bound_at l' d i = bound_at l d (f i)) -> moved n f (bnd n l d) (bnd n l' d).
Proof.
  intros F F' E. split; [apply bnd_len; auto using cd_n|]. split; [apply bnd_len; auto using cd_n|]. intros i Hi. pose proof (proj1 Hf i Hi). rewrite !bnd_at by auto. auto.
Qed.
Lemma cd_fits : fits n (u_lb (ud_v u')) /\ fits n (u_ub (ud_v u')) /\ fits n (u_x0 (ud_v u')).
Proof. pose proof (wu_v _ W') as V'. destruct cd_dims as (E & _ & _). rewrite <- E. split; [|split]; apply V'. Qed.
Lemma cd_mat : moved_cols (nC + 2 * m) n f (MDense (ud_ALR u)) (MDense (ud_ALR u')).
Proof.
  left. destruct cd_lens as (LA & LL & LR & LA' & LL' & LR'). exists (ud_ALR u), (ud_ALR u'). split; [reflexivity|]. split; [reflexivity|].
  split; [unfold ud_ALR; rewrite !len_app; lia|]. split; [unfold ud_ALR; rewrite !len_app; lia|]. exact cd_ALR.
Qed.
Lemma cd_H : moved_both n f (MDense (ud_Q u)) (MDense (ud_Q u')).
Proof.
  left. exists (ud_Q u), (ud_Q u'). split; [reflexivity|]. split; [reflexivity|]. split; [exact (wu_Q _ W)|]. split; [|exact cd_Q].
  pose proof (wu_Q _ W') as LQ. destruct cd_dims as (E & _ & _). rewrite E in LQ. exact LQ.
Qed.
End Dense.

(** From the list level to the objects *)
Lemma moved_conclude {K} (p p2 : ops xq K) KP KR KR' f n b k d d' (s1 s2 : res (ReturnValue * lcqp xq)) v1 v2 :
  p_nV p = n -> p_off p = b -> p_nC p + 2 * p_nComp p = k -> p_nV p2 = p_nV p -> p_nD p2 = p_nD p -> d_nV d = Some n -> d_nV d' = Some n -> d_nDuals d = Some (p_nD p) -> d_nDuals d' = Some (p_nD p) ->
  (forall r o, s1 = Ok (r, o) -> exists a, s_algoStat (it o) = Some a) ->
  sim (fun a b => pd (snd a) = d /\ relT p KR (fst a, it (snd a)) b) s1 v1 -> sim (fun a b => pd (snd a) = d' /\ relT p2 KR' (fst a, it (snd a)) b) s2 v2 ->
  sim (Columns.RelR p f KP) v1 v2 -> moved_runs n b k f s1 s2.
Proof.
  intros En Eb Ek EV EN DV DV' DN DN' HA S1 S2 R. subst n b k.
  destruct v1 as [[r v]|e]; destruct v2 as [[r' w]|e']; try contradiction.
  2: { destruct s1 as [[? ?]|]; [contradiction|]. destruct s2 as [[? ?]|]; [contradiction|]. cbn in *. congruence. }
  destruct s1 as [[r1 o]|]; [|contradiction]. destruct s2 as [[r2 o']|]; [|contradiction].
  destruct R as (Er & R & RS). destruct S1 as (D & E1 & RB & RI). destruct S2 as (D' & E2 & RB' & RI'). cbn [fst snd] in *. subst r1 r2 r'.
  assert (AE : s_algoStat (it o') = s_algoStat (it o)) by (rewrite (rb_algo _ _ _ RB), (rb_algo _ _ _ RB'); apply R).
  destruct (HA _ _ eq_refl) as (a & Ea).
  pose proof (rb_x _ _ _ RB) as [X LX]. pose proof (rb_x _ _ _ RB') as [X' LX']. cbn [snd] in X, LX, X', LX'. rewrite EV in LX'.
  cbn [moved_runs]. split; [reflexivity|]. split.
  { change (getOutputStatistics o') with (s_stats (it o')). change (getOutputStatistics o) with (s_stats (it o)). rewrite (rb_stats _ _ _ RB), (rb_stats _ _ _ RB'). apply R. }
  split; [rewrite (rb_calls _ _ _ RB), (rb_calls _ _ _ RB'); apply R|].
  exists a, (v_x v), (v_x w). split; [apply R|]. split.
  { intros buf Hb. unfold getPrimalSolution. rewrite X, X', D, D', DV, DV', AE, Ea. cbn [get bind]. rewrite !copy_out by lia. split; reflexivity. }
  intros Su. destruct (RI Su) as [RR _]. destruct (RI' Su) as [RR' _]. pose proof (rl_y _ _ _ _ RR) as Y. pose proof (rl_y _ _ _ _ RR') as Y'. cbn [snd] in Y, Y'.
  exists (v_y v), (v_y w). split; [apply (RS Su)|].
  intros buf Hb. destruct Y as [Y LY], Y' as [Y' LY']. rewrite EN in LY'.
  assert (LB : len buf = p_nD p) by (rewrite Hb; unfold p_nD, p_nA; ring).
  unfold getDualSolution. rewrite Y, Y', D, D', DN, DN', AE, Ea. cbn [get bind]. rewrite !copy_out by lia. split; reflexivity.
Qed.

Lemma p_C75_dense f (u u' : udense xq) opt orc orc' rand rand' : wf_dense u -> wf_dense u' -> paired (ud_v u) -> fin_lower (ud_v u) -> o_qpSolver opt = QPOASES_DENSE ->
  permutes (u_nV (ud_v u)) f -> moved_dense f u u' ->
  names_blind (u_nV (ud_v u)) (u_nV (ud_v u)) (u_nC (ud_v u) + 2 * u_nComp (ud_v u)) f orc orc' -> (o_perturbStep opt = true -> moved_draws (u_nV (ud_v u)) f rand rand') ->
  moved_runs (u_nV (ud_v u)) (u_nV (ud_v u)) (u_nC (ud_v u) + 2 * u_nComp (ud_v u)) f (solve_dense u opt orc rand) (solve_dense u' opt orc' rand').
Proof.
  intros W W' Pa FL Hq Hf MD HO HD. pose proof (wu_v _ W) as V. pose proof (wu_v _ W') as V'. pose proof (wv_nV _ V). pose proof (wv_nC _ V). pose proof (wv_nComp _ V).
  pose proof (md_v _ _ _ MD) as MV. destruct (cd_dims _ _ _ MD) as (D1 & D2 & D3).
  assert (Pa' : paired (ud_v u')) by (unfold paired; rewrite (mv_lbL _ _ _ _ MV), (mv_lbR _ _ _ _ MV); exact Pa).
  assert (FL' : fin_lower (ud_v u')) by (unfold fin_lower; rewrite (mv_lbL _ _ _ _ MV), (mv_lbR _ _ _ _ MV); exact FL).
  pose proof (solve_dense_ref u opt orc rand W Pa FL Hq) as S1. pose proof (solve_dense_ref u' opt orc' rand' W' Pa' FL' Hq) as S2.
  eapply moved_conclude with (p := dense_ops u opt) (KP := sq (u_nV (ud_v u)) f); [| | | | | | | | | |exact S1|exact S2|]; try reflexivity.
  { exact D1. }
  { unfold p_nD, p_nA. cbn. rewrite D1, D2, D3. reflexivity. }
  { cbn. f_equal. exact D1. }
  { unfold p_nD, p_nA. cbn. f_equal. lia. }
  { unfold p_nD, p_nA. cbn. f_equal. rewrite D1, D2, D3. lia. }
  { intros r o ES. eapply dense_algo; [exact W|exact Pa|exact FL|exact Hq|exact ES]. }
  set (n := u_nV (ud_v u)) in *. set (nC := u_nC (ud_v u)) in *. set (m := u_nComp (ud_v u)) in *.
  assert (EA : u_nA (ud_v u) = nC + 2 * m) by reflexivity. assert (EA' : u_nA (ud_v u') = nC + 2 * m) by (unfold u_nA; rewrite D2, D3; reflexivity).
  assert (Hn : 0 <= n) by lia. assert (Hm : 0 <= m) by lia. destruct (cd_fits f u u' W' MD) as (F1 & F2 & F3).
  apply run_rn; cbn [dense_ops p_opt p_solver p_nV p_nC p_nComp p_off p_box p_g p_gphi p_pc p_matH p_matA p_lbA p_ubA p_lb p_ub p_setH p_updH p_affH p_quadH p_affC p_quadC p_quadQ p_tA p_mulL p_mulR];
    rewrite ?D1, ?D2, ?D3, ?EA, ?EA'; fold n nC m; auto.
  - unfold u_pc. rewrite (mv_lbL _ _ _ _ MV), (mv_lbR _ _ _ _ MV), D3. reflexivity.
  - unfold u_lower. rewrite (mv_lbL _ _ _ _ MV), (mv_lbR _ _ _ _ MV), (mv_lbA _ _ _ _ MV), D2, D3. reflexivity.
  - unfold u_upper. rewrite (mv_ubL _ _ _ _ MV), (mv_ubR _ _ _ _ MV), (mv_ubA _ _ _ _ MV), D2, D3. reflexivity.
  - apply MV.
  - apply (cd_gphi f u u' W MD Hf).
  - apply (cd_bnd f u W Hf); [apply V|exact F1|apply MV].
  - apply (cd_bnd f u W Hf); [apply V|exact F2|apply MV].
  - apply (cd_H f u u' W W' MD).
  - apply (cd_mat f u u' W W' MD Hf).
  - intros r. apply (sq_wadd n f Hn Hf); [apply (cd_Q f u u' MD)|apply (cd_C f u u' W MD Hf)].
  - intros r h h' _. apply (sq_wadd n f Hn Hf); [apply (cd_Q f u u' MD)|apply (cd_C f u u' W MD Hf)].
  - intros. apply (sq_affine n f Hn Hf); auto.
  - intros. apply (sq_quad n f Hn Hf); auto.
  - intros. apply (sq_affine n f Hn Hf); auto. apply (cd_C f u u' W MD Hf).
  - intros. apply (sq_quad n f Hn Hf); auto. apply (cd_C f u u' W MD Hf).
  - intros. apply (sq_quad n f Hn Hf); auto. apply (cd_Q f u u' MD).
  - intros. apply (cm_tmul n f Hn Hf). apply (cd_ALR f u u' W W' MD Hf).
  - intros. apply (cm_mmul n f Hn Hf m); auto. apply MD.
  - intros. apply (cm_mmul n f Hn Hf m); auto. apply MD.
  - intros. apply (moved_dot n f Hn Hf); auto.
  - intros. apply (moved_maxabs n f Hf); auto.
  - apply MV.
  - unfold u_x. rewrite D1. apply (cd_bnd f u W Hf); [apply V|exact F3|apply MV].
Qed.
