(** * ExactSolve: the statements of Properties_Exact.v, proved from traces (no LCQPow code). *)
From Coq Require Import QArith Qcanon Lqa.
From Verif Require Import Base Arith Codes Utilities Options Stats FileIO Subsolver State LCQProblem Tactics Loops Kernels Exact SpecSparse CscKernels CscBuild SpecMath QSum
  KernelProps2 SpecLoad SpecExact SpecRun SpecTrace SpecSolve Spec RunControl RunFacts RunProps PenaltyExact LoadDense LoadSparse StartDense StartSparse ExactOps ExactDense ExactRun ExactProps ExactProps2.
Open Scope Z_scope.

Local Arguments Qc_ltb : simpl never.
Local Arguments Qc_leb : simpl never.

(** ** Sums *)
Lemma qsum_split a b f : 0 <= a -> 0 <= b -> qsum (a + b) f = (qsum a f + qsum b (fun i => f (a + i)%Z))%Qc.
Proof.
  intros Ha. apply (qsum_ind (fun b => qsum (a + b) f = (qsum a f + qsum b (fun i => f (a + i)%Z))%Qc)).
  - rewrite Z.add_0_r, qsum_0. ring.
  - intros k Hk IH. rewrite Z.add_assoc, qsum_succ, IH, qsum_succ by lia. ring.
Qed.
Lemma mv_C (e : qdata) x j : mv (e_C e) (e_nV e) x j =
  qsum (e_nComp e) (fun k => e_L e k j * mv (e_R e) (e_nV e) x k + e_R e k j * mv (e_L e) (e_nV e) x k)%Qc.
Proof.
  unfold mv, e_C. rewrite (qsum_ext (e_nV e) _ (fun l => qsum (e_nComp e) (fun k => (e_L e k j * e_R e k l + e_R e k j * e_L e k l) * qat x l)%Qc)) by (intros; rewrite qsum_scale_r; reflexivity).
  rewrite qsum_swap. apply qsum_ext. intros k Hk. rewrite <- !qsum_scale, <- qsum_add. apply qsum_ext. intros; ring.
Qed.

(** ** The gradient of the Lagrangian at the returned pair *)
Section Lag.
Variables (e : qdata) (r0 fac : Qc) (off : Z).
Hypothesis Hoff : off = 0 \/ off = e_nV e.
Hypothesis Hn : 0 < e_nV e /\ 0 <= e_nC e /\ 0 <= e_nComp e.

Lemma duals_A f i : 0 <= i < e_nC e -> qat (f_duals e r0 fac off f) (off + i) = qat (f_y f) (off + i).
Proof.
  intros Hi. unfold f_duals. rewrite qat_tab by (unfold e_nA; destruct Hoff; lia).
  replace (off + e_nC e <=? off + i) with false by lia. replace (off + e_nC e + e_nComp e <=? off + i) with false by lia. cbn [andb]. ring.
Qed.
Lemma duals_L f i : 0 <= i < e_nComp e -> qat (f_duals e r0 fac off f) (off + e_nC e + i) =
  (qat (f_y f) (off + e_nC e + i) - t_rho r0 fac (f_k f) * mv (e_R e) (e_nV e) (f_x e f) i)%Qc.
Proof.
  intros Hi. unfold f_duals. rewrite qat_tab by (unfold e_nA; destruct Hoff; lia).
  replace (off + e_nC e <=? off + e_nC e + i) with true by lia. replace (off + e_nC e + i <? off + e_nC e + e_nComp e) with true by lia.
  replace (off + e_nC e + e_nComp e <=? off + e_nC e + i) with false by lia. cbn [andb]. replace (off + e_nC e + i - (off + e_nC e)) with i by lia. ring.
Qed.
Lemma duals_R f i : 0 <= i < e_nComp e -> qat (f_duals e r0 fac off f) (off + e_nC e + e_nComp e + i) =
  (qat (f_y f) (off + e_nC e + e_nComp e + i) - t_rho r0 fac (f_k f) * mv (e_L e) (e_nV e) (f_x e f) i)%Qc.
Proof.
  intros Hi. unfold f_duals. rewrite qat_tab by (unfold e_nA; destruct Hoff; lia).
  replace (off + e_nC e + e_nComp e + i <? off + e_nC e + e_nComp e) with false by lia. rewrite andb_false_r.
  replace (off + e_nC e + e_nComp e <=? off + e_nC e + e_nComp e + i) with true by lia.
  replace (off + e_nC e + e_nComp e + i <? off + e_nC e + e_nComp e + e_nComp e) with true by lia.
  cbn [andb]. replace (off + e_nC e + e_nComp e + i - (off + e_nC e + e_nComp e)) with i by lia. ring.
Qed.
Lemma duals_box f j : 0 <= j < off -> qat (f_duals e r0 fac off f) j = qat (f_y f) j.
Proof.
  intros Hi. unfold f_duals. rewrite qat_tab by (unfold e_nA; destruct Hoff; lia).
  replace (off + e_nC e <=? j) with false by lia. replace (off + e_nC e + e_nComp e <=? j) with false by lia. cbn [andb]. ring.
Qed.

Lemma rows_split (y : list Qc) j : tv (e_rows e) (e_nA e) y j =
  (qsum (e_nC e) (fun i => e_A e i j * qat y i) + qsum (e_nComp e) (fun i => e_L e i j * qat y (e_nC e + i)) + qsum (e_nComp e) (fun i => e_R e i j * qat y (e_nC e + e_nComp e + i)))%Qc.
Proof.
  unfold tv, e_nA. replace (e_nC e + 2 * e_nComp e) with (e_nC e + (e_nComp e + e_nComp e)) by lia. rewrite qsum_split, qsum_split by lia. rewrite Qcplus_assoc. f_equal; [f_equal|].
  - apply qsum_ext. intros i Hi. unfold e_rows. replace (i <? e_nC e) with true by lia. reflexivity.
  - apply qsum_ext. intros i Hi. unfold e_rows. replace (e_nC e + i <? e_nC e) with false by lia. replace (e_nC e + i <? e_nC e + e_nComp e) with true by lia.
    replace (e_nC e + i - e_nC e) with i by lia. reflexivity.
  - apply qsum_ext. intros i Hi. unfold e_rows. replace (e_nC e + (e_nComp e + i) <? e_nC e) with false by lia. replace (e_nC e + (e_nComp e + i) <? e_nC e + e_nComp e) with false by lia.
    replace (e_nC e + (e_nComp e + i) - e_nC e - e_nComp e) with i by lia. replace (e_nC e + (e_nComp e + i)) with (e_nC e + e_nComp e + i) by lia. reflexivity.
Qed.

Lemma lagrangian f j : 0 <= j < e_nV e ->
  e_lagrangian e off (f_x e f) (f_duals e r0 fac off f) j = (qat (f_res e r0 fac off f) j + qat (e_g e) j - t_lin e r0 fac (f_k f) j)%Qc.
Proof.
  intros Hj. unfold f_res. rewrite qat_tab by auto. rewrite rows_split, mv_H, mv_C. unfold e_lagrangian, f_yA.
  set (rho := t_rho r0 fac (f_k f)). set (x := f_x e f).
  rewrite (qsum_ext (e_nC e) (fun i => e_A e i j * qat (f_duals e r0 fac off f) (off + i))%Qc (fun i => e_A e i j * qat (tab (e_nA e) (fun i => qat (f_y f) (off + i))) i)%Qc)
    by (intros; rewrite duals_A, qat_tab by (unfold e_nA; lia); reflexivity).
  rewrite (qsum_ext (e_nComp e) (fun i => e_L e i j * qat (f_duals e r0 fac off f) (off + e_nC e + i))%Qc
     (fun i => e_L e i j * qat (tab (e_nA e) (fun i => qat (f_y f) (off + i))) (e_nC e + i) - rho * (e_L e i j * mv (e_R e) (e_nV e) x i))%Qc)
    by (intros; rewrite duals_L, qat_tab by (unfold e_nA; lia); fold rho; fold x; rewrite Z.add_assoc; ring).
  rewrite (qsum_ext (e_nComp e) (fun i => e_R e i j * qat (f_duals e r0 fac off f) (off + e_nC e + e_nComp e + i))%Qc
     (fun i => e_R e i j * qat (tab (e_nA e) (fun i => qat (f_y f) (off + i))) (e_nC e + e_nComp e + i) - rho * (e_R e i j * mv (e_L e) (e_nV e) x i))%Qc)
    by (intros; rewrite duals_R, qat_tab by (unfold e_nA; lia); fold rho; fold x; rewrite !Z.add_assoc; ring).
  assert (EB : (if 0 <? off then qat (f_duals e r0 fac off f) j else 0)%Qc = (if 0 <? off then qat (f_y f) j else 0)%Qc).
  { destruct (Z.ltb_spec 0 off); [|reflexivity]. apply duals_box. destruct Hoff; lia. }
  rewrite EB, !qsum_sub, qsum_add, !qsum_scale. ring.
Qed.
End Lag.

(** ** Bounds on residuals *)
Lemma maxabs_bound l n tol : 0 <= n -> len l = n -> a_lt (maxabs (fins l) n) (Fin tol) = true -> forall j, 0 <= j < n -> (- tol < qat l j /\ qat l j < tol)%Qc.
Proof.
  intros Hn Hl Hlt j Hj. destruct (max_abs (fins l) n) as (v & E & B & V).
  - rewrite len_fins. lia.
  - intros i Hi. change (@a_zero xq _) with (Fin 0). rewrite at_fins. discriminate.
  - rewrite MaxAbs_ok in E by (rewrite ?len_fins; lia). injection E as E. rewrite E in Hlt. specialize (B j Hj).
    change (@a_zero xq _) with (Fin 0) in *. rewrite at_fins in B. cbn in B.
    destruct v as [q| | |]; try discriminate; try (destruct V as [V|(i & Hi & V)]; [discriminate|]; rewrite at_fins in V; discriminate).
    apply Qc_leb_spec in B. apply Qc_ltb_spec in Hlt. destruct (Qc_ltb (qat l j) 0) eqn:E1.
    + apply Qc_ltb_spec in E1. split; clear - B Hlt E1; qc.
    + apply Qc_ltb_false in E1. split; clear - B Hlt E1; qc.
Qed.

(** ** Classification *)
Section Class.
Variables (pr : problem) (opt : options xq) (tol : Qc) (y : list Qc).
Let e := pr_data pr.
Let a i := qat y (e_nC e + i).
Let b i := qat y (e_nC e + e_nComp e + i).
Hypothesis Et : o_complementarityTolerance opt = Fin tol.
Hypothesis Pt : (0 < tol)%Qc.

Let Wb i := Qc_leb (a i * b i) (- tol).
Let Sb i := Qc_leb 0 (a i) && Qc_leb 0 (b i).
Let Mb i := (Qc_ltb 0 (a i) && Qc_ltb 0 (b i)) || (Qc_ltb (- tol) (a i * b i) && Qc_ltb (a i * b i) tol).
(** Not both negative with product exactly [tol] *)
Let clear_pair i := ~ (a i < 0 /\ b i < 0 /\ a i * b i = tol)%Qc.

Lemma neg_both p q : (p <= 0 -> 0 < p * q -> p < 0 /\ q < 0)%Qc.
Proof.
  intros H P. assert (Q : (q < 0)%Qc).
  { apply Qcnot_le_lt. intros C. pose proof (Qcmul_nonneg (- p) q) as N. assert (0 <= - p)%Qc by (clear - H; qc). specialize (N H0 C). clear - N P. qc. }
  split; [|exact Q]. apply Qcnot_le_lt. intros C. pose proof (Qcmul_nonneg p (- q)) as N. assert (0 <= - q)%Qc by (clear - Q; qc). specialize (N C H0). clear - N P. qc.
Qed.
Lemma bool_iff (p q : bool) : (p = true <-> q = true) -> p = q.
Proof. destruct p, q; intros [H1 H2]; auto; try (symmetry; auto); discriminate (H1 eq_refl) || discriminate (H2 eq_refl). Qed.
Lemma min_fin p q : std_min (Fin p) (Fin q) = Fin (if Qc_ltb q p then q else p).
Proof. unfold std_min. cbn. destruct (Qc_ltb q p); reflexivity. Qed.

Lemma classed_cons i w s m : clear_pair i -> classed pr opt y (i :: w) s m =
  (if Wb i then W_STATIONARY_SOLUTION else classed pr opt y w (s && Sb i) (m && Mb i)).
Proof.
  intros Cl. cbn [classed]. fold e. fold (a i). fold (b i). rewrite Et, min_fin, fin_mul. change (@a_zero xq _) with (Fin 0). cbn [a_abs xq_arith x_abs].
  set (p := (a i * b i)%Qc) in *. set (mn := if Qc_ltb (b i) (a i) then b i else a i).
  assert (Hmn : (mn <= a i /\ mn <= b i /\ (mn = a i \/ mn = b i))%Qc).
  { unfold mn. destruct (Qc_ltb (b i) (a i)) eqn:E; [apply Qc_ltb_spec in E|apply Qc_ltb_false in E].
    - split; [apply Qclt_le_weak; auto|]. split; [apply Qcle_refl|auto].
    - split; [apply Qcle_refl|]. auto. }
  assert (E1 : a_lt (Fin mn) (Fin 0) = negb (Sb i)).
  { unfold Sb. cbn. destruct (Qc_ltb mn 0) eqn:E; [apply Qc_ltb_spec in E|apply Qc_ltb_false in E].
    - destruct Hmn as (_ & _ & [H|H]); rewrite H in E; destruct (Qc_leb 0 (a i)) eqn:E2; destruct (Qc_leb 0 (b i)) eqn:E3; try reflexivity;
        apply Qc_leb_spec in E2, E3; exfalso; clear - E E2 E3; qc.
    - destruct Hmn as (H1 & H2 & _).
      assert (A0 : Qc_leb 0 (a i) = true) by (apply Qc_leb_spec; apply (Qcle_trans _ mn); auto).
      assert (B0 : Qc_leb 0 (b i) = true) by (apply Qc_leb_spec; apply (Qcle_trans _ mn); auto). rewrite A0, B0. reflexivity. }
  rewrite E1.
  assert (E2 : (if negb (Sb i) then false else s) = s && Sb i) by (destruct (Sb i), s; reflexivity). rewrite E2.
  assert (Hsgn : (mn <= 0 -> 0 < p -> a i < 0 /\ b i < 0)%Qc).
  { intros M P. destruct Hmn as (_ & _ & [H|H]); rewrite H in M; unfold p in P; [apply neg_both; auto|]. rewrite Qcmult_comm in P. destruct (neg_both _ _ M P); auto. }
  assert (Hneg : (0 < a i -> 0 < b i -> 0 < mn)%Qc) by (intros ? ?; destruct Hmn as (_ & _ & [->| ->]); auto).
  assert (Hpn : (p < 0 -> mn <= 0)%Qc).
  { intros P. apply Qcnot_lt_le. intros C. destruct Hmn as (H1 & H2 & _). unfold p in P. clear - P C H1 H2. qc. }
  assert (E3 : a_le (Fin tol) (Fin (if Qc_ltb p 0 then - p else p)) && a_le (Fin mn) (Fin 0) = negb (Mb i)).
  { apply bool_iff. rewrite andb_true_iff, negb_true_iff. unfold Mb. fold p. rewrite orb_false_iff. cbn [a_le xq_arith x_le].
    destruct (Qc_ltb p 0) eqn:Ep; [apply Qc_ltb_spec in Ep|apply Qc_ltb_false in Ep].
    - split.
      + intros [H1 H2]. apply Qc_leb_spec in H1, H2. split.
        * destruct (Qc_ltb 0 (a i)) eqn:F1; destruct (Qc_ltb 0 (b i)) eqn:F2; try reflexivity. apply Qc_ltb_spec in F1, F2. specialize (Hneg F1 F2). exfalso. clear - Hneg H2. qc.
        * assert (F : Qc_ltb (- tol) p = false) by (apply Qc_ltb_false; clear - H1; qc). rewrite F. reflexivity.
      + intros [_ H2]. assert (F : Qc_ltb p tol = true) by (apply Qc_ltb_spec; clear - Ep Pt; qc). rewrite F, andb_true_r in H2. apply Qc_ltb_false in H2.
        split; [apply Qc_leb_spec; clear - H2; qc|apply Qc_leb_spec; auto].
    - split.
      + intros [H1 H2]. apply Qc_leb_spec in H1, H2. split.
        * destruct (Qc_ltb 0 (a i)) eqn:F1; destruct (Qc_ltb 0 (b i)) eqn:F2; try reflexivity. apply Qc_ltb_spec in F1, F2. specialize (Hneg F1 F2). exfalso. clear - Hneg H2. qc.
        * assert (F : Qc_ltb p tol = false) by (apply Qc_ltb_false; auto). rewrite F. apply andb_false_r.
      + intros [H1 H2]. assert (F : Qc_ltb (- tol) p = true) by (apply Qc_ltb_spec; clear - Ep Pt; qc). rewrite F in H2. cbn [andb] in H2. apply Qc_ltb_false in H2.
        split; [apply Qc_leb_spec; auto|]. apply Qc_leb_spec. apply Qcnot_lt_le. intros C. destruct Hmn as (M1 & M2 & _).
        assert (F1 : Qc_ltb 0 (a i) = true) by (apply Qc_ltb_spec; apply (Qclt_le_trans _ mn); auto).
        assert (F2 : Qc_ltb 0 (b i) = true) by (apply Qc_ltb_spec; apply (Qclt_le_trans _ mn); auto). rewrite F1, F2 in H1. discriminate. }
  rewrite E3. destruct (Mb i) eqn:EM; cbn [negb].
  - assert (EW : Wb i = false).
    { unfold Wb. fold p. apply Qc_leb_false. unfold Mb in EM. fold p in EM. apply orb_true_iff in EM. destruct EM as [EM|EM]; apply andb_prop in EM; destruct EM as [M1 M2]; apply Qc_ltb_spec in M1, M2; [|auto].
      unfold p. clear - M1 M2 Pt. qc. }
    rewrite EW, andb_true_r. reflexivity.
  - rewrite andb_false_r. assert (EW : a_le (Fin p) (Fin tol) = Wb i).
    { apply bool_iff. unfold Wb. fold p. cbn [a_le xq_arith x_le]. rewrite !Qc_leb_spec. split; [intros H|intros H; clear - H Pt; qc].
      cbn [negb] in E3. apply andb_prop in E3. destruct E3 as [F1 F2]. cbn [a_le xq_arith x_le] in F1, F2. apply Qc_leb_spec in F1, F2.
      destruct (Qc_ltb p 0) eqn:Ep; [apply Qc_ltb_spec in Ep; clear - F1; qc|]. exfalso. apply Cl.
      assert (Epq : p = tol) by (apply Qcle_antisym; auto). assert (P : (0 < p)%Qc) by (rewrite Epq; auto). destruct (Hsgn F2 P). auto. }
    rewrite EW. reflexivity.
Qed.
Lemma classed_spec w s m : (forall i, In i w -> clear_pair i) -> classed pr opt y w s m =
  (if existsb Wb w then W_STATIONARY_SOLUTION else if s && forallb Sb w then S_STATIONARY_SOLUTION else if m && forallb Mb w then M_STATIONARY_SOLUTION else C_STATIONARY_SOLUTION).
Proof.
  revert s m. induction w as [|i w IH]; intros s m Cl; [cbn; rewrite !andb_true_r; reflexivity|].
  rewrite classed_cons by (apply Cl; left; auto). cbn [existsb forallb]. destruct (Wb i); [reflexivity|]. cbn [orb]. rewrite IH by (intros; apply Cl; right; auto).
  rewrite !andb_assoc. reflexivity.
Qed.
Lemma weak_in x i : In i (weak_pairs pr opt x) <-> 0 <= i < e_nComp e /\ small_pair e tol x i.
Proof.
  unfold weak_pairs. fold e. rewrite filter_In, Et. rewrite andb_true_iff, !fin_le. unfold small_pair.
  assert (I : In i (tab (e_nComp e) (fun i => i)) <-> 0 <= i < e_nComp e).
  { unfold tab. rewrite in_map_iff. split.
    - intros (k & <- & Hk). apply in_seq in Hk. lia.
    - intros H. exists (Z.to_nat i). split; [lia|]. apply in_seq. lia. }
  rewrite I. tauto.
Qed.
Lemma typed x : (forall i, 0 <= i < e_nComp e -> small_pair e tol x i -> clear_pair i) ->
  stationarity_type tol (e_nComp e) (small_pair e tol x) a b (classed pr opt y (weak_pairs pr opt x) true true).
Proof.
  intros Cl. rewrite classed_spec by (intros i Hi; apply weak_in in Hi; apply Cl; apply Hi). cbn [andb]. set (w := weak_pairs pr opt x).
  assert (PS : forallb Sb w = true <-> (forall i, 0 <= i < e_nComp e -> small_pair e tol x i -> 0 <= a i /\ 0 <= b i)%Qc).
  { rewrite forallb_forall. split; intros H i.
    - intros Hi Hs. specialize (H i (proj2 (weak_in x i) (conj Hi Hs))). unfold Sb in H. apply andb_prop in H. rewrite !Qc_leb_spec in H. auto.
    - intros Hi. apply weak_in in Hi. destruct (H i (proj1 Hi) (proj2 Hi)). unfold Sb. apply andb_true_intro. rewrite !Qc_leb_spec. auto. }
  assert (PM : forallb Mb w = true <-> (forall i, 0 <= i < e_nComp e -> small_pair e tol x i -> (0 < a i /\ 0 < b i) \/ (- tol < a i * b i /\ a i * b i < tol))%Qc).
  { rewrite forallb_forall. split; intros H i.
    - intros Hi Hs. specialize (H i (proj2 (weak_in x i) (conj Hi Hs))). unfold Mb in H. rewrite orb_true_iff, !andb_true_iff, !Qc_ltb_spec in H. auto.
    - intros Hi. apply weak_in in Hi. unfold Mb. rewrite orb_true_iff, !andb_true_iff, !Qc_ltb_spec. apply H; tauto. }
  assert (PC : existsb Wb w = false <-> (forall i, 0 <= i < e_nComp e -> small_pair e tol x i -> - tol < a i * b i)%Qc).
  { split; intros H.
    - intros i Hi Hs. apply Qcnot_le_lt. intros C. assert (existsb Wb w = true); [|congruence]. apply existsb_exists. exists i.
      split; [apply weak_in; auto|]. apply Qc_leb_spec. auto.
    - destruct (existsb Wb w) eqn:E; [|reflexivity]. apply existsb_exists in E. destruct E as (i & Hi & Hw). apply weak_in in Hi. apply Qc_leb_spec in Hw.
      destruct Hi as [Hi Hs]. specialize (H i Hi Hs). exfalso. exact (Qclt_not_le _ _ H Hw). }
  assert (SC : forallb Sb w = true -> existsb Wb w = false).
  { intros H. apply PC. intros i Hi Hs. rewrite PS in H. destruct (H i Hi Hs). clear - H0 H1 Pt. qc. }
  assert (MC : forallb Mb w = true -> existsb Wb w = false).
  { intros H. apply PC. intros i Hi Hs. rewrite PM in H. destruct (H i Hi Hs) as [(H0 & H1)|(H0 & _)]; [clear - H0 H1 Pt; qc|auto]. }
  unfold stationarity_type. cbv zeta. rewrite <- PS, <- PM, <- PC.
  destruct (existsb Wb w), (forallb Sb w), (forallb Mb w); try discriminate (SC eq_refl); try discriminate (MC eq_refl); repeat split; try discriminate; try tauto; intros; try (intros; discriminate); intuition congruence.
Qed.
End Class.

Lemma type_ext tol m P a b a' b' s : (forall i, 0 <= i < m -> a i = a' i /\ b i = b' i) -> stationarity_type tol m P a b s -> stationarity_type tol m P a' b' s.
Proof.
  intros E. unfold stationarity_type. cbv zeta.
  assert (G : forall R : Qc -> Qc -> Prop, (forall i, 0 <= i < m -> P i -> R (a i) (b i)) <-> (forall i, 0 <= i < m -> P i -> R (a' i) (b' i))).
  { intros R. split; intros H i Hi Hp; specialize (H i Hi Hp); destruct (E i Hi) as [E1 E2]; [rewrite <- E1, <- E2|rewrite E1, E2]; auto. }
  rewrite (G (fun a b => 0 <= a /\ 0 <= b)%Qc), (G (fun a b => (0 < a /\ 0 < b) \/ (- tol < a * b /\ a * b < tol))%Qc), (G (fun a b => - tol < a * b)%Qc). auto.
Qed.

(** ** Feasibility *)
Lemma mv_ext_x M n x x' i : (forall j, 0 <= j < n -> qat x j = qat x' j) -> mv M n x i = mv M n x' i.
Proof. intros E. unfold mv. apply qsum_ext. intros j Hj. rewrite E by auto. reflexivity. Qed.
Lemma feasible_ext pr x x' : (forall j, 0 <= j < e_nV (pr_data pr) -> qat x j = qat x' j) -> feasible pr x -> feasible pr x'.
Proof.
  intros E (F1 & F2 & F3 & F4). split; [|split; [|split]]; intros i Hi.
  - rewrite <- (mv_ext_x _ _ x) by auto. auto.
  - rewrite <- (mv_ext_x _ _ x) by auto. auto.
  - rewrite <- (mv_ext_x _ _ x) by auto. auto.
  - rewrite <- E by auto. auto.
Qed.
Lemma feasible_mix pr b z t : (0 <= t <= 1)%Qc -> feasible pr b -> feasible pr z -> feasible pr (on_line (e_nV (pr_data pr)) b b z t).
Proof.
  intros T (F1 & F2 & F3 & F4) (G1 & G2 & G3 & G4). split; [|split; [|split]]; intros i Hi.
  - rewrite mv_line, mv_sub. apply between_mix; auto.
  - rewrite mv_line, mv_sub. apply between_mix; auto.
  - rewrite mv_line, mv_sub. apply between_mix; auto.
  - rewrite qat_line by auto. apply between_mix; auto.
Qed.

Section Final.
Variables (pr : problem) (opt : options xq) (orc : oracle xq) (rand : nat -> Z) (r0 fac : Qc) (r : ReturnValue) (o : lcqp xq).
Hypothesis Adm : admissible pr opt.
Hypothesis Sol : pr_solve pr opt orc rand = Ok (r, o).
Hypothesis Rat : rational_run pr opt orc o r0 fac.
Let e := pr_data pr.
Let n := e_nV e.
Let off := box_duals pr opt.
Let tr_ := trace e r0 fac off (o_solveZeroPenaltyFirst opt) (o_perturbStep opt) (o_qpSolver opt) (pr_x0 pr).

Lemma fin_stats : r = SUCCESSFUL_RETURN -> st_iterOuter (getOutputStatistics o) = s_outerIter (it o) /\ s_algoStat (it o) = Some (st_status (getOutputStatistics o)).
Proof.
  intros Er. destruct (pr_run _ _ _ _ _ _ Adm Sol) as (o1 & E & Eo & Ec).
  assert (St : started o1 o). { unfold started. rewrite Ec. destruct (success _ _ _ _ _ _ _ _ Adm Sol Rat Er) as (f & tr & T & _). intros C. rewrite C in T. inversion T. }
  destruct (run_post _ _ _ _ _ _ E St) as (o2 & E1 & Epd & Eo2 & CP & _ & _ & RE).
  split; [apply (cp_outer _ _ _ _ CP)|]. destruct (cp_algo _ _ _ _ CP) as (a & Ha & Hs & _). rewrite Ha. f_equal. symmetry. exact Hs.
Qed.

Lemma c03 tol : r = SUCCESSFUL_RETURN -> o_complementarityTolerance opt = Fin tol -> exists x, returns_primal o x /\ (e_phi e x < tol)%Qc.
Proof.
  intros Er Et. destruct (success _ _ _ _ _ _ _ _ Adm Sol Rat Er) as (f & tr & T & P & D & Rh & Ou & S1 & S2 & S3).
  exists (f_x e f). split; [exact P|]. rewrite Et in S2. apply Qc_ltb_spec in S2. exact S2.
Qed.
Lemma c04 stol : r = SUCCESSFUL_RETURN -> o_stationarityTolerance opt = Fin stol ->
  exists x y k, returns_primal o x /\ returns_dual o y /\ st_iterOuter (getOutputStatistics o) = Z.of_nat k /\
    forall j, 0 <= j < n -> let v := (e_lagrangian e off x y j + match k with O => 0 | _ => r0 * fac ^ k * e_gphi e j end)%Qc in (- stol < v /\ v < stol)%Qc.
Proof.
  intros Er Et. destruct (success _ _ _ _ _ _ _ _ Adm Sol Rat Er) as (f & tr & T & P & D & Rh & Ou & S1 & S2 & S3).
  pose proof (dims_pos _ _ _ _ _ _ _ _ Adm Sol Rat) as Hd. destruct (fin_stats Er) as [F1 _].
  exists (f_x e f), (f_duals e r0 fac off f), (f_k f). split; [exact P|]. split; [exact D|]. split; [rewrite F1; exact Ou|].
  intros j Hj. cbv zeta. rewrite (lagrangian e r0 fac off (off_cases pr opt r0 fac) Hd f j Hj). rewrite Et in S1. fold e in S1. fold off in S1.
  pose proof (maxabs_bound (f_res e r0 fac off f) n stol ltac:(lia) ltac:(apply len_tab; lia) S1 j Hj) as B.
  set (q := qat (f_res e r0 fac off f) j) in *. unfold t_lin, t_rho. destruct (f_k f) as [|k].
  - replace (q + qat (e_g e) j - qat (e_g e) j + 0)%Qc with q by ring. exact B.
  - replace (q + qat (e_g e) j - (qat (e_g e) j + r0 * fac ^ S k * e_gphi e j) + r0 * fac ^ S k * e_gphi e j)%Qc with q by ring. exact B.
Qed.
Lemma c04_plain stol : r = SUCCESSFUL_RETURN -> o_stationarityTolerance opt = Fin stol -> no_shift e ->
  exists x y, returns_primal o x /\ returns_dual o y /\ forall j, 0 <= j < n -> (- stol < e_lagrangian e off x y j /\ e_lagrangian e off x y j < stol)%Qc.
Proof.
  intros Er Et Ns. destruct (c04 stol Er Et) as (x & y & k & P & D & _ & B). exists x, y. split; [exact P|]. split; [exact D|]. intros j Hj. specialize (B j Hj). cbv zeta in B.
  rewrite (Ns j Hj) in B. assert (Z0 : (match k with O => 0 | S _ => r0 * fac ^ k * 0 end = 0)%Qc) by (destruct k; [reflexivity|ring]). rewrite Z0, Qcplus_0_r in B. exact B.
Qed.
Lemma c12 tol : r = SUCCESSFUL_RETURN -> o_complementarityTolerance opt = Fin tol -> (0 < tol)%Qc -> (0 < r0)%Qc -> (0 < fac)%Qc ->
  exists x y rho, returns_primal o x /\ returns_dual o y /\ st_rhoOpt (getOutputStatistics o) = Fin rho /\
    let a i := (qat y (off + e_nC e + i) + rho * mv (e_R e) n x i)%Qc in
    let b i := (qat y (off + e_nC e + e_nComp e + i) + rho * mv (e_L e) n x i)%Qc in
    ((forall i, 0 <= i < e_nComp e -> small_pair e tol x i -> ~ (a i < 0 /\ b i < 0 /\ a i * b i = tol)%Qc) ->
     stationarity_type tol (e_nComp e) (small_pair e tol x) a b (st_status (getOutputStatistics o))).
Proof.
  intros Er Et Pt P0 Pf. destruct (success _ _ _ _ _ _ _ _ Adm Sol Rat Er) as (f & tr & T & P & D & Rh & Ou & S1 & S2 & S3).
  pose proof (dims_pos _ _ _ _ _ _ _ _ Adm Sol Rat) as Hd. destruct (fin_stats Er) as [_ F2]. destruct (success_stats _ _ _ _ _ _ _ _ Adm Sol Rat Er P0 Pf) as [F3 _].
  exists (f_x e f), (f_duals e r0 fac off f), (t_rho r0 fac (f_k f)). split; [exact P|]. split; [exact D|]. split; [rewrite F3; exact Rh|].
  cbv zeta. intros Cl. 
  assert (S4 : st_status (getOutputStatistics o) = classed pr opt (f_yA e off f) (weak_pairs pr opt (f_x e f)) true true) by (assert (G : Some (st_status (getOutputStatistics o)) = Some (classed pr opt (f_yA e off f) (weak_pairs pr opt (f_x e f)) true true)) by (rewrite <- F2; exact S3); exact (f_equal (fun t => match t with Some v => v | None => PROBLEM_NOT_SOLVED end) G)). rewrite S4.
  assert (EA : forall i, 0 <= i < e_nComp e ->
    qat (f_yA e off f) (e_nC e + i) = (qat (f_duals e r0 fac off f) (off + e_nC e + i) + t_rho r0 fac (f_k f) * mv (e_R e) n (f_x e f) i)%Qc /\
    qat (f_yA e off f) (e_nC e + e_nComp e + i) = (qat (f_duals e r0 fac off f) (off + e_nC e + e_nComp e + i) + t_rho r0 fac (f_k f) * mv (e_L e) n (f_x e f) i)%Qc).
  { intros i Hi. rewrite (duals_L e r0 fac off (off_cases pr opt r0 fac) Hd f i Hi), (duals_R e r0 fac off (off_cases pr opt r0 fac) Hd f i Hi).
    unfold f_yA. destruct Hd as (Hd1 & Hd2 & Hd3). fold e in Hd2, Hd3. rewrite !qat_tab by (unfold e_nA; lia). rewrite !Z.add_assoc. unfold n. split; ring. }
  eapply type_ext; [exact EA|]. apply (typed pr opt tol (f_yA e off f) Et Pt). intros i Hi Hs. destruct (EA i Hi) as [E1 E2]. specialize (Cl i Hi Hs).
  cut (~ (qat (f_yA e off f) (e_nC e + i) < 0 /\ qat (f_yA e off f) (e_nC e + e_nComp e + i) < 0 /\ qat (f_yA e off f) (e_nC e + i) * qat (f_yA e off f) (e_nC e + e_nComp e + i) = tol)%Qc); [exact (fun H => H)|].
  rewrite E1, E2. exact Cl.
Qed.

(** Feasibility of all frames *)
Lemma frame_x f a : f_answer e off (o_qpSolver opt) f a -> forall j, 0 <= j < n -> qat (f_x e f) j = (qat (f_base f) j + f_a f * (qat (f_z f) j - qat (f_prev f) j))%Qc.
Proof. intros _ j Hj. unfold f_x, f_d. rewrite !qat_tab by auto. reflexivity. Qed.
Lemma feas_trace tr cs : tr_ tr cs -> o_perturbStep opt = false -> (forall c a, In (c, a) cs -> qp_error c a = None -> forall z, primal_answer n a z -> feasible pr z) ->
  forall f, In f tr -> feasible pr (f_x e f).
Proof.
  intros T Np Fe. induction T as [f c a H1 H2 H3 H4 H5 H6 H7|f tr cs f' c a T IH Hk Hp Hb Ha Han Hq Hg]; intros g Hg'.
  - destruct Hg' as [<-|[]]. destruct H5 as (Z1 & Z2 & Z3). apply (feasible_ext pr (f_z f)); [|apply (Fe c a (or_introl eq_refl) H6); split; auto].
    intros j Hj. unfold f_x, f_d. rewrite !qat_tab by exact Hj. rewrite H2, H3, H4. ring.
  - destruct Hg' as [<-|Hg']; [|apply IH; [intros; eapply Fe; eauto; right; auto|auto]].
    rewrite Np in Hb. destruct Han as (Z1 & Z2 & Z3).
    assert (F1 : feasible pr (f_x e f)) by (apply IH; [intros; eapply Fe; eauto; right; auto|left; auto]).
    assert (F2 : feasible pr (f_z f')) by (apply (Fe c a (or_introl eq_refl) Hq); split; auto).
    assert (Ht : (0 <= f_a f' <= 1)%Qc) by (rewrite Ha; apply t_len_range).
    pose proof (feasible_mix pr (f_x e f) (f_z f') (f_a f') Ht F1 F2) as F3. revert F3. apply feasible_ext.
    intros j Hj. rewrite qat_line by auto. unfold f_x at 3. unfold f_d. fold e in Hj. rewrite !qat_tab by exact Hj. rewrite Hp, Hb. ring.
Qed.
Lemma c14 : o_perturbStep opt = false -> feasible_answers pr orc o ->
  exists x, returns_primal o x /\ (feasible pr x \/ (x = pr_x0 pr /\ exists c, s_calls (it o) = [c] /\ qp_error c (orc [c]) <> None)).
Proof.
  intros Np Fe. destruct (returned _ _ _ _ _ _ _ _ Adm Sol Rat) as (x & P & [H|(f & tr & rest & cs & T & C & ->)]); exists x || exists (f_x e f); (split; [exact P|]); [right; exact H|].
  left. apply (feas_trace (f :: tr) (answers orc cs [])); [exact T|exact Np| |left; auto].
  intros c a Hi Hq z Hz. apply (Fe c a z); auto. rewrite C. clear - Hi. induction rest as [|c' rest IH]; [exact Hi|]. cbn [app]. rewrite answers_app. right. auto.
Qed.
End Final.
