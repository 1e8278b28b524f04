(** * ColumnsSparse: another order of the variables in sparse mode (no LCQPow code). *)
From Coq Require Import Permutation QArith Qcanon.
From Verif Require Import Base Arith Codes Utilities Options Stats FileIO Subsolver State LCQProblem Tactics Loops Kernels Exact SpecSparse CscKernels CscBuild CscMerge
  Pure PureFacts SpecLoad Refine LoadDense LoadSparse StartDense StartSparse SpecApi ApiFacts SpecSwap Swap SwapFacts SpecRenumber Renumber RenumberFacts RenumberSparse SpecColumns Columns ColumnsFacts.
Open Scope Z_scope.

(** ** Merged columns by row *)
Lemma mtag_step r (o1 o2 : option xq) (Q Q' C C' : Z -> option xq) rest :
  (forall t : @tag xq, In t rest <-> snd t = (Q' (fst t), C' (fst t)) /\ snd t <> (None, None)) -> NoDup (map fst rest) ->
  Q' r = None -> C' r = None -> Q r = o1 -> C r = o2 -> (o1, o2) <> (None, None) -> (forall k, k <> r -> Q k = Q' k /\ C k = C' k) ->
  (forall t, In t ((r, (o1, o2)) :: rest) <-> snd t = (Q (fst t), C (fst t)) /\ snd t <> (None, None)) /\ NoDup (map fst ((r, (o1, o2)) :: rest)).
Proof.
  intros I N Qr Cr Eq Ec NN E.
  assert (NI : ~ In r (map fst rest)).
  { intros Hi. apply in_map_iff in Hi. destruct Hi as (t & Et & Ht). apply I in Ht. destruct Ht as [H1 H2]. rewrite Et, Qr, Cr in H1. contradiction. }
  split; [|cbn; constructor; auto]. intros [k o]. cbn [fst snd In]. destruct (Z.eq_dec k r) as [->|Nk].
  - split.
    + intros [X|X]; [|exfalso; apply NI; apply (in_map fst) in X; exact X]. injection X as X. subst o. rewrite Eq, Ec. auto.
    + intros [X Y]. left. rewrite X, Eq, Ec. reflexivity.
  - destruct (E k Nk) as [-> ->]. split.
    + intros [X|X]; [injection X as X _; congruence|]. apply I in X. exact X.
    + intros X. right. apply I. exact X.
Qed.
Lemma lookup_below (l : list (Z * xq)) k : sorted l -> (forall e, In e l -> k < fst e) -> lookup_row l k = None.
Proof. intros _ B. apply lookup_none. intros e He. specialize (B e He). lia. Qed.
Lemma lookup_head (e : Z * xq) l : lookup_row (e :: l) (fst e) = Some (snd e).
Proof. cbn. rewrite Z.eqb_refl. reflexivity. Qed.
Lemma lookup_tail (e : Z * xq) l k : k <> fst e -> lookup_row (e :: l) k = lookup_row l k.
Proof. intros N. cbn. rewrite (proj2 (Z.eqb_neq _ _)) by congruence. reflexivity. Qed.
Lemma mtag_spec (q c : list (Z * xq)) : sorted q -> sorted c ->
  (forall t, In t (mtag q c) <-> snd t = (lookup_row q (fst t), lookup_row c (fst t)) /\ snd t <> (None, None)) /\ NoDup (map fst (mtag q c)).
Proof.
  remember (length q + length c)%nat as N eqn:EN. revert q c EN. induction N as [N IH] using lt_wf_ind. intros q c EN Sq Sc. rewrite mtag_eq. destruct q as [|e q], c as [|e' c].
  - split; [|constructor]. intros t. cbn. split; [contradiction|]. intros [X Y]. contradiction.
  - destruct (Sc) as [B Sc']. destruct (IH (length (@nil (Z * xq)) + length c)%nat ltac:(subst; cbn; lia) [] c eq_refl I Sc') as [I1 N1].
    apply (mtag_step _ _ _ (lookup_row []) (lookup_row []) (lookup_row (e' :: c)) (lookup_row c)); auto.
    + apply lookup_below; auto.
    + apply lookup_head.
    + discriminate.
    + intros k Nk. split; [reflexivity|apply lookup_tail; auto].
  - destruct (Sq) as [B Sq']. destruct (IH (length q + length (@nil (Z * xq)))%nat ltac:(subst; cbn; lia) q [] eq_refl Sq' I) as [I1 N1].
    apply (mtag_step _ _ _ (lookup_row (e :: q)) (lookup_row q) (lookup_row []) (lookup_row [])); auto.
    + apply lookup_below; auto.
    + apply lookup_head.
    + discriminate.
    + intros k Nk. split; [apply lookup_tail; auto|reflexivity].
  - destruct (Sq) as [Bq Sq']. destruct (Sc) as [Bc Sc']. destruct (Z.ltb_spec (fst e) (fst e')) as [L|L]; [|destruct (Z.ltb_spec (fst e') (fst e)) as [L'|L']].
    + destruct (IH (length q + length (e' :: c))%nat ltac:(subst; cbn; lia) q (e' :: c) eq_refl Sq' Sc) as [I1 N1].
      assert (K : lookup_row (e' :: c) (fst e) = None) by (apply lookup_none; intros x [<-|Hx]; [lia|specialize (Bc x Hx); lia]).
      apply (mtag_step _ _ _ (lookup_row (e :: q)) (lookup_row q) (lookup_row (e' :: c)) (lookup_row (e' :: c))); auto.
      * apply lookup_below; auto.
      * apply lookup_head.
      * discriminate.
      * intros k Nk. split; [apply lookup_tail; auto|reflexivity].
    + destruct (IH (length (e :: q) + length c)%nat ltac:(subst; cbn; lia) (e :: q) c eq_refl Sq Sc') as [I1 N1].
      assert (K : lookup_row (e :: q) (fst e') = None) by (apply lookup_none; intros x [<-|Hx]; [lia|specialize (Bq x Hx); lia]).
      apply (mtag_step _ _ _ (lookup_row (e :: q)) (lookup_row (e :: q)) (lookup_row (e' :: c)) (lookup_row c)); auto.
      * apply lookup_below; auto.
      * apply lookup_head.
      * discriminate.
      * intros k Nk. split; [reflexivity|apply lookup_tail; auto].
    + assert (Ee : fst e' = fst e) by lia. destruct (IH (length q + length c)%nat ltac:(subst; cbn; lia) q c eq_refl Sq' Sc') as [I1 N1].
      apply (mtag_step _ _ _ (lookup_row (e :: q)) (lookup_row q) (lookup_row (e' :: c)) (lookup_row c)); auto.
      * apply lookup_below; auto.
      * apply lookup_below; auto. rewrite <- Ee. auto.
      * apply lookup_head.
      * rewrite <- Ee. apply lookup_head.
      * discriminate.
      * intros k Nk. split; apply lookup_tail; auto. congruence.
Qed.

Section Merge.
Variables (n : Z) (f : Z -> Z).
Hypothesis (Hf : permutes n f).
(** No LCQPow code. *)
Definition mv {X} (e : Z * X) : Z * X := (f (fst e), snd e).
Lemma lookup_moved (q q' : list (Z * xq)) k : sorted q -> (forall e, In e q' -> 0 <= fst e < n) -> Permutation (map mv q') q -> 0 <= k < n -> lookup_row q (f k) = lookup_row q' k.
Proof.
  intros S B P Hk. rewrite (lookup_perm q (map mv q')); [|apply sorted_nodup; auto|apply Permutation_sym; auto]. apply (lookup_map f). intros e He E. apply (proj2 Hf); auto.
Qed.
Lemma nodup_map_on {X Y} (g : X -> Y) l : (forall x y, In x l -> In y l -> g x = g y -> x = y) -> NoDup l -> NoDup (map g l).
Proof.
  induction l as [|a l IH]; intros G N; [constructor|]. inversion N; subst. cbn. constructor.
  - intros Hi. apply in_map_iff in Hi. destruct Hi as (x & E & Hx). apply G in E; [subst; contradiction|right; auto|left; auto].
  - apply IH; auto. intros; apply G; auto; right; auto.
Qed.
Lemma lookup_has (l : list (Z * xq)) k : lookup_row l k <> None -> exists e, In e l /\ fst e = k.
Proof.
  induction l as [|e l IH]; [intros X; contradiction|]. cbn. destruct (Z.eqb_spec (fst e) k); [intros _; exists e; auto|]. intros X. destruct (IH X) as (e' & ? & ?). exists e'. auto.
Qed.
Lemma mtag_moved (q q' c c' : list (Z * xq)) : sorted q -> sorted q' -> sorted c -> sorted c' -> (forall e, In e q' -> 0 <= fst e < n) -> (forall e, In e c' -> 0 <= fst e < n) ->
  Permutation (map mv q') q -> Permutation (map mv c') c -> Permutation (map mv (mtag q' c')) (mtag q c).
Proof.
  intros Sq Sq' Sc Sc' Bq Bc Pq Pc. destruct (mtag_spec q c Sq Sc) as [I1 N1]. destruct (mtag_spec q' c' Sq' Sc') as [I2 N2].
  assert (R : forall t, In t (mtag q' c') -> 0 <= fst t < n).
  { intros t Ht. apply mtag_rows in Ht. destruct Ht as (x & [Hx|Hx]); [exact (Bq _ Hx)|exact (Bc _ Hx)]. }
  apply NoDup_Permutation.
  - apply (NoDup_map_inv fst). rewrite map_map. unfold mv. cbn [fst]. rewrite <- (map_map fst f). apply nodup_map_on; [|exact N2].
    intros x y Hx Hy. apply in_map_iff in Hx. apply in_map_iff in Hy. destruct Hx as (t & <- & Ht). destruct Hy as (s & <- & Hs). apply (proj2 Hf); auto.
  - apply (NoDup_map_inv fst). exact N1.
  - intros t. split.
    + intros Ht. apply in_map_iff in Ht. destruct Ht as (s & <- & Hs). pose proof (R s Hs) as B. apply I2 in Hs. destruct Hs as [E NN]. apply I1. unfold mv. cbn [fst snd].
      rewrite (lookup_moved q q'), (lookup_moved c c') by auto. auto.
    + intros Ht. apply I1 in Ht. destruct Ht as [E NN]. assert (K : exists k, 0 <= k < n /\ fst t = f k).
      { destruct (lookup_row q (fst t)) eqn:Lq.
        - destruct (lookup_has q (fst t)) as (e & He & <-); [congruence|]. apply (Permutation_in _ (Permutation_sym Pq)) in He. apply in_map_iff in He. destruct He as (e' & <- & He). exists (fst e'). split; [auto|reflexivity].
        - destruct (lookup_row c (fst t)) eqn:Lc; [|congruence].
          destruct (lookup_has c (fst t)) as (e & He & <-); [congruence|]. apply (Permutation_in _ (Permutation_sym Pc)) in He. apply in_map_iff in He. destruct He as (e' & <- & He). exists (fst e'). split; [auto|reflexivity]. }
      destruct K as (k & Hk & Ek). apply in_map_iff. exists (k, snd t). split; [unfold mv; cbn [fst snd]; rewrite <- Ek; destruct t; reflexivity|]. apply I2. cbn [fst snd].
      rewrite Ek in E. rewrite (lookup_moved q q'), (lookup_moved c c') in E by auto. auto.
Qed.
End Merge.

(** ** Products with square matrices *)
Section Square.
Variables (n : Z) (f : Z -> Z).
Hypothesis (Hn : 0 <= n) (Hf : permutes n f).
(** No LCQPow code. *)
Definition sqc (c c' : list (list (Z * xq))) : Prop := (forall j e, 0 <= j < n -> In e (col c' j) -> 0 <= fst e < n) /\ both_moved n f c c'.
Lemma sqc_colsum c c' x x' j : sqc c c' -> moved n f x x' -> 0 <= j < n -> colsum (col c' j) x' = colsum (col c (f j)) x.
Proof.
  intros [B P] (_ & _ & X) Hj. unfold colsum. rewrite <- (fold_perm (fun t e => (t + snd e * at_ a_zero x (fst e))%num) _ _ (fun a e e' => add_swap _ _ _) (P j Hj)).
  rewrite fold_left_map'. apply fold_ext. intros a e He. cbn [fst snd]. rewrite X by eauto. reflexivity.
Qed.
Lemma sqc_affine a c c' x x' g g' : sqc c c' -> moved n f x x' -> moved n f g g' -> moved n f (affine_csc a c x g n) (affine_csc a c' x' g' n).
Proof. intros S X (_ & _ & G). apply (moved_tab n f Hn Hf). intros i Hi. rewrite (sqc_colsum c c' x x') by auto. rewrite G by auto. reflexivity. Qed.
Lemma sqc_quad c c' x x' : sqc c c' -> moved n f x x' -> quad_csc c' x' n = quad_csc c x n.
Proof.
  intros S X. unfold quad_csc. apply (fsum_moved n f Hn Hf (fun j => (at_ a_zero x j * colsum (col c j) x)%num)). intros i Hi. rewrite (sqc_colsum c c' x x') by auto. rewrite (proj2 (proj2 X)) by auto. reflexivity.
Qed.
(** Row of a product with columns in the new order *)
Lemma rowsum_moved (c c' : list (list (Z * xq))) x x' i : (forall j, 0 <= j < n -> col c' j = col c (f j)) -> moved n f x x' -> rowsum c' x' i n = rowsum c x i n.
Proof.
  intros C (_ & _ & X). unfold rowsum.
  set (st := fun (t : xq) j => fold_left (rowstep x i j) (col c j) t).
  assert (A : forall j, additive (rowstep x i j)) by (intros j a b e; unfold rowstep; destruct (fst e =? i); [apply x_add_assoc|reflexivity]).
  assert (E1 : forall l a, (forall k, In k l -> (k < Z.to_nat n)%nat) ->
    fold_left (fun t k => fold_left (rowstep x' i (Z.of_nat k)) (col c' (Z.of_nat k)) t) l a = fold_left st (map (fun k => f (Z.of_nat k)) l) a).
  { induction l as [|k l IH]; intros a B; [reflexivity|]. cbn [fold_left map]. rewrite IH by (intros; apply B; right; auto). f_equal. unfold st. pose proof (B k (or_introl eq_refl)). rewrite C by lia.
    apply fold_ext. intros s e _. unfold rowstep. rewrite X by lia. reflexivity. }
  rewrite E1 by (intros k Hk; apply in_seq in Hk; lia). change (map (fun k => f (Z.of_nat k)) (seq 0 (Z.to_nat n))) with (tab n f).
  rewrite (fold_perm st _ _ (fun a y z => fold_swap _ _ _ _ _ (A z) (A y)) (perm_tab n f Hf)). unfold tab. rewrite fold_left_map'. reflexivity.
Qed.
End Square.

(** ** Sparse mode *)
Lemma sorted_snoc (l : list (Z * xq)) e : sorted l -> (forall e', In e' l -> fst e' < fst e) -> sorted (l ++ [e]).
Proof.
  induction l as [|a l IH]; intros S B; [split; [intros ? []|exact I]|]. destruct S as [S1 S2]. cbn. split.
  - intros e' He. apply in_app_or in He. destruct He as [He|[<-|[]]]; [auto|apply B; left; auto].
  - apply IH; auto. intros; apply B; right; auto.
Qed.
Lemma symm_col_sorted (v : Z -> xq) k : 0 <= k -> sorted (tabcat k (fun i => if isZero (v i) then [] else [(i, v i)])).
Proof.
  revert k. apply natlike_ind; [exact I|]. intros k Hk IH. unfold Z.succ. rewrite tabcat_succ by auto. destruct (isZero (v k)); [rewrite app_nil_r; exact IH|].
  apply sorted_snoc; [exact IH|]. intros e He. apply in_tabcat in He. destruct He as (i & Hi & He). destruct (isZero (v i)); [destruct He|]. destruct He as [<-|[]]. cbn. lia.
Qed.
Lemma tabcat_moved {X} n f (g : Z -> list X) : permutes n f -> Permutation (tabcat n (fun i => g (f i))) (tabcat n g).
Proof.
  intros F. unfold tabcat. rewrite <- (map_tab g n f). assert (E : tab n g = map g (tab n (fun i => i))) by (rewrite map_tab; reflexivity). rewrite E.
  pose proof (Permutation_map g (perm_tab n f F)) as P. revert P. generalize (map g (tab n f)) (map g (tab n (fun i => i))). intros l l'.
  induction 1; cbn; [constructor|apply Permutation_app_head; auto|rewrite !app_assoc; apply Permutation_app_tail, Permutation_app_comm|eapply perm_trans; eauto].
Qed.

Section Sparse.
Variables (b : Z) (f : Z -> Z) (u u' : usparse xq).
Hypothesis (W : wf_sparse u) (W' : wf_sparse u') (MS : moved_sparse b f u u') (Hf : permutes (u_nV (us_v u)) f).
Let n := u_nV (us_v u).
Let nC := u_nC (us_v u).
Let m := u_nComp (us_v u).
Let MV := ms_v _ _ _ _ MS.
Let V := ws_v _ W.
Lemma ks_dims : u_nV (us_v u') = n /\ u_nC (us_v u') = nC /\ u_nComp (us_v u') = m.
Proof. split; [|split]; apply MV. Qed.
Lemma ks_sizes : 0 < n /\ 0 <= nC /\ 0 < m.
Proof. split; [|split]; apply V. Qed.
Lemma ks_n : 0 <= n. Proof. destruct ks_sizes; lia. Qed.
Lemma ks_col (k : Z) cols j : wf_cols k n cols -> 0 <= j < n -> sorted (col cols j) /\ forall e : Z * xq, In e (col cols j) -> 0 <= fst e < k.
Proof.
  intros (L & B & S) Hj. assert (I : In (col cols j) cols) by (unfold col, at_; apply nth_In; unfold len in L; lia). split; [apply S; auto|]. intros [r x] He. eapply B; eauto.
Qed.
Lemma ks_wQ' : wf_cols n n (us_Q u').
Proof. pose proof (ws_Q _ W') as X. destruct ks_dims as (E & _ & _). rewrite E in X. exact X. Qed.
Lemma ks_Q : sqc n f (us_Q u) (us_Q u').
Proof. split; [|exact (ms_Q _ _ _ _ MS)]. intros j e Hj He. exact (proj2 (ks_col _ _ j ks_wQ' Hj) e He). Qed.
Lemma ks_sym i j : 0 <= i < n -> 0 <= j < n -> sym_csc (us_L u') (us_R u') i j = sym_csc (us_L u) (us_R u) (f i) (f j).
Proof. intros Hi Hj. unfold sym_csc. rewrite !(ms_L _ _ _ _ MS), !(ms_R _ _ _ _ MS) by auto. reflexivity. Qed.
Lemma ks_C_col (w : usparse xq) j : u_nV (us_v w) = n -> 0 <= j < n ->
  col (us_C w) j = tabcat n (fun i => if isZero (sym_csc (us_L w) (us_R w) i j) then [] else [(i, sym_csc (us_L w) (us_R w) i j)]).
Proof. intros E Hj. unfold us_C, symm_cols, col at 1. rewrite E. rewrite at_tab by auto. reflexivity. Qed.
Lemma ks_C_ok (w : usparse xq) j : u_nV (us_v w) = n -> 0 <= j < n -> sorted (col (us_C w) j) /\ forall e, In e (col (us_C w) j) -> 0 <= fst e < n.
Proof.
  intros E Hj. rewrite ks_C_col by auto. split; [apply (symm_col_sorted (fun i => sym_csc (us_L w) (us_R w) i j)), ks_n|].
  intros e He. apply in_tabcat in He. destruct He as (i & Hi & He). destruct (isZero _); [destruct He|]. destruct He as [<-|[]]. exact Hi.
Qed.
Lemma map_tabcat {X Y} (h : X -> Y) k (g : Z -> list X) : map h (tabcat k g) = tabcat k (fun i => map h (g i)).
Proof. unfold tabcat. rewrite concat_map, map_tab. reflexivity. Qed.
Lemma ks_C : sqc n f (us_C u) (us_C u').
Proof.
  destruct ks_dims as (E & _ & _). split; [intros j e Hj He; exact (proj2 (ks_C_ok u' j E Hj) e He)|]. intros j Hj. pose proof (proj1 Hf j Hj : 0 <= f j < n) as Fj.
  rewrite (ks_C_col u' j E Hj), (ks_C_col u (f j) eq_refl Fj), map_tabcat.
  eapply perm_trans; [|apply (tabcat_moved n f (fun i => if isZero (sym_csc (us_L u) (us_R u) i (f j)) then [] else [(i, sym_csc (us_L u) (us_R u) i (f j))]) Hf)].
  unfold tabcat. match goal with |- Permutation (concat ?x) (concat ?y) => assert (Ex : x = y); [|rewrite Ex; apply Permutation_refl] end.
  apply tab_ext. intros i Hi. rewrite ks_sym by auto. destruct (isZero _); reflexivity.
Qed.
Lemma ks_tags j : 0 <= j < n -> Permutation (map (mv f) (at_ [] (us_tags u') j)) (at_ [] (us_tags u) (f j)) /\ forall t, In t (at_ [] (us_tags u') j) -> 0 <= fst t < n.
Proof.
  intros Hj. destruct ks_dims as (E & _ & _). pose proof (proj1 Hf j Hj : 0 <= f j < n) as Fj. unfold us_tags, mtags. rewrite E. fold n. rewrite !at_tab by auto.
  destruct (ks_col _ _ j ks_wQ' Hj) as [SQ' BQ']. destruct (ks_C_ok u' j E Hj) as [SC' BC']. destruct (ks_col _ _ (f j) (ws_Q _ W) Fj) as [SQ _]. destruct (ks_C_ok u (f j) eq_refl Fj) as [SC _]. split.
  - apply (mtag_moved n f Hf); auto; [exact (ms_Q _ _ _ _ MS j Hj)|exact (proj2 ks_C j Hj)].
  - intros t Ht. apply mtag_rows in Ht. destruct Ht as (x & [Hx|Hx]); [exact (BQ' _ Hx)|exact (BC' _ Hx)].
Qed.
(** Values of merged entries do not depend on the row.  No LCQPow code. *)
Definition KP (h h' : @tag xq -> xq) : Prop := forall t, h' t = h (mv f t).
Lemma vcols_col (h : @tag xq -> xq) tg j : col (vcols h tg) j = map (fun t => (fst t, h t)) (at_ [] tg j).
Proof. unfold col, vcols, at_. rewrite (map_nth (map (fun t => (fst t, h t))) tg []). reflexivity. Qed.
Lemma ks_H h h' : KP h h' -> sqc n f (vcols h (us_tags u)) (vcols h' (us_tags u')).
Proof.
  intros K. split; [intros j e Hj He|intros j Hj]; destruct (ks_tags j Hj) as [P B]; rewrite !vcols_col in *.
  - apply in_map_iff in He. destruct He as (t & <- & Ht). exact (B t Ht).
  - apply (Permutation_map (fun t => (fst t, h t))) in P. eapply perm_trans; [|exact P]. rewrite !map_map. cbn [fst snd].
    match goal with |- Permutation ?x ?y => assert (Ex : x = y); [|rewrite Ex; apply Permutation_refl] end. apply map_ext. intros t. rewrite (K t). reflexivity.
Qed.
Lemma ks_ALR j : 0 <= j < n -> col (us_ALR u') j = col (us_ALR u) (f j).
Proof.
  intros Hj. pose proof (proj1 Hf j Hj : 0 <= f j < n) as Fj. destruct ks_dims as (E1 & E2 & E3). unfold us_ALR, stack_cols. rewrite E1, E2, E3. fold n nC m. unfold col at 1 5. rewrite !at_tab by auto.
  rewrite (ms_A _ _ _ _ MS), (ms_L _ _ _ _ MS), (ms_R _ _ _ _ MS) by auto. reflexivity.
Qed.
Lemma ks_tA (y : list xq) : moved n f (tmul_csc (us_ALR u) y n) (tmul_csc (us_ALR u') y n).
Proof. apply (moved_tab n f ks_n Hf). intros i Hi. rewrite ks_ALR by auto. reflexivity. Qed.
Lemma ks_mul (c c' : list (list (Z * xq))) x x' : (forall j, 0 <= j < n -> col c' j = col c (f j)) -> moved n f x x' -> mul_csc c' x' m n = mul_csc c x m n.
Proof. intros C X. apply tab_ext. intros i Hi. apply (rowsum_moved n f Hf); auto. Qed.
Lemma ks_addtmul (c c' : list (list (Z * xq))) (y g g' : list xq) : (forall j, 0 <= j < n -> col c' j = col c (f j)) -> moved n f g g' -> moved n f (addtmul_csc c y g n) (addtmul_csc c' y g' n).
Proof. intros C (_ & _ & G). apply (moved_tab n f ks_n Hf). intros i Hi. rewrite C, G by auto. reflexivity. Qed.
Lemma ks_gphi : moved_opt n f (sparse_gphi u) (sparse_gphi u').
Proof.
  unfold sparse_gphi. destruct ks_dims as (-> & _ & _). fold n. rewrite (mv_lbL _ _ _ _ MV), (mv_lbR _ _ _ _ MV). destruct (u_lbL (us_v u)); [|exact I]. destruct (u_lbR (us_v u)); [|exact I].
  cbn [moved_opt]. apply (moved_tab n f ks_n Hf). intros i Hi. f_equal.
  match goal with |- at_ _ ?a _ = at_ _ ?c _ => assert (G : moved n f c a) end; [|exact (proj2 (proj2 G) i Hi)].
  apply ks_addtmul; [exact (ms_L _ _ _ _ MS)|]. apply ks_addtmul; [exact (ms_R _ _ _ _ MS)|]. apply (moved_const n f ks_n Hf).
Qed.
Lemma ks_bnd (l l' : option (list xq)) d : fits n l -> fits n l' -> (forall i, 0 <= i < n -> bound_at l' d i = bound_at l d (f i)) -> moved n f (bnd n l d) (bnd n l' d).
Proof.
  intros F F' E. split; [apply bnd_len; auto using ks_n|]. split; [apply bnd_len; auto using ks_n|]. intros i Hi. pose proof (proj1 Hf i Hi). rewrite !bnd_at by auto. auto.
Qed.
Lemma ks_fits : fits n (u_lb (us_v u')) /\ fits n (u_ub (us_v u')) /\ fits n (u_x0 (us_v u')).
Proof. pose proof (ws_v _ W') as V'. destruct ks_dims as (E & _ & _). rewrite <- E. split; [|split]; apply V'. Qed.
Lemma ks_matA : moved_cols (nC + 2 * m) n f (csc_mat (nC + 2 * m) n (us_ALR u)) (csc_mat (nC + 2 * m) n (us_ALR u')).
Proof. right. exists (us_ALR u), (us_ALR u'). split; [reflexivity|]. split; [reflexivity|]. exact ks_ALR. Qed.
Lemma ks_matH opt : (osqp opt = true -> two_sided n (us_Q u)) -> moved_both n f (csc_mat n n (sparse_H u opt)) (csc_mat n n (sparse_H u' opt)).
Proof.
  intros TS. unfold sparse_H. destruct ks_dims as (-> & _ & _). fold n. right. destruct (osqp opt).
  - right. exists (us_Q u), (us_Q u'). split; [reflexivity|]. split; [reflexivity|]. split; [auto|exact (ms_Q _ _ _ _ MS)].
  - left. exists (us_Q u), (us_Q u'). split; [reflexivity|]. split; [reflexivity|]. exact (ms_Q _ _ _ _ MS).
Qed.
Lemma perm_nil_C : concat (us_C u) <> [] -> concat (us_C u') <> [].
Proof.
  destruct ks_dims as (E & _ & _). intros N X. apply N. clear N.
  assert (Z' : forall j, 0 <= j < n -> col (us_C u') j = []).
  { intros j Hj. assert (I : In (col (us_C u') j) (us_C u')) by (apply col_in; unfold us_C, symm_cols; rewrite E, len_tab by apply ks_n; auto).
    destruct (col (us_C u') j) as [|e l] eqn:Ec; [reflexivity|]. exfalso. assert (Y : In e (concat (us_C u'))) by (apply in_concat; exists (e :: l); split; [auto|left; auto]). rewrite X in Y. destruct Y. }
  assert (Z0 : forall j, 0 <= j < n -> col (us_C u) (f j) = []).
  { intros j Hj. pose proof (proj2 ks_C j Hj) as P. rewrite Z' in P by auto. cbn in P. apply Permutation_nil in P. exact P. }
  destruct (concat (us_C u)) as [|e l] eqn:Ec; [reflexivity|]. exfalso. assert (Y : In e (concat (us_C u))) by (rewrite Ec; left; auto).
  apply in_concat in Y. destruct Y as (c & Hc & He). unfold us_C, symm_cols in Hc. apply in_tab in Hc. destruct Hc as (j & Hj & Ej). fold n in Hj.
  assert (Ef : exists i, 0 <= i < n /\ f i = j).
  { assert (Hin : In j (tab n f)). { apply (Permutation_in _ (Permutation_sym (perm_tab n f Hf))). unfold tab. apply in_map_iff. exists (Z.to_nat j). split; [lia|]. apply in_seq. lia. }
    apply in_tab in Hin. destruct Hin as (i & Hi & ->). exists i. auto. }
  destruct Ef as (i & Hi & <-). specialize (Z0 i Hi). rewrite ks_C_col in Z0 by auto. fold n in Ej. cbv zeta in Ej. rewrite <- Ej in Z0. rewrite Z0 in He. destruct He.
Qed.
End Sparse.

Lemma p_C75_sparse f (u u' : usparse xq) opt orc orc' rand rand' b : wf_sparse u -> wf_sparse u' -> paired (us_v u) -> fin_lower (us_v u) -> concat (us_C u) <> [] ->
  o_qpSolver opt <> QPOASES_DENSE -> osqp_ok (us_v u) opt -> osqp_ok (us_v u') opt -> b = (match o_qpSolver opt with OSQP_SPARSE => 0 | _ => u_nV (us_v u) end) ->
  (o_qpSolver opt = OSQP_SPARSE -> two_sided (u_nV (us_v u)) (us_Q u)) -> permutes (u_nV (us_v u)) f -> moved_sparse b f u u' ->
  names_blind (u_nV (us_v u)) b (u_nC (us_v u) + 2 * u_nComp (us_v u)) f orc orc' -> (o_perturbStep opt = true -> moved_draws (u_nV (us_v u)) f rand rand') ->
  moved_runs (u_nV (us_v u)) b (u_nC (us_v u) + 2 * u_nComp (us_v u)) f (solve_sparse u opt orc rand) (solve_sparse u' opt orc' rand').
Proof.
  intros W W' Pa FL NZ Hq Ho Ho' Eb TS Hf MS HO HD. pose proof (ws_v _ W) as V. pose proof (ws_v _ W') as V'. pose proof (wv_nV _ V). pose proof (wv_nC _ V). pose proof (wv_nComp _ V).
  assert (Eb' : b = if osqp opt then 0 else u_nV (us_v u)) by (rewrite Eb; unfold osqp; destruct (o_qpSolver opt); reflexivity).
  assert (TS' : osqp opt = true -> two_sided (u_nV (us_v u)) (us_Q u)) by (intros X; apply TS; unfold osqp in X; destruct (o_qpSolver opt); try discriminate; reflexivity).
  pose proof (ms_v _ _ _ _ MS) as MV. destruct (ks_dims _ _ _ _ MS) as (D1 & D2 & D3).
  assert (Pa' : paired (us_v u')) by (unfold paired; rewrite (mv_lbL _ _ _ _ MV), (mv_lbR _ _ _ _ MV); exact Pa).
  assert (FL' : fin_lower (us_v u')) by (unfold fin_lower; rewrite (mv_lbL _ _ _ _ MV), (mv_lbR _ _ _ _ MV); exact FL).
  assert (NZ' : concat (us_C u') <> []) by exact (perm_nil_C b f u u' W MS Hf NZ).
  pose proof (solve_sparse_ref u opt orc rand W Pa FL NZ Hq Ho) as S1. pose proof (solve_sparse_ref u' opt orc' rand' W' Pa' FL' NZ' Hq Ho') as S2.
  eapply moved_conclude with (p := sparse_ops u opt) (KP := KP f); [| | | | | | | | | |exact S1|exact S2|]; try reflexivity.
  all: try (cbn; exact (eq_sym Eb')).
  all: try (exact D1).
  all: try (unfold p_nD, p_nA; cbn; rewrite ?D1, ?D2, ?D3; reflexivity).
  all: try (unfold sparse_pd, sparse_pd0; destruct (osqp opt); cbn; f_equal; exact D1).
  all: try (unfold sparse_pd, sparse_pd0, p_nD, p_nA; cbn [sparse_ops p_off p_nC p_nComp]; destruct (osqp opt); cbn; f_equal; rewrite ?D1, ?D2, ?D3; lia).
  { intros r o ES. eapply sparse_algo; [exact W|exact Pa|exact FL|exact NZ|exact Hq|exact Ho|exact ES]. }
  set (n := u_nV (us_v u)) in *. set (nC := u_nC (us_v u)) in *. set (m := u_nComp (us_v u)) in *.
  assert (EA : u_nA (us_v u) = nC + 2 * m) by reflexivity. assert (EA' : u_nA (us_v u') = nC + 2 * m) by (unfold u_nA; rewrite D2, D3; reflexivity).
  assert (Hn : 0 <= n) by lia. assert (Hm : 0 <= m) by lia. destruct (ks_fits b f u u' W' MS) as (F1 & F2 & F3).
  apply run_rn; cbn [sparse_ops p_opt p_solver p_nV p_nC p_nComp p_off p_box p_g p_gphi p_pc p_matH p_matA p_lbA p_ubA p_lb p_ub p_setH p_updH p_affH p_quadH p_affC p_quadC p_quadQ p_tA p_mulL p_mulR];
    rewrite ?D1, ?D2, ?D3, ?EA, ?EA'; fold n nC m; auto.
  - destruct (osqp opt); auto.
  - destruct (osqp opt); [discriminate|auto].
  - unfold u_pc. rewrite (mv_lbL _ _ _ _ MV), (mv_lbR _ _ _ _ MV), D3. reflexivity.
  - unfold u_lower. rewrite (mv_lbL _ _ _ _ MV), (mv_lbR _ _ _ _ MV), (mv_lbA _ _ _ _ MV), D2, D3. reflexivity.
  - unfold u_upper. rewrite (mv_ubL _ _ _ _ MV), (mv_ubR _ _ _ _ MV), (mv_ubA _ _ _ _ MV), D2, D3. reflexivity.
  - apply MV.
  - apply (ks_gphi b f u u' W MS Hf).
  - destruct (osqp opt); [exact I|]. apply (ks_bnd f u W Hf); [apply V|exact F1|apply MV].
  - destruct (osqp opt); [exact I|]. apply (ks_bnd f u W Hf); [apply V|exact F2|apply MV].
  - apply (ks_matH b f u u' MS opt TS').
  - apply (ks_matA b f u u' MS Hf).
  - intros r t. reflexivity.
  - intros r h h' K t. unfold bump. rewrite (K t). reflexivity.
  - intros. apply (sqc_affine n f Hn Hf); auto. apply (ks_H b f u u' W W' MS Hf). assumption.
  - intros. apply (sqc_quad n f Hn Hf); auto. apply (ks_H b f u u' W W' MS Hf). assumption.
  - intros. apply (sqc_affine n f Hn Hf); auto. apply (ks_C b f u u' W MS Hf).
  - intros. apply (sqc_quad n f Hn Hf); auto. apply (ks_C b f u u' W MS Hf).
  - intros. apply (sqc_quad n f Hn Hf); auto. apply (ks_Q b f u u' W' MS).
  - intros. apply (ks_tA b f u u' W MS Hf).
  - intros. apply (ks_mul f u Hf); auto. apply MS.
  - intros. apply (ks_mul f u Hf); auto. apply MS.
  - intros. apply (moved_dot n f Hn Hf); auto.
  - intros. apply (moved_maxabs n f Hf); auto.
  - rewrite <- Eb'. exact HO.
  - rewrite <- Eb'. apply MV.
  - unfold u_x. rewrite D1. apply (ks_bnd f u W Hf); [apply V|exact F3|apply MV].
Qed.
