(** * CscKernels: what the CSC kernels of src/Utilities.cpp compute (any arithmetic). *)
From Verif Require Import Base Arith Codes Utilities Tactics Loops Kernels SpecSparse.

Section Csc.
Context {T : Type}.
Implicit Types (cols : list (list (Z * T))) (c : list (Z * T)).

Lemma off_0 cols : off cols 0 = 0.
Proof. reflexivity. Qed.
Lemma take_succ {X} (d : X) l i : 0 <= i < len l -> take (i + 1) l = take i l ++ [at_ d l i].
Proof.
  unfold take, len, at_. intros Hi. replace (Z.to_nat (i + 1)) with (S (Z.to_nat i)) by lia.
  assert (Hn : (Z.to_nat i < length l)%nat) by lia. clear Hi. revert Hn. generalize (Z.to_nat i) as k. clear i.
  induction l; intros [|k] Hk; simpl in *; try lia; auto. rewrite <- IHl by lia. reflexivity.
Qed.
Lemma off_succ cols j : 0 <= j < len cols -> off cols (j + 1) = off cols j + len (col cols j).
Proof.
  intros Hj. unfold off. rewrite (take_succ []) by lia. rewrite concat_app, len_app. simpl. rewrite app_nil_r. reflexivity.
Qed.
Lemma off_all cols : off cols (len cols) = len (concat cols).
Proof. unfold off. rewrite take_all by lia. reflexivity. Qed.
Lemma off_nonneg cols j : 0 <= off cols j.
Proof. apply len_nonneg. Qed.
Lemma concat_split cols j : 0 <= j < len cols ->
  concat cols = concat (take j cols) ++ col cols j ++ concat (drop (j + 1) cols).
Proof.
  intros Hj. rewrite <- (take_drop cols j) at 1. rewrite (drop_cons [] cols j) by lia. rewrite concat_app. reflexivity.
Qed.
Lemma off_le cols j k : 0 <= j < len cols -> 0 <= k < len (col cols j) -> 0 <= off cols j + k < len (concat cols).
Proof.
  intros Hj Hk. rewrite (concat_split cols j Hj), !len_app. unfold off.
  pose proof (len_nonneg (concat (take j cols))). pose proof (len_nonneg (concat (drop (j + 1) cols))). lia.
Qed.
Lemma at_concat d cols j k : 0 <= j < len cols -> 0 <= k < len (col cols j) ->
  at_ d (concat cols) (off cols j + k) = at_ d (col cols j) k.
Proof.
  intros Hj Hk. rewrite (concat_split cols j Hj). rewrite at_app_r by (unfold off; lia).
  replace (off cols j + k - len (concat (take j cols))) with k by (unfold off; lia).
  apply at_app_l. lia.
Qed.
Lemma in_at {X} (d : X) l i : 0 <= i < len l -> In (at_ d l i) l.
Proof. unfold at_, len. intros. apply nth_In. lia. Qed.
Lemma col_in cols j : 0 <= j < len cols -> In (col cols j) cols.
Proof. apply in_at. Qed.
Lemma off_app cols c j : 0 <= j <= len cols -> off (cols ++ [c]) j = off cols j.
Proof.
  intros Hj. unfold off, take, len in *. rewrite firstn_app. replace (Z.to_nat j - length cols)%nat with O by lia.
  simpl. rewrite app_nil_r. reflexivity.
Qed.

Lemma for_shift {S} lo n (f : Z -> S -> res S) s : for_ lo (lo + n) f s = for_ 0 n (fun k => f (lo + k)) s.
Proof.
  unfold for_. replace (lo + n - lo) with n by lia. rewrite Z.sub_0_r.
  replace lo with (lo + 0) at 1 by lia.
  generalize 0 as i. revert s. induction (Z.to_nat n); intros s i; simpl; auto.
  destruct (f (lo + i) s); simpl; auto. replace (lo + i + 1) with (lo + (i + 1)) by lia. apply IHn0.
Qed.

(** Loops over a list *)
Lemma for_list {X S} (d : X) (l : list X) (g : S -> X -> S) (f : Z -> S -> res S) (P : S -> Prop) s : P s ->
  (forall k s, 0 <= k < len l -> P s -> f k s = Ok (g s (at_ d l k)) /\ P (g s (at_ d l k))) ->
  for_ 0 (len l) f s = Ok (fold_left g l s) /\ P (fold_left g l s).
Proof.
  revert f s. induction l as [|x l IH]; intros f s Hs Hf; [split; [reflexivity|exact Hs]|].
  pose proof (len_nonneg l). destruct (Hf 0 s) as [E0 P0]; [rewrite len_cons; lia|auto|].
  rewrite for_cons by (rewrite len_cons; lia). rewrite E0. cbn [bind fold_left]. change (at_ d (x :: l) 0) with x in *.
  rewrite len_cons. replace (0 + 1) with 1 by lia. replace (len l + 1) with (1 + len l) by lia. rewrite for_shift.
  apply IH; auto. intros k s0 Hk Hp.
  replace (at_ d l k) with (at_ d (x :: l) (1 + k)).
  - apply Hf; [rewrite len_cons; lia|auto].
  - unfold at_. replace (Z.to_nat (1 + k)) with (Datatypes.S (Z.to_nat k)) by lia. reflexivity.
Qed.
Lemma for_list' {X S} (d : X) (l : list X) (g : S -> X -> S) (f : Z -> S -> res S) s :
  (forall k s, 0 <= k < len l -> f k s = Ok (g s (at_ d l k))) ->
  for_ 0 (len l) f s = Ok (fold_left g l s).
Proof. intros Hf. apply (for_list d l g f (fun _ => True)); auto. Qed.

Section Repr.
Variables (S : csc T) (m n : Z) (cols : list (list (Z * T))).
Hypothesis (HR : repr S m n cols).

Lemma repr_n : 0 <= n.
Proof. rewrite <- (rp_len _ _ _ _ HR). apply len_nonneg. Qed.
Lemma csc_p_repr j : 0 <= j <= n -> csc_p S j = Ok (off cols j).
Proof.
  intros Hj. unfold csc_p. rewrite (rp_p _ _ _ _ HR). simpl. rewrite (rd_lift 0) by (rewrite len_tab; lia).
  rewrite at_tab by lia. reflexivity.
Qed.
Lemma csc_i_repr dx j k : 0 <= j < n -> 0 <= k < len (col cols j) ->
  csc_i S (off cols j + k) = Ok (fst (at_ (0, dx) (col cols j) k)).
Proof.
  intros Hj Hk. pose proof (rp_len _ _ _ _ HR) as L. unfold csc_i. rewrite (rp_i _ _ _ _ HR). simpl.
  pose proof (off_le cols j k). rewrite (rd_lift (fst (0, dx))) by (rewrite len_map; lia).
  rewrite at_map, at_concat by lia. reflexivity.
Qed.
Lemma csc_x_repr dx j k : 0 <= j < n -> 0 <= k < len (col cols j) ->
  csc_x S (off cols j + k) = Ok (snd (at_ (0, dx) (col cols j) k)).
Proof.
  intros Hj Hk. pose proof (rp_len _ _ _ _ HR) as L. unfold csc_x. rewrite (rp_x _ _ _ _ HR). simpl.
  pose proof (off_le cols j k). rewrite (rd_lift (snd (0, dx))) by (rewrite len_map; lia).
  rewrite at_map, at_concat by lia. reflexivity.
Qed.
Lemma row_repr dx j k : 0 <= j < n -> 0 <= k < len (col cols j) -> 0 <= fst (at_ (0, dx) (col cols j) k) < m.
Proof.
  intros Hj Hk. pose proof (rp_len _ _ _ _ HR) as L.
  apply (rp_rows _ _ _ _ HR (col cols j) _ (snd (at_ (0, dx) (col cols j) k))).
  - apply col_in. lia.
  - rewrite <- surjective_pairing. apply in_at. lia.
Qed.
Lemma for_col_repr {St} j (f : Z -> St -> res St) s : 0 <= j < n ->
  for_col S j f s = for_ 0 (len (col cols j)) (fun k => f (off cols j + k)) s.
Proof.
  intros Hj. pose proof (rp_len _ _ _ _ HR) as L. unfold for_col. rewrite !csc_p_repr by lia. simpl.
  rewrite off_succ by lia. apply for_shift.
Qed.

(** A column loop that adds up *)
Lemma for_col_fold {St} (dx : T) j (g : St -> Z * T -> St) (f : Z -> St -> res St) (P : St -> Prop) s : 0 <= j < n -> P s ->
  (forall k r x s, csc_i S k = Ok r -> csc_x S k = Ok x -> 0 <= r < m -> In (r, x) (col cols j) -> P s ->
     f k s = Ok (g s (r, x)) /\ P (g s (r, x))) ->
  for_col S j f s = Ok (fold_left g (col cols j) s) /\ P (fold_left g (col cols j) s).
Proof.
  intros Hj Hs Hf. rewrite for_col_repr by auto. apply (for_list (0, dx)); auto.
  intros k s0 Hk Hp.
  rewrite (surjective_pairing (at_ (0, dx) (col cols j) k)). apply Hf; auto.
  - apply csc_i_repr; auto.
  - apply csc_x_repr; auto.
  - apply row_repr; auto.
  - rewrite <- surjective_pairing. apply in_at. lia.
Qed.
End Repr.
End Csc.

Section Kern.
Context {T : Type} `{Arith T}.
Implicit Types (cols : list (list (Z * T))) (b la lb lc lp : list T).

(** tmp += x * b[row] over the entries of a column *)
Definition colsum (c : list (Z * T)) b : T := fold_left (fun t e => (t + snd e * at_ a_zero b (fst e))%num) c a_zero.
(** c[j] += b[row] * x, starting from [c0] *)
Definition tcolsum (c0 : T) (c : list (Z * T)) b : T := fold_left (fun t e => (t + at_ a_zero b (fst e) * snd e)%num) c c0.

Lemma colsum_ok S m n cols j lb : repr S m n cols -> 0 <= j < n -> m <= len lb ->
  for_col S j (fun k tmp =>
    let! x := csc_x S k in
    let! r := csc_i S k in
    let! br := rd (lift lb) r in
    Ok (tmp + x * br)%num) a_zero = Ok (colsum (col cols j) lb).
Proof.
  intros HR Hj Hb. eapply (for_col_fold S m n cols HR a_zero j _ _ (fun _ => True)); auto.
  intros k r x s -> -> Hr _ _. simpl. rewrite rd_vec_ by lia. simpl. auto.
Qed.

(** alpha A b + c over the columns of A. Result of the csc AffineLinearTransformation (which assumes a symmetric A). *)
Definition affine_csc (alpha : T) cols lb lc (m : Z) : list T :=
  tab m (fun j => (alpha * colsum (col cols j) lb + at_ a_zero lc j)%num).
Lemma AffineLinearTransformation_csc_ok alpha S m n cols lb lc (D : arr T) k : repr S m n cols -> 0 <= k <= n ->
  m <= len lb -> k <= len lc -> k <= len D ->
  AffineLinearTransformation_csc alpha S (lift lb) (lift lc) D k = Ok (lift (affine_csc alpha cols lb lc k) ++ drop k D).
Proof.
  intros HR Hk Hb Hc Hd. unfold AffineLinearTransformation_csc, affine_csc.
  apply (for_fill1 _ (fun j => (alpha * colsum (col cols j) lb + at_ a_zero lc j)%num)); try lia.
  intros j C Hj Hl _. rewrite (colsum_ok S m n cols) by (auto; lia). simpl. rewrite rd_vec_ by lia. simpl. apply wr_ok. lia.
Qed.

(** p'Q p over the columns of Q. Result of the csc QuadraticFormProduct. *)
Definition quad_csc cols lp (m : Z) : T := fsum m (fun j => (at_ a_zero lp j * colsum (col cols j) lp)%num).
Lemma QuadraticFormProduct_csc_ok S m n cols lp k : repr S m n cols -> 0 <= k <= n -> m <= len lp -> k <= len lp ->
  QuadraticFormProduct_csc S (lift lp) k = Ok (quad_csc cols lp k).
Proof.
  intros HR Hk Hm Hp. unfold QuadraticFormProduct_csc, quad_csc. apply for_sum; [lia|]. intros j s Hj.
  rewrite (colsum_ok S m n cols) by (auto; lia). simpl. rewrite rd_vec_ by lia. reflexivity.
Qed.

Lemma tcol_loop S m n cols j lb c0 (a : arr T) : repr S m n cols -> 0 <= j < n -> m <= len lb -> j < len a ->
  for_col S j (fun k c =>
      let! cj := rd c j in
      let! r := csc_i S k in
      let! br := rd (lift lb) r in
      let! x := csc_x S k in
      wr c j (cj + br * x)%num) (upd a (Z.to_nat j) (Some c0)) = Ok (upd a (Z.to_nat j) (Some (tcolsum c0 (col cols j) lb))).
Proof.
  intros HR Hj Hb Ha. rewrite (for_col_repr S m n cols HR) by auto. unfold tcolsum.
  assert (G : forall l (f : Z -> arr T -> res (arr T)) c0,
    (forall k v, 0 <= k < len l -> f k (upd a (Z.to_nat j) (Some v)) =
        Ok (upd a (Z.to_nat j) (Some (v + at_ a_zero lb (fst (at_ (0, a_zero) l k)) * snd (at_ (0, a_zero) l k))%num))) ->
    for_ 0 (len l) f (upd a (Z.to_nat j) (Some c0)) =
      Ok (upd a (Z.to_nat j) (Some (fold_left (fun t e => (t + at_ a_zero lb (fst e) * snd e)%num) l c0)))).
  { clear. induction l as [|e l IH]; intros f c0 Hf; [reflexivity|]. pose proof (len_nonneg l).
    rewrite for_cons by (rewrite len_cons; lia). rewrite Hf by (rewrite len_cons; lia). cbn [bind fold_left].
    rewrite len_cons. replace (0 + 1) with 1 by lia. replace (len l + 1) with (1 + len l) by lia. rewrite for_shift.
    change (at_ (0, a_zero) (e :: l) 0) with e. apply IH. intros k v Hk.
    replace (at_ (0, a_zero) l k) with (at_ (0, a_zero) (e :: l) (1 + k)).
    - apply Hf. rewrite len_cons. lia.
    - unfold at_. replace (Z.to_nat (1 + k)) with (Datatypes.S (Z.to_nat k)) by lia. reflexivity. }
  apply G. intros k v Hk. rewrite rd_upd by lia. simpl.
  rewrite (csc_i_repr S m n cols HR a_zero) by lia. simpl.
  pose proof (row_repr S m n cols HR a_zero j k Hj Hk). rewrite rd_vec_ by lia. simpl.
  rewrite (csc_x_repr S m n cols HR a_zero) by lia. simpl. rewrite wr_ok by (rewrite len_upd; lia). rewrite upd_upd. reflexivity.
Qed.

(** A'b over the columns of A. *)
Definition tmul_csc cols lb (n : Z) : list T := tab n (fun j => tcolsum a_zero (col cols j) lb).
Lemma TransponsedMatrixMultiplication_csc_ok S m n cols lb (C : arr T) : repr S m n cols -> m <= len lb -> n <= len C ->
  TransponsedMatrixMultiplication_csc S (lift lb) C = Ok (lift (tmul_csc cols lb n) ++ drop n C).
Proof.
  intros HR Hb Hc. pose proof (repr_n S m n cols HR). unfold TransponsedMatrixMultiplication_csc, tmul_csc.
  rewrite (rp_n _ _ _ _ HR). apply (for_fill1 _ (fun j => tcolsum a_zero (col cols j) lb)); auto.
  intros j D Hj Hl _. rewrite wr_ok by lia. cbn [bind]. eapply tcol_loop; eauto; lia.
Qed.

(** c + A'b over the columns of A. *)
Definition addtmul_csc cols lb lc (n : Z) : list T := tab n (fun j => tcolsum (at_ a_zero lc j) (col cols j) lb).
Lemma AddTransponsedMatrixMultiplication_csc_ok S m n cols lb lc : repr S m n cols -> m <= len lb -> n = len lc ->
  AddTransponsedMatrixMultiplication_csc S (lift lb) (lift lc) = Ok (lift (addtmul_csc cols lb lc n)).
Proof.
  intros HR Hb Hc. pose proof (repr_n S m n cols HR). unfold AddTransponsedMatrixMultiplication_csc, addtmul_csc.
  rewrite (rp_n _ _ _ _ HR).
  rewrite (for_fill1 _ (fun j => tcolsum (at_ a_zero lc j) (col cols j) lb)); auto; [|rewrite len_lift; lia|].
  - rewrite drop_all, app_nil_r by (rewrite len_lift; lia). reflexivity.
  - intros j D Hj Hl Hr. rewrite len_lift in Hl.
    assert (Hd : D = upd D (Z.to_nat j) (Some (at_ a_zero lc j))).
    { rewrite <- (at_lift a_zero lc) by lia. rewrite <- Hr by lia. symmetry. apply upd_same. lia. }
    rewrite Hd at 1. eapply tcol_loop; eauto; lia.
Qed.

(** Row [i] of A*b: the entries in row [i] met while running through the columns *)
Definition rowstep b (i j : Z) (t : T) (e : Z * T) : T := if fst e =? i then (t + snd e * at_ a_zero b j)%num else t.
(** Row i of A b, in the order of the C++ loops. *)
Definition rowsum cols b (i n : Z) : T :=
  fold_left (fun t k => fold_left (rowstep b i (Z.of_nat k)) (col cols (Z.of_nat k)) t) (seq 0 (Z.to_nat n)) a_zero.
(** A b over the columns of A. Result of the csc MatrixMultiplication. *)
Definition mul_csc cols b (m n : Z) : list T := tab m (fun i => rowsum cols b i n).

Lemma rowsum_succ cols b i n : 0 <= n -> rowsum cols b i (n + 1) = fold_left (rowstep b i n) (col cols n) (rowsum cols b i n).
Proof.
  intros Hn. unfold rowsum. replace (Z.to_nat (n + 1)) with (S (Z.to_nat n)) by lia.
  rewrite seq_S, fold_left_app. simpl. rewrite Z2Nat.id by lia. reflexivity.
Qed.

Lemma MatrixMultiplication_csc_ok S m n cols lb (C : arr T) : repr S m n cols -> 0 <= m -> n <= len lb -> m <= len C ->
  MatrixMultiplication_csc S (lift lb) C = Ok (lift (mul_csc cols lb m n) ++ drop m C).
Proof.
  intros HR Hm Hb Hc. pose proof (repr_n S m n cols HR). unfold MatrixMultiplication_csc, mul_csc.
  rewrite (rp_n _ _ _ _ HR), (rp_m _ _ _ _ HR).
  rewrite (for_fill1 _ (fun _ => a_zero)); auto; [|intros i D Hi Hl _; apply wr_ok; lia]. cbn [bind].
  pose (st := fun j => lift (tab m (fun i => rowsum cols lb i j)) ++ drop m C).
  apply (for_seq _ st 0 n); auto. intros j Hj. unfold st.
  replace (tab m (fun i => rowsum cols lb i (j + 1))) with (tab m (fun i => fold_left (rowstep lb i j) (col cols j) (rowsum cols lb i j)))
    by (apply tab_ext; intros; rewrite rowsum_succ by lia; reflexivity).
  rewrite (for_col_repr S m n cols HR) by auto.
  assert (G : forall l (f : Z -> arr T -> res (arr T)) f0,
    (forall k, 0 <= k < len l -> 0 <= fst (at_ (0, a_zero) l k) < m) ->
    (forall k f0, 0 <= k < len l -> f k (lift (tab m f0) ++ drop m C) =
        Ok (lift (tab m (fun i => rowstep lb i j (f0 i) (at_ (0, a_zero) l k))) ++ drop m C)) ->
    for_ 0 (len l) f (lift (tab m f0) ++ drop m C) =
      Ok (lift (tab m (fun i => fold_left (rowstep lb i j) l (f0 i))) ++ drop m C)).
  { clear. induction l as [|e l IH]; intros f f0 Hr Hf; [reflexivity|]. pose proof (len_nonneg l).
    rewrite for_cons by (rewrite len_cons; lia). rewrite Hf by (rewrite len_cons; lia). cbn [bind fold_left].
    rewrite len_cons. replace (0 + 1) with 1 by lia. replace (len l + 1) with (1 + len l) by lia. rewrite for_shift.
    change (at_ (0, a_zero) (e :: l) 0) with e.
    assert (Sh : forall k, 0 <= k -> at_ (0, a_zero) l k = at_ (0, a_zero) (e :: l) (1 + k))
      by (intros k Hk; unfold at_; replace (Z.to_nat (1 + k)) with (Datatypes.S (Z.to_nat k)) by lia; reflexivity).
    apply IH.
    - intros k Hk. rewrite Sh by lia. apply Hr. rewrite len_cons. lia.
    - intros k f1 Hk. rewrite Sh by lia. apply Hf. rewrite len_cons. lia. }
  apply (G (col cols j) _ (fun i => rowsum cols lb i j)).
  - intros k Hk. apply (row_repr S m n cols HR); auto.
  - intros k f1 Hk. rewrite (csc_i_repr S m n cols HR a_zero) by lia. cbn [bind].
    pose proof (row_repr S m n cols HR a_zero j k Hj Hk) as Hr.
    set (e := at_ (0, a_zero) (col cols j) k) in *.
    rewrite rd_app_l by (rewrite len_lift, len_tab; lia). rewrite rd_vec_ by (rewrite len_tab; lia). cbn [bind].
    rewrite (csc_x_repr S m n cols HR a_zero) by lia. fold e. cbn [bind]. rewrite rd_vec_ by lia. cbn [bind].
    rewrite at_tab by lia. pose proof (len_nonneg (drop m C)).
    rewrite wr_ok by (rewrite len_app, len_lift, len_tab; lia). f_equal.
    apply (list_eq None); [rewrite len_upd, !len_app, !len_lift, !len_tab by lia; reflexivity|].
    rewrite len_upd, len_app, len_lift, len_tab by lia. intros i Hi. rewrite at_upd by (rewrite ?len_app, ?len_lift, ?len_tab; lia).
    destruct (Z.ltb_spec i m).
    + rewrite !at_app_l by (rewrite len_lift, len_tab; lia). rewrite !(at_lift a_zero) by (rewrite len_tab; lia).
      rewrite !at_tab by lia. unfold rowstep. destruct (Z.eqb_spec (fst e) i); subst; reflexivity.
    + rewrite !at_app_r by (rewrite len_lift, len_tab; lia). rewrite !len_lift, !len_tab by lia.
      destruct (Z.eqb_spec (fst e) i); [lia|reflexivity].
Qed.

End Kern.
