(** * Kernels: what the dense kernels of src/Utilities.cpp compute (any arithmetic; sums run left to right from 0). *)
From Verif Require Import Base Arith Codes Utilities Tactics Loops.

Section Fill.
Context {X : Type}.

Lemma upd_fill (F : Z -> X) t (a : arr X) : 0 <= t < len a ->
  upd (lift (tab t F) ++ drop t a) (Z.to_nat t) (Some (F t)) = lift (tab (t + 1) F) ++ drop (t + 1) a.
Proof.
  intros Ht. rewrite (drop_cons None a t) by lia.
  assert (L : Z.to_nat t = length (lift (tab t F))).
  { pose proof (len_lift (tab t F)) as E. rewrite len_tab in E by lia. unfold len in E. lia. }
  rewrite L at 1. rewrite upd_app. rewrite tab_succ by lia. rewrite lift_app, <- app_assoc. reflexivity.
Qed.

Lemma len_fill (F : Z -> X) t (a : arr X) : 0 <= t <= len a -> len (lift (tab t F) ++ drop t a) = len a.
Proof. intros Ht. rewrite len_app, len_lift, len_tab, len_drop by lia. lia. Qed.

Lemma at_fill_r (F : Z -> X) t (a : arr X) k : 0 <= t <= k -> at_ None (lift (tab t F) ++ drop t a) k = at_ None a k.
Proof.
  intros Ht. rewrite at_app_r by (rewrite len_lift, len_tab; lia). rewrite len_lift, len_tab by lia.
  rewrite at_drop by lia. f_equal. lia.
Qed.

(** A double loop writing cell i*p + j in turn (i, j) *)
Lemma for_fill2 (body : Z -> Z -> arr X -> res (arr X)) (f : Z -> Z -> X) m p (a : arr X) :
  0 <= m -> 0 <= p -> m * p <= len a ->
  (forall i j C, 0 <= i < m -> 0 <= j < p -> len C = len a ->
     (forall k, i * p + j <= k -> at_ None C k = at_ None a k) ->
     body i j C = Ok (upd C (Z.to_nat (i * p + j)) (Some (f i j)))) ->
  for_ 0 m (fun i C => for_ 0 p (fun j C => body i j C) C) a =
    Ok (lift (tab (m * p) (fun k => f (k / p) (k mod p))) ++ drop (m * p) a).
Proof.
  intros Hm Hp Hl Hb. set (F := fun k => f (k / p) (k mod p)).
  pose (st := fun t => lift (tab t F) ++ drop t a).
  assert (E0 : a = st (0 * p)) by (unfold st; rewrite Z.mul_0_l, drop_0; reflexivity).
  rewrite E0 at 1. change (lift (tab (m * p) F) ++ drop (m * p) a) with (st (m * p)).
  apply (for_seq (fun i C => for_ 0 p (fun j C => body i j C) C) (fun i => st (i * p))); [lia|].
  intros i Hi. replace ((i + 1) * p) with (i * p + p) by lia. replace (st (i * p)) with (st (i * p + 0)) by (f_equal; lia).
  apply (for_seq (fun j C => body i j C) (fun j => st (i * p + j))); [lia|].
  intros j Hj. assert (B : 0 <= i * p + j < len a) by nia.
  rewrite Hb; auto.
  - replace (i * p + (j + 1)) with (i * p + j + 1) by lia. f_equal. unfold st.
    assert (Fj : F (i * p + j) = f i j).
    { unfold F. f_equal; [rewrite Z.add_comm, Z.div_add, Z.div_small; lia|rewrite Z.add_comm, Z.mod_add, Z.mod_small; lia]. }
    rewrite <- Fj. apply upd_fill. lia.
  - unfold st. apply len_fill. lia.
  - intros k Hk. unfold st. apply at_fill_r. lia.
Qed.

(** Single loop version with the weaker interface *)
Lemma for_fill1 (body : Z -> arr X -> res (arr X)) (f : Z -> X) m (a : arr X) :
  0 <= m -> m <= len a ->
  (forall i C, 0 <= i < m -> len C = len a -> (forall k, i <= k -> at_ None C k = at_ None a k) ->
     body i C = Ok (upd C (Z.to_nat i) (Some (f i)))) ->
  for_ 0 m body a = Ok (lift (tab m f) ++ drop m a).
Proof.
  intros Hm Hl Hb. pose (st := fun t => lift (tab t f) ++ drop t a).
  assert (E0 : a = st 0) by (unfold st; rewrite drop_0; reflexivity).
  rewrite E0 at 1. change (lift (tab m f) ++ drop m a) with (st m).
  apply (for_seq body st); [lia|]. intros i Hi. rewrite Hb; auto.
  - f_equal. apply upd_fill. lia.
  - unfold st. apply len_fill. lia.
  - intros k Hk. unfold st. apply at_fill_r. lia.
Qed.

Lemma upd_upd (a : list X) i u v : upd (upd a i u) i v = upd a i v.
Proof. revert i. induction a; intros [|i]; simpl; auto. rewrite IHa. reflexivity. Qed.
Lemma rd_upd (a : arr X) i v : 0 <= i < len a -> rd (upd a (Z.to_nat i) (Some v)) i = Ok v.
Proof.
  intros Hi. rewrite rd_at, len_upd, at_upd by lia. rewrite Z.eqb_refl.
  replace ((0 <=? i) && (i <? len a)) with true by lia. reflexivity.
Qed.
Lemma rd_some (a : arr X) i v : 0 <= i < len a -> at_ None a i = Some v -> rd a i = Ok v.
Proof. intros Hi E. rewrite rd_at, E. replace ((0 <=? i) && (i <? len a)) with true by lia. reflexivity. Qed.
End Fill.

Section Kernels.
Context {T : Type} `{Arith T}.
Implicit Types (la lb lc ld : list T).

(** Entry (i,j) of a row-major matrix with [n] columns *)
Definition ent (l : list T) (n i j : Z) : T := at_ a_zero l (i * n + j).

Lemma rd_ent l n i j k : 0 <= i < k -> 0 <= j < n -> k * n <= len l -> rd (lift l) (i * n + j) = Ok (ent l n i j).
Proof. intros Hi Hj Hl. apply rd_lift. nia. Qed.
Lemma rd_vec_ l i : 0 <= i < len l -> rd (lift l) i = Ok (at_ a_zero l i).
Proof. apply rd_lift. Qed.

(** The accumulation loop on one cell *)
Lemma acc_loop (body : Z -> arr T -> res (arr T)) (t : Z -> T) ix m c0 (a : arr T) : 0 <= m -> 0 <= ix < len a ->
  (forall k C, 0 <= k < m -> body k C = let! c := rd C ix in wr C ix (c + t k)%num) ->
  for_ 0 m body (upd a (Z.to_nat ix) (Some c0)) = Ok (upd a (Z.to_nat ix) (Some (fsum_from c0 m t))).
Proof.
  intros Hm Hi Hb.
  apply (for_seq body (fun k => upd a (Z.to_nat ix) (Some (fsum_from c0 k t)))); [lia|].
  intros k Hk. rewrite Hb by lia. rewrite rd_upd by lia. simpl.
  rewrite wr_ok by (rewrite len_upd; lia). rewrite upd_upd, fsum_from_succ by lia. reflexivity.
Qed.

Lemma upd_same {X} (a : list X) (d : X) i : 0 <= i < len a -> upd a (Z.to_nat i) (at_ d a i) = a.
Proof.
  intros Hi. apply (list_eq d); [apply len_upd|]. rewrite len_upd. intros j Hj. rewrite at_upd by lia.
  destruct (Z.eqb_spec i j); subst; auto.
Qed.

Ltac reads := repeat match goal with
  | |- context [rd (lift ?l) (?i * ?n + ?j)] => rewrite (rd_ent l n i j) with (k := (i + 1)) by nia; cbn [bind]
  | |- context [rd (lift ?l) ?i] => rewrite (rd_vec_ l i) by nia; cbn [bind]
  end.

(** Products; [m], [n], [p] as in the C++ signatures *)
Definition mmul la lb (m n p : Z) : list T :=
  tab (m * p) (fun c => fsum n (fun k => (ent la n (c / p) k * ent lb p k (c mod p))%num)).
(** A'B on lists, in the order of the C++ loops. Result of TransponsedMatrixMultiplication. *)
Definition tmul la lb (m n p : Z) : list T :=
  tab (n * p) (fun c => fsum m (fun k => (ent la n k (c / p) * ent lb p k (c mod p))%num)).
(** C + A'B on lists. Result of AddTransponsedMatrixMultiplication. *)
Definition addtmul la lb lc (m n p : Z) : list T :=
  tab (n * p) (fun c => fsum_from (at_ a_zero lc c) m (fun k => (ent la n k (c / p) * ent lb p k (c mod p))%num)).

Lemma MatrixMultiplication_ok la lb (C : arr T) m n p : 0 <= m -> 0 <= n -> 0 <= p ->
  m * n <= len la -> n * p <= len lb -> m * p <= len C ->
  MatrixMultiplication (lift la) (lift lb) C m n p = Ok (lift (mmul la lb m n p) ++ drop (m * p) C).
Proof.
  intros Hm Hn Hp Ha Hb Hc. unfold MatrixMultiplication, mmul.
  apply (for_fill2 _ (fun i j => fsum n (fun k => (ent la n i k * ent lb p k j)%num))); auto.
  intros i j D Hi Hj Hl _. assert (B : 0 <= i * p + j < len D) by nia.
  rewrite wr_ok by lia. cbn [bind]. apply acc_loop; auto.
  intros k E Hk. assert (i * n + k < len la) by nia. assert (k * p + j < len lb) by nia.
  destruct (rd E (i * p + j)); simpl; auto.
  rewrite (rd_ent la n i k m), (rd_ent lb p k j n) by lia. reflexivity.
Qed.

Lemma TransponsedMatrixMultiplication_ok la lb (C : arr T) m n p : 0 <= m -> 0 <= n -> 0 <= p ->
  m * n <= len la -> m * p <= len lb -> n * p <= len C ->
  TransponsedMatrixMultiplication (lift la) (lift lb) C m n p = Ok (lift (tmul la lb m n p) ++ drop (n * p) C).
Proof.
  intros Hm Hn Hp Ha Hb Hc. unfold TransponsedMatrixMultiplication, tmul.
  apply (for_fill2 _ (fun i j => fsum m (fun k => (ent la n k i * ent lb p k j)%num))); auto.
  intros i j D Hi Hj Hl _. assert (B : 0 <= i * p + j < len D) by nia.
  rewrite wr_ok by lia. cbn [bind]. apply acc_loop; auto.
  intros k E Hk. destruct (rd E (i * p + j)); simpl; auto.
  rewrite (rd_ent la n k i m), (rd_ent lb p k j m) by lia. reflexivity.
Qed.

Lemma AddTransponsedMatrixMultiplication_ok la lb lc m n p : 0 <= m -> 0 <= n -> 0 <= p ->
  m * n <= len la -> m * p <= len lb -> n * p = len lc ->
  AddTransponsedMatrixMultiplication (lift la) (lift lb) (lift lc) m n p = Ok (lift (addtmul la lb lc m n p)).
Proof.
  intros Hm Hn Hp Ha Hb Hc. unfold AddTransponsedMatrixMultiplication, addtmul.
  rewrite (for_fill2 _ (fun i j => fsum_from (at_ a_zero lc (i * p + j)) m (fun k => (ent la n k i * ent lb p k j)%num)));
    auto; [|rewrite len_lift; lia|].
  - rewrite drop_all, app_nil_r by (rewrite len_lift; lia). do 2 f_equal. apply tab_ext. intros k Hk.
    assert (p <> 0) by (intros ->; lia).
    replace (k / p * p + k mod p) with k by (pose proof (Z.div_mod k p); lia). reflexivity.
  - intros i j D Hi Hj Hl Hr. rewrite len_lift in Hl. assert (B : 0 <= i * p + j < len D) by nia.
    assert (Hd : D = upd D (Z.to_nat (i * p + j)) (Some (at_ a_zero lc (i * p + j)))).
    { rewrite <- (at_lift a_zero lc) by lia. rewrite <- Hr by lia. symmetry. apply upd_same. lia. }
    rewrite Hd at 1. apply acc_loop; auto.
    intros k E Hk. destruct (rd E (i * p + j)); simpl; auto.
    rewrite (rd_ent la n k i m), (rd_ent lb p k j m) by lia. reflexivity.
Qed.

(** alpha * A * b + c *)
Definition affine (alpha : T) la lb lc (m n : Z) : list T :=
  tab m (fun i => (alpha * fsum n (fun k => ent la n i k * at_ a_zero lb k) + at_ a_zero lc i)%num).
Lemma AffineLinearTransformation_ok alpha la lb lc (D : arr T) m n : 0 <= m -> 0 <= n ->
  m * n <= len la -> n <= len lb -> m <= len lc -> m <= len D ->
  AffineLinearTransformation alpha (lift la) (lift lb) (lift lc) D m n = Ok (lift (affine alpha la lb lc m n) ++ drop m D).
Proof.
  intros Hm Hn Ha Hb Hc Hd. unfold AffineLinearTransformation, affine.
  apply (for_fill1 _ (fun i => (alpha * fsum n (fun k => ent la n i k * at_ a_zero lb k) + at_ a_zero lc i)%num)); auto.
  intros i C Hi Hl _.
  rewrite (for_sum _ n (fun k => (ent la n i k * at_ a_zero lb k)%num)); auto.
  - simpl. rewrite rd_vec_ by lia. simpl. apply wr_ok. lia.
  - intros k t Hk. rewrite (rd_ent la n i k m), rd_vec_ by lia. reflexivity.
Qed.

(** Operands that may alias the output *)
Inductive src_is : src T -> list T -> list T -> Prop :=
| Src_ext la lc : src_is (Ext (lift la)) la lc
| Src_same lc : src_is Same lc lc.

(** alpha a + beta b on lists. Result of WeightedVectorAdd. *)
Definition wadd (alpha : T) la (beta : T) lb (n : Z) : list T :=
  tab n (fun k => (alpha * at_ a_zero la k + beta * at_ a_zero lb k)%num).

Lemma rd_src_is A la lc (c : arr T) C k : src_is A la lc -> 0 <= k < len la -> c = lift lc ->
  len C = len c -> at_ None C k = at_ None c k -> rd_src A C k = Ok (at_ a_zero la k).
Proof.
  intros S Hk -> Hl E. inversion S; subst; simpl; [apply rd_vec_; lia|].
  apply rd_some; [rewrite Hl, len_lift; lia|]. rewrite E. apply at_lift. lia.
Qed.

(** [c] may be uninitialised where no operand aliases it *)
Lemma WeightedMatrixAdd_ok alpha A la beta B lb (c : arr T) lc m n : 0 <= m -> 0 <= n ->
  src_is A la lc -> src_is B lb lc -> (A = Same \/ B = Same -> c = lift lc) ->
  m * n <= len la -> m * n <= len lb -> m * n <= len c ->
  WeightedMatrixAdd alpha A beta B c m n = Ok (lift (wadd alpha la beta lb (m * n)) ++ drop (m * n) c).
Proof.
  intros Hm Hn SA SB HS Ha Hb Hc. unfold WeightedMatrixAdd, wadd.
  rewrite (for_fill2 _ (fun i j => (alpha * at_ a_zero la (i * n + j) + beta * at_ a_zero lb (i * n + j))%num)); auto.
  - do 3 f_equal. apply tab_ext. intros k Hk.
    assert (n <> 0) by (intros ->; lia).
    replace (k / n * n + k mod n) with k by (pose proof (Z.div_mod k n); lia). reflexivity.
  - intros i j C Hi Hj Hl Hr. assert (K : 0 <= i * n + j < m * n) by nia.
    assert (RA : rd_src A C (i * n + j) = Ok (at_ a_zero la (i * n + j))).
    { inversion SA; subst; simpl; [apply rd_vec_; lia|]. rewrite (HS (or_introl eq_refl)) in *. rewrite len_lift in *.
      apply rd_some; [lia|]. rewrite Hr by lia. apply at_lift. lia. }
    assert (RB : rd_src B C (i * n + j) = Ok (at_ a_zero lb (i * n + j))).
    { inversion SB; subst; simpl; [apply rd_vec_; lia|]. rewrite (HS (or_intror eq_refl)) in *. rewrite len_lift in *.
      apply rd_some; [lia|]. rewrite Hr by lia. apply at_lift. lia. }
    rewrite RA, RB. simpl. apply wr_ok. lia.
Qed.

Lemma WeightedVectorAdd_ok alpha A la beta B lb (c : arr T) lc m : 0 <= m ->
  src_is A la lc -> src_is B lb lc -> (A = Same \/ B = Same -> c = lift lc) ->
  m <= len la -> m <= len lb -> m <= len c ->
  WeightedVectorAdd alpha A beta B c m = Ok (lift (wadd alpha la beta lb m) ++ drop m c).
Proof.
  intros Hm SA SB HS Ha Hb Hc. unfold WeightedVectorAdd.
  rewrite (WeightedMatrixAdd_ok alpha A la beta B lb c lc m 1); auto; rewrite ?Z.mul_1_r; auto; lia.
Qed.

(** p' Q p *)
Definition quad lq lp (m : Z) : T :=
  fsum m (fun i => (fsum m (fun j => ent lq m i j * at_ a_zero lp j) * at_ a_zero lp i)%num).
Lemma QuadraticFormProduct_ok lq lp m : 0 <= m -> m * m <= len lq -> m <= len lp ->
  QuadraticFormProduct (lift lq) (lift lp) m = Ok (quad lq lp m).
Proof.
  intros Hm Hq Hp. unfold QuadraticFormProduct, quad. apply for_sum; auto. intros i s Hi.
  rewrite (for_sum _ m (fun j => (ent lq m i j * at_ a_zero lp j)%num)); auto.
  - simpl. rewrite rd_vec_ by lia. reflexivity.
  - intros j t Hj. rewrite (rd_ent lq m i j m), rd_vec_ by lia. reflexivity.
Qed.

(** Scalar product on lists. Result of DotProduct. *)
Definition dot la lb (m : Z) : T := fsum m (fun i => (at_ a_zero la i * at_ a_zero lb i)%num).
Lemma DotProduct_ok la lb m : 0 <= m -> m <= len la -> m <= len lb -> DotProduct (lift la) (lift lb) m = Ok (dot la lb m).
Proof.
  intros Hm Ha Hb. unfold DotProduct, dot. apply for_sum; auto. intros i s Hi. rewrite !rd_vec_ by lia. reflexivity.
Qed.

(** Running maximum and minimum *)
Definition maxmin la (m : Z) : T * T :=
  fold_left (fun s k => let v := at_ a_zero la (Z.of_nat k) in
    if a_lt (fst s) v then (v, snd s) else if a_lt v (snd s) then (fst s, v) else s) (seq 0 (Z.to_nat m)) (a_zero, a_zero).
(** Largest absolute value on lists. Result of MaxAbs. *)
Definition maxabs la (m : Z) : T := getMax (fst (maxmin la m)) (- snd (maxmin la m))%num.
Lemma maxmin_succ la m : 0 <= m -> maxmin la (m + 1) =
  let s := maxmin la m in let v := at_ a_zero la m in
  if a_lt (fst s) v then (v, snd s) else if a_lt v (snd s) then (fst s, v) else s.
Proof.
  intros Hm. unfold maxmin. replace (Z.to_nat (m + 1)) with (S (Z.to_nat m)) by lia.
  rewrite seq_S, fold_left_app. simpl. rewrite Z2Nat.id by lia. reflexivity.
Qed.
Lemma MaxAbs_ok la m : 0 <= m -> m <= len la -> MaxAbs (lift la) m = Ok (maxabs la m).
Proof.
  intros Hm Hl. unfold MaxAbs, maxabs.
  change (a_zero, a_zero) with (maxmin la 0).
  match goal with |- context [for_ 0 m ?b _] => rewrite (for_seq b (maxmin la) 0 m) end; auto.
  intros i Hi. rewrite rd_vec_ by lia. simpl. rewrite maxmin_succ by lia. reflexivity.
Qed.

(** L'R + R'L: the code computes the lower triangle and mirrors it *)
Definition sym_ent la lb (m n i j : Z) : T :=
  let r := Z.max i j in let c := Z.min i j in
  fsum m (fun k => (ent la n k r * ent lb n k c + ent lb n k r * ent la n k c)%num).
(** A'B + B'A on lists. Result of MatrixSymmetrizationProduct. *)
Definition symm la lb (m n : Z) : list T := tab (n * n) (fun k => sym_ent la lb m n (k / n) (k mod n)).

Lemma div_idx n i j : 0 <= j < n -> (i * n + j) / n = i.
Proof. intros Hj. rewrite Z.add_comm, Z.div_add, Z.div_small; lia. Qed.
Lemma mod_idx n i j : 0 <= j < n -> (i * n + j) mod n = j.
Proof. intros Hj. rewrite Z.add_comm, Z.mod_add, Z.mod_small; lia. Qed.

Lemma at_symm la lb m n i j : 0 <= i < n -> 0 <= j < n -> at_ a_zero (symm la lb m n) (i * n + j) = sym_ent la lb m n i j.
Proof. intros Hi Hj. unfold symm. rewrite at_tab by nia. rewrite div_idx, mod_idx by lia. reflexivity. Qed.

Lemma MatrixSymmetrizationProduct_ok la lb (C : arr T) m n : 0 <= m -> 0 <= n ->
  m * n <= len la -> m * n <= len lb -> len C = n * n ->
  MatrixSymmetrizationProduct (lift la) (lift lb) C m n = Ok (lift (symm la lb m n)).
Proof.
  intros Hm Hn Ha Hb Hc. unfold MatrixSymmetrizationProduct.
  pose (S := sym_ent la lb m n).
  assert (Ssym : forall i j, S i j = S j i) by (intros; unfold S, sym_ent; rewrite Z.max_comm, Z.min_comm; reflexivity).
  (* known i j: cells of rows/columns before i and, in row/column i, those before j *)
  pose (P := fun i j (D : arr T) => len D = n * n /\
    forall r c, 0 <= r < n -> 0 <= c < n -> (Z.max r c < i \/ Z.max r c = i /\ Z.min r c < j) -> at_ None D (r * n + c) = Some (S r c)).
  assert (G : exists D, for_ 0 n (fun i C => for_ 0 (i + 1) (fun j C =>
      let! C := wr C (i * n + j) a_zero in
      let! C := for_ 0 m (fun k C =>
          let! c := rd C (i * n + j) in
          let! a1 := rd (lift la) (k * n + i) in
          let! b1 := rd (lift lb) (k * n + j) in
          let! b2 := rd (lift lb) (k * n + i) in
          let! a2 := rd (lift la) (k * n + j) in
          wr C (i * n + j) (c + (a1 * b1 + b2 * a2))%num) C in
      let! c := rd C (i * n + j) in
      wr C (j * n + i) c) C) C = Ok D /\ P n 0 D).
  { apply (for_total (fun i => P i 0)); auto.
    - split; auto. intros r c Hr Hc' Q. lia.
    - intros i D Hi HP.
      assert (In : exists D', for_ 0 (i + 1) (fun j C =>
          let! C := wr C (i * n + j) a_zero in
          let! C := for_ 0 m (fun k C =>
              let! c := rd C (i * n + j) in
              let! a1 := rd (lift la) (k * n + i) in
              let! b1 := rd (lift lb) (k * n + j) in
              let! b2 := rd (lift lb) (k * n + i) in
              let! a2 := rd (lift la) (k * n + j) in
              wr C (i * n + j) (c + (a1 * b1 + b2 * a2))%num) C in
          let! c := rd C (i * n + j) in
          wr C (j * n + i) c) D = Ok D' /\ P i (i + 1) D').
      { apply (for_total (P i)); auto; [lia|]. clear D HP. intros j D Hj [Hl Hk].
        assert (B1 : 0 <= i * n + j < len D) by nia. assert (B2 : 0 <= j * n + i < len D) by nia.
        rewrite wr_ok by lia. cbn [bind].
        rewrite (acc_loop _ (fun k => (ent la n k i * ent lb n k j + ent lb n k i * ent la n k j)%num)); auto.
        2: { intros k E Hk'. destruct (rd E (i * n + j)); simpl; auto.
             rewrite (rd_ent la n k i m), (rd_ent lb n k j m), (rd_ent lb n k i m), (rd_ent la n k j m) by lia. reflexivity. }
        cbn [bind]. rewrite rd_upd by lia. cbn [bind]. rewrite wr_ok by (rewrite len_upd; lia).
        eexists. split; [reflexivity|]. split; [rewrite !len_upd; auto|].
        assert (HS : fsum_from a_zero m (fun k => (ent la n k i * ent lb n k j + ent lb n k i * ent la n k j)%num) = S i j).
        { unfold S, sym_ent. replace (Z.max i j) with i by lia. replace (Z.min i j) with j by lia. reflexivity. }
        rewrite HS. intros r c Hr Hc' Q.
        rewrite at_upd by (rewrite ?len_upd; nia). rewrite at_upd by nia.
        destruct (Z.eqb_spec (j * n + i) (r * n + c)) as [E1|E1].
        - assert (r = j) by nia; assert (c = i) by nia; subst r c. rewrite Ssym. reflexivity.
        - destruct (Z.eqb_spec (i * n + j) (r * n + c)) as [E2|E2].
          + assert (r = i) by nia; assert (c = j) by nia; subst r c. reflexivity.
          + apply Hk; auto. destruct Q as [Q|[Q1 Q2]]; [auto|]. right. split; auto.
            destruct (Z.eq_dec (Z.min r c) j) as [Ej|]; [|lia]. exfalso.
            destruct (Z.max_spec r c) as [[? M1]|[? M1]], (Z.min_spec r c) as [[? M2]|[? M2]]; rewrite M1 in *; rewrite M2 in *; subst; lia. }
      destruct In as (D' & E1 & [L1 K1]). exists D'. split; auto. split; auto.
      intros r c Hr Hc' Q. apply K1; auto. lia. }
  destruct G as (D & -> & [Hl Hk]). f_equal.
  apply (list_eq None); [rewrite len_lift; unfold symm; rewrite len_tab; nia|].
  intros k Hk'. rewrite (at_lift a_zero) by (unfold symm; rewrite len_tab; nia).
  assert (n <> 0) by (intros ->; lia). assert (0 < n) by lia.
  pose proof (Z.div_mod k n). pose proof (Z.mod_pos_bound k n).
  assert (0 <= k / n < n) by (split; [apply Z.div_pos; lia|apply Z.div_lt_upper_bound; nia]).
  replace k with (k / n * n + k mod n) by lia.
  rewrite Hk by lia. rewrite at_symm by lia. reflexivity.
Qed.

End Kernels.
