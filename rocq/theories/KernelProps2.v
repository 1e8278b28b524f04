(** * KernelProps2: proofs of the statements about conversions, the sparse symmetrised product and MaxAbs. *)
From Coq Require Import QArith Qcanon Lqa SpecFloat.
From Verif Require Import Base Arith Codes Utilities Tactics Loops Exact Kernels SpecSparse SpecMath CscKernels CscBuild CscDense CscMerge QSum ExamplesKernels.
Open Scope Z_scope.
Local Arguments Qc_leb : simpl never.
Local Arguments Qc_ltb : simpl never.
Local Arguments Qcopp : simpl never.

(** ** Columns selected row by row *)
Section Sel.
Context {T : Type}.
(** The rows not excluded by [b]. No LCQPow code. *)
Definition selcol (m : Z) (b : Z -> bool) (v : Z -> T) : list (Z * T) := tabcat m (fun i => if b i then [] else [(i, v i)]).
Lemma selcol_succ m b v : 0 <= m -> selcol (m + 1) b v = selcol m b v ++ (if b m then [] else [(m, v m)]).
Proof. intros. unfold selcol. apply tabcat_succ. auto. Qed.
Lemma in_selcol m b v i x : In (i, x) (selcol m b v) <-> 0 <= i < m /\ b i = false /\ x = v i.
Proof.
  unfold selcol. split.
  - intros Hi. apply in_tabcat in Hi. destruct Hi as (k & Hk & Hi). destruct (b k) eqn:E; [contradiction|].
    destruct Hi as [Hi|[]]. injection Hi as <- <-. auto.
  - intros (Hi & Hb & ->). unfold tabcat. apply in_concat. exists [(i, v i)]. split; [|left; reflexivity].
    unfold tab. apply in_map_iff. exists (Z.to_nat i). rewrite Z2Nat.id by lia. rewrite Hb. split; auto. apply in_seq. lia.
Qed.
Lemma sorted_app (c1 : list (Z * T)) e : sorted c1 -> (forall e', In e' c1 -> fst e' < fst e) -> sorted (c1 ++ [e]).
Proof.
  induction c1 as [|a c IH]; intros Hs Hl; simpl; [split; [intros e' []|exact I]|]. destruct Hs as [H1 H2]. split.
  - intros e' Hi. apply in_app_or in Hi. destruct Hi as [Hi|[<-|[]]]; [auto|]. apply Hl. left; auto.
  - apply IH; auto. intros; apply Hl; right; auto.
Qed.
Lemma sorted_selcol m b v : sorted (selcol m b v).
Proof.
  destruct (Z.leb_spec m 0).
  - unfold selcol, tabcat. rewrite tab_neg by lia. exact I.
  - assert (G : forall k, 0 <= k -> sorted (selcol k b v)).
    { intros k Hk. pattern k. apply natlike_ind; auto; [exact I|]. clear k Hk. intros k Hk IH. unfold Z.succ. rewrite selcol_succ by auto.
      destruct (b k); [rewrite app_nil_r; auto|]. apply sorted_app; auto. intros [i x] Hi. apply in_selcol in Hi. simpl. lia. }
    apply G. lia.
Qed.
End Sel.

Lemma qcol_selcol m b v i : 0 <= i < m -> qcol (selcol m b v) i = if b i then 0%Qc else v i.
Proof.
  intros Hi. assert (G : forall k, 0 <= k -> qcol (selcol k b v) i = if i <? k then (if b i then 0%Qc else v i) else 0%Qc).
  { intros k Hk. pattern k. apply natlike_ind; auto.
    - destruct (Z.ltb_spec i 0); [lia|reflexivity].
    - clear k Hk. intros k Hk IH. unfold Z.succ. rewrite selcol_succ, qcol_app, IH by auto.
      destruct (Z.eq_dec i k) as [->|Hne].
      + destruct (Z.ltb_spec k k), (Z.ltb_spec k (k + 1)); try lia. destruct (b k); [rewrite qcol_nil; ring|].
        rewrite qcol_cons, qcol_nil. cbn [fst snd]. rewrite Z.eqb_refl. ring.
      + assert (E : qcol (if b k then [] else [(k, v k)]) i = 0%Qc).
        { destruct (b k); [reflexivity|]. rewrite qcol_cons, qcol_nil. cbn [fst snd]. destruct (Z.eqb_spec k i); [lia|ring]. }
        rewrite E. destruct (Z.ltb_spec i k), (Z.ltb_spec i (k + 1)); try lia; ring. }
  rewrite G by lia. destruct (Z.ltb_spec i m); [reflexivity|lia].
Qed.
Lemma fincol_selcol m b v : fincol (selcol m b v) = selcol m b (fun i => Fin (v i)).
Proof.
  unfold selcol, tabcat, fincol. rewrite concat_map, map_tab. f_equal. apply tab_ext. intros i Hi. destruct (b i); reflexivity.
Qed.

(** ** Symmetrised product *)
Definition tinyb (v : Qc) : bool := isZero (Fin v).
Lemma tinyb_spec v : tinyb v = true <-> (- Qc_lit 1 (-25) <= v)%Qc /\ (v <= Qc_lit 1 (-25))%Qc.
Proof.
  unfold tinyb, isZero, getAbs. cbn [a_abs xq_arith x_abs]. unfold ZERO. cbn [a_lit a_le xq_arith x_le].
  set (z := Qc_lit 1 (-25)). assert (Hz : (0 <= z)%Qc) by (unfold z; vm_compute; discriminate). clearbody z.
  rewrite Qc_leb_spec. destruct (Qc_ltb v 0) eqn:E.
  - apply Qc_ltb_spec in E. unfold Qclt, Qcle in *. rewrite ?this_opp, ?this_0 in *. split; intros; [split|]; lra.
  - apply Qc_ltb_false in E. unfold Qclt, Qcle in *. rewrite ?this_opp, ?this_0 in *. split; intros; [split|]; lra.
Qed.

(** Exact L'R + R'L by columns without tiny entries. No LCQPow code. *)
Definition qsymm_cols (cL cR : list (list (Z * Qc))) (m n : Z) : list (list (Z * Qc)) :=
  tab n (fun j => selcol n (fun i => tinyb (qsym_csc cL cR m i j)) (fun i => qsym_csc cL cR m i j)).

Lemma symm_cols_fin cL cR m n : (forall c e, In c cL -> In e c -> 0 <= fst e < m) -> (forall c e, In c cR -> In e c -> 0 <= fst e < m) ->
  (forall c, In c cL -> sorted c) -> (forall c, In c cR -> sorted c) -> len cL = n -> len cR = n ->
  symm_cols (fincols cL) (fincols cR) n = fincols (qsymm_cols cL cR m n).
Proof.
  intros RL RR SL SR LL LR. unfold symm_cols, qsymm_cols, fincols. rewrite map_tab. apply tab_ext. intros j Hj.
  fold (fincols cL) (fincols cR). rewrite fincol_selcol. unfold selcol, tabcat. f_equal. apply tab_ext. intros i Hi. cbv zeta.
  rewrite (sym_csc_fin cL cR m n) by auto. reflexivity.
Qed.

Lemma symm_csc_exact Lm Rm m n cL cR : repr Lm m n (fincols cL) -> repr Rm m n (fincols cR) ->
  (forall c, In c cL -> sorted c) -> (forall c, In c cR -> sorted c) -> n + 1 <= INT_MAX -> n * n <= INT_MAX ->
  exists cols, len cols = n /\ (forall c, In c cols -> sorted c) /\
    (forall i j, 0 <= i < n -> 0 <= j < n ->
       let v := (qsum m (fun k => qentry cL k i * qentry cR k j) + qsum m (fun k => qentry cR k i * qentry cL k j))%Qc in
       ((- Qc_lit 1 (-25) <= v)%Qc /\ (v <= Qc_lit 1 (-25))%Qc -> qentry cols i j = 0%Qc) /\
       (~ ((- Qc_lit 1 (-25) <= v)%Qc /\ (v <= Qc_lit 1 (-25))%Qc) -> qentry cols i j = v)) /\
    ((exists M, MatrixSymmetrizationProduct_csc Lm Rm = Ok (Some M) /\ repr M n n (fincols cols) /\ concat cols <> []) \/
     (MatrixSymmetrizationProduct_csc Lm Rm = Ok None /\ concat cols = [])).
Proof.
  intros HL HR SL SR H1 H2. pose proof (repr_n _ _ _ _ HL) as Hn.
  pose proof (rp_len _ _ _ _ HL) as LL. pose proof (rp_len _ _ _ _ HR) as LR. rewrite len_fincols in LL, LR.
  exists (qsymm_cols cL cR m n). split; [apply len_tab; auto|]. split; [|split].
  - intros c Hc. apply in_tab in Hc. destruct Hc as (j & Hj & ->). apply sorted_selcol.
  - intros i j Hi Hj v. assert (E : qentry (qsymm_cols cL cR m n) i j = if tinyb v then 0%Qc else v).
    { unfold qentry, qsymm_cols. rewrite at_tab by auto. rewrite qcol_selcol by auto. unfold qsym_csc. rewrite qsum_add. reflexivity. }
    rewrite E, <- tinyb_spec. destruct (tinyb v); split; auto; congruence.
  - destruct (MatrixSymmetrizationProduct_csc_ok Lm Rm m n _ _ HL HR Hn H1 H2) as (M & EM & HM).
    rewrite (symm_cols_fin cL cR m n) in HM; auto; [|apply (repr_rows _ _ _ _ HL)|apply (repr_rows _ _ _ _ HR)].
    assert (EL : len (concat (fincols (qsymm_cols cL cR m n))) = len (concat (qsymm_cols cL cR m n))).
    { unfold fincols, fincol. rewrite <- concat_map. apply len_map. }
    destruct (Z.eqb_spec (len (concat (fincols (qsymm_cols cL cR m n)))) 0) as [E|E].
    + right. split; [congruence|]. rewrite EL in E. destruct (concat (qsymm_cols cL cR m n)); auto. rewrite len_cons in E. pose proof (len_nonneg l). lia.
    + left. destruct HM as (M' & -> & HM'). exists M'. split; [auto|]. split; [auto|]. intros C. rewrite EL, C in E. apply E. reflexivity.
Qed.

(** ** csc_to_dns *)
Section ToDns.
Context {T : Type} `{Arith T}.
Lemma last_from_in (t : T) (c : list (Z * T)) i x : (forall e e', In e c -> In e' c -> fst e = fst e' -> e = e') -> In (i, x) c -> last_from t c i = x.
Proof.
  revert t. induction c as [|e c IH]; intros t Hu Hi; [contradiction|]. unfold last_from. simpl. fold (last_from (if fst e =? i then snd e else t) c i).
  destruct (in_dec Z.eq_dec i (map fst c)) as [Hin|Hin].
  - apply in_map_iff in Hin. destruct Hin as ([i' y] & E & Hy). simpl in E. subst i'.
    assert (Exy : (i, x) = (i, y)) by (apply Hu; auto; right; auto). injection Exy as ->.
    apply IH; auto. intros; apply Hu; auto; right; auto.
  - assert (G : forall s, last_from s c i = s).
    { clear -Hin. induction c as [|a c IH]; intros s; auto. unfold last_from. simpl. destruct (Z.eqb_spec (fst a) i).
      - exfalso. apply Hin. left. auto.
      - apply IH. intros C. apply Hin. right; auto. }
    rewrite G. destruct Hi as [->|Hi].
    + simpl. rewrite Z.eqb_refl. reflexivity.
    + exfalso. apply Hin. apply in_map_iff. exists (i, x). auto.
Qed.
Lemma last_from_notin (t : T) (c : list (Z * T)) i : (forall x, ~ In (i, x) c) -> last_from t c i = t.
Proof.
  revert t. induction c as [|e c IH]; intros t Hn; auto. unfold last_from. simpl. destruct (Z.eqb_spec (fst e) i) as [E|E].
  - exfalso. apply (Hn (snd e)). left. rewrite <- E. destruct e; auto.
  - apply IH. intros x C. apply (Hn x). right; auto.
Qed.

Lemma to_dns_any (S : csc T) m n cols : stored S m n cols -> 0 <= m -> m * n <= INT_MAX ->
  (forall c e, In c cols -> In e c -> INT_MIN <= fst e * n /\ fst e * n + n <= INT_MAX) ->
  ((forall c e, In c cols -> In e c -> 0 <= fst e < m) ->
     exists l, csc_to_dns (Some S) = Ok (Some (lift l)) /\ len l = m * n /\
       forall i j, 0 <= i < m -> 0 <= j < n ->
         (forall x, (forall e e', In e (col cols j) -> In e' (col cols j) -> fst e = fst e' -> e = e') -> In (i, x) (col cols j) -> at_ a_zero l (i * n + j) = x) /\
         ((forall x, ~ In (i, x) (col cols j)) -> at_ a_zero l (i * n + j) = a_zero)) /\
  ((exists c e, In c cols /\ In e c /\ ~ 0 <= fst e < m) -> csc_to_dns (Some S) = Ok None).
Proof.
  intros HS Hm Hmx Hfit. destruct (csc_to_dns_gen S m n cols HS Hm Hmx Hfit) as [G1 G2]. split; [|exact G2].
  intros Hr. exists (dense_of cols m n). split; [auto|]. pose proof (so_len _ _ _ _ HS). pose proof (len_nonneg cols).
  split; [unfold dense_of; apply len_tab; nia|]. intros i j Hi Hj. unfold dense_of. rewrite at_tab by nia. rewrite div_idx, mod_idx by lia.
  split; intros; [apply last_from_in; auto|apply last_from_notin; auto].
Qed.

(** ** dns_to_csc *)
Lemma of_dns_any l m n : 0 <= m -> 0 <= n -> m * n <= len l -> n + 1 <= INT_MAX -> m * n <= INT_MAX ->
  exists S cols, dns_to_csc (Some (lift l)) m n = Ok S /\ repr S m n cols /\ (forall c, In c cols -> sorted c) /\
    forall i j x, 0 <= j < n -> (In (i, x) (col cols j) <->
       0 <= i < m /\ x = at_ a_zero l (i * n + j) /\ (a_lt a_zero x = true \/ a_lt x a_zero = true)).
Proof.
  intros Hm Hn Hl H1 H2. destruct (dns_to_csc_ok l m n Hm Hn Hl H1 H2) as (S & E & HR). exists S, (dns_cols l m n). split; auto. split; auto.
  assert (ES : forall j, (tabcat m (fun i => if nonzero (ent l n i j) then [(i, ent l n i j)] else [])) = selcol m (fun i => negb (nonzero (ent l n i j))) (fun i => ent l n i j)).
  { intros j. unfold selcol, tabcat. f_equal. apply tab_ext. intros i Hi. destruct (nonzero (ent l n i j)); reflexivity. }
  split.
  - intros c Hc. apply in_tab in Hc. destruct Hc as (j & Hj & ->). rewrite ES. apply sorted_selcol.
  - intros i j x Hj. unfold col, dns_cols. rewrite at_tab by auto. rewrite ES, in_selcol. unfold nonzero, ent.
    rewrite Bool.negb_false_iff, Bool.orb_true_iff. intuition (subst; auto).
Qed.
End ToDns.

Lemma round_any {T} {AR : Arith T} (l : list T) m n : 0 <= m -> 0 <= n -> len l = m * n -> n + 1 <= INT_MAX -> m * n <= INT_MAX ->
  (forall x, In x l -> a_lt a_zero x = true \/ a_lt x a_zero = true \/ x = a_zero) ->
  exists S, dns_to_csc (Some (lift l)) m n = Ok S /\ csc_to_dns (Some S) = Ok (Some (lift l)).
Proof.
  intros Hm Hn Hl H1 H2 Hkeep. destruct (of_dns_any l m n) as (S & cols & E & HR & HS & HI); auto; try lia.
  exists S. split; auto.
  assert (Hrow : forall c e, In c cols -> In e c -> 0 <= fst e < m).
  { intros c [i x] Hc He. simpl. eapply (rp_rows _ _ _ _ HR); eauto. }
  destruct (to_dns_any S m n cols (repr_stored _ _ _ _ HR) Hm) as [G _]; [lia| |].
  { intros c e Hc He. specialize (Hrow c e Hc He). assert (INT_MIN < 0) by reflexivity. nia. }
  destruct (G Hrow) as (l' & E' & Ll' & P). rewrite E'. do 3 f_equal. apply (list_eq a_zero); [lia|]. intros k Hk.
  assert (Hn0 : 0 < n) by nia.
  pose proof (Z.div_mod k n ltac:(lia)) as Ek. pose proof (Z.mod_pos_bound k n Hn0) as Bk.
  assert (Bi : 0 <= k / n < m) by (split; [apply Z.div_pos; lia|apply Z.div_lt_upper_bound; nia]).
  destruct (P (k / n) (k mod n) Bi Bk) as [P1 P2].
  replace (k / n * n + k mod n) with k in P1, P2 by lia.
  set (x := at_ a_zero l k) in *.
  destruct (a_lt a_zero x || a_lt x a_zero) eqn:Z0.
  - apply P1.
    + intros e e' He He' Ef. assert (Hc : In (col cols (k mod n)) cols) by (apply col_in; rewrite (rp_len _ _ _ _ HR); lia).
      destruct e as [i v], e' as [i' v']. simpl in Ef. subst i'. apply (HI i (k mod n) v Bk) in He. apply (HI i (k mod n) v' Bk) in He'.
      destruct He as (_ & -> & _), He' as (_ & -> & _). reflexivity.
    + apply (HI (k / n) (k mod n) x Bk). split; auto. split; [|apply Bool.orb_true_iff; auto]. unfold x. f_equal. lia.
  - rewrite P2.
    + assert (Hx : In x l) by (unfold x, at_; apply nth_In; unfold len in *; lia). specialize (Hkeep x Hx). clearbody x.
      apply Bool.orb_false_iff in Z0. destruct Z0 as [Z1 Z2]. destruct Hkeep as [K|[K| ->]]; congruence.
    + intros v C. apply (HI (k / n) (k mod n) v Bk) in C. destruct C as (_ & -> & C).
      replace (at_ a_zero l (k / n * n + k mod n)) with x in C by (unfold x; f_equal; lia).
      apply Bool.orb_false_iff in Z0. destruct Z0, C; congruence.
Qed.

(** ** MaxAbs *)
Lemma xle_refl (x : xq) : x <> NaN -> a_le x x = true.
Proof. destruct x; try contradiction; auto. intros _. cbn. apply Qc_leb_spec. apply Qcle_refl. Qed.
Lemma xle_trans (x y z : xq) : a_le x y = true -> a_le y z = true -> a_le x z = true.
Proof. destruct x, y, z; cbn; intros A B; auto; try discriminate. apply Qc_leb_spec in A, B. apply Qc_leb_spec. eapply Qcle_trans; eauto. Qed.
Lemma xnlt_le (x y : xq) : x <> NaN -> y <> NaN -> a_lt x y = false -> a_le y x = true.
Proof. destruct x, y; cbn; auto; try discriminate; try contradiction. rewrite Qc_ltb_false, Qc_leb_spec. auto. Qed.
Lemma xlt_le (x y : xq) : a_lt x y = true -> a_le x y = true.
Proof. destruct x, y; cbn; auto; try discriminate. rewrite Qc_ltb_spec, Qc_leb_spec. apply Qclt_le_weak. Qed.
Lemma xneg_le (x y : xq) : a_le x y = true -> a_le (- y)%num (- x)%num = true.
Proof. destruct x, y; cbn; auto; try discriminate. rewrite !Qc_leb_spec. intros. unfold Qcle in *. rewrite !this_opp. lra. Qed.
Lemma xabs_cases (x : xq) : x <> NaN -> (a_le (Fin 0) x = true -> a_abs x = x) /\ (a_le x (Fin 0) = true -> a_abs x = (- x)%num).
Proof.
  destruct x as [q| | |]; cbn; try contradiction; intros _; split; auto; try discriminate.
  - intros L. apply Qc_leb_spec in L. destruct (Qc_ltb q 0) eqn:E; auto. apply Qc_ltb_spec in E. apply Qclt_not_le in E. contradiction.
  - intros L. apply Qc_leb_spec in L. destruct (Qc_ltb q 0) eqn:E; auto. apply Qc_ltb_false in E.
    assert (q = 0)%Qc by (apply Qcle_antisym; auto). subst. f_equal.
Qed.

Lemma max_abs (l : list xq) m : 0 <= m <= len l -> (forall i, 0 <= i < m -> at_ a_zero l i <> NaN) ->
  exists v, MaxAbs (lift l) m = Ok v /\
    (forall i, 0 <= i < m -> a_le (a_abs (at_ a_zero l i)) v = true) /\
    (v = a_zero \/ exists i, 0 <= i < m /\ v = a_abs (at_ a_zero l i)).
Proof.
  intros Hm Hnan. exists (maxabs l m). rewrite MaxAbs_ok by lia. split; auto.
  assert (G : forall k, 0 <= k -> k <= m ->
     a_le (Fin 0) (fst (maxmin l k)) = true /\ a_le (snd (maxmin l k)) (Fin 0) = true /\
     (forall i, 0 <= i < k -> a_le (at_ a_zero l i) (fst (maxmin l k)) = true /\ a_le (snd (maxmin l k)) (at_ a_zero l i) = true) /\
     (fst (maxmin l k) = a_zero \/ exists i, 0 <= i < k /\ fst (maxmin l k) = at_ a_zero l i) /\
     (snd (maxmin l k) = a_zero \/ exists i, 0 <= i < k /\ snd (maxmin l k) = at_ a_zero l i)).
  { intros k Hk. pattern k. apply natlike_ind; auto.
    - intros _. change (maxmin l 0) with (Fin 0, Fin 0). cbn [fst snd]. repeat split; auto; try (intros; lia).
    - clear k Hk. intros k Hk IH Hl. unfold Z.succ in *. destruct (IH ltac:(lia)) as (P1 & P2 & P3 & P4 & P5). rewrite maxmin_succ by auto. cbv zeta.
      set (v := at_ a_zero l k) in *. assert (Hv : v <> NaN) by (apply Hnan; lia).
      assert (H1 : fst (maxmin l k) <> NaN) by (intros C; rewrite C in P1; discriminate).
      assert (H2 : snd (maxmin l k) <> NaN) by (intros C; rewrite C in P2; discriminate).
      destruct (a_lt (fst (maxmin l k)) v) eqn:E1; [|destruct (a_lt v (snd (maxmin l k))) eqn:E2]; cbn [fst snd].
      + pose proof (xlt_le _ _ E1) as L1. repeat split; auto.
        * exact (xle_trans _ _ _ P1 L1).
        * destruct (Z.eq_dec i k) as [->|]; [apply xle_refl; auto|]. eapply xle_trans; [apply P3; lia|auto].
        * destruct (Z.eq_dec i k) as [->|]; [|apply P3; lia]. fold v. exact (xle_trans _ _ _ P2 (xle_trans _ _ _ P1 L1)).
        * right. exists k. split; auto; lia.
        * destruct P5 as [P5|(i & Hi & P5)]; auto. right. exists i. split; auto; lia.
      + pose proof (xlt_le _ _ E2) as L2. repeat split; auto.
        * exact (xle_trans _ _ _ L2 P2).
        * destruct (Z.eq_dec i k) as [->|]; [|apply P3; lia]. fold v. exact (xle_trans _ _ _ (xle_trans _ _ _ L2 P2) P1).
        * destruct (Z.eq_dec i k) as [->|]; [apply xle_refl; auto|]. eapply xle_trans; [eauto|apply P3; lia].
        * destruct P4 as [P4|(i & Hi & P4)]; auto. right. exists i. split; auto; lia.
        * right. exists k. split; auto; lia.
      + apply xnlt_le in E1, E2; auto. repeat split; auto.
        * destruct (Z.eq_dec i k) as [->|]; [auto|apply P3; lia].
        * destruct (Z.eq_dec i k) as [->|]; [auto|apply P3; lia].
        * destruct P4 as [P4|(i & Hi & P4)]; auto. right. exists i. split; auto; lia.
        * destruct P5 as [P5|(i & Hi & P5)]; auto. right. exists i. split; auto; lia. }
  destruct (G m ltac:(lia) ltac:(lia)) as (P1 & P2 & P3 & P4 & P5). clear G. unfold maxabs, getMax.
  set (mx := fst (maxmin l m)) in *. set (mn := snd (maxmin l m)) in *. clearbody mx mn.
  assert (N1 : mx <> NaN) by (intros ->; discriminate). assert (N2 : mn <> NaN) by (intros ->; discriminate).
  assert (N3 : (- mn)%num <> NaN) by (destruct mn; cbn; congruence).
  pose proof (xneg_le _ _ P2) as P2'. change (- Fin 0)%num with (Fin (- 0)%Qc) in P2'. replace (- 0)%Qc with 0%Qc in P2' by ring.
  assert (B : forall i, 0 <= i < m -> a_le (a_abs (at_ a_zero l i)) mx = true \/ a_le (a_abs (at_ a_zero l i)) (- mn)%num = true).
  { intros i Hi. destruct (P3 i Hi) as [Q1 Q2]. destruct (xabs_cases (at_ a_zero l i) (Hnan i Hi)) as [A1 A2].
    destruct (a_le (Fin 0) (at_ a_zero l i)) eqn:E; [left; rewrite A1; auto|].
    right. rewrite A2; [apply xneg_le; auto|]. apply xnlt_le; auto; [discriminate|].
    destruct (a_lt (Fin 0) (at_ a_zero l i)) eqn:E2; auto. apply xlt_le in E2. congruence. }
  destruct (a_lt (- mn)%num mx) eqn:EC.
  - apply xlt_le in EC. split.
    + intros i Hi. destruct (B i Hi); auto. eapply xle_trans; eauto.
    + destruct P4 as [P4|(i & Hi & P4)]; [auto|]. right. exists i. split; auto. rewrite P4 in *.
      symmetry. apply xabs_cases; auto.
  - apply xnlt_le in EC; auto. split.
    + intros i Hi. destruct (B i Hi); auto. eapply xle_trans; eauto.
    + destruct P5 as [P5|(i & Hi & P5)]; [left; rewrite P5; cbn; f_equal; ring|]. right. exists i. split; auto. rewrite P5 in *.
      symmetry. apply xabs_cases; auto.
Qed.

Lemma upper_any {T} `{Arith T} (S : csc T) m n cols : repr S m n cols -> n + 1 <= INT_MAX -> len (concat cols) <= INT_MAX ->
  exists U ucols, copyCSC_upper (Some S) = Ok U /\ repr U m n ucols /\
    forall j, 0 <= j < n -> col ucols j = filter (fun e => fst e <=? j) (col cols j).
Proof.
  intros HR H1 H2. destruct (copyCSC_upper_ok S m n cols HR H1 H2) as (U & E & HU). exists U, (upper_cols cols n). split; [auto|]. split; [auto|].
  intros j Hj. unfold upper_cols, col. rewrite at_tab by auto. reflexivity.
Qed.

(** ** Witnesses *)
Lemma affine_unsymmetric : exists S cols l b, repr S 2 2 (fincols cols) /\ same_matrix l cols 2 2 /\ len l = 4 /\ len b = 2 /\
  AffineLinearTransformation_csc (Fin 1) S (lift (fins b)) (lift (fins (zq [0; 0]))) (repeat None 2) 2 <>
  AffineLinearTransformation (Fin 1) (lift (fins l)) (lift (fins b)) (lift (fins (zq [0; 0]))) (repeat None 2) 2 2.
Proof.
  exists (mk_csc 2 2 (fincols [[]; zcol [(0, 1)]])), [[]; zcol [(0, 1)]], (zq [0; 1; 0; 0]), (zq [0; 1]).
  split; [apply mk_csc_repr; reflexivity|]. split.
  { intros i j Hi Hj. assert (Ci : i = 0 \/ i = 1) by lia. assert (Cj : j = 0 \/ j = 1) by lia.
    destruct Ci as [->| ->], Cj as [->| ->]; apply Qc_is_canon; vm_compute; reflexivity. }
  split; [reflexivity|]. split; [reflexivity|]. vm_compute. discriminate.
Qed.
Lemma unsorted_product : exists Lm Rm cL cR M, repr Lm 2 1 (fincols cL) /\ repr Rm 2 1 (fincols cR) /\
  MatrixSymmetrizationProduct_csc Lm Rm = Ok (Some M) /\ c_x M = Some (lift (fins (zq [3]))) /\
  (qsum 2 (fun k => qentry cL k 0 * qentry cR k 0) + qsum 2 (fun k => qentry cR k 0 * qentry cL k 0))%Qc = Q2Qc (inject_Z 4).
Proof.
  exists (mk_csc 2 1 (fincols [zcol [(1, 1); (0, 1)]])), (mk_csc 2 1 (fincols [zcol [(0, 1); (1, 1)]])), [zcol [(1, 1); (0, 1)]], [zcol [(0, 1); (1, 1)]].
  exists (mk_csc 1 1 (fincols [zcol [(0, 3)]])).
  split; [apply mk_csc_repr; reflexivity|]. split; [apply mk_csc_repr; reflexivity|]. split; [vm_compute; reflexivity|].
  split; [vm_compute; reflexivity|]. apply Qc_is_canon. vm_compute. reflexivity.
Qed.
Lemma to_dns_overflow : exists (S : csc f64) cols, stored S 1 2 cols /\ csc_to_dns (Some S) = UB IntOverflow.
Proof.
  exists (mk_csc 1 2 [[(1073741824, f64_of_Z 1)]; []]), [[(1073741824, f64_of_Z 1)]; []]. split; [apply mk_csc_stored; reflexivity|]. vm_compute. reflexivity.
Qed.
Lemma nan_lost : exists (l : list f64) S, len l = 1 /\ l = [S754_nan] /\
  dns_to_csc (Some (lift l)) 1 1 = Ok S /\ csc_to_dns (Some S) = Ok (Some (lift [S754_zero false])).
Proof. exists [S754_nan], (mk_csc 1 1 [[]]). repeat split; vm_compute; reflexivity. Qed.
Lemma max_abs_nan : exists l : list f64, In S754_nan l /\ MaxAbs (lift l) (len l) = Ok (S754_zero true).
Proof. exists [S754_nan]. split; [left; reflexivity|vm_compute; reflexivity]. Qed.
