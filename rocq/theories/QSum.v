(** * QSum: lemmas about finite sums of rationals and the kernels on finite data. *)
From Coq Require Import QArith Qcanon Lqa.
From Verif Require Import Base Arith Codes Utilities Tactics Loops Exact Kernels SpecSparse SpecMath CscKernels CscBuild CscDense.
Open Scope Z_scope.

Lemma qsum_0 f : qsum 0 f = 0%Qc. Proof. reflexivity. Qed.
Lemma qsum_neg n f : n <= 0 -> qsum n f = 0%Qc.
Proof. intros. unfold qsum. replace (Z.to_nat n) with O by lia. reflexivity. Qed.
Lemma qsum_succ n f : 0 <= n -> qsum (n + 1) f = (qsum n f + f n)%Qc.
Proof. intros. unfold qsum. replace (Z.to_nat (n + 1)) with (S (Z.to_nat n)) by lia. simpl. rewrite Z2Nat.id by lia. reflexivity. Qed.
Lemma qsum_ind (P : Z -> Prop) n : P 0 -> (forall k, 0 <= k -> P k -> P (k + 1)) -> 0 <= n -> P n.
Proof. intros H0 HS Hn. pattern n. apply natlike_ind; auto. Qed.
Lemma qsum_ext n f g : (forall i, 0 <= i < n -> f i = g i) -> qsum n f = qsum n g.
Proof.
  intros E. destruct (Z.leb_spec n 0); [rewrite !qsum_neg by lia; reflexivity|].
  assert (G : forall k, 0 <= k -> k <= n -> qsum k f = qsum k g).
  { intros k Hk. pattern k. apply qsum_ind; auto. intros j Hj IH Hn. rewrite !qsum_succ, IH, E by lia. reflexivity. }
  apply G; lia.
Qed.
Ltac qsum_tac n := destruct (Z.leb_spec n 0) as [Hle|Hle]; [rewrite !qsum_neg by lia; ring|];
  let Hn := fresh in assert (Hn : 0 <= n) by lia; clear Hle; revert Hn; pattern n; apply natlike_ind;
  [reflexivity || (intros; rewrite !qsum_0; ring)| | ].
Lemma qsum_add n f g : qsum n (fun i => f i + g i)%Qc = (qsum n f + qsum n g)%Qc.
Proof.
  destruct (Z.leb_spec n 0); [rewrite !qsum_neg by lia; ring|].
  apply (qsum_ind (fun n => qsum n (fun i => f i + g i)%Qc = (qsum n f + qsum n g)%Qc)); [rewrite !qsum_0; ring| |lia].
  intros k Hk IH. rewrite !qsum_succ, IH by lia. ring.
Qed.
Lemma qsum_scale n c f : qsum n (fun i => c * f i)%Qc = (c * qsum n f)%Qc.
Proof.
  destruct (Z.leb_spec n 0); [rewrite !qsum_neg by lia; ring|].
  apply (qsum_ind (fun n => qsum n (fun i => c * f i)%Qc = (c * qsum n f)%Qc)); [rewrite !qsum_0; ring| |lia].
  intros k Hk IH. rewrite !qsum_succ, IH by lia. ring.
Qed.
Lemma qsum_scale_r n c f : qsum n (fun i => f i * c)%Qc = (qsum n f * c)%Qc.
Proof. rewrite <- (Qcmult_comm c), <- qsum_scale. apply qsum_ext. intros; ring. Qed.
Lemma qsum_opp n f : qsum n (fun i => - f i)%Qc = (- qsum n f)%Qc.
Proof.
  replace (- qsum n f)%Qc with ((- (1)) * qsum n f)%Qc by ring. rewrite <- qsum_scale. apply qsum_ext. intros; ring.
Qed.
Lemma qsum_sub n f g : qsum n (fun i => f i - g i)%Qc = (qsum n f - qsum n g)%Qc.
Proof. unfold Qcminus. rewrite qsum_add, qsum_opp. reflexivity. Qed.
Lemma qsum_zero n : qsum n (fun _ => 0%Qc) = 0%Qc.
Proof.
  destruct (Z.leb_spec n 0); [rewrite !qsum_neg by lia; ring|].
  apply (qsum_ind (fun n => qsum n (fun _ => 0%Qc) = 0%Qc)); [reflexivity| |lia].
  intros k Hk IH. rewrite qsum_succ, IH by lia. ring.
Qed.
Lemma qsum_swap n m f : qsum n (fun i => qsum m (fun j => f i j)) = qsum m (fun j => qsum n (fun i => f i j)).
Proof.
  destruct (Z.leb_spec n 0); [rewrite (qsum_neg n) by lia; rewrite <- (qsum_zero m); apply qsum_ext; intros; rewrite qsum_neg by lia; reflexivity|].
  apply (qsum_ind (fun n => qsum n (fun i => qsum m (fun j => f i j)) = qsum m (fun j => qsum n (fun i => f i j)))); [| |lia].
  - rewrite qsum_0. rewrite <- (qsum_zero m). apply qsum_ext. intros; rewrite qsum_0; reflexivity.
  - intros k Hk IH. rewrite qsum_succ, IH by lia. rewrite <- qsum_add. apply qsum_ext. intros. rewrite qsum_succ by lia. reflexivity.
Qed.
Lemma qsum_single n i c : 0 <= i < n -> qsum n (fun j => if j =? i then c else 0%Qc) = c.
Proof.
  intros Hi. assert (G : forall k, 0 <= k -> qsum k (fun j => if j =? i then c else 0%Qc) = if i <? k then c else 0%Qc).
  { intros k Hk. pattern k. apply qsum_ind; auto.
    - destruct (Z.ltb_spec i 0); [lia|reflexivity].
    - intros j Hj IH. rewrite qsum_succ, IH by lia. destruct (Z.ltb_spec i j), (Z.eqb_spec j i), (Z.ltb_spec i (j + 1)); try lia; ring. }
  rewrite G by lia. destruct (Z.ltb_spec i n); [reflexivity|lia].
Qed.
Lemma qsum_mul n f g c : qsum n (fun i => f i * (c * g i))%Qc = (c * qsum n (fun i => f i * g i))%Qc.
Proof. rewrite <- qsum_scale. apply qsum_ext. intros; ring. Qed.

(** ** Finite data *)
Lemma at_fins l i : at_ (Fin 0) (fins l) i = Fin (qat l i).
Proof. unfold fins, qat. apply (at_map Fin). Qed.
Lemma len_fins l : len (fins l) = len l.
Proof. apply len_map. Qed.
Lemma ent_fins l n i j : ent (fins l) n i j = Fin (qent l n i j).
Proof. apply at_fins. Qed.
Lemma tab_fins n f : tab n (fun i => Fin (f i)) = fins (tab n f).
Proof. unfold fins. rewrite map_tab. reflexivity. Qed.
Lemma qat_tab n f i : 0 <= i < n -> qat (tab n f) i = f i.
Proof. apply at_tab. Qed.
Lemma qent_tab m n f i j : 0 <= i < m -> 0 <= j < n -> qent (tab (m * n) f) n i j = f (i * n + j).
Proof. intros. unfold qent. apply qat_tab. nia. Qed.

Lemma fsum_fin n f g : (forall i, 0 <= i < n -> f i = Fin (g i)) -> fsum n f = Fin (qsum n g).
Proof.
  intros E. destruct (Z.leb_spec n 0).
  - rewrite qsum_neg by lia. unfold fsum, fsum_from. replace (Z.to_nat n) with O by lia. reflexivity.
  - assert (G : forall k, 0 <= k -> k <= n -> fsum k f = Fin (qsum k g)).
    { intros k Hk. pattern k. apply qsum_ind; auto. intros j Hj IH Hl. rewrite fsum_succ, qsum_succ, IH, E by lia. reflexivity. }
    apply G; lia.
Qed.
Lemma fsum_from_fin n f g c : (forall i, 0 <= i < n -> f i = Fin (g i)) -> fsum_from (Fin c) n f = Fin (c + qsum n g)%Qc.
Proof.
  intros E. destruct (Z.leb_spec n 0).
  - rewrite qsum_neg by lia. unfold fsum_from. replace (Z.to_nat n) with O by lia. simpl. f_equal. ring.
  - assert (G : forall k, 0 <= k -> k <= n -> fsum_from (Fin c) k f = Fin (c + qsum k g)%Qc).
    { intros k Hk. pattern k. apply qsum_ind; auto; [intros; unfold fsum_from; cbn; f_equal; change (qsum 0 g) with 0%Qc; ring|].
      intros j Hj IH Hl. rewrite fsum_from_succ, qsum_succ, IH, E by lia. rewrite fin_add. f_equal. ring. }
    apply G; lia.
Qed.

Lemma affine_fin a la lb lc m n : affine (Fin a) (fins la) (fins lb) (fins lc) m n =
  fins (tab m (fun i => a * qmul la n lb i + qat lc i)%Qc).
Proof.
  unfold affine. rewrite <- tab_fins. apply tab_ext. intros i Hi. rewrite at_fins.
  rewrite (fsum_fin n _ (fun k => qent la n i k * qat lb k)%Qc); [reflexivity|].
  intros k Hk. rewrite ent_fins, at_fins. reflexivity.
Qed.
Lemma wadd_fin a la b lb n : wadd (Fin a) (fins la) (Fin b) (fins lb) n = fins (tab n (fun i => a * qat la i + b * qat lb i)%Qc).
Proof. unfold wadd. rewrite <- tab_fins. apply tab_ext. intros i Hi. rewrite !at_fins. reflexivity. Qed.
Lemma quad_fin lq lp m : quad (fins lq) (fins lp) m = Fin (qquad lq m lp).
Proof.
  unfold quad, qquad. apply fsum_fin. intros i Hi.
  rewrite (fsum_fin m _ (fun j => qent lq m i j * qat lp j)%Qc) by (intros; rewrite ent_fins, at_fins; reflexivity).
  rewrite at_fins, fin_mul. f_equal. unfold qmul. ring.
Qed.
Lemma dot_fin la lb m : dot (fins la) (fins lb) m = Fin (qdot m la lb).
Proof. unfold dot, qdot. apply fsum_fin. intros i Hi. rewrite !at_fins. reflexivity. Qed.
Lemma mmul_fin la lb m n : 0 <= m -> mmul (fins la) (fins lb) m n 1 = fins (tab m (fun i => qmul la n lb i)).
Proof.
  intros Hm. unfold mmul. rewrite Z.mul_1_r, <- tab_fins. apply tab_ext. intros i Hi. rewrite Z.div_1_r, Z.mod_1_r.
  unfold qmul. apply fsum_fin. intros k Hk. rewrite !ent_fins. unfold qent at 2. rewrite Z.mul_1_r, Z.add_0_r. reflexivity.
Qed.
Lemma tmul_fin la lb m n : tmul (fins la) (fins lb) m n 1 = fins (tab n (fun j => qtmul la m n lb j)).
Proof.
  unfold tmul. rewrite Z.mul_1_r, <- tab_fins. apply tab_ext. intros i Hi. rewrite Z.div_1_r, Z.mod_1_r.
  unfold qtmul. apply fsum_fin. intros k Hk. rewrite !ent_fins. unfold qent at 2. rewrite Z.mul_1_r, Z.add_0_r. reflexivity.
Qed.
Lemma addtmul_fin la lb lc m n : addtmul (fins la) (fins lb) (fins lc) m n 1 = fins (tab n (fun j => qat lc j + qtmul la m n lb j)%Qc).
Proof.
  unfold addtmul. rewrite Z.mul_1_r, <- tab_fins. apply tab_ext. intros i Hi. rewrite Z.div_1_r, Z.mod_1_r.
  rewrite at_fins. unfold qtmul. apply fsum_from_fin. intros k Hk. rewrite !ent_fins. unfold qent at 2. rewrite Z.mul_1_r, Z.add_0_r. reflexivity.
Qed.

(** L'R + R'L *)
Definition qsym (la lb : list Qc) (m n i j : Z) : Qc :=
  qsum m (fun k => qent la n k i * qent lb n k j + qent lb n k i * qent la n k j)%Qc.
Lemma qsym_comm la lb m n i j : qsym la lb m n i j = qsym la lb m n j i.
Proof. unfold qsym. apply qsum_ext. intros. ring. Qed.
Lemma symm_fin la lb m n : symm (fins la) (fins lb) m n = fins (tab (n * n) (fun k => qsym la lb m n (k / n) (k mod n))).
Proof.
  unfold symm. rewrite <- tab_fins. apply tab_ext. intros k Hk. unfold sym_ent.
  assert (E : forall i j, fsum m (fun k => (ent (fins la) n k i * ent (fins lb) n k j + ent (fins lb) n k i * ent (fins la) n k j)%num)
              = Fin (qsym la lb m n i j)).
  { intros i j. apply fsum_fin. intros. rewrite !ent_fins. reflexivity. }
  rewrite E. f_equal. destruct (Z.max_spec (k / n) (k mod n)) as [[? M1]|[? M1]], (Z.min_spec (k / n) (k mod n)) as [[? M2]|[? M2]];
    rewrite M1, M2; auto; try (apply qsym_comm); f_equal; lia.
Qed.

(** ** Sparse *)
Lemma qcol_nil i : qcol [] i = 0%Qc. Proof. reflexivity. Qed.
Lemma qcol_cons e c i : qcol (e :: c) i = ((if fst e =? i then snd e else 0) + qcol c i)%Qc.
Proof. unfold qcol. simpl. destruct (fst e =? i); ring. Qed.
Arguments qcol : simpl never.
Lemma qcol_app c1 c2 i : qcol (c1 ++ c2) i = (qcol c1 i + qcol c2 i)%Qc.
Proof. induction c1; [rewrite qcol_nil; simpl; ring|]. change ((a :: c1) ++ c2) with (a :: (c1 ++ c2)). rewrite !qcol_cons, IHc1. ring. Qed.
Lemma qcol_none c i : (forall e, In e c -> fst e <> i) -> qcol c i = 0%Qc.
Proof.
  induction c as [|e c IH]; intros Hc; [reflexivity|]. rewrite qcol_cons, IH by (intros; apply Hc; right; auto).
  destruct (Z.eqb_spec (fst e) i) as [E|]; [|ring]. exfalso. apply (Hc e); [left|]; auto.
Qed.

(** Summing over the entries of a column = summing over the rows *)
Lemma col_rows c (w : Z -> Qc) m : (forall e, In e c -> 0 <= fst e < m) ->
  fold_right (fun e s => snd e * w (fst e) + s)%Qc 0%Qc c = qsum m (fun i => qcol c i * w i)%Qc.
Proof.
  induction c as [|e c IH]; intros Hc.
  - simpl. rewrite <- (qsum_zero m). apply qsum_ext. intros. change (qcol [] i) with 0%Qc. ring.
  - simpl. rewrite IH by (intros; apply Hc; right; auto).
    rewrite <- (qsum_single m (fst e) (snd e * w (fst e))%Qc) by (apply Hc; left; auto).
    rewrite <- qsum_add. apply qsum_ext. intros i Hi. rewrite qcol_cons, Z.eqb_sym.
    destruct (Z.eqb_spec (fst e) i); subst; ring.
Qed.

Lemma fold_add {X} (f : X -> Qc) c s : fold_left (fun t e => t + f e)%Qc c s = (s + fold_right (fun e t => f e + t)%Qc 0%Qc c)%Qc.
Proof. revert s. induction c as [|e c IH]; intros s; simpl; [ring|]. rewrite IH. ring. Qed.

Lemma colsum_fin c b m : (forall e, In e c -> 0 <= fst e < m) ->
  colsum (fincol c) (fins b) = Fin (qsum m (fun i => qcol c i * qat b i)%Qc).
Proof.
  intros Hc. rewrite <- col_rows by auto. unfold colsum.
  assert (G : forall s, fold_left (fun t e => (t + snd e * at_ a_zero (fins b) (fst e))%num) (fincol c) (Fin s)
     = Fin (s + fold_right (fun e t => snd e * qat b (fst e) + t)%Qc 0%Qc c)%Qc).
  { clear Hc. induction c as [|e c IH]; intros s; simpl; [f_equal; ring|]. rewrite (at_fins b). simpl. rewrite IH. f_equal. ring. }
  change (@a_zero xq _) with (Fin 0). rewrite G. f_equal. ring.
Qed.
Lemma tcolsum_fin s c b m : (forall e, In e c -> 0 <= fst e < m) ->
  tcolsum (Fin s) (fincol c) (fins b) = Fin (s + qsum m (fun i => qcol c i * qat b i))%Qc.
Proof.
  intros Hc. rewrite <- col_rows by auto. unfold tcolsum. revert s.
  clear Hc. induction c as [|e c IH]; intros s; simpl; [f_equal; ring|]. rewrite (at_fins b). simpl. rewrite IH. f_equal. ring.
Qed.
Lemma col_fincols cols j : col (fincols cols) j = fincol (col cols j).
Proof. unfold col, fincols. apply (at_map fincol []). Qed.
Lemma qentry_col cols i j : qentry cols i j = qcol (col cols j) i.
Proof. reflexivity. Qed.
Lemma rowsum_fin cols b i n : rowsum (fincols cols) (fins b) i n = Fin (qsum n (fun j => qentry cols i j * qat b j)%Qc).
Proof.
  destruct (Z.leb_spec n 0).
  - rewrite qsum_neg by lia. unfold rowsum. replace (Z.to_nat n) with O by lia. reflexivity.
  - apply (qsum_ind (fun n => rowsum (fincols cols) (fins b) i n = Fin (qsum n (fun j => qentry cols i j * qat b j)%Qc))); [reflexivity| |lia].
    intros k Hk IH. rewrite rowsum_succ, IH, qsum_succ, col_fincols, qentry_col by lia. generalize (qsum k (fun j => qentry cols i j * qat b j)%Qc).
    generalize (col cols k). induction l as [|e l IHl]; intros s; simpl; [f_equal; rewrite qcol_nil; ring|].
    rewrite qcol_cons. unfold rowstep at 2. cbn [fst snd]. rewrite (at_fins b). destruct (fst e =? i).
    + cbn. rewrite IHl. f_equal. ring.
    + rewrite IHl. f_equal. ring.
Qed.

(** Sorted columns: search *)
Lemma sorted_tail (e : Z * Qc) c : sorted (e :: c) -> sorted c. Proof. intros [_ Hs]. exact Hs. Qed.
Lemma find_row_fin c k : sorted c -> match find_row (fincol c) k with Some x => x = Fin (qcol c k) | None => qcol c k = 0%Qc end.
Proof.
  induction c as [|e c IH]; intros Hs; [reflexivity|]. cbn [fincol map find_row fst snd]. rewrite qcol_cons.
  destruct (Z.eqb_spec (fst e) k) as [E|E].
  - f_equal. rewrite qcol_none; [ring|]. intros e' Hi. destruct Hs as [Hs _]. specialize (Hs e' Hi). lia.
  - destruct (Z.ltb_spec k (fst e)).
    + rewrite qcol_none; [ring|]. intros e' Hi. destruct Hs as [Hs _]. specialize (Hs e' Hi). lia.
    + specialize (IH (sorted_tail _ _ Hs)). fold (fincol c). destruct (find_row (fincol c) k); rewrite ?IH; [f_equal|]; ring.
Qed.
Lemma symfold_fin c1 c2 s m : sorted c2 -> (forall e, In e c1 -> 0 <= fst e < m) ->
  fold_left (symstep (fincol c2)) (fincol c1) (Fin s) = Fin (s + qsum m (fun k => qcol c1 k * qcol c2 k))%Qc.
Proof.
  intros Hs Hr. rewrite <- (col_rows c1 (qcol c2)) by auto. clear Hr. revert s. induction c1 as [|e c IH]; intros s; simpl; [f_equal; ring|].
  unfold symstep at 2. cbn [fst snd]. pose proof (find_row_fin c2 (fst e) Hs) as F. destruct (find_row (fincol c2) (fst e)); rewrite ?F.
  - cbn. rewrite IH. f_equal. ring.
  - rewrite IH. f_equal. ring.
Qed.

(** Exact sparse symmetrised entry *)
Definition qsym_csc (cL cR : list (list (Z * Qc))) (m i j : Z) : Qc :=
  qsum m (fun k => qentry cL k i * qentry cR k j + qentry cR k i * qentry cL k j)%Qc.
Lemma sym_csc_fin cL cR m n i j : (forall c e, In c cL -> In e c -> 0 <= fst e < m) -> (forall c e, In c cR -> In e c -> 0 <= fst e < m) ->
  (forall c, In c cL -> sorted c) -> (forall c, In c cR -> sorted c) -> len cL = n -> len cR = n -> 0 <= i < n -> 0 <= j < n ->
  sym_csc (fincols cL) (fincols cR) i j = Fin (qsym_csc cL cR m i j).
Proof.
  intros RL RR SL SR LL LR Hi Hj. unfold sym_csc. rewrite !col_fincols. change (@a_zero xq _) with (Fin 0).
  rewrite (symfold_fin _ _ _ m) by (auto using col_in; try (apply SR, col_in; lia); intros; eapply RL; eauto; apply col_in; lia).
  rewrite (symfold_fin _ _ _ m) by (auto using col_in; try (apply SL, col_in; lia); intros; eapply RR; eauto; apply col_in; lia).
  f_equal. unfold qsym_csc. rewrite qsum_add. rewrite Qcplus_0_l. reflexivity.
Qed.

Lemma in_fincols c cols : In c (fincols cols) -> exists c', c = fincol c' /\ In c' cols.
Proof. unfold fincols. intros Hc. apply in_map_iff in Hc. destruct Hc as (c' & <- & Hi). eauto. Qed.
Lemma in_fincol r x c : In (r, x) (fincol c) -> exists q, x = Fin q /\ In (r, q) c.
Proof. unfold fincol. intros Hc. apply in_map_iff in Hc. destruct Hc as ([r' q] & E & Hi). injection E as <- <-. eauto. Qed.
Lemma repr_rows S m n cols : repr S m n (fincols cols) -> forall c e, In c cols -> In e c -> 0 <= fst e < m.
Proof.
  intros HR c [r q] Hc He. simpl. apply (rp_rows _ _ _ _ HR (fincol c) r (Fin q)).
  - unfold fincols. apply in_map. auto.
  - unfold fincol. change (r, Fin q) with ((fun e : Z * Qc => (fst e, Fin (snd e))) (r, q)). apply in_map. auto.
Qed.
Lemma len_fincols cols : len (fincols cols) = len cols.
Proof. apply len_map. Qed.
