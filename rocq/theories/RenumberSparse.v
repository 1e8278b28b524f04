(** * RenumberSparse: another order of constraints and complementarity pairs in sparse mode (no LCQPow code). *)
From Coq Require Import Permutation QArith Qcanon.
From Verif Require Import Base Arith Codes Utilities Options Stats FileIO Subsolver State LCQProblem Tactics Loops Kernels Exact SpecSparse CscKernels CscBuild CscMerge
  Pure PureFacts SpecLoad Refine LoadDense LoadSparse StartDense StartSparse SpecApi ApiFacts SpecSwap Swap SwapFacts SpecRenumber Renumber RenumberFacts.
Open Scope Z_scope.

(** ** Looking up a row *)
(** No LCQPow code. *)
Fixpoint lookup_row (l : list (Z * xq)) (k : Z) : option xq :=
  match l with [] => None | e :: t => if fst e =? k then Some (snd e) else lookup_row t k end.
Lemma lookup_none l k : (forall e, In e l -> fst e <> k) -> lookup_row l k = None.
Proof. induction l as [|e l IH]; intros N; [reflexivity|]. cbn. rewrite (proj2 (Z.eqb_neq _ _)) by (apply N; left; auto). apply IH. intros; apply N; right; auto. Qed.
Lemma find_lookup l k : sorted l -> find_row l k = lookup_row l k.
Proof.
  induction l as [|e l IH]; intros S; [reflexivity|]. destruct S as [S1 S2]. cbn. destruct (Z.eqb_spec (fst e) k); [reflexivity|]. destruct (Z.ltb_spec k (fst e)).
  - symmetry. apply lookup_none. intros e' He. specialize (S1 e' He). lia.
  - apply IH; auto.
Qed.
Lemma lookup_in l k v : NoDup (map fst l) -> In (k, v) l -> lookup_row l k = Some v.
Proof.
  induction l as [|e l IH]; intros N Hi; [destruct Hi|]. cbn in *. inversion N; subst. destruct Hi as [->|Hi]; [cbn; rewrite Z.eqb_refl; reflexivity|].
  destruct (Z.eqb_spec (fst e) k); [|auto]. exfalso. apply H1. subst k. apply (in_map fst) in Hi. exact Hi.
Qed.
Lemma lookup_perm l l' k : NoDup (map fst l) -> Permutation l l' -> lookup_row l k = lookup_row l' k.
Proof.
  intros N P. assert (N' : NoDup (map fst l')) by (eapply Permutation_NoDup; [apply Permutation_map; exact P|exact N]).
  destruct (lookup_row l' k) as [v|] eqn:E.
  - assert (G : forall t, lookup_row t k = Some v -> In (k, v) t).
    { induction t as [|e t IH]; cbn; [discriminate|]. destruct (Z.eqb_spec (fst e) k); [intros [= <-]; left; destruct e; cbn in *; congruence|intros; right; auto]. }
    apply lookup_in; auto. apply (Permutation_in _ (Permutation_sym P)). apply G. exact E.
  - apply lookup_none. intros e He Ek. apply (Permutation_in _ P) in He. destruct e as [k' v]. cbn in Ek. subst k'. rewrite (lookup_in l' k v N' He) in E. discriminate.
Qed.
Lemma lookup_map (g : Z -> Z) l k : (forall e, In e l -> g (fst e) = g k -> fst e = k) -> lookup_row (map (fun e => (g (fst e), snd e)) l) (g k) = lookup_row l k.
Proof.
  induction l as [|e l IH]; intros I; [reflexivity|]. cbn. destruct (Z.eqb_spec (fst e) k) as [E|E]; [rewrite E, Z.eqb_refl; reflexivity|].
  rewrite (proj2 (Z.eqb_neq _ _)) by (intros X; apply E; apply I; [left; auto|auto]). apply IH. intros; apply I; [right; auto|auto].
Qed.
Lemma lookup_app l l' k : lookup_row (l ++ l') k = match lookup_row l k with Some v => Some v | None => lookup_row l' k end.
Proof. induction l as [|e l IH]; [reflexivity|]. cbn. destruct (fst e =? k); auto. Qed.
Lemma lookup_shift a l k : lookup_row (map (fun e => (a + fst e, snd e)) l) (a + k) = lookup_row l k.
Proof. apply (lookup_map (fun z => a + z)). intros. lia. Qed.
Lemma sorted_nodup (l : list (Z * xq)) : sorted l -> NoDup (map fst l).
Proof.
  induction l as [|e l IH]; intros S; [constructor|]. destruct S as [S1 S2]. cbn. constructor; [|auto]. intros Hi. apply in_map_iff in Hi. destruct Hi as (e' & E & He). specialize (S1 e' He). lia.
Qed.

Section Sparse.
Variables (b : Z) (nu : numbering) (u u' : usparse xq).
Hypothesis (W : wf_sparse u) (W' : wf_sparse u') (RS : renum_sparse b nu u u') (Hr : renumbers (u_nC (us_v u)) (u_nComp (us_v u)) nu) (Pa : paired (us_v u)) (Pa' : paired (us_v u')).
Let n := u_nV (us_v u).
Let nC := u_nC (us_v u).
Let m := u_nComp (us_v u).
Let RV := ns_v _ _ _ _ RS.
Let V := ws_v _ W.
Let pl := place nC m nu.
Lemma rs_dims : u_nV (us_v u') = n /\ u_nC (us_v u') = nC /\ u_nComp (us_v u') = m.
Proof. split; [|split]; apply RV. Qed.
Lemma rs_sizes : 0 < n /\ 0 <= nC /\ 0 < m.
Proof. split; [|split]; apply V. Qed.
Lemma pl_inj : permutes (nC + 2 * m) pl.
Proof. destruct rs_sizes as (S1 & S2 & S3). apply place_permutes; auto. lia. Qed.

(** A sparse problem of this size *)
Definition sized (w : usparse xq) : Prop := wf_sparse w /\ u_nV (us_v w) = n /\ u_nC (us_v w) = nC /\ u_nComp (us_v w) = m.
Lemma sized_u : sized u. Proof. split; auto. Qed.
Lemma sized_u' : sized u'. Proof. split; [exact W'|apply rs_dims]. Qed.
Lemma col_ok (k : Z) cols j : wf_cols k n cols -> 0 <= j < n -> sorted (col cols j) /\ forall e : Z * xq, In e (col cols j) -> 0 <= fst e < k.
Proof.
  intros (L & B & S) Hj. assert (I : In (col cols j) cols) by (unfold col, at_; apply nth_In; unfold len in L; lia). split; [apply S; auto|]. intros [r x] He. eapply B; eauto.
Qed.
Lemma cols_of w : sized w -> wf_cols nC n (us_Acols w) /\ wf_cols m n (us_L w) /\ wf_cols m n (us_R w).
Proof. intros (Ww & E1 & E2 & E3). pose proof (ws_A _ Ww) as A. pose proof (ws_L _ Ww) as L. pose proof (ws_R _ Ww) as R. rewrite E1, E2 in A. rewrite E1, E3 in L, R. auto. Qed.
Lemma stacked_eq w j : sized w -> stacked w j = col (us_Acols w) j ++ map (fun e => (nC + fst e, snd e)) (col (us_L w) j) ++ map (fun e => (nC + m + fst e, snd e)) (col (us_R w) j).
Proof. intros (_ & E1 & E2 & E3). unfold stacked. rewrite E2, E3. reflexivity. Qed.
Lemma ALR_col w j : sized w -> 0 <= j < n -> col (us_ALR w) j = stacked w j.
Proof. intros (_ & E1 & E2 & E3) Hj. unfold us_ALR, stack_cols, col at 1. rewrite E1. rewrite at_tab by auto. reflexivity. Qed.
Lemma stacked_rows w j e : sized w -> 0 <= j < n -> In e (stacked w j) -> 0 <= fst e < nC + 2 * m.
Proof.
  intros S Hj. destruct (cols_of w S) as (A & L & R). rewrite stacked_eq by auto. destruct rs_sizes as (S1 & S2 & S3). intros He. apply in_app_or in He. destruct He as [He|He].
  - pose proof (proj2 (col_ok _ _ j A Hj) e He). lia.
  - apply in_app_or in He. destruct He as [He|He]; apply in_map_iff in He; destruct He as (e' & <- & He); cbn [fst].
    + pose proof (proj2 (col_ok _ _ j L Hj) e' He). lia.
    + pose proof (proj2 (col_ok _ _ j R Hj) e' He). lia.
Qed.
Lemma nodup_app {X} (l l' : list X) : NoDup l -> NoDup l' -> (forall x, In x l -> ~ In x l') -> NoDup (l ++ l').
Proof.
  induction l as [|a l IH]; intros N N' D; [exact N'|]. inversion N; subst. cbn. constructor.
  - intros Hi. apply in_app_or in Hi. destruct Hi; [contradiction|]. apply (D a); [left; auto|auto].
  - apply IH; auto. intros x Hx. apply D. right; auto.
Qed.
Lemma stacked_nodup w j : sized w -> 0 <= j < n -> NoDup (map fst (stacked w j)).
Proof.
  intros S Hj. destruct (cols_of w S) as (A & L & R). destruct rs_sizes as (S1 & S2 & S3). rewrite stacked_eq by auto. rewrite !map_app, !map_map. cbn [fst].
  assert (SH : forall a l, NoDup (map fst l) -> NoDup (map (fun e : Z * xq => a + fst e) l)).
  { intros a l Nl. rewrite <- (map_map fst (fun z => a + z)). induction (map fst l) as [|z t IH]; [constructor|]. inversion Nl; subst. cbn. constructor; [|auto]. intros Hi. apply in_map_iff in Hi. destruct Hi as (z' & E & Hz). assert (z' = z) by lia. subst. contradiction. }
  destruct (col_ok _ _ j A Hj) as [A1 A2]. destruct (col_ok _ _ j L Hj) as [L1 L2]. destruct (col_ok _ _ j R Hj) as [R1 R2].
  apply nodup_app; [apply sorted_nodup; auto| |].
  - apply nodup_app; [apply SH, sorted_nodup; auto|apply SH, sorted_nodup; auto|].
    intros z Hz Hz'. apply in_map_iff in Hz. apply in_map_iff in Hz'. destruct Hz as (e & <- & He). destruct Hz' as (e' & E & He'). specialize (L2 e He). specialize (R2 e' He'). lia.
  - intros z Hz Hz'. apply in_map_iff in Hz. destruct Hz as (e & <- & He). specialize (A2 e He). apply in_app_or in Hz'. destruct Hz' as [Hz'|Hz']; apply in_map_iff in Hz'; destruct Hz' as (e' & E & He').
    + specialize (L2 e' He'). lia.
    + specialize (R2 e' He'). lia.
Qed.
Lemma rs_perm j : 0 <= j < n -> Permutation (map (fun e => (pl (fst e), snd e)) (stacked u' j)) (stacked u j).
Proof. intros Hj. exact (ns_rows _ _ _ _ RS j Hj). Qed.

(** Transposed product *)
Lemma rs_tA y y' : renum 0 (nC + 2 * m) pl y y' -> tmul_csc (us_ALR u') y' n = tmul_csc (us_ALR u) y n.
Proof.
  intros (_ & _ & _ & Y). unfold tmul_csc. apply tab_ext. intros j Hj. rewrite !ALR_col by (auto using sized_u, sized_u'). unfold tcolsum.
  rewrite <- (fold_perm (fun t e => (t + at_ a_zero y (fst e) * snd e)%num) _ _ (fun a e e' => add_swap _ _ _) (rs_perm j Hj)).
  rewrite fold_left_map'. apply fold_ext. intros a e He. cbn [fst snd]. pose proof (stacked_rows u' j e sized_u' Hj He) as B. specialize (Y (fst e) B). rewrite !Z.add_0_l in Y. rewrite Y. reflexivity.
Qed.

(** Products with L and R as rows of the stack *)
Lemma rowstep_skip x k j (l : list (Z * xq)) t : (forall e, In e l -> fst e <> k) -> fold_left (rowstep x k j) l t = t.
Proof. revert t. induction l as [|e l IH]; intros t N; [reflexivity|]. cbn [fold_left]. unfold rowstep at 2. rewrite (proj2 (Z.eqb_neq _ _)) by (apply N; left; auto). apply IH. intros; apply N; right; auto. Qed.
Lemma rowstep_shift x a k j (l : list (Z * xq)) t : fold_left (rowstep x (a + k) j) (map (fun e => (a + fst e, snd e)) l) t = fold_left (rowstep x k j) l t.
Proof.
  rewrite fold_left_map'. apply fold_ext. intros s e _. unfold rowstep. cbn [fst snd].
  destruct (Z.eqb_spec (fst e) k) as [->|N]; [rewrite Z.eqb_refl; reflexivity|]. rewrite (proj2 (Z.eqb_neq _ _)) by lia. reflexivity.
Qed.
Lemma rowsum_ext c1 c2 (x : list xq) i1 i2 : (forall j t, 0 <= j < n -> fold_left (rowstep x i1 j) (col c1 j) t = fold_left (rowstep x i2 j) (col c2 j) t) -> rowsum c1 x i1 n = rowsum c2 x i2 n.
Proof.
  intros E. unfold rowsum. assert (G : forall l, (forall k, In k l -> (k < Z.to_nat n)%nat) -> forall t : xq,
    fold_left (fun t k => fold_left (rowstep x i1 (Z.of_nat k)) (col c1 (Z.of_nat k)) t) l t = fold_left (fun t k => fold_left (rowstep x i2 (Z.of_nat k)) (col c2 (Z.of_nat k)) t) l t).
  { induction l as [|k l IH]; intros B t; [reflexivity|]. cbn [fold_left]. rewrite E by (pose proof (B k (or_introl eq_refl)); lia). apply IH. intros; apply B; right; auto. }
  apply G. intros k Hk. apply in_seq in Hk. lia.
Qed.
Lemma rowsum_L w x i : sized w -> 0 <= i < m -> rowsum (us_L w) x i n = rowsum (us_ALR w) x (nC + i) n.
Proof.
  intros S Hi. destruct (cols_of w S) as (A & L & R). apply rowsum_ext. intros j t Hj. rewrite ALR_col by auto. rewrite stacked_eq by auto. rewrite !fold_left_app. rewrite rowstep_shift.
  rewrite (rowstep_skip _ _ _ (map (fun e => (nC + m + fst e, snd e)) (col (us_R w) j))).
  - rewrite (rowstep_skip _ _ _ (col (us_Acols w) j)); [reflexivity|]. intros e He. pose proof (proj2 (col_ok _ _ j A Hj) e He). lia.
  - intros e He. apply in_map_iff in He. destruct He as (e' & <- & He). pose proof (proj2 (col_ok _ _ j R Hj) e' He). cbn. lia.
Qed.
Lemma rowsum_R w x i : sized w -> 0 <= i < m -> rowsum (us_R w) x i n = rowsum (us_ALR w) x (nC + m + i) n.
Proof.
  intros S Hi. destruct (cols_of w S) as (A & L & R). apply rowsum_ext. intros j t Hj. rewrite ALR_col by auto. rewrite stacked_eq by auto. rewrite !fold_left_app. rewrite rowstep_shift.
  rewrite (rowstep_skip _ _ _ (map (fun e => (nC + fst e, snd e)) (col (us_L w) j))).
  - rewrite (rowstep_skip _ _ _ (col (us_Acols w) j)); [reflexivity|]. intros e He. pose proof (proj2 (col_ok _ _ j A Hj) e He). lia.
  - intros e He. apply in_map_iff in He. destruct He as (e' & <- & He). pose proof (proj2 (col_ok _ _ j L Hj) e' He). cbn. lia.
Qed.
Lemma rowsum_pl x k : 0 <= k < nC + 2 * m -> rowsum (us_ALR u') x k n = rowsum (us_ALR u) x (pl k) n.
Proof.
  intros Hk. apply rowsum_ext. intros j t Hj. rewrite !ALR_col by (auto using sized_u, sized_u').
  assert (C : forall a (e e' : Z * xq), rowstep x (pl k) j (rowstep x (pl k) j a e) e' = rowstep x (pl k) j (rowstep x (pl k) j a e') e).
  { intros a e e'. unfold rowstep. destruct (fst e =? pl k), (fst e' =? pl k); try reflexivity. apply add_swap. }
  rewrite <- (fold_perm (rowstep x (pl k) j) _ _ C (rs_perm j Hj)). rewrite fold_left_map'. apply fold_ext. intros a e He. unfold rowstep. cbn [fst snd].
  pose proof (stacked_rows u' j e sized_u' Hj He) as B. destruct (Z.eqb_spec (fst e) k) as [->|N]; [rewrite Z.eqb_refl; reflexivity|].
  rewrite (proj2 (Z.eqb_neq _ _)); [reflexivity|]. intros E. apply N. apply (proj2 pl_inj); auto.
Qed.
Lemma rs_mulL x i : 0 <= i < m -> at_ a_zero (mul_csc (us_L u') x m n) i = at_ a_zero (if nb_flip nu i then mul_csc (us_R u) x m n else mul_csc (us_L u) x m n) (nb_pair nu i).
Proof.
  intros Hi. pose proof (proj1 (proj2 Hr) i Hi) as Hp. destruct rs_sizes as (S1 & S2 & S3). unfold mul_csc. rewrite at_tab by auto. rewrite rowsum_L by (auto using sized_u'). rewrite rowsum_pl by lia. unfold pl. rewrite place_L by auto.
  destruct (nb_flip nu i); rewrite at_tab by auto; [rewrite rowsum_R by (auto using sized_u)|rewrite rowsum_L by (auto using sized_u)]; reflexivity.
Qed.
Lemma rs_mulR x i : 0 <= i < m -> at_ a_zero (mul_csc (us_R u') x m n) i = at_ a_zero (if nb_flip nu i then mul_csc (us_L u) x m n else mul_csc (us_R u) x m n) (nb_pair nu i).
Proof.
  intros Hi. pose proof (proj1 (proj2 Hr) i Hi) as Hp. destruct rs_sizes as (S1 & S2 & S3). unfold mul_csc. rewrite at_tab by auto. rewrite rowsum_R by (auto using sized_u'). rewrite rowsum_pl by lia. unfold pl. rewrite place_R by auto.
  destruct (nb_flip nu i); rewrite at_tab by auto; [rewrite rowsum_L by (auto using sized_u)|rewrite rowsum_R by (auto using sized_u)]; reflexivity.
Qed.

(** The complementarity matrix *)
(** Row of the other side of the pair, -1 for a constraint of A.  No LCQPow code. *)
Definition opp (k : Z) : Z := if k <? nC then -1 else if k <? nC + m then k + m else k - m.
(** No LCQPow code. *)
Definition wstep (c : list (Z * xq)) (t : xq) (e : Z * xq) : xq := match lookup_row c (opp (fst e)) with Some x => (t + snd e * x)%num | None => t end.
Lemma stacked_lookup w j : sized w -> 0 <= j < n -> lookup_row (stacked w j) (-1) = None /\
  (forall i, 0 <= i < m -> lookup_row (stacked w j) (nC + i) = find_row (col (us_L w) j) i /\ lookup_row (stacked w j) (nC + m + i) = find_row (col (us_R w) j) i).
Proof.
  intros S Hj. destruct (cols_of w S) as (A & L & R). destruct rs_sizes as (S1 & S2 & S3). split.
  - apply lookup_none. intros e He. pose proof (stacked_rows w j e S Hj He). lia.
  - intros i Hi. destruct (col_ok _ _ j A Hj) as [A1 A2]. destruct (col_ok _ _ j L Hj) as [L1 L2]. destruct (col_ok _ _ j R Hj) as [R1 R2].
    rewrite stacked_eq by auto. rewrite !lookup_app. rewrite !(lookup_none (col (us_Acols w) j)) by (intros e He; specialize (A2 e He); lia). rewrite !lookup_shift. split.
    + rewrite <- find_lookup by auto. destruct (find_row (col (us_L w) j) i); [reflexivity|]. apply lookup_none. intros e He. apply in_map_iff in He. destruct He as (e' & <- & He). specialize (R2 e' He). cbn. lia.
    + rewrite (lookup_none (map _ (col (us_L w) j))); [symmetry; apply find_lookup; auto|]. intros e He. apply in_map_iff in He. destruct He as (e' & <- & He). specialize (L2 e' He). cbn. lia.
Qed.
Lemma sym_stacked w i j : sized w -> 0 <= i < n -> 0 <= j < n -> sym_csc (us_L w) (us_R w) i j = fold_left (wstep (stacked w j)) (stacked w i) a_zero.
Proof.
  intros S Hi Hj. destruct (cols_of w S) as (A & L & R). destruct rs_sizes as (S1 & S2 & S3). destruct (stacked_lookup w j S Hj) as [K1 K2]. rewrite (stacked_eq w i) by auto. rewrite !fold_left_app.
  assert (EA : fold_left (wstep (stacked w j)) (col (us_Acols w) i) a_zero = a_zero).
  { rewrite (fold_ext _ (fun t _ => t)); [induction (col (us_Acols w) i); auto|]. intros a e He. pose proof (proj2 (col_ok _ _ i A Hi) e He). unfold wstep, opp. rewrite (proj2 (Z.ltb_lt _ _)) by lia. rewrite K1. reflexivity. }
  rewrite EA. rewrite !fold_left_map'. unfold sym_csc.
  assert (E1 : fold_left (symstep (col (us_R w) j)) (col (us_L w) i) a_zero = fold_left (fun c x => wstep (stacked w j) c (nC + fst x, snd x)) (col (us_L w) i) a_zero).
  { apply fold_ext. intros a e He. pose proof (proj2 (col_ok _ _ i L Hi) e He) as B. unfold symstep, wstep, opp. cbn [fst snd]. rewrite (proj2 (Z.ltb_ge _ _)) by lia. rewrite (proj2 (Z.ltb_lt _ _)) by lia.
    replace (nC + fst e + m) with (nC + m + fst e) by ring. rewrite (proj2 (K2 (fst e) B)). reflexivity. }
  rewrite <- E1. apply fold_ext. intros a e He. pose proof (proj2 (col_ok _ _ i R Hi) e He) as B. unfold symstep, wstep, opp. cbn [fst snd]. rewrite (proj2 (Z.ltb_ge _ _)) by lia. rewrite (proj2 (Z.ltb_ge _ _)) by lia.
  replace (nC + m + fst e - m) with (nC + fst e) by ring. rewrite (proj1 (K2 (fst e) B)). reflexivity.
Qed.
Lemma opp_pl k : 0 <= k < nC + 2 * m -> (opp k = -1 /\ opp (pl k) = -1) \/ (0 <= opp k < nC + 2 * m /\ opp (pl k) = pl (opp k)).
Proof.
  intros Hk. destruct rs_sizes as (S1 & S2 & S3). pose proof (proj1 (proj1 Hr) : forall i, 0 <= i < nC -> _) as R1. pose proof (proj1 (proj2 Hr) : forall i, 0 <= i < m -> _) as P1.
  destruct (place_cases nC m k Hk) as [Kl|[(i & Hi & ->)|(i & Hi & ->)]].
  - left. unfold pl. rewrite place_lo by lia. specialize (R1 k Kl). unfold opp. rewrite !(proj2 (Z.ltb_lt _ _)) by lia. auto.
  - right. specialize (P1 i Hi). assert (E : opp (nC + i) = nC + m + i) by (unfold opp; rewrite (proj2 (Z.ltb_ge _ _)) by lia; rewrite (proj2 (Z.ltb_lt _ _)) by lia; ring). rewrite E. split; [lia|].
    unfold pl. rewrite place_L, place_R by auto. unfold opp. destruct (nb_flip nu i).
    + rewrite (proj2 (Z.ltb_ge _ _)) by lia. rewrite (proj2 (Z.ltb_ge _ _)) by lia. ring.
    + rewrite (proj2 (Z.ltb_ge _ _)) by lia. rewrite (proj2 (Z.ltb_lt _ _)) by lia. ring.
  - right. specialize (P1 i Hi). assert (E : opp (nC + m + i) = nC + i) by (unfold opp; rewrite (proj2 (Z.ltb_ge _ _)) by lia; rewrite (proj2 (Z.ltb_ge _ _)) by lia; ring). rewrite E. split; [lia|].
    unfold pl. rewrite place_L, place_R by auto. unfold opp. destruct (nb_flip nu i).
    + rewrite (proj2 (Z.ltb_ge _ _)) by lia. rewrite (proj2 (Z.ltb_lt _ _)) by lia. ring.
    + rewrite (proj2 (Z.ltb_ge _ _)) by lia. rewrite (proj2 (Z.ltb_ge _ _)) by lia. ring.
Qed.
Lemma rs_sym i j : 0 <= i < n -> 0 <= j < n -> sym_csc (us_L u') (us_R u') i j = sym_csc (us_L u) (us_R u) i j.
Proof.
  intros Hi Hj. rewrite !sym_stacked by (auto using sized_u, sized_u').
  assert (C : forall a (e e' : Z * xq), wstep (stacked u j) (wstep (stacked u j) a e) e' = wstep (stacked u j) (wstep (stacked u j) a e') e).
  { intros a e e'. unfold wstep. destruct (lookup_row _ (opp (fst e))), (lookup_row _ (opp (fst e'))); try reflexivity. apply add_swap. }
  rewrite <- (fold_perm (wstep (stacked u j)) _ _ C (rs_perm i Hi)). rewrite fold_left_map'. apply fold_ext. intros a e He. unfold wstep. cbn [fst snd].
  pose proof (stacked_rows u' i e sized_u' Hi He) as B.
  assert (E : lookup_row (stacked u j) (opp (pl (fst e))) = lookup_row (stacked u' j) (opp (fst e))).
  { destruct (opp_pl (fst e) B) as [[-> ->]|[B' ->]].
    - rewrite (proj1 (stacked_lookup u j sized_u Hj)), (proj1 (stacked_lookup u' j sized_u' Hj)). reflexivity.
    - rewrite (lookup_perm (stacked u j) (map (fun e => (pl (fst e), snd e)) (stacked u' j))); [|apply stacked_nodup; auto using sized_u|apply Permutation_sym, rs_perm; auto].
      apply lookup_map. intros e' He' E. apply (proj2 pl_inj); auto. eapply stacked_rows; [apply sized_u'|exact Hj|exact He']. }
  rewrite E. reflexivity.
Qed.
Lemma rs_C : us_C u' = us_C u.
Proof.
  destruct rs_dims as (E1 & E2 & E3). unfold us_C, symm_cols. rewrite E1. fold n. apply tab_ext. intros j Hj. unfold tabcat. f_equal. apply tab_ext. intros i Hi. rewrite rs_sym by auto. reflexivity.
Qed.

(** The linear term of the penalty *)
(** No LCQPow code. *)
Definition lw (l r : list xq) (k : Z) : xq := if k <? nC + m then at_ a_zero r (k - nC) else at_ a_zero l (k - nC - m).
(** No LCQPow code. *)
Definition lstep (l r : list xq) (t : xq) (e : Z * xq) : xq := if fst e <? nC then t else (t + lw l r (fst e) * snd e)%num.
Lemma lin_stacked w l r j : sized w -> 0 <= j < n -> tcolsum (tcolsum a_zero (col (us_R w) j) l) (col (us_L w) j) r = fold_left (lstep l r) (stacked w j) a_zero.
Proof.
  intros S Hj. destruct (cols_of w S) as (A & L & R). destruct rs_sizes as (S1 & S2 & S3). rewrite stacked_eq by auto. rewrite !fold_left_app.
  assert (EA : fold_left (lstep l r) (col (us_Acols w) j) a_zero = a_zero).
  { rewrite (fold_ext _ (fun t _ => t)); [induction (col (us_Acols w) j); auto|]. intros a e He. pose proof (proj2 (col_ok _ _ j A Hj) e He). unfold lstep. rewrite (proj2 (Z.ltb_lt _ _)) by lia. reflexivity. }
  rewrite EA. rewrite !fold_left_map'. unfold tcolsum. rewrite fold_swap by apply additive_t.
  rewrite (fold_ext (fun c x => lstep l r c (nC + fst x, snd x)) (fun t e => (t + at_ a_zero r (fst e) * snd e)%num)).
  - apply fold_ext. intros a e He. pose proof (proj2 (col_ok _ _ j R Hj) e He). unfold lstep, lw. cbn [fst snd]. rewrite (proj2 (Z.ltb_ge _ _)) by lia. rewrite (proj2 (Z.ltb_ge _ _)) by lia.
    replace (nC + m + fst e - nC - m) with (fst e) by ring. reflexivity.
  - intros a e He. pose proof (proj2 (col_ok _ _ j L Hj) e He). unfold lstep, lw. cbn [fst snd]. rewrite (proj2 (Z.ltb_ge _ _)) by lia. rewrite (proj2 (Z.ltb_lt _ _)) by lia.
    replace (nC + fst e - nC) with (fst e) by ring. reflexivity.
Qed.
Lemma rs_gphi : sparse_gphi u' = sparse_gphi u.
Proof.
  destruct rs_dims as (E1 & E2 & E3). destruct rs_sizes as (S1 & S2 & S3). unfold sparse_gphi.
  destruct (rn_given _ nu _ _ RV Pa Pa') as [(G1 & G2 & G3 & G4)|(l & r & l' & r' & G1 & G2 & G3 & G4 & E)]; [rewrite G1, G3; reflexivity|]. rewrite G1, G2, G3, G4, E1. fold n. cbv zeta. f_equal.
  apply tab_ext. intros j Hj. f_equal. unfold addtmul_csc. rewrite !at_tab by lia. rewrite !lin_stacked by (auto using sized_u, sized_u').
  assert (C : forall a (e e' : Z * xq), lstep l r (lstep l r a e) e' = lstep l r (lstep l r a e') e).
  { intros a e e'. unfold lstep. destruct (fst e <? nC), (fst e' <? nC); try reflexivity. apply add_swap. }
  rewrite <- (fold_perm (lstep l r) _ _ C (rs_perm j Hj)). rewrite fold_left_map'. apply fold_ext. intros a e He. unfold lstep. cbn [fst snd].
  pose proof (stacked_rows u' j e sized_u' Hj He) as B. pose proof (proj1 (proj1 Hr) : forall i, 0 <= i < nC -> _) as R1. pose proof (proj1 (proj2 Hr) : forall i, 0 <= i < m -> _) as P1.
  destruct (place_cases nC m (fst e) B) as [Kl|[(i & Hi & Ei)|(i & Hi & Ei)]]; unfold pl.
  - rewrite place_lo by lia. specialize (R1 _ Kl). rewrite !(proj2 (Z.ltb_lt _ _)) by lia. reflexivity.
  - rewrite Ei. rewrite place_L by auto. specialize (P1 i Hi). destruct (E i Hi) as [El Er]. rewrite (proj2 (Z.ltb_ge (nC + i) nC)) by lia.
    rewrite (proj2 (Z.ltb_ge _ nC)) by (destruct (nb_flip nu i); lia). f_equal. f_equal. unfold lw. rewrite (proj2 (Z.ltb_lt (nC + i) _)) by lia. replace (nC + i - nC) with i by ring. rewrite Er.
    destruct (nb_flip nu i); [rewrite (proj2 (Z.ltb_ge _ _)) by lia|rewrite (proj2 (Z.ltb_lt _ _)) by lia]; f_equal; ring.
  - rewrite Ei. rewrite place_R by auto. specialize (P1 i Hi). destruct (E i Hi) as [El Er]. rewrite (proj2 (Z.ltb_ge (nC + m + i) nC)) by lia.
    rewrite (proj2 (Z.ltb_ge _ nC)) by (destruct (nb_flip nu i); lia). f_equal. f_equal. unfold lw. rewrite (proj2 (Z.ltb_ge (nC + m + i) _)) by lia. replace (nC + m + i - nC - m) with i by ring. rewrite El.
    destruct (nb_flip nu i); [rewrite (proj2 (Z.ltb_lt _ _)) by lia|rewrite (proj2 (Z.ltb_ge _ _)) by lia]; f_equal; ring.
Qed.
Lemma rs_rows : renum_rows n (nC + 2 * m) pl (csc_mat (nC + 2 * m) n (us_ALR u)) (csc_mat (nC + 2 * m) n (us_ALR u')).
Proof.
  right. exists (us_ALR u), (us_ALR u'). split; [reflexivity|]. split; [reflexivity|]. intros j Hj. rewrite !ALR_col by (auto using sized_u, sized_u'). apply rs_perm. exact Hj.
Qed.
End Sparse.

Lemma p_C74_sparse nu u u' opt orc orc' rand b : wf_sparse u -> wf_sparse u' -> paired (us_v u) -> paired (us_v u') -> fin_lower (us_v u) -> concat (us_C u) <> [] ->
  o_qpSolver opt <> QPOASES_DENSE -> osqp_ok (us_v u) opt -> b = (match o_qpSolver opt with OSQP_SPARSE => 0 | _ => u_nV (us_v u) end) ->
  renumbers (u_nC (us_v u)) (u_nComp (us_v u)) nu -> renum_sparse b nu u u' ->
  order_blind (u_nV (us_v u)) b (u_nC (us_v u) + 2 * u_nComp (us_v u)) (place (u_nC (us_v u)) (u_nComp (us_v u)) nu) orc orc' -> good_for (u_nComp (us_v u)) nu orc ->
  renum_runs (u_nV (us_v u)) b (u_nC (us_v u) + 2 * u_nComp (us_v u)) (place (u_nC (us_v u)) (u_nComp (us_v u)) nu) (solve_sparse u opt orc rand) (solve_sparse u' opt orc' rand).
Proof.
  intros W W' Pa Pa' FL NZ Hq Ho Eb Hr RS HO HN. pose proof (ws_v _ W) as V. pose proof (ws_v _ W') as V'. pose proof (wv_nV _ V). pose proof (wv_nC _ V). pose proof (wv_nComp _ V).
  assert (Eb' : b = if osqp opt then 0 else u_nV (us_v u)) by (rewrite Eb; unfold osqp; destruct (o_qpSolver opt); reflexivity).
  pose proof (ns_v _ _ _ _ RS) as RV. pose proof (rn_fin _ _ _ _ V V' RV Hr Pa Pa' FL) as FL'. destruct (rs_dims _ _ _ _ RS) as (D1 & D2 & D3).
  assert (Ho' : osqp_ok (us_v u') opt).
  { intros Q. destruct (Ho Q) as (A & B & C). rewrite (nv_lb _ _ _ _ RV), (nv_ub _ _ _ _ RV). split; [exact A|]. split; [exact B|]. pose proof (nv_y0 _ _ _ _ RV) as Y. rewrite C in Y. destruct (u_y0 (us_v u')); [contradiction|reflexivity]. }
  assert (EC : us_C u' = us_C u) by (eapply rs_C; eauto).
  assert (NZ' : concat (us_C u') <> []) by (rewrite EC; exact NZ).
  pose proof (solve_sparse_ref u opt orc rand W Pa FL NZ Hq Ho) as S1. pose proof (solve_sparse_ref u' opt orc' rand W' Pa' FL' NZ' Hq Ho') as S2.
  destruct (good_pred _ _ _ HN) as (P & Pneg & Pmin & PN).
  eapply renum_conclude with (p := sparse_ops u opt) (P := P) (nu := nu); [| | | | | | | | |exact S1|exact S2|]; try reflexivity.
  all: try (cbn; exact (eq_sym Eb')).
  all: try (unfold p_nD, p_nA; cbn; rewrite ?D1, ?D2, ?D3; reflexivity).
  all: try (unfold sparse_pd, sparse_pd0; destruct (osqp opt); cbn; f_equal; exact D1).
  all: try (unfold sparse_pd, sparse_pd0, p_nD, p_nA; cbn [sparse_ops p_off p_nC p_nComp]; destruct (osqp opt); cbn; f_equal; rewrite ?D1, ?D2, ?D3; lia).
  { intros r o ES. eapply sparse_algo; [exact W|exact Pa|exact FL|exact NZ|exact Hq|exact Ho|exact ES]. }
  set (n := u_nV (us_v u)) in *. set (nC := u_nC (us_v u)) in *. set (m := u_nComp (us_v u)) in *.
  assert (EA : u_nA (us_v u') = u_nA (us_v u)) by (unfold u_nA; rewrite D2, D3; reflexivity).
  assert (EA' : u_nA (us_v u) = nC + 2 * m) by (unfold u_nA; reflexivity).
  pose proof (run_rn (sparse_ops u opt) (csc_mat (u_nA (us_v u)) n (us_ALR u')) (u_lower (us_v u')) (u_upper (us_v u'))
    (fun y => tmul_csc (us_ALR u') y n) (fun x => mul_csc (us_L u') x m n) (fun x => mul_csc (us_R u') x m n) nu P rand) as R.
  assert (EO : sparse_ops u' opt =
    mkOps xq (@tag xq -> xq) opt (o_qpSolver opt) n nC m (if osqp opt then 0 else n) (negb (osqp opt)) (u_g (us_v u)) (sparse_gphi u) (u_pc (us_v u))
    (csc_mat n n (sparse_H u opt)) (csc_mat (u_nA (us_v u)) n (us_ALR u')) (u_lower (us_v u')) (u_upper (us_v u'))
    (if osqp opt then None else Some (bnd n (u_lb (us_v u)) a_ninf)) (if osqp opt then None else Some (bnd n (u_ub (us_v u)) a_pinf))
    (fun rho => tval rho) (fun rho h => bump (rho * (a_one - a_one / o_penaltyUpdateFactor opt))%num h)
    (fun h x c => affine_csc a_one (vcols h (us_tags u)) x c n) (fun h x => quad_csc (vcols h (us_tags u)) x n)
    (fun rho x c => affine_csc rho (us_C u) x c n) (fun x => quad_csc (us_C u) x n) (fun x => quad_csc (us_Q u) x n)
    (fun y => tmul_csc (us_ALR u') y n) (fun x => mul_csc (us_L u') x m n) (fun x => mul_csc (us_R u') x m n)).
  { unfold sparse_ops, sparse_H, us_tags. rewrite (rs_gphi b nu u u' W W' RS Hr Pa Pa'), EC, (rn_pc _ nu _ _ V RV Hr Pa Pa'), (ns_Q _ _ _ _ RS), (nv_g _ _ _ _ RV), (nv_lb _ _ _ _ RV), (nv_ub _ _ _ _ RV), EA, D1, D2, D3. reflexivity. }
  assert (EX : u_x (us_v u') = u_x (us_v u)) by (unfold u_x; rewrite (nv_x0 _ _ _ _ RV), D1; reflexivity). rewrite EX.
  cbn zeta in R. cbn [sparse_ops p_opt p_solver p_nV p_nC p_nComp p_off p_box p_g p_gphi p_pc p_matH p_matA p_lbA p_ubA p_lb p_ub p_setH p_updH p_affH p_quadH p_affC p_quadC p_quadQ p_tA p_mulL p_mulR] in R.
  fold n nC m in R. rewrite <- EO in R.
  assert (Hc : 0 <= nC) by lia. assert (Hm : 0 <= m) by lia. assert (Hb : 0 <= if osqp opt then 0 else n) by (destruct (osqp opt); lia).
  assert (Hx : negb (osqp opt) = true -> n <= if osqp opt then 0 else n) by (destruct (osqp opt); [discriminate|lia]).
  specialize (R Hb Hx Hc Hm (rs_rows b nu u u' W W' RS) (rn_lower _ nu _ _ V V' RV Hr) (rn_upper _ nu _ _ V V' RV Hr)).
  assert (HT : forall y y', renum 0 (nC + 2 * m) (place nC m nu) y y' -> tmul_csc (us_ALR u') y' n = tmul_csc (us_ALR u) y n) by (intros; eapply (rs_tA b nu u u' W W' RS); eauto).
  rewrite <- Eb' in R.
  exact (R HT (rs_mulL b nu u u' W W' RS Hr) (rs_mulR b nu u u' W W' RS Hr) Hr Pneg x_mul_comm Pmin orc orc' HO (fun h k _ => PN h k) (Z.to_nat (o_maxIterations opt) + 2)%nat (u_y0 (us_v u)) (u_y0 (us_v u')) (u_x (us_v u)) (nv_y0 _ _ _ _ RV)).
Qed.
