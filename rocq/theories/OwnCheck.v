(** * OwnCheck: a checker for the commands of OwnProblem.v and its soundness.  Proof layer, no LCQPow code. *)
From Coq Require Import List Bool Arith Lia.
From Verif Require Import Base OwnProblem SpecMemory.
Import ListNotations.
Local Open Scope nat_scope.

(** ** Keys *)
Lemma key_eqb_eq : forall x y, key_eqb x y = true <-> x = y.
Proof.
  intros [a b] [c e]. unfold key_eqb. cbn. destruct (obj_eq_dec a c); destruct (fld_eq_dec b e); subst; split; intros E;
    try discriminate; try reflexivity; inversion E; congruence.
Qed.
Lemma key_eqb_refl : forall x, key_eqb x x = true.
Proof. intros. apply key_eqb_eq. reflexivity. Qed.
Lemma key_eqb_neq : forall x y, x <> y -> key_eqb x y = false.
Proof. intros x y N. destruct (key_eqb x y) eqn:E; [|reflexivity]. apply key_eqb_eq in E. contradiction. Qed.

(** Sets of keys as lists *)
Definition has (k : key) (l : list key) : bool := existsb (key_eqb k) l.
(** Part of the abstract interpreter for ownership. No LCQPow code. *)
Definition add (k : key) (l : list key) : list key := if has k l then l else k :: l.
(** Part of the abstract interpreter for ownership. No LCQPow code. *)
Definition rem (k : key) (l : list key) : list key := filter (fun x => negb (key_eqb k x)) l.
(** Part of the abstract interpreter for ownership. No LCQPow code. *)
Definition union (l l' : list key) : list key := fold_right add l' l.
(** Part of the abstract interpreter for ownership. No LCQPow code. *)
Definition incl_b (l l' : list key) : bool := forallb (fun k => has k l') l.

Lemma has_In : forall k l, has k l = true <-> In k l.
Proof.
  intros. unfold has. rewrite existsb_exists. split.
  - intros [x [I E]]. apply key_eqb_eq in E. subst. exact I.
  - intros I. exists k. split; [exact I | apply key_eqb_refl].
Qed.
Lemma has_false : forall k l, has k l = false <-> ~ In k l.
Proof. intros. rewrite <- has_In. destruct (has k l); split; intros; congruence. Qed.
Lemma add_In : forall k x l, In x (add k l) <-> x = k \/ In x l.
Proof.
  intros. unfold add. destruct (has k l) eqn:E.
  - apply has_In in E. split; [auto|]. intros [->|I]; assumption.
  - cbn. split; intros [I|I]; auto.
Qed.
Lemma rem_In : forall k x l, In x (rem k l) <-> x <> k /\ In x l.
Proof.
  intros. unfold rem. rewrite filter_In. split; intros [I E].
  - split; [|exact I]. intros ->. rewrite key_eqb_refl in E. discriminate.
  - split; [exact E|]. rewrite key_eqb_neq; [reflexivity|]. intros ->. contradiction.
Qed.
Lemma union_In : forall x l l', In x (union l l') <-> In x l \/ In x l'.
Proof.
  intros x l l'. induction l; cbn; [tauto|]. rewrite add_In, IHl. split; intros [I|[I|I]] || intros [[I|I]|I]; auto.
Qed.
Lemma incl_b_In : forall l l', incl_b l l' = true -> forall x, In x l -> In x l'.
Proof. unfold incl_b. intros l l' E x I. rewrite forallb_forall in E. apply has_In, E, I. Qed.

(** ** Blocks *)
Lemma set_blk_nth : forall l a b i, nth i (set_blk a b l) false = if (a =? i) && (a <? length l) then b else nth i l false.
Proof.
  induction l; intros; cbn [set_blk].
  - cbn [length]. replace (a <? 0) with false by (symmetry; apply Nat.ltb_ge; lia). rewrite Bool.andb_false_r. destruct a; reflexivity.
  - destruct a0.
    + destruct i; reflexivity.
    + destruct i; [reflexivity|]. cbn [set_blk nth]. rewrite IHl. cbn [length].
      replace (S a0 =? S i) with (a0 =? i) by reflexivity.
      replace (S a0 <? S (length l)) with (a0 <? length l) by (apply Bool.eq_iff_eq_true; rewrite !Nat.ltb_lt; lia). reflexivity.
Qed.
Lemma set_blk_length : forall l a b, length (set_blk a b l) = length l.
Proof. induction l; intros; [destruct a; reflexivity|]. destruct a0; cbn; [reflexivity|]. rewrite IHl. reflexivity. Qed.
Lemma live_lt : forall s a, live s a = true -> a < length (blk s).
Proof.
  unfold live. intros s a E. destruct (Nat.lt_ge_cases a (length (blk s))); [assumption|]. rewrite nth_overflow in E by lia. discriminate.
Qed.
Lemma live_new : forall b a, nth a (b ++ [true]) false = if a =? length b then true else nth a b false.
Proof.
  intros. destruct (a =? length b) eqn:E.
  - apply Nat.eqb_eq in E. subst. rewrite app_nth2, Nat.sub_diag by lia. reflexivity.
  - apply Nat.eqb_neq in E. destruct (Nat.lt_ge_cases a (length b)).
    + apply app_nth1. assumption.
    + rewrite app_nth2, (nth_overflow b) by lia. destruct (a - length b) as [|[|]] eqn:F; [lia|reflexivity|reflexivity].
Qed.

(** ** Leaked blocks stay leaked *)
Definition lost (a : nat) (s : mst) : Prop := live s a = true /\ forall k, mem s k <> Some a.

Lemma lost_forever : forall c s a b s', lost a s -> exec c s = Ok (b, s') -> lost a s'.
Proof.
  induction c; intros s a bb s' [LV NR] E; cbn [exec] in E.
  - inversion E; subst; split; assumption.
  - inversion E; subst; split; assumption.
  - inversion E; subst; clear E. split.
    + unfold live in *; cbn [blk]. rewrite live_new. destruct (a =? length (blk s)); [reflexivity|assumption].
    + intros k'. cbn [mem]. unfold set_mem. destruct (key_eqb k k'); [|apply NR].
      intros E. inversion E; subst. pose proof (live_lt _ _ LV). lia.
  - destruct (mem s k) as [i|] eqn:M; [|inversion E; subst; split; assumption].
    unfold free_blk in E. destruct (live s i) eqn:LI; [|discriminate]. inversion E; subst; clear E. split.
    + unfold live in *; cbn [blk]. rewrite set_blk_nth. destruct (i =? a) eqn:X; [|exact LV].
      apply Nat.eqb_eq in X. subst. exfalso. exact (NR _ M).
    + intros k'. cbn [mem]. unfold set_mem. destruct (key_eqb k k'); [discriminate|apply NR].
  - destruct (mem s k) as [i|] eqn:M; [|inversion E; subst; split; assumption].
    unfold free_blk in E. destruct (live s i) eqn:LI; [|discriminate]. inversion E; subst; clear E. split.
    + unfold live in *; cbn [blk]. rewrite set_blk_nth. destruct (i =? a) eqn:X; [|exact LV].
      apply Nat.eqb_eq in X. subst. exfalso. exact (NR _ M).
    + exact NR.
  - inversion E; subst; clear E. split; [exact LV|]. intros k'. cbn [mem]. unfold set_mem. destruct (key_eqb k k'); [discriminate|apply NR].
  - destruct (mem s k) as [i|]; [destruct (live s i); [|discriminate]|]; inversion E; subst; split; assumption.
  - destruct (mem s k); [eapply IHc2 | eapply IHc1]; try eassumption; split; assumption.
  - destruct (sp s); [eapply IHc1 | eapply IHc2]; try eassumption; split; assumption.
  - inversion E; subst; split; assumption.
  - destruct b; [eapply IHc1 | eapply IHc2]; try eassumption; split; assumption.
  - destruct (exec c1 s) as [[ok s1]|] eqn:E1; [|discriminate]. cbn in E.
    assert (L1 : lost a s1) by (eapply IHc1; [split|]; eassumption).
    destruct ok; [eapply IHc2; eassumption|]. inversion E; subst. exact L1.
  - destruct (exec c1 s) as [[ok s1]|] eqn:E1; [|discriminate]. cbn in E.
    assert (L1 : lost a s1) by (eapply IHc1; [split|]; eassumption).
    destruct (exec c2 s1) as [[ok2 s2]|] eqn:E2; [|discriminate]. cbn in E. inversion E; subst. eapply IHc2; eassumption.
  - assert (G : lost a s) by (split; assumption). clear LV NR. revert s G E. induction n; intros s G E.
    + inversion E; subst. exact G.
    + destruct (exec c s) as [[ok s1]|] eqn:E1; [|discriminate]. cbn in E.
      assert (L1 : lost a s1) by (eapply IHc; eassumption).
      destruct ok; [eapply IHn; eassumption|]. inversion E; subst. exact L1.
Qed.

(** ** The checker.  Abstract memory: keys that may point to a live block, and keys that may point to a freed one; for each mode. *)
Definition amem : Type := (list key * list key)%type.
(** Part of the abstract interpreter for ownership. No LCQPow code. *)
Definition aval : Type := (option amem * option amem)%type.

(** Part of the abstract interpreter for ownership. No LCQPow code. *)
Definition ajoin1 (x y : option amem) : option amem :=
  match x, y with
  | None, y => y
  | x, None => x
  | Some (m, e), Some (m', e') => Some (union m m', union e e')
  end.
(** Part of the abstract interpreter for ownership. No LCQPow code. *)
Definition ajoin (x y : aval) : aval := (ajoin1 (fst x) (fst y), ajoin1 (snd x) (snd y)).
(** Part of the abstract interpreter for ownership. No LCQPow code. *)
Definition ale1 (x y : option amem) : bool :=
  match x, y with
  | None, _ => true
  | Some _, None => false
  | Some (m, e), Some (m', e') => incl_b m m' && incl_b e e'
  end.
(** Part of the abstract interpreter for ownership. No LCQPow code. *)
Definition ale (x y : aval) : bool := ale1 (fst x) (fst y) && ale1 (snd x) (snd y).
(** Part of the abstract interpreter for ownership. No LCQPow code. *)
Definition abot : aval := (None, None).

(** Applying a partial transformer to both modes *)
Definition amap1 (f : amem -> option amem) (x : option amem) : option (option amem) :=
  match x with None => Some None | Some m => match f m with Some m' => Some (Some m') | None => None end end.
(** Part of the abstract interpreter for ownership. No LCQPow code. *)
Definition amap (f : amem -> option amem) (x : aval) : option aval :=
  match amap1 f (fst x), amap1 f (snd x) with Some a, Some b => Some (a, b) | _, _ => None end.

(** Parts of an abstract value in which a key may be null, may be non-null *)
Definition anull (k : key) (x : aval) : aval :=
  let f := option_map (fun m : amem => (rem k (fst m), rem k (snd m))) in (f (fst x), f (snd x)).
(** Part of the abstract interpreter for ownership. No LCQPow code. *)
Definition anonnull (k : key) (x : aval) : aval :=
  let f := fun o : option amem => match o with Some m => if has k (fst m) || has k (snd m) then Some m else None | None => None end in
  (f (fst x), f (snd x)).

(** [leak]: also check that no live block loses its last pointer.  Result: abstract values after success and after an error code. *)
Fixpoint ana (leak : bool) (c : cmd) (x : aval) : option (aval * aval) :=
  match c with
  | Skip => Some (x, abot)
  | Fail => Some (abot, x)
  | New k => match amap (fun m => if leak && has k (fst m) then None else Some (add k (fst m), rem k (snd m))) x with
             | Some y => Some (y, abot) | None => None end
  | Del k => match amap (fun m => if has k (snd m) then None else Some (rem k (fst m), snd m)) x with
             | Some y => Some (y, abot) | None => None end
  | Free k => match amap (fun m => if has k (snd m) then None else
                                    if has k (fst m) then Some (rem k (fst m), add k (snd m)) else Some m) x with
              | Some y => Some (y, abot) | None => None end
  | Drop k => match amap (fun m => if leak && has k (fst m) then None else Some (rem k (fst m), rem k (snd m))) x with
              | Some y => Some (y, abot) | None => None end
  | Use k => match amap (fun m => if has k (snd m) then None else Some m) x with
             | Some y => Some (y, abot) | None => None end
  | IfNull k c1 c2 => match ana leak c1 (anull k x), ana leak c2 (anonnull k x) with
                      | Some (a, b), Some (a', b') => Some (ajoin a a', ajoin b b')
                      | _, _ => None end
  | IfSp c1 c2 => match ana leak c1 (None, snd x), ana leak c2 (fst x, None) with
                  | Some (a, b), Some (a', b') => Some (ajoin a a', ajoin b b')
                  | _, _ => None end
  | SetSp b => let m := ajoin1 (fst x) (snd x) in Some (if b then (None, m) else (m, None), abot)
  | Choice _ c1 c2 => match ana leak c1 x, ana leak c2 x with
                      | Some (a, b), Some (a', b') => Some (ajoin a a', ajoin b b')
                      | _, _ => None end
  | Seq c1 c2 => match ana leak c1 x with
                 | Some (a, b) => match ana leak c2 a with Some (a', b') => Some (a', ajoin b b') | None => None end
                 | None => None end
  | Fin c1 c2 => match ana leak c1 x with
                 | Some (a, b) =>
                     match ana leak c2 a, ana leak c2 b with
                     | Some (a', b'), Some (a'', b'') => Some (a', ajoin b' (ajoin a'' b''))
                     | _, _ => None end
                 | None => None end
  | Rep _ c => match ana leak c x with
               | Some (a, b) => if ale a x then Some (x, b) else None
               | None => None end
  end.

(** ** Meaning *)
Definition shape (leak : bool) (m : amem) (s : mst) : Prop :=
  (forall k a, mem s k = Some a -> a < length (blk s) /\ (live s a = true /\ In k (fst m) \/ live s a = false /\ In k (snd m))) /\
  (forall k k' a, mem s k = Some a -> mem s k' = Some a -> k = k') /\
  (leak = true -> forall a, live s a = true -> exists k, mem s k = Some a).
(** Meaning of an abstract value in one mode. No LCQPow code. *)
Definition gam1 (leak : bool) (o : option amem) (s : mst) : Prop := match o with Some m => shape leak m s | None => False end.
(** Meaning of an abstract value. No LCQPow code. *)
Definition gam (leak : bool) (x : aval) (s : mst) : Prop := gam1 leak (if sp s then snd x else fst x) s.

Lemma shape_le : forall leak m m' s, (forall k, In k (fst m) -> In k (fst m')) -> (forall k, In k (snd m) -> In k (snd m')) ->
  shape leak m s -> shape leak m' s.
Proof.
  intros leak m m' s I J (A & B & C). split; [|split; assumption].
  intros k a E. destruct (A k a E) as (Y & Z). split; [exact Y|]. destruct Z as [[Z W]|[Z W]]; [left|right]; auto.
Qed.
Lemma gam1_ajoin_l : forall leak x y s, gam1 leak x s -> gam1 leak (ajoin1 x y) s.
Proof.
  intros leak [[m e]|] [[m' e']|] s G; cbn in *; try contradiction; try exact G.
  eapply shape_le; [| |exact G]; cbn; intros; apply union_In; auto.
Qed.
Lemma gam1_ajoin_r : forall leak x y s, gam1 leak y s -> gam1 leak (ajoin1 x y) s.
Proof.
  intros leak [[m e]|] [[m' e']|] s G; cbn in *; try contradiction; try exact G.
  eapply shape_le; [| |exact G]; cbn; intros; apply union_In; auto.
Qed.
Lemma gam_ajoin_l : forall leak x y s, gam leak x s -> gam leak (ajoin x y) s.
Proof. unfold gam, ajoin. intros. destruct (sp s); cbn [fst snd]; apply gam1_ajoin_l; assumption. Qed.
Lemma gam_ajoin_r : forall leak x y s, gam leak y s -> gam leak (ajoin x y) s.
Proof. unfold gam, ajoin. intros. destruct (sp s); cbn [fst snd]; apply gam1_ajoin_r; assumption. Qed.
Lemma gam_ale : forall leak x y s, ale x y = true -> gam leak x s -> gam leak y s.
Proof.
  intros leak x y s E G. unfold ale in E. apply andb_true_iff in E. destruct E as [E1 E2].
  unfold gam in *. assert (Z : forall u v, ale1 u v = true -> gam1 leak u s -> gam1 leak v s).
  { intros [[m e]|] [[m' e']|] F H; cbn in *; try contradiction; try discriminate.
    apply andb_true_iff in F. destruct F. eapply shape_le; [| |exact H]; cbn; apply incl_b_In; assumption. }
  destruct (sp s); [eapply Z; [exact E2|exact G] | eapply Z; [exact E1|exact G]].
Qed.
Lemma amap_gam : forall leak f x y s, amap f x = Some y -> gam leak x s ->
  exists m m', (if sp s then snd x else fst x) = Some m /\ shape leak m s /\ f m = Some m' /\ (if sp s then snd y else fst y) = Some m'.
Proof.
  intros leak f [x1 x2] y s E G. unfold amap in E. cbn [fst snd] in *.
  destruct (amap1 f x1) as [y1|] eqn:F1; [|discriminate]. destruct (amap1 f x2) as [y2|] eqn:F2; [|discriminate].
  inversion E; subst. unfold gam in G. cbn [fst snd] in *.
  destruct (sp s).
  - destruct x2 as [m|]; [|contradiction]. cbn in F2. destruct (f m) as [m'|] eqn:H; [|discriminate]. inversion F2; subst.
    exists m, m'. auto.
  - destruct x1 as [m|]; [|contradiction]. cbn in F1. destruct (f m) as [m'|] eqn:H; [|discriminate]. inversion F1; subst.
    exists m, m'. auto.
Qed.

(** Result of a command under the checker *)
Definition okres (leak : bool) (r : res (bool * mst)) (p : aval * aval) : Prop :=
  exists b s', r = Ok (b, s') /\ gam leak (if b then fst p else snd p) s'.

Lemma shape_new : forall leak m s k, shape leak m s -> (leak && has k (fst m) = false) ->
  shape leak (add k (fst m), rem k (snd m)) (mkMst (blk s ++ [true]) (set_mem k (Some (length (blk s))) (mem s)) (sp s)).
Proof.
  intros leak m s k (A & B & C) NL. split; [|split].
  - intros k' a E. cbn [mem blk fst snd] in *. unfold set_mem in E. rewrite app_length; cbn [length]. unfold live; cbn [blk].
    destruct (key_eqb k k') eqn:K.
    + apply key_eqb_eq in K. subst. inversion E; subst. rewrite add_In, live_new, Nat.eqb_refl. split; [lia|]. left. auto.
    + destruct (A _ _ E) as (Y & Z). rewrite add_In, live_new. split; [lia|].
      destruct (a =? length (blk s)) eqn:Q; [apply Nat.eqb_eq in Q; lia|]. destruct Z as [[Z W]|[Z W]]; [left; auto|right].
      split; [exact Z|]. apply rem_In. split; [|exact W]. intros ->. rewrite key_eqb_refl in K. discriminate.
  - intros k1 k2 a E1 E2. cbn [mem] in *. unfold set_mem in *.
    destruct (key_eqb k k1) eqn:K1, (key_eqb k k2) eqn:K2.
    + apply key_eqb_eq in K1, K2. congruence.
    + inversion E1; subst. destruct (A _ _ E2) as (Y & _). lia.
    + inversion E2; subst. destruct (A _ _ E1) as (Y & _). lia.
    + eapply B; eassumption.
  - intros LK a LV. unfold live in LV; cbn [blk mem] in *. rewrite live_new in LV. unfold set_mem.
    destruct (a =? length (blk s)) eqn:Q.
    + apply Nat.eqb_eq in Q. subst. exists k. rewrite key_eqb_refl. reflexivity.
    + destruct (C LK a LV) as [k' E]. exists k'. destruct (key_eqb k k') eqn:K; [|exact E].
      apply key_eqb_eq in K. subst k'. destruct (A _ _ E) as (_ & [[_ X]|[X _]]); [|unfold live in X; congruence].
      rewrite LK in NL. cbn in NL. apply has_false in NL. contradiction.
Qed.
Lemma shape_del : forall leak m s k i, shape leak m s -> mem s k = Some i -> live s i = true ->
  shape leak (rem k (fst m), snd m) (mkMst (set_blk i false (blk s)) (set_mem k None (mem s)) (sp s)).
Proof.
  intros leak m s k i (A & B & C) M LI. split; [|split].
  - intros k' a E. cbn [mem blk fst snd] in *. unfold set_mem in E. destruct (key_eqb k k') eqn:K; [discriminate|].
    destruct (A _ _ E) as (Y & Z). rewrite rem_In, set_blk_length. unfold live; cbn [blk]. rewrite set_blk_nth.
    split; [exact Y|]. assert (NK : k' <> k) by (intros ->; rewrite key_eqb_refl in K; discriminate).
    destruct (i =? a) eqn:Q; [apply Nat.eqb_eq in Q; subst; exfalso; apply NK; exact (B _ _ _ E M)|].
    cbn [andb]. destruct Z as [[Z W]|[Z W]]; [left|right]; auto.
  - intros k1 k2 a E1 E2. cbn [mem] in *. unfold set_mem in *.
    destruct (key_eqb k k1); [discriminate|]. destruct (key_eqb k k2); [discriminate|]. eapply B; eassumption.
  - intros LK a LV. unfold live in LV; cbn [blk mem] in *. rewrite set_blk_nth in LV.
    destruct ((i =? a) && (i <? length (blk s))) eqn:Q; [discriminate|].
    destruct (C LK a LV) as [k' E]. exists k'. unfold set_mem. destruct (key_eqb k k') eqn:K; [|exact E].
    apply key_eqb_eq in K. subst k'. rewrite M in E. inversion E; subst. rewrite Nat.eqb_refl in Q.
    apply live_lt in LI. apply Nat.ltb_lt in LI. rewrite LI in Q. discriminate.
Qed.
Lemma shape_null : forall leak m s k, shape leak m s -> mem s k = None -> shape leak (rem k (fst m), rem k (snd m)) s.
Proof.
  intros leak m s k (A & B & C) M. split; [|split; assumption].
  intros k' a E. destruct (A _ _ E) as (Y & Z). assert (k' <> k) by (intros ->; congruence).
  cbn [fst snd]. rewrite !rem_In. split; [exact Y|]. destruct Z as [[Z W]|[Z W]]; [left|right]; auto.
Qed.

Theorem ana_sound : forall leak c x p s, ana leak c x = Some p -> gam leak x s -> okres leak (exec c s) p.
Proof.
  induction c; intros x p s E G; cbn [ana] in E; cbn [exec].
  - inversion E; subst. exists true, s. split; [reflexivity|exact G].
  - inversion E; subst. exists false, s. split; [reflexivity|exact G].
  - destruct (amap _ x) as [y|] eqn:AM; [|discriminate]. inversion E; subst. destruct (amap_gam _ _ _ _ _ AM G) as (m & m' & X1 & SH & F & Y1).
    destruct (leak && has k (fst m)) eqn:NL; [discriminate|]. inversion F; subst.
    eexists true, _. split; [reflexivity|]. unfold gam. cbn [sp fst snd]. rewrite Y1. apply shape_new; assumption.
  - destruct (amap _ x) as [y|] eqn:AM; [|discriminate]. inversion E; subst. destruct (amap_gam _ _ _ _ _ AM G) as (m & m' & X1 & SH & F & Y1).
    destruct (has k (snd m)) eqn:ND; [discriminate|]. inversion F; subst. apply has_false in ND.
    destruct (mem s k) as [i|] eqn:M.
    + destruct SH as (A & B & C). destruct (A _ _ M) as (Y & [[Z X]|[_ Z]]); [|contradiction].
      unfold free_blk. rewrite Z. cbn [bind]. eexists true, _. split; [reflexivity|]. unfold gam. cbn [sp fst snd]. rewrite Y1.
      apply shape_del; [split; [|split]|..]; assumption.
    + exists true, s. split; [reflexivity|]. unfold gam. cbn [fst snd]. rewrite Y1.
      eapply shape_le; [| |apply (shape_null _ _ _ _ SH M)]; cbn [fst snd]; [auto|]. intros k' I. apply rem_In in I. apply I.
  - destruct (amap _ x) as [y|] eqn:AM; [|discriminate]. inversion E; subst. destruct (amap_gam _ _ _ _ _ AM G) as (m & m' & X1 & SH & F & Y1).
    destruct (has k (snd m)) eqn:ND; [discriminate|]. apply has_false in ND.
    destruct (mem s k) as [i|] eqn:M.
    + destruct SH as (A & B & C). destruct (A _ _ M) as (Y & [[Z X]|[_ Z]]); [|contradiction].
      unfold free_blk. rewrite Z. cbn [bind]. apply has_In in X. rewrite X in F. inversion F; subst.
      eexists true, _. split; [reflexivity|]. unfold gam. cbn [sp fst snd]. rewrite Y1. split; [|split].
      * intros k' a Ek. cbn [mem blk fst snd] in *. destruct (A _ _ Ek) as (Y' & Z'). rewrite set_blk_length. unfold live; cbn [blk].
        rewrite set_blk_nth, add_In, rem_In. split; [exact Y'|]. destruct (i =? a) eqn:Q.
        -- apply Nat.eqb_eq in Q. subst. right. pose proof Y as Y2. apply Nat.ltb_lt in Y2. rewrite Y2. split; [reflexivity|].
           left. exact (B _ _ _ Ek M).
        -- cbn [andb]. assert (k' <> k) by (intros ->; rewrite M in Ek; inversion Ek; subst; rewrite Nat.eqb_refl in Q; discriminate).
           destruct Z' as [[Z' W]|[Z' W]]; [left|right]; auto.
      * exact B.
      * intros LK a LV. unfold live in LV; cbn [blk mem] in *. rewrite set_blk_nth in LV.
        destruct ((i =? a) && (i <? length (blk s))) eqn:Q; [discriminate|]. exact (C LK a LV).
    + exists true, s. split; [reflexivity|]. unfold gam. cbn [fst snd]. rewrite Y1.
      destruct (has k (fst m)); inversion F; subst; [|exact SH]. eapply shape_le; [| |apply (shape_null _ _ _ _ SH M)]; cbn [fst snd]; [auto|].
      intros k' I. apply rem_In in I. apply add_In. right. apply I.
  - destruct (amap _ x) as [y|] eqn:AM; [|discriminate]. inversion E; subst. destruct (amap_gam _ _ _ _ _ AM G) as (m & m' & X1 & SH & F & Y1).
    destruct (leak && has k (fst m)) eqn:NL; [discriminate|]. inversion F; subst.
    eexists true, _. split; [reflexivity|]. unfold gam. cbn [sp fst snd]. rewrite Y1. destruct SH as (A & B & C). split; [|split].
    + intros k' a Ek. cbn [mem blk fst snd] in *. unfold set_mem in Ek. destruct (key_eqb k k') eqn:K; [discriminate|].
      destruct (A _ _ Ek) as (Y & Z). rewrite !rem_In. assert (k' <> k) by (intros ->; rewrite key_eqb_refl in K; discriminate).
      split; [exact Y|]. destruct Z as [[Z W]|[Z W]]; [left|right]; auto.
    + intros k1 k2 a E1 E2. cbn [mem] in *. unfold set_mem in *.
      destruct (key_eqb k k1); [discriminate|]. destruct (key_eqb k k2); [discriminate|]. eapply B; eassumption.
    + intros LK a LV. cbn [mem]. destruct (C LK a LV) as [k' Ek]. exists k'. unfold set_mem. destruct (key_eqb k k') eqn:K; [|exact Ek].
      apply key_eqb_eq in K. subst k'. destruct (A _ _ Ek) as (_ & [[_ X]|[X _]]); [|unfold live in *; cbn [blk] in *; congruence].
      rewrite LK in NL. cbn in NL. apply has_false in NL. contradiction.
  - destruct (amap _ x) as [y|] eqn:AM; [|discriminate]. inversion E; subst. destruct (amap_gam _ _ _ _ _ AM G) as (m & m' & X1 & SH & F & Y1).
    destruct (has k (snd m)) eqn:ND; [discriminate|]. apply has_false in ND. inversion F; subst.
    assert (R : okres leak (Ok (true, s)) (y, abot)) by (exists true, s; split; [reflexivity|]; unfold gam; cbn [fst snd]; rewrite Y1; exact SH).
    destruct (mem s k) as [i|] eqn:M; [|exact R]. destruct SH as (A & B & C). destruct (A _ _ M) as (Y & [[Z X]|[_ Z]]); [|contradiction].
    rewrite Z. exact R.
  - destruct (ana leak c1 _) as [[a b]|] eqn:E1; [|discriminate]. destruct (ana leak c2 _) as [[a' b']|] eqn:E2; [|discriminate].
    inversion E; subst. destruct (mem s k) as [i|] eqn:M.
    + destruct (IHc2 _ _ s E2) as (bb & s' & EX & GG).
      { unfold gam in *. unfold anonnull. cbn [fst snd].
        destruct (sp s); [destruct (snd x) as [m|] | destruct (fst x) as [m|]]; cbn in *; try contradiction;
          (assert (HK : has k (fst m) || has k (snd m) = true)
             by (destruct G as (A & _); destruct (A _ _ M) as (_ & [[_ X]|[_ X]]); apply has_In in X; rewrite X; auto using orb_true_r));
          rewrite HK; exact G. }
      exists bb, s'. split; [exact EX|]. destruct bb; cbn [fst snd] in *; apply gam_ajoin_r; exact GG.
    + destruct (IHc1 _ _ s E1) as (bb & s' & EX & GG).
      { unfold gam in *. unfold anull. cbn [fst snd].
        destruct (sp s); [destruct (snd x) as [m|] | destruct (fst x) as [m|]]; cbn in *; try contradiction; apply shape_null; assumption. }
      exists bb, s'. split; [exact EX|]. destruct bb; cbn [fst snd] in *; apply gam_ajoin_l; exact GG.
  - destruct (ana leak c1 _) as [[a b]|] eqn:E1; [|discriminate]. destruct (ana leak c2 _) as [[a' b']|] eqn:E2; [|discriminate].
    inversion E; subst. unfold gam in G. destruct (sp s) eqn:SPS.
    + destruct (IHc1 _ _ s E1) as (bb & s' & EX & GG); [unfold gam; rewrite SPS; exact G|].
      exists bb, s'. split; [exact EX|]. destruct bb; cbn [fst snd] in *; apply gam_ajoin_l; exact GG.
    + destruct (IHc2 _ _ s E2) as (bb & s' & EX & GG); [unfold gam; rewrite SPS; exact G|].
      exists bb, s'. split; [exact EX|]. destruct bb; cbn [fst snd] in *; apply gam_ajoin_r; exact GG.
  - inversion E; subst. eexists true, _. split; [reflexivity|]. cbn [fst]. unfold gam in *. cbn [sp].
    assert (J : gam1 leak (ajoin1 (fst x) (snd x)) s) by (destruct (sp s); [apply gam1_ajoin_r | apply gam1_ajoin_l]; exact G).
    destruct b; cbn [fst snd]; destruct (ajoin1 (fst x) (snd x)); cbn in *; try contradiction; exact J.
  - destruct (ana leak c1 _) as [[a1 b1]|] eqn:E1; [|discriminate]. destruct (ana leak c2 _) as [[a2 b2]|] eqn:E2; [|discriminate].
    inversion E; subst. destruct b.
    + destruct (IHc1 _ _ s E1 G) as (bb & s' & EX & GG).
      exists bb, s'. split; [exact EX|]. destruct bb; cbn [fst snd] in *; apply gam_ajoin_l; exact GG.
    + destruct (IHc2 _ _ s E2 G) as (bb & s' & EX & GG).
      exists bb, s'. split; [exact EX|]. destruct bb; cbn [fst snd] in *; apply gam_ajoin_r; exact GG.
  - destruct (ana leak c1 x) as [[a b]|] eqn:E1; [|discriminate]. destruct (ana leak c2 a) as [[a' b']|] eqn:E2; [|discriminate].
    inversion E; subst. destruct (IHc1 _ _ s E1 G) as (bb & s1 & EX & GG). rewrite EX. cbn [bind]. destruct bb; cbn [fst snd] in GG.
    + destruct (IHc2 _ _ s1 E2 GG) as (b2 & s2 & EX2 & G2). exists b2, s2. split; [exact EX2|].
      destruct b2; cbn [fst snd] in *; [exact G2 | apply gam_ajoin_r; exact G2].
    + exists false, s1. split; [reflexivity|]. cbn [snd]. apply gam_ajoin_l. exact GG.
  - destruct (ana leak c1 x) as [[a b]|] eqn:E1; [|discriminate]. destruct (ana leak c2 a) as [[a1 b1]|] eqn:E2; [|discriminate].
    destruct (ana leak c2 b) as [[a2 b2]|] eqn:E3; [|discriminate].
    inversion E; subst. destruct (IHc1 _ _ s E1 G) as (bb & s1 & EX & GG). rewrite EX. cbn [bind]. destruct bb; cbn [fst snd] in GG.
    + destruct (IHc2 _ _ s1 E2 GG) as (b3 & s2 & EX2 & G2). rewrite EX2. cbn [bind andb]. exists b3, s2. split; [reflexivity|].
      destruct b3; cbn [fst snd] in *; [exact G2 | apply gam_ajoin_l; exact G2].
    + destruct (IHc2 _ _ s1 E3 GG) as (b3 & s2 & EX2 & G2). rewrite EX2. cbn [bind andb]. exists false, s2. split; [reflexivity|].
      cbn [snd]. apply gam_ajoin_r. destruct b3; cbn [fst snd] in *; [apply gam_ajoin_l | apply gam_ajoin_r]; exact G2.
  - destruct (ana leak c x) as [[a b]|] eqn:E1; [|discriminate]. destruct (ale a x) eqn:LE; [|discriminate]. inversion E; subst. clear E.
    revert s G. induction n; intros s G.
    + exists true, s. split; [reflexivity|exact G].
    + destruct (IHc _ _ s E1 G) as (bb & s1 & EX & GG). rewrite EX. cbn [bind]. destruct bb; cbn [fst snd] in GG.
      * apply IHn. eapply gam_ale; eassumption.
      * exists false, s1. split; [reflexivity|exact GG].
Qed.

(** ** What a command must or cannot do to a pointer *)

(** No two pointers share a block *)
Definition inj (s : mst) : Prop :=
  (forall k a, mem s k = Some a -> a < length (blk s)) /\ (forall k k' a, mem s k = Some a -> mem s k' = Some a -> k = k').
(** The member points to a live block. No LCQPow code. *)
Definition held (k : key) (a : nat) (s : mst) : Prop := mem s k = Some a /\ live s a = true.

(** The pointer is not deleted or freed *)
Fixpoint nodel (k : key) (c : cmd) : bool :=
  match c with
  | Del k' | Free k' => negb (key_eqb k k')
  | IfNull _ a b | IfSp a b | Choice _ a b | Seq a b | Fin a b => nodel k a && nodel k b
  | Rep _ c => nodel k c
  | _ => true
  end.
(** On success the pointer was assigned *)
Fixpoint must (k : key) (c : cmd) : bool :=
  match c with
  | New k' | Drop k' => key_eqb k k'
  | Fail => true
  | IfNull _ a b | IfSp a b | Choice _ a b => must k a && must k b
  | Seq a b | Fin a b => must k a || must k b
  | _ => false
  end.
(** The pointer is only ever assigned a new block *)
Fixpoint nodrop (k : key) (c : cmd) : bool :=
  match c with
  | Del k' | Free k' | Drop k' => negb (key_eqb k k')
  | IfNull _ a b | IfSp a b | Choice _ a b | Seq a b | Fin a b => nodrop k a && nodrop k b
  | Rep _ c => nodrop k c
  | _ => true
  end.

Ltac split_bind E :=
  lazymatch type of E with
  | context [exec ?c ?s] => let X := fresh "EX" in let ok := fresh "ok" in let s1 := fresh "s1" in
      destruct (exec c s) as [[ok s1]|] eqn:X; [cbn [bind] in E|discriminate]
  end.

Lemma exec_inj : forall c s b s', inj s -> exec c s = Ok (b, s') -> inj s'.
Proof.
  induction c; intros s bb s' J E; cbn [exec] in E.
  - inversion E; subst; exact J.
  - inversion E; subst; exact J.
  - inversion E; subst; clear E. destruct J as [A B]. split; cbn [mem blk].
    + intros k' a. unfold set_mem. rewrite app_length. cbn [length]. destruct (key_eqb k k'); intros E; [inversion E; lia|].
      specialize (A _ _ E). lia.
    + intros k1 k2 a. unfold set_mem. destruct (key_eqb k k1) eqn:K1, (key_eqb k k2) eqn:K2; intros E1 E2.
      * apply key_eqb_eq in K1, K2. congruence.
      * inversion E1; subst. specialize (A _ _ E2). lia.
      * inversion E2; subst. specialize (A _ _ E1). lia.
      * eapply B; eassumption.
  - destruct (mem s k) as [i|] eqn:M; [|inversion E; subst; exact J].
    unfold free_blk in E. destruct (live s i); [|discriminate]. inversion E; subst; clear E. destruct J as [A B]. split; cbn [mem blk].
    + intros k' a. unfold set_mem. rewrite set_blk_length. destruct (key_eqb k k'); [discriminate|apply A].
    + intros k1 k2 a. unfold set_mem. destruct (key_eqb k k1); [discriminate|]. destruct (key_eqb k k2); [discriminate|apply B].
  - destruct (mem s k) as [i|] eqn:M; [|inversion E; subst; exact J].
    unfold free_blk in E. destruct (live s i); [|discriminate]. inversion E; subst; clear E. destruct J as [A B]. split; cbn [mem blk].
    + intros k' a. rewrite set_blk_length. apply A.
    + exact B.
  - inversion E; subst; clear E. destruct J as [A B]. split; cbn [mem blk].
    + intros k' a. unfold set_mem. destruct (key_eqb k k'); [discriminate|apply A].
    + intros k1 k2 a. unfold set_mem. destruct (key_eqb k k1); [discriminate|]. destruct (key_eqb k k2); [discriminate|apply B].
  - destruct (mem s k) as [i|]; [destruct (live s i); [|discriminate]|]; inversion E; subst; exact J.
  - destruct (mem s k); [eapply IHc2 | eapply IHc1]; eassumption.
  - destruct (sp s); [eapply IHc1 | eapply IHc2]; eassumption.
  - inversion E; subst; exact J.
  - destruct b; [eapply IHc1 | eapply IHc2]; eassumption.
  - split_bind E. assert (J1 : inj s1) by (eapply IHc1; eassumption). destruct ok; [eapply IHc2; eassumption|]. inversion E; subst; exact J1.
  - split_bind E. assert (J1 : inj s1) by (eapply IHc1; eassumption). split_bind E. inversion E; subst. eapply IHc2; eassumption.
  - revert s J E. induction n; intros s J E.
    + inversion E; subst; exact J.
    + split_bind E. assert (J1 : inj s1) by (eapply IHc; eassumption). destruct ok; [eapply IHn; eassumption|]. inversion E; subst; exact J1.
Qed.

(** A live block stays held or gets lost *)
Definition hol (k : key) (a : nat) (s : mst) : Prop := held k a s \/ lost a s.

Lemma hol_exec : forall k a c s b s', nodel k c = true -> inj s -> hol k a s -> exec c s = Ok (b, s') -> hol k a s'.
Proof.
  intros k a. induction c; intros s bb s' ND J [H|H] E; try (right; eapply lost_forever; eassumption); cbn [exec] in E; cbn [nodel] in ND.
  - inversion E; subst; left; exact H.
  - inversion E; subst; left; exact H.
  - destruct H as [M L]. inversion E; subst; clear E. destruct J as [A B]. unfold hol, held, lost, live in *; cbn [mem blk] in *.
    rewrite live_new. assert (LT : a < length (blk s)) by (eapply A; exact M).
    destruct (a =? length (blk s)) eqn:Q; [apply Nat.eqb_eq in Q; lia|]. unfold set_mem.
    destruct (key_eqb k0 k) eqn:K.
    + right. split; [exact L|]. intros k'. destruct (key_eqb k0 k') eqn:K'; intros Z; [inversion Z; lia|].
      apply key_eqb_eq in K. subst. rewrite (B _ _ _ M Z), key_eqb_refl in K'. discriminate.
    + left. split; assumption.
  - destruct (mem s k0) as [i|] eqn:M0; [|inversion E; subst; left; exact H].
    unfold free_blk in E. destruct (live s i); [|discriminate]. inversion E; subst; clear E. left. destruct H as [M L].
    apply negb_true_iff in ND. split; cbn [mem].
    + unfold set_mem. destruct (key_eqb k0 k) eqn:K; [|exact M]. apply key_eqb_eq in K. subst. rewrite key_eqb_refl in ND. discriminate.
    + unfold live in *; cbn [blk]. rewrite set_blk_nth. destruct (i =? a) eqn:Q; [|exact L]. apply Nat.eqb_eq in Q. subst.
      rewrite (proj2 J _ _ _ M M0), key_eqb_refl in ND. discriminate.
  - destruct (mem s k0) as [i|] eqn:M0; [|inversion E; subst; left; exact H].
    unfold free_blk in E. destruct (live s i); [|discriminate]. inversion E; subst; clear E. left. destruct H as [M L].
    apply negb_true_iff in ND. split; cbn [mem]; [exact M|].
    unfold live in *; cbn [blk]. rewrite set_blk_nth. destruct (i =? a) eqn:Q; [|exact L]. apply Nat.eqb_eq in Q. subst.
    rewrite (proj2 J _ _ _ M M0), key_eqb_refl in ND. discriminate.
  - destruct H as [M L]. inversion E; subst; clear E. destruct (key_eqb k0 k) eqn:K.
    + right. split; [exact L|]. intros k'. cbn [mem]. unfold set_mem. destruct (key_eqb k0 k') eqn:K'; [discriminate|].
      intros Z. apply key_eqb_eq in K. subst. rewrite (proj2 J _ _ _ M Z), key_eqb_refl in K'. discriminate.
    + left. split; [|exact L]. cbn [mem]. unfold set_mem. rewrite K. exact M.
  - destruct (mem s k0) as [i|]; [destruct (live s i); [|discriminate]|]; inversion E; subst; left; exact H.
  - apply andb_true_iff in ND. destruct ND. destruct (mem s k0); [eapply IHc2 | eapply IHc1]; try eassumption; left; exact H.
  - apply andb_true_iff in ND. destruct ND. destruct (sp s); [eapply IHc1 | eapply IHc2]; try eassumption; left; exact H.
  - inversion E; subst; left; exact H.
  - apply andb_true_iff in ND. destruct ND. destruct b; [eapply IHc1 | eapply IHc2]; try eassumption; left; exact H.
  - apply andb_true_iff in ND. destruct ND. split_bind E.
    assert (HX1 : hol k a s1) by (eapply IHc1; [assumption|exact J|left; exact H|exact EX]).
    destruct ok; [|inversion E; subst; exact HX1]. eapply IHc2; [assumption|eapply exec_inj; eassumption|exact HX1|exact E].
  - apply andb_true_iff in ND. destruct ND. split_bind E.
    assert (HX1 : hol k a s1) by (eapply IHc1; [assumption|exact J|left; exact H|exact EX]).
    split_bind E. inversion E; subst. eapply IHc2; [assumption|eapply exec_inj; eassumption|exact HX1|exact EX0].
  - assert (HH : hol k a s) by (left; exact H). clear H. revert s J HH E. induction n; intros s J HH E.
    + inversion E; subst; exact HH.
    + split_bind E. assert (HX1 : hol k a s1) by (eapply IHc; eassumption).
      destruct ok; [|inversion E; subst; exact HX1]. eapply IHn; [eapply exec_inj; eassumption|exact HX1|exact E].
Qed.

(** A held block is lost when the pointer is assigned *)
Lemma must_loses : forall k a c s s', nodel k c = true -> must k c = true -> inj s -> hol k a s -> exec c s = Ok (true, s') -> lost a s'.
Proof.
  intros k a. induction c; intros s s' ND MU J H E; cbn [exec] in E; cbn [nodel] in ND; cbn [must] in MU; try discriminate.
  - destruct H as [[M L]|H]; [|eapply (lost_forever (New k0)); [exact H|exact E]].
    apply key_eqb_eq in MU. subst k0. inversion E; subst; clear E. destruct J as [A B]. specialize (A _ _ M) as LT.
    split; unfold live in *; cbn [blk mem].
    + rewrite live_new. destruct (a =? length (blk s)); [reflexivity|exact L].
    + intros k'. unfold set_mem. destruct (key_eqb k k') eqn:K; intros Z; [inversion Z; lia|].
      rewrite (B _ _ _ M Z), key_eqb_refl in K. discriminate.
  - destruct H as [[M L]|H]; [|eapply (lost_forever (Drop k0)); [exact H|exact E]].
    apply key_eqb_eq in MU. subst k0. inversion E; subst; clear E. destruct J as [A B].
    split; [exact L|]. cbn [mem]. intros k'. unfold set_mem. destruct (key_eqb k k') eqn:K; intros Z; [discriminate|].
    rewrite (B _ _ _ M Z), key_eqb_refl in K. discriminate.
  - apply andb_true_iff in ND, MU. destruct ND, MU. destruct (mem s k0); [eapply IHc2 | eapply IHc1]; eassumption.
  - apply andb_true_iff in ND, MU. destruct ND, MU. destruct (sp s); [eapply IHc1 | eapply IHc2]; eassumption.
  - apply andb_true_iff in ND, MU. destruct ND, MU. destruct b; [eapply IHc1 | eapply IHc2]; eassumption.
  - apply andb_true_iff in ND. destruct ND. split_bind E. destruct ok; [|discriminate].
    apply orb_true_iff in MU. destruct MU as [MU|MU].
    + eapply lost_forever; [|exact E]. eapply IHc1; eassumption.
    + eapply IHc2; [assumption|assumption|eapply exec_inj; eassumption|eapply (hol_exec k a c1); eassumption|exact E].
  - apply andb_true_iff in ND. destruct ND. split_bind E. split_bind E. injection E as E1 E2. apply andb_true_iff in E1. destruct E1. subst.
    apply orb_true_iff in MU. destruct MU as [MU|MU].
    + eapply lost_forever; [|exact EX0]. eapply IHc1; eassumption.
    + eapply IHc2; [assumption|assumption|eapply exec_inj; eassumption|eapply (hol_exec k a c1); eassumption|exact EX0].
Qed.

(** A pointer that is only assigned new blocks: once live, always live, and live after a command that assigns it *)
Definition alive (k : key) (s : mst) : Prop := exists a, held k a s.
Lemma alive_exec : forall k c s b s', nodrop k c = true -> inj s -> alive k s -> exec c s = Ok (b, s') -> alive k s'.
Proof.
  intros k. induction c; intros s bb s' ND J [a [M L]] E; cbn [exec] in E; cbn [nodrop] in ND.
  - inversion E; subst; exists a; split; assumption.
  - inversion E; subst; exists a; split; assumption.
  - inversion E; subst; clear E. destruct J as [A B]. specialize (A _ _ M). unfold alive, held, live in *; cbn [mem blk] in *.
    unfold set_mem. destruct (key_eqb k0 k) eqn:K.
    + exists (length (blk s)). split; [reflexivity|]. rewrite live_new, Nat.eqb_refl. reflexivity.
    + exists a. split; [exact M|]. rewrite live_new. destruct (a =? length (blk s)); [reflexivity|exact L].
  - destruct (mem s k0) as [i|] eqn:M0; [|inversion E; subst; exists a; split; assumption].
    unfold free_blk in E. destruct (live s i); [|discriminate]. inversion E; subst; clear E. exists a. apply negb_true_iff in ND. split; cbn [mem].
    + unfold set_mem. destruct (key_eqb k0 k) eqn:K; [|exact M]. apply key_eqb_eq in K. subst. rewrite key_eqb_refl in ND. discriminate.
    + unfold live in *; cbn [blk]. rewrite set_blk_nth. destruct (i =? a) eqn:Q; [|exact L]. apply Nat.eqb_eq in Q. subst.
      rewrite (proj2 J _ _ _ M M0), key_eqb_refl in ND. discriminate.
  - destruct (mem s k0) as [i|] eqn:M0; [|inversion E; subst; exists a; split; assumption].
    unfold free_blk in E. destruct (live s i); [|discriminate]. inversion E; subst; clear E. exists a. apply negb_true_iff in ND. split; cbn [mem]; [exact M|].
    unfold live in *; cbn [blk]. rewrite set_blk_nth. destruct (i =? a) eqn:Q; [|exact L]. apply Nat.eqb_eq in Q. subst.
    rewrite (proj2 J _ _ _ M M0), key_eqb_refl in ND. discriminate.
  - inversion E; subst; clear E. exists a. apply negb_true_iff in ND. split; [|exact L]. cbn [mem]. unfold set_mem.
    destruct (key_eqb k0 k) eqn:K; [|exact M]. apply key_eqb_eq in K. subst. rewrite key_eqb_refl in ND. discriminate.
  - destruct (mem s k0) as [i|]; [destruct (live s i); [|discriminate]|]; inversion E; subst; exists a; split; assumption.
  - apply andb_true_iff in ND. destruct ND. destruct (mem s k0); [eapply IHc2 | eapply IHc1]; try eassumption; exists a; split; assumption.
  - apply andb_true_iff in ND. destruct ND. destruct (sp s); [eapply IHc1 | eapply IHc2]; try eassumption; exists a; split; assumption.
  - inversion E; subst; exists a; split; assumption.
  - apply andb_true_iff in ND. destruct ND. destruct b; [eapply IHc1 | eapply IHc2]; try eassumption; exists a; split; assumption.
  - apply andb_true_iff in ND. destruct ND. split_bind E.
    assert (HX1 : alive k s1) by (eapply IHc1; [assumption|exact J|exists a; split; eassumption|exact EX]).
    destruct ok; [|inversion E; subst; exact HX1]. eapply IHc2; [assumption|eapply exec_inj; eassumption|exact HX1|exact E].
  - apply andb_true_iff in ND. destruct ND. split_bind E.
    assert (HX1 : alive k s1) by (eapply IHc1; [assumption|exact J|exists a; split; eassumption|exact EX]).
    split_bind E. inversion E; subst. eapply IHc2; [assumption|eapply exec_inj; eassumption|exact HX1|exact EX0].
  - assert (HH : alive k s) by (exists a; split; assumption). clear M L. revert s J HH E. induction n; intros s J HH E.
    + inversion E; subst; exact HH.
    + split_bind E. assert (HX1 : alive k s1) by (eapply IHc; eassumption).
      destruct ok; [|inversion E; subst; exact HX1]. eapply IHn; [eapply exec_inj; eassumption|exact HX1|exact E].
Qed.
Lemma must_alive : forall k c s s', nodrop k c = true -> must k c = true -> inj s -> exec c s = Ok (true, s') -> alive k s'.
Proof.
  intros k. induction c; intros s s' ND MU J E; cbn [exec] in E; cbn [nodrop] in ND; cbn [must] in MU; try discriminate.
  - apply key_eqb_eq in MU. subst k0. inversion E; subst; clear E. exists (length (blk s)). split; unfold live; cbn [blk mem].
    + unfold set_mem. rewrite key_eqb_refl. reflexivity.
    + rewrite live_new, Nat.eqb_refl. reflexivity.
  - rewrite MU in ND. discriminate.
  - apply andb_true_iff in ND, MU. destruct ND, MU. destruct (mem s k0); [eapply IHc2 | eapply IHc1]; eassumption.
  - apply andb_true_iff in ND, MU. destruct ND, MU. destruct (sp s); [eapply IHc1 | eapply IHc2]; eassumption.
  - apply andb_true_iff in ND, MU. destruct ND, MU. destruct b; [eapply IHc1 | eapply IHc2]; eassumption.
  - apply andb_true_iff in ND. destruct ND. split_bind E. destruct ok; [|discriminate].
    apply orb_true_iff in MU. destruct MU as [MU|MU].
    + eapply alive_exec; [eassumption|eapply exec_inj; eassumption|eapply IHc1; eassumption|exact E].
    + eapply IHc2; [assumption|assumption|eapply exec_inj; eassumption|exact E].
  - apply andb_true_iff in ND. destruct ND. split_bind E. split_bind E. injection E as E1 E2. apply andb_true_iff in E1. destruct E1. subst.
    apply orb_true_iff in MU. destruct MU as [MU|MU].
    + eapply alive_exec; [eassumption|eapply exec_inj; eassumption|eapply IHc1; eassumption|exact EX0].
    + eapply IHc2; [assumption|assumption|eapply exec_inj; eassumption|exact EX0].
Qed.
Lemma exec_seq : forall a b s ok s', exec (Seq a b) s = Ok (ok, s') ->
  (ok = true /\ exists s1, exec a s = Ok (true, s1) /\ exec b s1 = Ok (true, s')) \/
  (ok = false /\ (exec a s = Ok (false, s') \/ exists s1, exec a s = Ok (true, s1) /\ exec b s1 = Ok (false, s'))).
Proof.
  intros a b s ok s' E. cbn [exec] in E. split_bind E. destruct ok0.
  - destruct ok; [left|right]; split; auto. exists s1. auto. right. exists s1. auto.
  - inversion E; subst. right. auto.
Qed.

(** No error code is returned *)
Fixpoint nofail (c : cmd) : bool :=
  match c with
  | Fail => false
  | IfNull _ a b | IfSp a b | Choice _ a b | Seq a b | Fin a b => nofail a && nofail b
  | Rep _ c => nofail c
  | _ => true
  end.
Lemma nofail_true : forall c s b s', nofail c = true -> exec c s = Ok (b, s') -> b = true.
Proof.
  induction c; intros s bb s' N E; cbn [exec] in E; cbn [nofail] in N; try discriminate; try (inversion E; reflexivity).
  - destruct (mem s k); [destruct (free_blk _ _); [|discriminate]|]; inversion E; reflexivity.
  - destruct (mem s k); [destruct (free_blk _ _); [|discriminate]|]; inversion E; reflexivity.
  - destruct (mem s k) as [i|]; [destruct (live s i); [|discriminate]|]; inversion E; reflexivity.
  - apply andb_true_iff in N. destruct N. destruct (mem s k); [eapply IHc2 | eapply IHc1]; eassumption.
  - apply andb_true_iff in N. destruct N. destruct (sp s); [eapply IHc1 | eapply IHc2]; eassumption.
  - apply andb_true_iff in N. destruct N. destruct b; [eapply IHc1 | eapply IHc2]; eassumption.
  - apply andb_true_iff in N. destruct N as [N1 N2]. split_bind E. rewrite (IHc1 _ _ _ N1 EX) in E. eapply IHc2; eassumption.
  - apply andb_true_iff in N. destruct N as [N1 N2]. split_bind E. split_bind E. inversion E; subst.
    rewrite (IHc1 _ _ _ N1 EX), (IHc2 _ _ _ N2 EX0). reflexivity.
  - revert s E. induction n; intros s E.
    + inversion E; reflexivity.
    + split_bind E. rewrite (IHc _ _ _ N EX) in E. eapply IHn; exact E.
Qed.
