(** * Loops: reasoning about checked loops and arrays (no LCQPow code). *)
From Verif Require Import Base Arith Tactics.

(** ** Loops *)
Lemma for_nil {S} lo hi (f : Z -> S -> res S) s : hi <= lo -> for_ lo hi f s = Ok s.
Proof. intros; unfold for_. replace (Z.to_nat (hi - lo)) with O by lia. reflexivity. Qed.

Lemma for_cons {S} lo hi (f : Z -> S -> res S) s : lo < hi -> for_ lo hi f s = let! s' := f lo s in for_ (lo + 1) hi f s'.
Proof.
  intros; unfold for_. replace (Z.to_nat (hi - lo)) with (Datatypes.S (Z.to_nat (hi - (lo + 1)))) by lia. reflexivity.
Qed.

(** A loop along an explicit sequence of states *)
Lemma for_seq {S} (f : Z -> S -> res S) (st : Z -> S) lo hi : lo <= hi ->
  (forall i, lo <= i < hi -> f i (st i) = Ok (st (i + 1))) -> for_ lo hi f (st lo) = Ok (st hi).
Proof.
  intros Hle Hf. remember (Z.to_nat (hi - lo)) as n eqn:En. revert lo Hle Hf En.
  induction n; intros lo Hle Hf En.
  - replace hi with lo by lia. apply for_nil; lia.
  - rewrite for_cons by lia. rewrite Hf by lia. simpl. apply IHn; try lia. intros; apply Hf; lia.
Qed.

(** A loop along an explicit sequence of states, left early at [k] *)
Lemma forb_nil {S R} lo hi (f : Z -> S -> res (S + R)) s : hi <= lo -> forb lo hi f s = Ok (inl s).
Proof. intros; unfold forb. replace (Z.to_nat (hi - lo)) with O by lia. reflexivity. Qed.
Lemma forb_cons {S R} lo hi (f : Z -> S -> res (S + R)) s : lo < hi ->
  forb lo hi f s = let! o := f lo s in match o with inl s' => forb (lo + 1) hi f s' | inr r => Ok (inr r) end.
Proof.
  intros; unfold forb. replace (Z.to_nat (hi - lo)) with (Datatypes.S (Z.to_nat (hi - (lo + 1)))) by lia. reflexivity.
Qed.
Lemma forb_seq {S R} (f : Z -> S -> res (S + R)) (st : Z -> S) lo hi : lo <= hi ->
  (forall i, lo <= i < hi -> f i (st i) = Ok (inl (st (i + 1)))) -> forb lo hi f (st lo) = Ok (inl (st hi)).
Proof.
  intros Hle Hf. remember (Z.to_nat (hi - lo)) as n eqn:En. revert lo Hle Hf En.
  induction n; intros lo Hle Hf En.
  - replace hi with lo by lia. apply forb_nil; lia.
  - rewrite forb_cons by lia. rewrite Hf by lia. simpl. apply IHn; try lia. intros; apply Hf; lia.
Qed.
Lemma forb_exit {S R} (f : Z -> S -> res (S + R)) (st : Z -> S) lo hi k r : lo <= k < hi ->
  (forall i, lo <= i < k -> f i (st i) = Ok (inl (st (i + 1)))) -> f k (st k) = Ok (inr r) ->
  forb lo hi f (st lo) = Ok (inr r).
Proof.
  intros Hle Hf Hk. remember (Z.to_nat (k - lo)) as n eqn:En. revert lo Hle Hf En.
  induction n; intros lo Hle Hf En.
  - replace k with lo in * by lia. rewrite forb_cons by lia. rewrite Hk. reflexivity.
  - rewrite forb_cons by lia. rewrite Hf by lia. simpl. apply IHn; try lia. intros; apply Hf; lia.
Qed.

(** Partial-correctness rule *)
Lemma for_inv {S} (P : Z -> S -> Prop) (f : Z -> S -> res S) lo hi s s' :
  for_ lo hi f s = Ok s' -> P lo s ->
  (forall i s s', lo <= i < hi -> P i s -> f i s = Ok s' -> P (i + 1) s') -> P (Z.max lo hi) s'.
Proof.
  intros E HP Hf. remember (Z.to_nat (hi - lo)) as n eqn:En. revert lo s E HP Hf En.
  induction n; intros lo s E HP Hf En.
  - rewrite for_nil in E by lia. injection E as <-. replace (Z.max lo hi) with lo by lia. assumption.
  - rewrite for_cons in E by lia. apply bind_ok in E. destruct E as (s1 & E1 & E).
    replace (Z.max lo hi) with (Z.max (lo + 1) hi) by lia. apply (IHn (lo + 1) s1); auto; try lia.
    + apply (Hf lo s s1); auto; lia.
    + intros; eapply Hf; eauto; lia.
Qed.

(** Total-correctness rule *)
Lemma for_total {S} (P : Z -> S -> Prop) (f : Z -> S -> res S) lo hi s : lo <= hi -> P lo s ->
  (forall i s, lo <= i < hi -> P i s -> exists s', f i s = Ok s' /\ P (i + 1) s') ->
  exists s', for_ lo hi f s = Ok s' /\ P hi s'.
Proof.
  intros Hle HP Hf. remember (Z.to_nat (hi - lo)) as n eqn:En. revert lo s Hle HP Hf En.
  induction n; intros lo s Hle HP Hf En.
  - exists s. replace hi with lo by lia. split; auto. apply for_nil; lia.
  - destruct (Hf lo s) as (s1 & E1 & P1); auto; [lia|].
    destruct (IHn (lo + 1) s1) as (s' & E' & P'); auto; try lia.
    + intros; apply Hf; auto; lia.
    + exists s'. split; auto. rewrite for_cons by lia. rewrite E1. exact E'.
Qed.

Lemma for_ext {S} (f g : Z -> S -> res S) lo hi s :
  (forall i s, lo <= i < hi -> f i s = g i s) -> for_ lo hi f s = for_ lo hi g s.
Proof.
  intros Hfg. remember (Z.to_nat (hi - lo)) as n eqn:En. revert lo s Hfg En.
  induction n; intros lo s Hfg En.
  - rewrite !for_nil by lia. reflexivity.
  - rewrite !for_cons by lia. rewrite Hfg by lia. destruct (g lo s); simpl; auto. apply IHn; try lia.
    intros; apply Hfg; lia.
Qed.

(** ** Tables and vectors *)
Definition tab {X} (n : Z) (f : Z -> X) : list X := map (fun k => f (Z.of_nat k)) (seq 0 (Z.to_nat n)).

(** Number of elements *)
Definition len {X} (l : list X) : Z := Z.of_nat (length l).

Lemma len_nonneg {X} (l : list X) : 0 <= len l.
Proof. unfold len; lia. Qed.
Lemma len_nil {X} : len (@nil X) = 0.
Proof. reflexivity. Qed.
Lemma len_cons {X} (x : X) l : len (x :: l) = len l + 1.
Proof. unfold len; simpl length; lia. Qed.
Lemma len_app {X} (l r : list X) : len (l ++ r) = len l + len r.
Proof. unfold len; rewrite app_length; lia. Qed.
Lemma len_map {X Y} (f : X -> Y) l : len (map f l) = len l.
Proof. unfold len; rewrite map_length; reflexivity. Qed.
Lemma len_lift {X} (l : list X) : len (lift l) = len l.
Proof. apply len_map. Qed.
Lemma len_tab {X} n (f : Z -> X) : 0 <= n -> len (tab n f) = n.
Proof. intros; unfold len, tab; rewrite map_length, seq_length; lia. Qed.
Lemma len_repeat {X} (x : X) n : 0 <= n -> len (repeat x (Z.to_nat n)) = n.
Proof. intros; unfold len; rewrite repeat_length; lia. Qed.
Lemma len_upd {X} (a : list X) i v : len (upd a i v) = len a.
Proof.
  unfold len; f_equal. revert i; induction a; intros [|i]; simpl; auto.
Qed.

Lemma tab_succ {X} n (f : Z -> X) : 0 <= n -> tab (n + 1) f = tab n f ++ [f n].
Proof.
  intros; unfold tab. replace (Z.to_nat (n + 1)) with (S (Z.to_nat n)) by lia.
  rewrite seq_S, map_app. simpl. replace (Z.of_nat (Z.to_nat n)) with n by lia. reflexivity.
Qed.
Lemma tab_0 {X} (f : Z -> X) : tab 0 f = [].
Proof. reflexivity. Qed.
Lemma tab_neg {X} n (f : Z -> X) : n <= 0 -> tab n f = [].
Proof. intros; unfold tab. replace (Z.to_nat n) with O by lia. reflexivity. Qed.
Lemma tab_ext {X} n (f g : Z -> X) : (forall i, 0 <= i < n -> f i = g i) -> tab n f = tab n g.
Proof. intros E; unfold tab. apply map_ext_in. intros k Hk. apply in_seq in Hk. apply E. lia. Qed.
Lemma map_tab {X Y} (h : X -> Y) n (f : Z -> X) : map h (tab n f) = tab n (fun i => h (f i)).
Proof. unfold tab. rewrite map_map. reflexivity. Qed.

(** Entry [i] of a list, [d] outside. No LCQPow code. *)
Definition at_ {X} (d : X) (l : list X) (i : Z) : X := nth (Z.to_nat i) l d.

Lemma at_tab {X} (d : X) n f i : 0 <= i < n -> at_ d (tab n f) i = f i.
Proof.
  intros; unfold at_, tab. rewrite (nth_indep _ d (f (Z.of_nat 0))).
  - rewrite (map_nth (fun k => f (Z.of_nat k))). rewrite seq_nth by lia. f_equal; lia.
  - rewrite map_length, seq_length; lia.
Qed.
Lemma tab_at {X} (d : X) l : tab (len l) (at_ d l) = l.
Proof.
  apply (nth_ext _ _ d d).
  - unfold tab, len. rewrite map_length, seq_length; lia.
  - intros k Hk. unfold tab in Hk; rewrite map_length, seq_length in Hk.
    change (nth k (tab (len l) (at_ d l)) d) with (nth k (tab (len l) (at_ d l)) d).
    pose proof (at_tab d (len l) (at_ d l) (Z.of_nat k)) as E. unfold at_ at 1 in E. rewrite Nat2Z.id in E.
    rewrite E by (unfold len in *; lia). unfold at_. rewrite Nat2Z.id. reflexivity.
Qed.
Lemma at_app_l {X} (d : X) l r i : 0 <= i < len l -> at_ d (l ++ r) i = at_ d l i.
Proof. unfold at_, len; intros; apply app_nth1; lia. Qed.
Lemma at_app_r {X} (d : X) l r i : len l <= i -> at_ d (l ++ r) i = at_ d r (i - len l).
Proof. unfold at_, len; intros; rewrite app_nth2 by lia. f_equal; lia. Qed.
Lemma at_lift {X} (d : X) l i : 0 <= i < len l -> at_ None (lift l) i = Some (at_ d l i).
Proof.
  unfold at_, lift, len; intros. rewrite (nth_indep _ None (Some d)) by (rewrite map_length; lia). apply map_nth.
Qed.
Lemma at_repeat {X} (d x : X) n i : 0 <= i < n -> at_ d (repeat x (Z.to_nat n)) i = x.
Proof. unfold at_; intros. apply repeat_spec with (n := Z.to_nat n). apply nth_In. rewrite repeat_length; lia. Qed.
Lemma at_map {X Y} (h : X -> Y) d l i : at_ (h d) (map h l) i = h (at_ d l i).
Proof. unfold at_. apply map_nth. Qed.
Lemma at_indep {X} (d d' : X) l i : 0 <= i < len l -> at_ d l i = at_ d' l i.
Proof. unfold at_, len; intros; apply nth_indep; lia. Qed.
Lemma list_eq {X} (d : X) l r : len l = len r -> (forall i, 0 <= i < len l -> at_ d l i = at_ d r i) -> l = r.
Proof.
  intros Hl He. rewrite <- (tab_at d l), <- (tab_at d r), <- Hl. apply tab_ext. assumption.
Qed.

(** ** Checked accesses *)
Lemma rd_lift {X} (d : X) l i : 0 <= i < len l -> rd (lift l) i = Ok (at_ d l i).
Proof.
  intros; unfold rd. replace (i <? 0) with false by lia. unfold lift. rewrite nth_error_map.
  unfold at_, len in *. destruct (nth_error l (Z.to_nat i)) eqn:E; simpl.
  - rewrite (nth_error_nth _ _ d E). reflexivity.
  - apply nth_error_None in E. lia.
Qed.
Lemma vrd_ok {X} (d : X) l i : 0 <= i < len l -> vrd l i = Ok (at_ d l i).
Proof.
  intros; unfold vrd. replace (i <? 0) with false by lia.
  unfold at_, len in *. destruct (nth_error l (Z.to_nat i)) eqn:E; simpl.
  - rewrite (nth_error_nth _ _ d E). reflexivity.
  - apply nth_error_None in E. lia.
Qed.
Lemma rd_at {X} (a : arr X) i : rd a i = (if (0 <=? i) && (i <? len a) then match at_ None a i with Some v => Ok v | None => UB Uninit end else UB OutOfBounds).
Proof.
  unfold rd, len, at_. destruct (Z.ltb_spec i 0); [replace (0 <=? i) with false by lia; reflexivity|].
  replace (0 <=? i) with true by lia. simpl.
  destruct (nth_error a (Z.to_nat i)) eqn:E.
  - pose proof (nth_error_nth _ _ None E) as E2. rewrite E2.
    assert (nth_error a (Z.to_nat i) <> None) as E3 by congruence. apply nth_error_Some in E3.
    replace (i <? Z.of_nat (length a)) with true by lia. reflexivity.
  - apply nth_error_None in E. replace (i <? Z.of_nat (length a)) with false by lia. reflexivity.
Qed.

Lemma rd_app_l {X} (a b : arr X) i : 0 <= i < len a -> rd (a ++ b) i = rd a i.
Proof. intros; rewrite !rd_at, len_app, at_app_l by lia. pose proof (len_nonneg b). replace (i <? len a + len b) with (i <? len a) by lia. reflexivity. Qed.
Lemma rd_app_r {X} (a b : arr X) i : len a <= i -> rd (a ++ b) i = rd b (i - len a).
Proof.
  intros; rewrite !rd_at, len_app, at_app_r by lia. pose proof (len_nonneg a).
  replace (0 <=? i) with (0 <=? i - len a) by lia.
  replace (i <? len a + len b) with (i - len a <? len b) by lia. reflexivity.
Qed.
Lemma rd_head {X} (v : X) (a : arr X) : rd (Some v :: a) 0 = Ok v.
Proof. reflexivity. Qed.

Lemma upd_app {X} (l r : list X) x v : upd (l ++ x :: r) (length l) v = l ++ v :: r.
Proof. induction l; simpl; congruence. Qed.
Lemma wr_app {X} (l r : arr X) x v i : i = len l -> wr (l ++ x :: r) i v = Ok (l ++ Some v :: r).
Proof.
  intros ->. unfold wr, len. rewrite app_length. simpl length.
  destruct (Z.ltb_spec (Z.of_nat (length l)) 0); [lia|].
  destruct (Z.leb_spec (Z.of_nat (length l + S (length r))) (Z.of_nat (length l))); [lia|].
  simpl. rewrite Nat2Z.id, upd_app. reflexivity.
Qed.
Lemma wr_ok {X} (a : arr X) i v : 0 <= i < len a -> wr a i v = Ok (upd a (Z.to_nat i) (Some v)).
Proof.
  unfold wr, len; intros. replace ((i <? 0) || (Z.of_nat (length a) <=? i)) with false by lia. reflexivity.
Qed.
Lemma wr_inv {X} (a b : arr X) i v : wr a i v = Ok b -> 0 <= i < len a /\ b = upd a (Z.to_nat i) (Some v).
Proof.
  unfold wr, len. destruct (Z.ltb_spec i 0), (Z.leb_spec (Z.of_nat (length a)) i); simpl; intros E; try discriminate.
  injection E as <-. split; [lia|reflexivity].
Qed.
Lemma at_upd {X} (d : X) a i v j : 0 <= i < len a -> 0 <= j -> at_ d (upd a (Z.to_nat i) v) j = if i =? j then v else at_ d a j.
Proof.
  unfold at_, len; intros Hi Hj.
  assert (G : forall (a : list X) i j, (i < length a)%nat -> nth j (upd a i v) d = if (i =? j)%nat then v else nth j a d).
  { clear. induction a; intros [|i] [|j] Hl; simpl in *; try lia; auto. apply IHa; lia. }
  rewrite G by lia. destruct (Nat.eqb_spec (Z.to_nat i) (Z.to_nat j)), (Z.eqb_spec i j); auto; lia.
Qed.
Lemma wr_lift {X} l i (v : X) : 0 <= i < len l -> wr (lift l) i v = Ok (lift (upd l (Z.to_nat i) v)).
Proof.
  intros. rewrite wr_ok by (rewrite len_lift; lia). f_equal. unfold lift.
  generalize (Z.to_nat i). clear. induction l; intros [|n]; simpl; congruence.
Qed.

Lemma lift_app {X} (l r : list X) : lift (l ++ r) = lift l ++ lift r.
Proof. apply map_app. Qed.
Lemma lift_inj {X} (l r : list X) : lift l = lift r -> l = r.
Proof.
  revert r; induction l; intros [|b r] E; simpl in E; try discriminate; auto. injection E as -> E. f_equal; auto.
Qed.

(** The rest of an array from index [i] *)
Definition drop {X} (i : Z) (a : list X) : list X := skipn (Z.to_nat i) a.
(** The first [i] entries. No LCQPow code. *)
Definition take {X} (i : Z) (a : list X) : list X := firstn (Z.to_nat i) a.
Lemma drop_0 {X} (a : list X) : drop 0 a = a.
Proof. reflexivity. Qed.
Lemma drop_all {X} (a : list X) i : len a <= i -> drop i a = [].
Proof. unfold drop, len; intros; apply skipn_all2; lia. Qed.
Lemma drop_cons {X} (d : X) a i : 0 <= i < len a -> drop i a = at_ d a i :: drop (i + 1) a.
Proof.
  unfold drop, len, at_; intros. replace (Z.to_nat (i + 1)) with (S (Z.to_nat i)) by lia.
  assert (G : forall n (a : list X), (n < length a)%nat -> skipn n a = nth n a d :: skipn (S n) a).
  { clear. induction n; intros [|x a] Hl; simpl in *; try lia; auto. rewrite IHn by lia. reflexivity. }
  apply G; lia.
Qed.
Lemma len_drop {X} (a : list X) i : 0 <= i <= len a -> len (drop i a) = len a - i.
Proof. unfold len, drop; intros; rewrite skipn_length; lia. Qed.
Lemma len_take {X} (a : list X) i : 0 <= i <= len a -> len (take i a) = i.
Proof. unfold len, take; intros; rewrite firstn_length; lia. Qed.
Lemma take_drop {X} (a : list X) i : take i a ++ drop i a = a.
Proof. apply firstn_skipn. Qed.
Lemma take_all {X} (a : list X) i : len a <= i -> take i a = a.
Proof. unfold take, len; intros; apply firstn_all2; lia. Qed.
Lemma at_take {X} (d : X) a n i : 0 <= i < n -> at_ d (take n a) i = at_ d a i.
Proof.
  unfold at_, take; intros.
  assert (G : forall m n (a : list X), (n < m)%nat -> nth n (firstn m a) d = nth n a d).
  { clear. induction m; intros [|n] [|x a] Hl; simpl; try lia; auto. apply IHm; lia. }
  apply G; lia.
Qed.
Lemma at_drop {X} (d : X) a n i : 0 <= n -> 0 <= i -> at_ d (drop n a) i = at_ d a (n + i).
Proof.
  unfold at_, drop; intros.
  assert (G : forall m n (a : list X), nth n (skipn m a) d = nth (m + n) a d).
  { clear. induction m; intros n [|x a]; simpl; auto. destruct n; auto. }
  rewrite G. f_equal; lia.
Qed.
Lemma take_tab {X} n m (f : Z -> X) : 0 <= n <= m -> take n (tab m f) = tab n f.
Proof.
  intros. apply (list_eq (f 0)).
  - rewrite len_take by (rewrite len_tab; lia). rewrite len_tab; lia.
  - intros i Hi. rewrite len_take in Hi by (rewrite len_tab; lia). rewrite at_take, !at_tab by lia. reflexivity.
Qed.
Lemma drop_app {X} (a b : list X) n : n = len a -> drop n (a ++ b) = b.
Proof. intros ->; unfold drop, len; rewrite Nat2Z.id. rewrite skipn_app, skipn_all, Nat.sub_diag. reflexivity. Qed.
Lemma take_app {X} (a b : list X) n : n = len a -> take n (a ++ b) = a.
Proof. intros ->; unfold take, len; rewrite Nat2Z.id. rewrite firstn_app, firstn_all, Nat.sub_diag. simpl. apply app_nil_r. Qed.

(** A loop writing consecutive cells *)
Lemma for_fill {X} (f : Z -> X) (body : Z -> arr X -> res (arr X)) n (a : arr X) : 0 <= n <= len a ->
  (forall i, 0 <= i < n -> body i (lift (tab i f) ++ drop i a) = wr (lift (tab i f) ++ drop i a) i (f i)) ->
  for_ 0 n body a = Ok (lift (tab n f) ++ drop n a).
Proof.
  intros Hn Hb.
  apply (for_seq body (fun i => lift (tab i f) ++ drop i a) 0 n); [lia|].
  intros i Hi. rewrite Hb by assumption. rewrite (drop_cons None a i) by lia.
  rewrite wr_app by (rewrite len_lift, len_tab; lia).
  rewrite tab_succ, lift_app by lia. rewrite <- app_assoc. reflexivity.
Qed.

(** ** Sums, left to right *)
Section Sum.
Context {T : Type} `{Arith T}.
(** Left-to-right sum started at [s]. No LCQPow code. *)
Definition fsum_from (s : T) (n : Z) (f : Z -> T) : T :=
  fold_left (fun acc k => (acc + f (Z.of_nat k))%num) (seq 0 (Z.to_nat n)) s.
(** Left-to-right sum started at zero. No LCQPow code. *)
Definition fsum (n : Z) (f : Z -> T) : T := fsum_from a_zero n f.
Lemma fsum_from_succ s n f : 0 <= n -> fsum_from s (n + 1) f = (fsum_from s n f + f n)%num.
Proof.
  intros; unfold fsum_from. replace (Z.to_nat (n + 1)) with (S (Z.to_nat n)) by lia.
  rewrite seq_S, fold_left_app. simpl. replace (Z.of_nat (Z.to_nat n)) with n by lia. reflexivity.
Qed.
Lemma fsum_succ n f : 0 <= n -> fsum (n + 1) f = (fsum n f + f n)%num.
Proof. apply fsum_from_succ. Qed.
Lemma fsum_0 f : fsum 0 f = a_zero.
Proof. reflexivity. Qed.
Lemma fsum_ext n f g : (forall i, 0 <= i < n -> f i = g i) -> fsum n f = fsum n g.
Proof.
  intros E. unfold fsum, fsum_from. generalize (@a_zero T _). 
  assert (G : forall k, In k (seq 0 (Z.to_nat n)) -> f (Z.of_nat k) = g (Z.of_nat k)).
  { intros k Hk. apply in_seq in Hk. apply E; lia. }
  clear E. induction (seq 0 (Z.to_nat n)); intros t; simpl; auto. rewrite G by (left; reflexivity). apply IHl.
  intros; apply G; right; assumption.
Qed.

(** An accumulation loop *)
Lemma for_sum (body : Z -> T -> res T) n f : 0 <= n ->
  (forall i s, 0 <= i < n -> body i s = Ok (s + f i)%num) -> for_ 0 n body a_zero = Ok (fsum n f).
Proof.
  intros Hn Hb. rewrite <- (fsum_0 f). apply (for_seq body (fun i => fsum i f) 0 n); [lia|].
  intros i Hi. rewrite Hb, fsum_succ by lia. reflexivity.
Qed.
End Sum.

Lemma alloc_ok {X} n : 0 <= n <= INT_MAX -> @alloc X n = Ok (repeat None (Z.to_nat n)).
Proof.
  intros; unfold alloc, in_int, INT_MIN, INT_MAX in *. replace (n <? 0) with false by lia.
  replace ((-2147483648 <=? n) && (n <=? 2147483647)) with true by lia. reflexivity.
Qed.
Lemma alloc_init_ok {X} n (v : X) : 0 <= n <= INT_MAX -> alloc_init n v = Ok (lift (repeat v (Z.to_nat n))).
Proof.
  intros; unfold alloc_init, in_int, INT_MIN, INT_MAX in *. replace (n <? 0) with false by lia.
  replace ((-2147483648 <=? n) && (n <=? 2147483647)) with true by lia. f_equal.
  unfold lift. generalize (Z.to_nat n). clear; induction n; simpl; congruence.
Qed.
Lemma alloc_inv {X} n (a : arr X) : alloc n = Ok a -> 0 <= n <= INT_MAX /\ a = repeat None (Z.to_nat n).
Proof.
  unfold alloc, in_int, INT_MAX, INT_MIN. destruct (Z.ltb_spec n 0); [discriminate|].
  destruct ((-2147483648 <=? n) && (n <=? 2147483647)) eqn:E; [|discriminate]. intros E2; injection E2 as <-.
  apply andb_true_iff in E. split; [lia|reflexivity].
Qed.
Lemma repeat_tab {X} n (v : X) : repeat v (Z.to_nat n) = tab n (fun _ => v).
Proof.
  unfold tab. generalize (Z.to_nat n) at 1 2. intros k. generalize O. induction k; intros j; simpl; auto. f_equal; auto.
Qed.
Lemma memcpy_all_ok {X} (d a : arr X) n : 0 <= n <= len a -> n <= len d -> memcpy_all d a n = Ok (take n a ++ drop n d).
Proof.
  unfold memcpy_all, len; intros. replace (n <? 0) with false by lia.
  replace ((Z.of_nat (length a) <? n) || (Z.of_nat (length d) <? n)) with false by lia. reflexivity.
Qed.
Lemma rd_list_lift {X} (l : list X) n : (n <= length l)%nat -> rd_list (lift l) n = Ok (firstn n l).
Proof. revert l; induction n; intros [|x l] Hl; simpl in *; try lia; auto. rewrite IHn by lia. reflexivity. Qed.
