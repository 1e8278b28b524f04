(** * CscDense: csc_to_dns (any arithmetic). *)
From Verif Require Import Base Arith Codes Utilities Tactics Loops Kernels SpecSparse CscKernels CscBuild.

(** Fold with early exit *)
Fixpoint fold_exit {S R X} (g : S -> X -> S + R) (l : list X) (s : S) : S + R :=
  match l with
  | [] => inl s
  | x :: l => match g s x with inl s' => fold_exit g l s' | inr r => inr r end
  end.
Lemma forb_list {X S R} (d : X) (l : list X) (g : S -> X -> S + R) (f : Z -> S -> res (S + R)) s :
  (forall k s, 0 <= k < len l -> f k s = Ok (g s (at_ d l k))) ->
  forb 0 (len l) f s = Ok (fold_exit g l s).
Proof.
  revert f s. induction l as [|x l IH]; intros f s Hf; [reflexivity|].
  pose proof (len_nonneg l). rewrite forb_cons by (rewrite len_cons; lia). rewrite Hf by (rewrite len_cons; lia).
  change (at_ d (x :: l) 0) with x in *. cbn [bind fold_exit]. destruct (g s x) as [s'|r]; auto.
  rewrite len_cons. replace (0 + 1) with 1 by lia. replace (len l + 1) with (1 + len l) by lia. rewrite forb_shift.
  apply IH. intros k s0 Hk.
  replace (at_ d l k) with (at_ d (x :: l) (1 + k)).
  - apply Hf. rewrite len_cons; lia.
  - unfold at_. replace (Z.to_nat (1 + k)) with (Datatypes.S (Z.to_nat k)) by lia. reflexivity.
Qed.
Lemma forb_list_inv {X S R} (d : X) (l : list X) (P : S -> Prop) (g : S -> X -> S + R) (f : Z -> S -> res (S + R)) s : P s ->
  (forall k s, 0 <= k < len l -> P s -> f k s = Ok (g s (at_ d l k)) /\ (forall s', g s (at_ d l k) = inl s' -> P s')) ->
  forb 0 (len l) f s = Ok (fold_exit g l s).
Proof.
  revert f s. induction l as [|x l IH]; intros f s Hs Hf; [reflexivity|].
  pose proof (len_nonneg l). rewrite forb_cons by (rewrite len_cons; lia).
  destruct (Hf 0 s) as [E0 P0]; [rewrite len_cons; lia|auto|]. rewrite E0.
  change (at_ d (x :: l) 0) with x in *. cbn [bind fold_exit]. destruct (g s x) as [s'|r]; auto.
  rewrite len_cons. replace (0 + 1) with 1 by lia. replace (len l + 1) with (1 + len l) by lia. rewrite forb_shift.
  apply IH; auto. intros k s0 Hk Hp.
  replace (at_ d l k) with (at_ d (x :: l) (1 + k)).
  - apply Hf; [rewrite len_cons; lia|auto].
  - unfold at_. replace (Z.to_nat (1 + k)) with (Datatypes.S (Z.to_nat k)) by lia. reflexivity.
Qed.

Section Dns.
Context {T : Type} `{Arith T}.

(** The value the last entry of row [i] stores, [t] if there is none *)
Definition last_from (t : T) (c : list (Z * T)) (i : Z) : T := fold_left (fun t e => if fst e =? i then snd e else t) c t.
(** Entries of csc_to_dns. *)
Definition dense_of (cols : list (list (Z * T))) (m n : Z) : list T :=
  tab (m * n) (fun k => last_from a_zero (col cols (k mod n)) (k / n)).

(** Some row index lies outside the matrix. No LCQPow code. *)
Definition bad_row (m : Z) (cols : list (list (Z * T))) : Prop := exists c e, In c cols /\ In e c /\ ~ 0 <= fst e < m.

Lemma stored_row (dx : T) (S : csc T) m n cols j k : stored S m n cols -> 0 <= j < n -> 0 <= k < len (col cols j) ->
  csc_i S (off cols j + k) = Ok (fst (at_ (0, dx) (col cols j) k)) /\
  csc_x S (off cols j + k) = Ok (snd (at_ (0, dx) (col cols j) k)).
Proof.
  intros HR Hj Hk. pose proof (so_len _ _ _ _ HR) as L. unfold csc_i, csc_x. rewrite (so_i _ _ _ _ HR), (so_x _ _ _ _ HR). simpl.
  pose proof (off_le cols j k). rewrite (rd_lift (fst (0, dx))), (rd_lift (snd (0, dx))) by (rewrite len_map; lia).
  rewrite !at_map, !at_concat by lia. auto.
Qed.
Lemma stored_p (S : csc T) m n cols j : stored S m n cols -> 0 <= j <= n -> csc_p S j = Ok (off cols j).
Proof.
  intros HR Hj. unfold csc_p. rewrite (so_p _ _ _ _ HR). simpl. rewrite (rd_lift 0) by (rewrite len_tab; lia).
  rewrite at_tab by lia. reflexivity.
Qed.

Lemma upd_tab {X} n (f : Z -> X) i v : 0 <= i < n -> upd (tab n f) (Z.to_nat i) v = tab n (fun k => if i =? k then v else f k).
Proof.
  intros Hi. apply (list_eq v); [rewrite len_upd, !len_tab; lia|]. rewrite len_upd, len_tab by lia. intros k Hk.
  rewrite at_upd by (rewrite ?len_tab; lia). rewrite !at_tab by lia. reflexivity.
Qed.

(** One column: [inr None] as soon as a row is out of range *)
Definition colfold (m n j : Z) (c : list (Z * T)) (f : Z -> T) : (Z -> T) + option (arr T) :=
  fold_exit (fun f e => if (m * n <=? fst e * n + j) || (fst e * n + j <? 0) then inr None
                        else inl (fun k => if fst e * n + j =? k then snd e else f k)) c f.

Lemma colfold_bad m n j c f : 0 <= m -> 0 <= j < n -> (exists e, In e c /\ ~ 0 <= fst e < m) -> colfold m n j c f = inr None.
Proof.
  intros Hm Hj. revert f. induction c as [|e c IH]; intros f (e' & Hi & Hb); [contradiction|].
  unfold colfold. cbn [fold_exit].
  destruct ((m * n <=? fst e * n + j) || (fst e * n + j <? 0)) eqn:E; [reflexivity|].
  apply Bool.orb_false_iff in E. destruct E as [E1 E2]. apply Z.leb_gt in E1. apply Z.ltb_ge in E2.
  apply IH. destruct Hi as [->|Hi]; [|eauto]. exfalso. apply Hb. nia.
Qed.
Lemma colfold_good m n j c f : 0 <= m -> 0 <= j < n -> (forall e, In e c -> 0 <= fst e < m) ->
  exists f', colfold m n j c f = inl f' /\
    forall k, 0 <= k < m * n -> f' k = if k mod n =? j then last_from (f k) c (k / n) else f k.
Proof.
  intros Hm Hj. revert f. induction c as [|e c IH]; intros f Hg.
  - exists f. split; [reflexivity|]. intros k Hk. destruct (k mod n =? j); reflexivity.
  - unfold colfold. cbn [fold_exit]. pose proof (Hg e (or_introl eq_refl)) as He.
    destruct (Z.leb_spec (m * n) (fst e * n + j)); [nia|]. destruct (Z.ltb_spec (fst e * n + j) 0); [nia|]. cbn [orb].
    destruct (IH (fun k => if fst e * n + j =? k then snd e else f k)) as (f' & E & F); [intros; apply Hg; right; auto|].
    exists f'. split; [exact E|]. intros k Hk. rewrite F by auto. unfold last_from. cbn [fold_left].
    pose proof (Z.div_mod k n). pose proof (Z.mod_pos_bound k n).
    destruct (Z.eqb_spec (k mod n) j).
    + f_equal. destruct (Z.eqb_spec (fst e * n + j) k), (Z.eqb_spec (fst e) (k / n)); auto; nia.
    + destruct (Z.eqb_spec (fst e * n + j) k); auto. subst k. rewrite mod_idx in * by lia. lia.
Qed.

(** The index computed by csc_to_dns stays an [int]. No LCQPow code. *)
Definition rows_fit (m n : Z) (cols : list (list (Z * T))) : Prop :=
  forall c e, In c cols -> In e c -> INT_MIN <= fst e * n /\ fst e * n + n <= INT_MAX.

Lemma csc_to_dns_gen (S : csc T) m n cols : stored S m n cols -> 0 <= m -> m * n <= INT_MAX -> rows_fit m n cols ->
  ((forall c e, In c cols -> In e c -> 0 <= fst e < m) -> csc_to_dns (Some S) = Ok (Some (lift (dense_of cols m n)))) /\
  (bad_row m cols -> csc_to_dns (Some S) = Ok None).
Proof.
  intros HR Hm Hmx Hfit. pose proof (so_len _ _ _ _ HR) as L. pose proof (len_nonneg cols) as Ln. rewrite L in Ln.
  (* one column *)
  assert (Col : forall j f, 0 <= j < n ->
    forb (off cols j) (off cols (j + 1)) (fun i full =>
          if i =? c_nzmax S then Ok (inr (Some full)) else
          let! r := csc_i S i in
          let! rn := chk_int (r * n) in
          let! ix := chk_int (rn + j) in
          if (m * n <=? ix) || (ix <? 0) then Ok (inr None) else
          let! x := csc_x S i in
          let! full := wr full ix x in
          Ok (inl full)) (lift (tab (m * n) f)) =
    Ok (match colfold m n j (col cols j) f with inl f => inl (lift (tab (m * n) f)) | inr r => inr r end)).
  { intros j f Hj. rewrite off_succ by lia. rewrite forb_shift.
    pose (g := fun (s : arr T) (e : Z * T) => if (m * n <=? fst e * n + j) || (fst e * n + j <? 0) then inr (@None (arr T))
                         else inl (upd s (Z.to_nat (fst e * n + j)) (Some (snd e)))).
    rewrite (forb_list_inv (0, a_zero) (col cols j) (fun s => len s = m * n) g).
    - f_equal. unfold colfold. generalize (col cols j) as c. intros c. revert f. induction c as [|e c IH]; intros f; [reflexivity|].
      cbn [fold_exit]. unfold g at 1. destruct (Z.leb_spec (m * n) (fst e * n + j)); [reflexivity|].
      destruct (Z.ltb_spec (fst e * n + j) 0); [reflexivity|]. cbn [orb]. rewrite <- IH. f_equal.
      pose proof (wr_lift (tab (m * n) f) (fst e * n + j) (snd e)) as W. rewrite len_tab in W by nia.
      rewrite wr_ok in W by (rewrite len_lift, len_tab; nia). rewrite upd_tab in W by lia. specialize (W ltac:(lia)). congruence.
    - rewrite len_lift, len_tab; nia.
    - intros k s Hk Hs. destruct (stored_row a_zero S m n cols j k HR Hj Hk) as [Ei Ex].
      pose proof (off_le cols j k). pose proof (so_nz _ _ _ _ HR).
      destruct (Z.eqb_spec (off cols j + k) (c_nzmax S)); [lia|]. rewrite Ei. cbn [bind].
      set (e := at_ (0, a_zero) (col cols j) k) in *.
      assert (F : INT_MIN <= fst e * n /\ fst e * n + n <= INT_MAX).
      { apply (Hfit (col cols j)); [apply col_in; lia|apply in_at; lia]. }
      unfold chk_int at 1. replace (in_int (fst e * n)) with true by (unfold in_int; lia). cbn [bind].
      unfold chk_int at 1. replace (in_int (fst e * n + j)) with true by (unfold in_int; lia). cbn [bind].
      unfold g. destruct (Z.leb_spec (m * n) (fst e * n + j)); [split; [reflexivity|discriminate]|].
      destruct (Z.ltb_spec (fst e * n + j) 0); [split; [reflexivity|discriminate]|]. cbn [orb]. rewrite Ex. cbn [bind].
      rewrite wr_ok by lia. split; [reflexivity|]. intros s' E. injection E as <-. rewrite len_upd. auto. }
  unfold csc_to_dns. cbn [deref bind]. rewrite (so_m _ _ _ _ HR), (so_n _ _ _ _ HR).
  rewrite alloc_init_ok by nia. cbn [bind]. rewrite repeat_tab.
  split.
  - intros Hg.
    pose (F := fun j k => if k mod n <? j then last_from a_zero (col cols (k mod n)) (k / n) else (a_zero : T)).
    pose (st := fun j => lift (tab (m * n) (F j))).
    replace (lift (tab (m * n) (fun _ => a_zero))) with (st 0).
    2: { unfold st. f_equal. apply tab_ext. intros k Hk. unfold F. assert (n <> 0) by nia. pose proof (Z.mod_pos_bound k n).
         destruct (Z.ltb_spec (k mod n) 0); [lia|reflexivity]. }
    match goal with |- context [forb 0 n ?b _] => rewrite (forb_seq b st 0 n) end; auto.
    + unfold st, dense_of. cbn [bind]. do 3 f_equal. apply tab_ext. intros k Hk. unfold F. assert (n <> 0) by nia.
      pose proof (Z.mod_pos_bound k n). destruct (Z.ltb_spec (k mod n) n); [reflexivity|lia].
    + intros j Hj. rewrite !(stored_p S m n cols) by (auto; lia). cbn [bind]. unfold st. rewrite Col by auto. cbn [bind].
      destruct (colfold_good m n j (col cols j) (F j)) as (f' & -> & E); auto.
      { intros e He. apply (Hg (col cols j)); auto. apply col_in. lia. }
      do 3 f_equal. apply tab_ext. intros k Hk. rewrite E by auto. unfold F.
      destruct (Z.eqb_spec (k mod n) j) as [Ej|Ej].
      * rewrite Ej. destruct (Z.ltb_spec j j); [lia|]. destruct (Z.ltb_spec j (j + 1)); [reflexivity|lia].
      * destruct (Z.ltb_spec (k mod n) j), (Z.ltb_spec (k mod n) (j + 1)); auto; lia.
  - intros (c & e & Hc & He & Hb).
    assert (Ex : exists j, 0 <= j < n /\ exists e, In e (col cols j) /\ ~ 0 <= fst e < m).
    { apply (In_nth _ _ []) in Hc. destruct Hc as (k & Hk & Ek). exists (Z.of_nat k). unfold len in L. split; [lia|].
      exists e. split; auto. unfold col, at_. rewrite Nat2Z.id, Ek. auto. }
    clear c e Hc He Hb. destruct Ex as (j & Hj & Hb).
    (* the loop from any column on *)
    match goal with |- context [forb 0 n ?b _] => set (body := b) end.
    assert (G : forall N i f, N = Z.to_nat (n - i) -> 0 <= i <= j -> forb i n body (lift (tab (m * n) f)) = Ok (inr None)).
    { induction N as [|N IH]; intros i f HN Hi; [lia|]. rewrite forb_cons by lia. unfold body at 1.
      rewrite !(stored_p S m n cols) by (auto; lia). cbn [bind]. rewrite Col by lia. cbn [bind].
      assert (D : (exists e, In e (col cols i) /\ ~ 0 <= fst e < m) \/ (forall e, In e (col cols i) -> 0 <= fst e < m)).
      { clear. induction (col cols i) as [|e c IH]; [right; intros ? []|].
        destruct (Z.leb_spec 0 (fst e)), (Z.ltb_spec (fst e) m); [|left; exists e; simpl; split; [auto|lia]..].
        destruct IH as [(e' & Hi & Hb)|IH]; [left; exists e'; simpl; auto|]. right. intros e' [<-|Hi]; [lia|auto]. }
      destruct D as [D|D].
      - rewrite colfold_bad by (auto; lia). reflexivity.
      - assert (i <> j) by (intros ->; destruct Hb as (e & He & Hb); apply Hb, D; auto).
        destruct (colfold_good m n i (col cols i) f) as (f' & -> & _); auto; [lia|].
        apply IH; lia. }
    rewrite (G (Z.to_nat (n - 0))) by lia. reflexivity.
Qed.

End Dns.
