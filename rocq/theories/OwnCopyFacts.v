(** * OwnCopyFacts: a copied LCQProblem object is freed twice.  Proof layer, no LCQPow code. *)
From Coq Require Import List Bool Arith Lia.
From Verif Require Import Base OwnProblem OwnCopy SpecMemory OwnCheck OwnProblemFacts.
Import ListNotations.
Local Open Scope nat_scope.

(** The only undefined behaviour of commands *)
Lemma exec_ub : forall c s u, exec c s = UB u -> u = UseAfterFree.
Proof.
  induction c; intros s u E; cbn [exec] in E; try discriminate.
  - destruct (mem s k); [|discriminate]. unfold free_blk in E. destruct (live s n); cbn [bind] in E; congruence.
  - destruct (mem s k); [|discriminate]. unfold free_blk in E. destruct (live s n); cbn [bind] in E; congruence.
  - destruct (mem s k); [|discriminate]. destruct (live s n); congruence.
  - destruct (mem s k); eauto.
  - destruct (sp s); eauto.
  - destruct b; eauto.
  - destruct (exec c1 s) as [[ok s1]|] eqn:X; cbn [bind] in E; [|injection E as <-; eauto]. destruct ok; [eauto|discriminate].
  - destruct (exec c1 s) as [[ok s1]|] eqn:X; cbn [bind] in E; [|injection E as <-; eauto].
    destruct (exec c2 s1) as [[ok2 s2]|] eqn:X2; cbn [bind] in E; [discriminate|injection E as <-; eauto].
  - revert s E. induction n; intros s E; [discriminate|].
    destruct (exec c s) as [[ok s1]|] eqn:X; cbn [bind] in E; [|injection E as <-; eauto]. destruct ok; [eauto|discriminate].
Qed.
Lemma calls_ub : forall d l s u, calls d l s = UB u -> u = UseAfterFree.
Proof.
  intros d. induction l as [|o l IH]; intros s u E; cbn [calls] in E; [discriminate|].
  destruct (exec (op_cmd d o) s) as [[ok s1]|] eqn:X; cbn [bind] in E; [|injection E as <-; eapply exec_ub; exact X].
  destruct (calls d l s1) as [[oks s2]|] eqn:X2; cbn [bind] in E; [discriminate|injection E as <-; eauto].
Qed.

(** A pointer that a command does not assign *)
Fixpoint keeps (k : key) (c : cmd) : bool :=
  match c with
  | New k' | Del k' | Drop k' => negb (key_eqb k' k)
  | IfNull _ a b | IfSp a b | Choice _ a b | Seq a b | Fin a b => keeps k a && keeps k b
  | Rep _ c => keeps k c
  | _ => true
  end.
Lemma keeps_exec : forall k c s b s', keeps k c = true -> exec c s = Ok (b, s') -> mem s' k = mem s k.
Proof.
  intros k. induction c; intros s bb s' K E; cbn [exec] in E; cbn [keeps] in K; try (apply negb_true_iff in K).
  - inversion E; subst; reflexivity.
  - inversion E; subst; reflexivity.
  - inversion E; subst; cbn [mem]. unfold set_mem. rewrite K. reflexivity.
  - destruct (mem s k0); [|inversion E; subst; reflexivity]. destruct (free_blk n s); cbn [bind] in E; [|discriminate].
    inversion E; subst; cbn [mem]. unfold set_mem. rewrite K. reflexivity.
  - destruct (mem s k0); [|inversion E; subst; reflexivity]. destruct (free_blk n s); cbn [bind] in E; [|discriminate]. inversion E; subst; reflexivity.
  - inversion E; subst; cbn [mem]. unfold set_mem. rewrite K. reflexivity.
  - destruct (mem s k0) as [i|]; [destruct (live s i); [|discriminate]|]; inversion E; subst; reflexivity.
  - apply andb_true_iff in K. destruct K. destruct (mem s k0); eauto.
  - apply andb_true_iff in K. destruct K. destruct (sp s); eauto.
  - inversion E; subst; reflexivity.
  - apply andb_true_iff in K. destruct K. destruct b; eauto.
  - apply andb_true_iff in K. destruct K. split_bind E. destruct ok; [|inversion E; subst; eauto]. rewrite (IHc2 _ _ _ H0 E). eauto.
  - apply andb_true_iff in K. destruct K. split_bind E. split_bind E. inversion E; subst. rewrite (IHc2 _ _ _ H0 EX0). eauto.
  - revert s E. induction n; intros s E; [inversion E; subst; reflexivity|]. split_bind E.
    destruct ok; [|inversion E; subst; eauto]. rewrite (IHn _ E). eauto.
Qed.

(** Freed blocks stay freed *)
Lemma dead_del : forall a k s b s', live s a = false -> exec (Del k) s = Ok (b, s') -> live s' a = false.
Proof.
  intros a k s b s' D E. cbn [exec] in E. destruct (mem s k) as [i|]; [|inversion E; subst; exact D].
  unfold free_blk in E. destruct (live s i); cbn [bind] in E; [|discriminate]. inversion E; subst. unfold live in *; cbn [blk].
  rewrite set_blk_nth. destruct (i =? a); [|exact D]. destruct (_ <? _); reflexivity || exact D.
Qed.
Lemma dead_dels : forall a o fs s b s', live s a = false -> exec (each Del o fs) s = Ok (b, s') -> live s' a = false.
Proof.
  intros a o. induction fs as [|f fs IH]; intros s b s' D E; [inversion E; subst; exact D|].
  unfold each, seqs in E. cbn [map fold_right] in E. cbn [exec] in E. change (exec (Del (o, f)) s) with (exec (Del (o, f)) s) in E.
  change (match mem s (o, f) with None => Ok (true, s) | Some a => let! b := free_blk a s in Ok (true, mkMst b (set_mem (o, f) None (mem s)) (sp s)) end)
    with (exec (Del (o, f)) s) in E. destruct (exec (Del (o, f)) s) as [[ok s1]|] eqn:X; cbn [bind] in E; [|discriminate].
  pose proof (dead_del _ _ _ _ _ D X). destruct ok; [|inversion E; subst; assumption]. eapply IH; eassumption.
Qed.
Lemma each_cons : forall c o f fs s, exec (each c o (f :: fs)) s = let! '(ok, s) := exec (c (o, f)) s in if ok then exec (each c o fs) s else Ok (false, s).
Proof. reflexivity. Qed.
Lemma key_neq : forall o f f', f <> f' -> key_eqb (o, f) (o, f') = false.
Proof. intros. destruct (key_eqb (o, f) (o, f')) eqn:E; [|reflexivity]. apply key_eqb_eq in E. congruence. Qed.

(** Clearing an object frees what its pointers point to *)
Lemma dels_kill : forall a o f fs s b s', In f fs -> mem s (o, f) = Some a -> exec (each Del o fs) s = Ok (b, s') -> live s' a = false.
Proof.
  intros a o f. induction fs as [|g fs IH]; intros s b s' I M E; [destruct I|]. rewrite each_cons in E.
  destruct (exec (Del (o, g)) s) as [[ok s1]|] eqn:X; cbn [bind] in E; [|discriminate].
  assert (ok = true) by (eapply (nofail_true (Del (o, g))); [reflexivity|exact X]). subst ok.
  destruct (fld_eq_dec g f) as [->|N].
  - eapply dead_dels; [|exact E]. cbn [exec] in X. rewrite M in X. unfold free_blk in X. destruct (live s a) eqn:L; cbn [bind] in X; [|discriminate].
    inversion X; subst. unfold live in *; cbn [blk]. rewrite set_blk_nth, Nat.eqb_refl.
    destruct (a <? length (blk s)) eqn:Q; [reflexivity|]. apply Nat.ltb_ge in Q. rewrite nth_overflow by exact Q. reflexivity.
  - destruct I as [I|I]; [congruence|]. eapply IH; [exact I| |exact E].
    rewrite (keeps_exec (o, f) (Del (o, g)) _ _ _ ltac:(cbn [keeps]; rewrite key_neq by exact N; reflexivity) X). exact M.
Qed.
(** Clearing an object with a dangling pointer is undefined *)
Lemma dels_dangling : forall a o f fs s, In f fs -> mem s (o, f) = Some a -> live s a = false -> exec (each Del o fs) s = UB UseAfterFree.
Proof.
  intros a o f. induction fs as [|g fs IH]; intros s I M D; [destruct I|]. rewrite each_cons.
  destruct (exec (Del (o, g)) s) as [[ok s1]|u] eqn:X; cbn [bind]; [|f_equal; eapply exec_ub; exact X].
  assert (ok = true) by (eapply (nofail_true (Del (o, g))); [reflexivity|exact X]). subst ok.
  destruct (fld_eq_dec g f) as [->|N].
  - cbn [exec] in X. rewrite M in X. unfold free_blk in X. rewrite D in X. discriminate.
  - destruct I as [I|I]; [congruence|]. apply IH; [exact I| |eapply dead_del; eassumption].
    rewrite (keeps_exec (o, f) (Del (o, g)) _ _ _ ltac:(cbn [keeps]; rewrite key_neq by exact N; reflexivity) X). exact M.
Qed.
(** A command that allocates nothing *)
Fixpoint nonew (c : cmd) : bool :=
  match c with
  | New _ => false
  | IfNull _ a b | IfSp a b | Choice _ a b | Seq a b | Fin a b => nonew a && nonew b
  | Rep _ c => nonew c
  | _ => true
  end.
Lemma dead_exec : forall a c s b s', nonew c = true -> live s a = false -> exec c s = Ok (b, s') -> live s' a = false.
Proof.
  intros a. induction c; intros s bb s' N D E; cbn [nonew] in N; try discriminate.
  - inversion E; subst; exact D.
  - inversion E; subst; exact D.
  - eapply dead_del; eassumption.
  - cbn [exec] in E. destruct (mem s k) as [i|]; [|inversion E; subst; exact D].
    unfold free_blk in E. destruct (live s i); cbn [bind] in E; [|discriminate]. inversion E; subst. unfold live in *; cbn [blk].
    rewrite set_blk_nth. destruct (i =? a); [|exact D]. destruct (_ <? _); reflexivity || exact D.
  - inversion E; subst; exact D.
  - cbn [exec] in E. destruct (mem s k) as [i|]; [destruct (live s i); [|discriminate]|]; inversion E; subst; exact D.
  - cbn [exec] in E. apply andb_true_iff in N. destruct N. destruct (mem s k); eauto.
  - cbn [exec] in E. apply andb_true_iff in N. destruct N. destruct (sp s); eauto.
  - inversion E; subst; exact D.
  - cbn [exec] in E. apply andb_true_iff in N. destruct N. destruct b; eauto.
  - cbn [exec] in E. apply andb_true_iff in N. destruct N. split_bind E. destruct ok; [|inversion E; subst; eauto]. eapply IHc2; [assumption| |exact E]. eauto.
  - cbn [exec] in E. apply andb_true_iff in N. destruct N. split_bind E. split_bind E. inversion E; subst. eapply IHc2; [assumption| |exact EX0]. eauto.
  - cbn [exec] in E. revert s D E. induction n; intros s D E; [inversion E; subst; exact D|]. split_bind E.
    destruct ok; [|inversion E; subst; eauto]. eapply IHn; [|exact E]. eauto.
Qed.

Lemma gk_nodrop : forall d o, nodrop (Prob, fgk) (op_cmd d o) = true.
Proof.
  intros. destruct o as [a|a|f|r| |ok]; cbn [op_cmd]; [vm_compute; reflexivity..| |vm_compute; reflexivity|vm_compute; reflexivity].
  destruct r as [sv st su x y fi n co fa]. destruct sv, su; vm_compute; reflexivity.
Qed.
Lemma calls_alive : forall d k l s oks s', (forall o, nodrop k (op_cmd d o) = true) -> inj s -> alive k s -> calls d l s = Ok (oks, s') -> alive k s'.
Proof.
  intros d k l. induction l; intros s oks s' N J H E; cbn [calls] in E.
  - inversion E; subst; exact H.
  - split_bind E. destruct (calls d l s1) as [[o2 s2]|] eqn:E2; [cbn [bind] in E|discriminate]. inversion E; subst.
    eapply IHl; [exact N| | |exact E2]; [eapply exec_inj; eassumption|eapply alive_exec; [apply N|..]; eassumption].
Qed.

Lemma p_copied : forall d l q acc, d_ok d = true -> copied d l q acc = UB UseAfterFree.
Proof.
  intros d l q acc OK. unfold copied.
  destruct (exec (c_ctor d) mst0) as [[b1 s1]|u] eqn:E1; cbn [bind]; [|f_equal; eapply exec_ub; exact E1].
  destruct (calls d l s1) as [[oks s2]|u] eqn:E2; cbn [bind]; [|f_equal; eapply calls_ub; exact E2].
  assert (J1 : inj s1) by (eapply exec_inj; [apply inj0|exact E1]).
  assert (A1 : alive (Prob, fgk) s1).
  { assert (b1 = true) by (eapply (nofail_true (c_ctor d)); [reflexivity|exact E1]). subst b1.
    unfold c_ctor, when in E1. rewrite OK in E1. cbn [exec] in E1.
    eapply (must_alive (Prob, fgk) (each New Prob ctor_flds)); [reflexivity|reflexivity|apply inj0|exact E1]. }
  destruct (calls_alive d _ l s1 oks s2 (gk_nodrop d) J1 A1 E2) as (a & M & _).
  assert (M1 : mem (copy_ptrs s2) (Tmp1, fgk) = Some a) by exact M.
  assert (M2 : mem (copy_ptrs s2) (Prob, fgk) = Some a) by exact M.
  destruct (exec (sub_copy q acc) (copy_ptrs s2)) as [[b3 s3]|u] eqn:E3; cbn [bind]; [|f_equal; eapply exec_ub; exact E3].
  assert (K1 : mem s3 (Tmp1, fgk) = Some a) by (rewrite (keeps_exec (Tmp1, fgk) (sub_copy q acc) _ _ _ ltac:(destruct q, acc; vm_compute; reflexivity) E3); exact M1).
  assert (K2 : mem s3 (Prob, fgk) = Some a) by (rewrite (keeps_exec (Prob, fgk) (sub_copy q acc) _ _ _ ltac:(destruct q, acc; vm_compute; reflexivity) E3); exact M2).
  destruct (exec (each Del Tmp1 clear_flds) s3) as [[b4 s4]|u] eqn:E4; cbn [bind]; [|f_equal; eapply exec_ub; exact E4].
  assert (D4 : live s4 a = false) by (eapply (dels_kill a Tmp1 fgk); [|exact K1|exact E4]; cbn; tauto).
  assert (K4 : mem s4 (Prob, fgk) = Some a) by (rewrite (keeps_exec (Prob, fgk) (each Del Tmp1 clear_flds) _ _ _ ltac:(vm_compute; reflexivity) E4); exact K2).
  destruct (exec (sub_dtor Tmp1) s4) as [[b5 s5]|u] eqn:E5; cbn [bind]; [|f_equal; eapply exec_ub; exact E5].
  assert (D5 : live s5 a = false) by (eapply (dead_exec a (sub_dtor Tmp1)); [vm_compute; reflexivity|exact D4|exact E5]).
  assert (K5 : mem s5 (Prob, fgk) = Some a) by (rewrite (keeps_exec (Prob, fgk) (sub_dtor Tmp1) _ _ _ ltac:(vm_compute; reflexivity) E5); exact K4).
  unfold c_dtor. cbn [exec]. rewrite (dels_dangling a Prob fgk clear_flds s5); [reflexivity|cbn; tauto|exact K5|exact D5].
Qed.
