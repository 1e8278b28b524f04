(** * Tactics: inversion of monadic code (no LCQPow code). *)
From Verif Require Import Base.

Lemma bind_ok {A B} (e : res A) (f : A -> res B) b :
  bind e f = Ok b -> exists a, e = Ok a /\ f a = Ok b.
Proof. destruct e; simpl; intros H; [eauto | discriminate]. Qed.

Lemma bind_Ok {A B} (e : res A) (f : A -> res B) a : e = Ok a -> bind e f = f a.
Proof. intros ->; reflexivity. Qed.

(** Decompose hypotheses about successful monadic code. *)
Ltac inv_step :=
  match goal with
  | H : Ok _ = Ok _ |- _ => injection H; clear H; intros; subst
  | H : UB _ = Ok _ |- _ => discriminate H
  | H : Ok _ = UB _ |- _ => discriminate H
  | H : Some _ = Some _ |- _ => injection H; clear H; intros; subst
  | H : Some _ = None |- _ => discriminate H
  | H : None = Some _ |- _ => discriminate H
  | H : (_, _) = (_, _) |- _ => injection H; clear H; intros; subst
  | H : bind ?e _ = Ok _ |- _ => let a := fresh "v" in let E := fresh "E" in apply bind_ok in H; destruct H as (a & E & H); cbv beta in H
  | H : get ?e = Ok _ |- _ => let E := fresh "E" in destruct e eqn:E; simpl in H; try discriminate H
  | H : deref ?e = Ok _ |- _ => let E := fresh "E" in destruct e eqn:E; simpl in H; try discriminate H
  | H : match ?x with _ => _ end = Ok _ |- _ => let E := fresh "E" in destruct x eqn:E
  end.
Ltac inv_ok := repeat inv_step.

(** Code that never runs out of fuel *)
Definition nofuel {A} (r : res A) : Prop := r <> UB OutOfFuel.

Lemma nf_ok {A} (a : A) : nofuel (Ok a).
Proof. discriminate. Qed.
Lemma nf_ub {A} u : u <> OutOfFuel -> nofuel (@UB A u).
Proof. intros H C; injection C; auto. Qed.
Lemma nf_bind {A B} (e : res A) (f : A -> res B) : nofuel e -> (forall a, e = Ok a -> nofuel (f a)) -> nofuel (bind e f).
Proof. unfold nofuel; destruct e; simpl; auto. intros H _ C; apply H; injection C as ->; reflexivity. Qed.
Lemma chk_int_ok z n : chk_int z = Ok n -> n = z /\ in_int z = true.
Proof. unfold chk_int. destruct (in_int z); [|discriminate]. intros [= <-]. auto. Qed.
Lemma nf_chk z : nofuel (chk_int z).
Proof. unfold nofuel, chk_int; destruct (in_int _); discriminate. Qed.
Lemma nf_rd {X} (a : arr X) i : nofuel (rd a i).
Proof. unfold nofuel, rd; destruct (_ <? _); try (apply nf_ok || apply nf_ub; discriminate); destruct (nth_error _ _) as [[|]|]; discriminate. Qed.
Lemma nf_wr {X} (a : arr X) i v : nofuel (wr a i v).
Proof. unfold nofuel, wr; destruct (_ || _); discriminate. Qed.
Lemma nf_vrd {X} (a : list X) i : nofuel (vrd a i).
Proof. unfold nofuel, vrd; destruct (_ <? _); try (apply nf_ok || apply nf_ub; discriminate); destruct (nth_error _ _); discriminate. Qed.
Lemma nf_alloc {X} n : nofuel (@alloc X n).
Proof. unfold nofuel, alloc; destruct (_ <? _); [|destruct (in_int n)]; discriminate. Qed.
Lemma nf_alloc_init {X} n (v : X) : nofuel (alloc_init n v).
Proof. unfold nofuel, alloc_init; destruct (_ <? _); [|destruct (in_int n)]; discriminate. Qed.
Lemma nf_deref {X} (p : option X) : nofuel (deref p).
Proof. unfold nofuel; destruct p; discriminate. Qed.
Lemma nf_get {X} (p : option X) : nofuel (get p).
Proof. unfold nofuel; destruct p; discriminate. Qed.
Lemma nf_memcpy {X} (a b : arr X) n : nofuel (memcpy_all a b n).
Proof. unfold nofuel, memcpy_all; destruct (_ <? _); [|destruct (_ || _)]; discriminate. Qed.
Lemma nf_rd_list {X} n : forall a : arr X, nofuel (rd_list a n).
Proof.
  induction n; intros a; cbn [rd_list]; [(apply nf_ok || apply nf_ub; discriminate)|].
  destruct a as [|[|]]; try (apply nf_ok || apply nf_ub; discriminate). apply nf_bind; auto. intros; (apply nf_ok || apply nf_ub; discriminate).
Qed.
Lemma nf_for {S} (f : Z -> S -> res S) (Hf : forall i s, nofuel (f i s)) lo hi s : nofuel (for_ lo hi f s).
Proof.
  unfold for_. generalize (Z.to_nat (hi - lo)). intros n. revert lo s.
  induction n; intros; cbn [for_nat]; [apply nf_ok|]. apply nf_bind; auto.
Qed.
Lemma nf_forb {S R} (f : Z -> S -> res (S + R)) (Hf : forall i s, nofuel (f i s)) lo hi s : nofuel (forb lo hi f s).
Proof.
  unfold forb. generalize (Z.to_nat (hi - lo)). intros n. revert lo s.
  induction n; intros; cbn [forb_nat]; [(apply nf_ok || apply nf_ub; discriminate)|]. apply nf_bind; auto. intros [|] _; auto. (apply nf_ok || apply nf_ub; discriminate).
Qed.

Create HintDb nf discriminated.
#[export] Hint Resolve nf_ok nf_chk nf_rd nf_wr nf_vrd nf_alloc nf_alloc_init nf_deref nf_get nf_memcpy nf_rd_list : nf.

Ltac nf_step :=
  match goal with
  | |- nofuel (UB _) => unfold nofuel; discriminate
  | |- nofuel (bind _ _) => apply nf_bind; [|intros ? ?]
  | |- nofuel (for_ _ _ _ _) => apply nf_for; intros ? ?
  | |- nofuel (forb _ _ _ _) => apply nf_forb; intros ? ?
  | |- nofuel (match ?x with _ => _ end) => destruct x eqn:?
  | |- nofuel _ => solve [auto with nf]
  end.
Ltac nf := repeat nf_step.
