(** * OrderFacts: numbers other than NaN are ordered, in exact and in binary64 arithmetic (no LCQPow code). *)
From Coq Require Import QArith Qcanon SpecFloat Lqa.
From Verif Require Import Base Arith Codes Utilities Options Stats FileIO Subsolver State LCQProblem Tactics Loops Kernels Exact KernelProps2 SpecOptions OptionsFacts.
Open Scope Z_scope.

(** The order of an arithmetic.  No LCQPow code. *)
Record ordered (T : Type) {A : Arith T} : Prop := {
  or_tot : forall v w : T, is_number v -> is_number w -> a_le v w = negb (a_lt w v);
  or_trans : forall x y z : T, a_le x y = true -> a_le y z = true -> a_le x z = true;
  or_num : forall x y : T, a_le x y = true -> is_number x /\ is_number y;
  or_lt : forall x y : T, a_lt x y = true -> a_le x y = true;
  or_zero : is_number (@a_zero T A);
  or_neg : forall x y : T, a_le x y = true -> a_le (- y)%num (- x)%num = true;
  or_neg0 : a_le (- a_zero)%num (@a_zero T A) = true /\ a_le (@a_zero T A) (- a_zero)%num = true;
  or_pos : forall x : T, a_le a_zero x = true -> a_le (a_abs x) x = true /\ a_le x (a_abs x) = true;
  or_negs : forall x : T, a_le x a_zero = true -> a_le (a_abs x) (- x)%num = true /\ a_le (- x)%num (a_abs x) = true }.

Lemma xq_ordered : ordered xq.
Proof.
  constructor.
  - exact xq_tot.
  - exact xle_trans.
  - unfold is_number. destruct x, y; cbn; try discriminate; intros; split; auto; apply Qc_leb_spec; apply Qcle_refl.
  - exact xlt_le.
  - reflexivity.
  - exact xneg_le.
  - split; reflexivity.
  - intros x H. assert (N : x <> NaN) by (intros ->; discriminate). rewrite (proj1 (xabs_cases x N) H). destruct x; try discriminate; split; try reflexivity; apply Qc_leb_spec, Qcle_refl.
  - intros x H. assert (N : x <> NaN) by (intros ->; discriminate). rewrite (proj2 (xabs_cases x N) H). destruct x; try discriminate; split; try reflexivity; apply Qc_leb_spec, Qcle_refl.
Qed.

Local Ltac flo := unfold is_number in *; cbn in *; unfold SFleb, SFltb, SFcompare in *.
Lemma f64_refl (x : f64) : x <> S754_nan -> is_number x.
Proof.
  flo. destruct x as [s|s| |s m e]; intros N; try destruct s; try reflexivity; try contradiction; rewrite Z.compare_refl;
    change (Pos.compare_cont Eq m m) with (Pos.compare m m); rewrite Pos.compare_refl; reflexivity.
Qed.
(** Position of a number in the order.  No LCQPow code. *)
Definition f_rank (x : f64) : Z * Z * Z :=
  match x with
  | S754_infinity true => (-2, 0, 0) | S754_infinity false => (2, 0, 0)
  | S754_zero _ => (0, 0, 0) | S754_nan => (0, 0, 0)
  | S754_finite true m e => (-1, - e, - Zpos m) | S754_finite false m e => (1, e, Zpos m)
  end.
(** Lexicographic order of triples.  No LCQPow code. *)
Definition lex (a b : Z * Z * Z) : Prop :=
  let '(a1, a2, a3) := a in let '(b1, b2, b3) := b in a1 < b1 \/ a1 = b1 /\ (a2 < b2 \/ a2 = b2 /\ a3 <= b3).
Lemma lex_trans a b c : lex a b -> lex b c -> lex a c.
Proof. destruct a as [[a1 a2] a3], b as [[b1 b2] b3], c as [[c1 c2] c3]. unfold lex. lia. Qed.
Lemma f64_le (x y : f64) : a_le x y = true <-> x <> S754_nan /\ y <> S754_nan /\ lex (f_rank x) (f_rank y).
Proof.
  flo. unfold lex, f_rank.
  destruct x as [s|s| |s m e], y as [s'|s'| |s' m' e']; try destruct s; try destruct s';
    try (split; [intros H; first [discriminate|split; [discriminate|]; split; [discriminate|]; lia]|intros (N1 & N2 & H); try reflexivity; try (exfalso; lia); contradiction]).
  - change (Pos.compare_cont Eq m m') with (Pos.compare m m'). destruct (Z.compare_spec e e') as [->|He|He]; [|split; [discriminate|lia]|split; [intros _; split; [discriminate|]; split; [discriminate|]; lia|reflexivity]].
    destruct (Pos.compare_spec m m') as [->|Hm|Hm]; cbn; (split; [intros H; first [discriminate|split; [discriminate|]; split; [discriminate|]; lia]|intros (N1 & N2 & H); try reflexivity; exfalso; lia]).
  - change (Pos.compare_cont Eq m m') with (Pos.compare m m'). destruct (Z.compare_spec e e') as [->|He|He]; [|split; [intros _; split; [discriminate|]; split; [discriminate|]; lia|reflexivity]|split; [discriminate|lia]].
    destruct (Pos.compare_spec m m') as [->|Hm|Hm]; cbn; (split; [intros H; first [discriminate|split; [discriminate|]; split; [discriminate|]; lia]|intros (N1 & N2 & H); try reflexivity; exfalso; lia]).
Qed.
Lemma f64_ordered : ordered f64.
Proof.
  constructor.
  - exact f64_tot.
  - intros x y z. rewrite !f64_le. intros (A1 & A2 & A3) (B1 & B2 & B3). split; [exact A1|]. split; [exact B2|]. eapply lex_trans; eauto.
  - intros x y. rewrite f64_le. intros (A1 & A2 & A3). split; apply f64_refl; assumption.
  - intros x y. flo. destruct x as [s|s| |s m e], y as [s'|s'| |s' m' e']; try destruct s; try destruct s'; auto; destruct (e ?= e'); auto;
      change (Pos.compare_cont Eq m m') with (Pos.compare m m'); destruct (Pos.compare m m'); cbn; auto.
  - reflexivity.
  - intros x y. rewrite !f64_le. intros (A1 & A2 & A3). destruct x as [s|s| |s m e], y as [s'|s'| |s' m' e']; try destruct s; try destruct s'; try contradiction; cbn in *;
      (split; [discriminate|]; split; [discriminate|]; lia).
  - split; reflexivity.
  - intros x H. assert (N : x <> S754_nan) by (intros ->; discriminate). rewrite !f64_le in *. destruct H as (_ & _ & H). destruct x as [s|s| |s m e]; try destruct s; cbn in *; try contradiction; try (exfalso; lia);
      (split; (split; [discriminate|]; split; [discriminate|]; lia)).
  - intros x H. assert (N : x <> S754_nan) by (intros ->; discriminate). rewrite !f64_le in *. destruct H as (_ & _ & H). destruct x as [s|s| |s m e]; try destruct s; cbn in *; try contradiction; try (exfalso; lia);
      (split; (split; [discriminate|]; split; [discriminate|]; lia)).
Qed.


Section Ord.
Context {T : Type} {A : Arith T}.
Hypothesis O : ordered T.

Lemma nlt_le (x y : T) : is_number x -> is_number y -> a_lt x y = false -> a_le y x = true.
Proof. intros Nx Ny H. rewrite (or_tot _ O) by assumption. rewrite H. reflexivity. Qed.

(** Same value (zeros of either sign are the same).  No LCQPow code. *)
Definition same (x y : T) : Prop := a_le x y = true /\ a_le y x = true.
Lemma same_refl x : is_number x -> same x x.
Proof. intros N. split; exact N. Qed.

Lemma max_abs_ord (l : list T) m : 0 <= m <= len l -> (forall i, 0 <= i < m -> is_number (at_ a_zero l i)) ->
  exists v, MaxAbs (lift l) m = Ok v /\
    (forall i, 0 <= i < m -> a_le (a_abs (at_ a_zero l i)) v = true) /\
    (same v a_zero \/ exists i, 0 <= i < m /\ same v (a_abs (at_ a_zero l i))).
Proof.
  intros Hm Hnan. exists (maxabs l m). rewrite MaxAbs_ok by lia. split; auto.
  pose proof (or_trans _ O) as Tr. pose proof (or_lt _ O) as Lt.
  assert (G : forall k, 0 <= k -> k <= m ->
     a_le a_zero (fst (maxmin l k)) = true /\ a_le (snd (maxmin l k)) a_zero = true /\
     (forall i, 0 <= i < k -> a_le (at_ a_zero l i) (fst (maxmin l k)) = true /\ a_le (snd (maxmin l k)) (at_ a_zero l i) = true) /\
     (fst (maxmin l k) = a_zero \/ exists i, 0 <= i < k /\ fst (maxmin l k) = at_ a_zero l i) /\
     (snd (maxmin l k) = a_zero \/ exists i, 0 <= i < k /\ snd (maxmin l k) = at_ a_zero l i)).
  { intros k Hk. pattern k. apply natlike_ind; auto.
    - intros _. change (maxmin l 0) with (@a_zero T _, @a_zero T _). cbn [fst snd]. pose proof (or_zero _ O) as Z0. unfold is_number in Z0. repeat split; auto; try (intros; lia).
    - clear k Hk. intros k Hk IH Hl. unfold Z.succ in *. destruct (IH ltac:(lia)) as (P1 & P2 & P3 & P4 & P5). rewrite maxmin_succ by auto. cbv zeta.
      set (v := at_ a_zero l k) in *. assert (Hv : is_number v) by (apply Hnan; lia).
      assert (H1 : is_number (fst (maxmin l k))) by apply (or_num _ O _ _ P1).
      assert (H2 : is_number (snd (maxmin l k))) by apply (or_num _ O _ _ P2).
      destruct (a_lt (fst (maxmin l k)) v) eqn:E1; [|destruct (a_lt v (snd (maxmin l k))) eqn:E2]; cbn [fst snd].
      + pose proof (Lt _ _ E1) as L1. repeat split; auto.
        * exact (Tr _ _ _ P1 L1).
        * destruct (Z.eq_dec i k) as [->|]; [exact Hv|]. eapply Tr; [apply P3; lia|auto].
        * destruct (Z.eq_dec i k) as [->|]; [|apply P3; lia]. fold v. exact (Tr _ _ _ P2 (Tr _ _ _ P1 L1)).
        * right. exists k. split; auto; lia.
        * destruct P5 as [P5|(i & Hi & P5)]; auto. right. exists i. split; auto; lia.
      + pose proof (Lt _ _ E2) as L2. repeat split; auto.
        * exact (Tr _ _ _ L2 P2).
        * destruct (Z.eq_dec i k) as [->|]; [|apply P3; lia]. fold v. exact (Tr _ _ _ (Tr _ _ _ L2 P2) P1).
        * destruct (Z.eq_dec i k) as [->|]; [exact Hv|]. eapply Tr; [eauto|apply P3; lia].
        * destruct P4 as [P4|(i & Hi & P4)]; auto. right. exists i. split; auto; lia.
        * right. exists k. split; auto; lia.
      + apply nlt_le in E1, E2; auto. repeat split; auto.
        * destruct (Z.eq_dec i k) as [->|]; [auto|apply P3; lia].
        * destruct (Z.eq_dec i k) as [->|]; [auto|apply P3; lia].
        * destruct P4 as [P4|(i & Hi & P4)]; auto. right. exists i. split; auto; lia.
        * destruct P5 as [P5|(i & Hi & P5)]; auto. right. exists i. split; auto; lia. }
  destruct (G m ltac:(lia) ltac:(lia)) as (P1 & P2 & P3 & P4 & P5). clear G. unfold maxabs, getMax.
  set (mx := fst (maxmin l m)) in *. set (mn := snd (maxmin l m)) in *. clearbody mx mn.
  assert (N1 : is_number mx) by apply (or_num _ O _ _ P1). assert (N2 : is_number mn) by apply (or_num _ O _ _ P2).
  pose proof (or_neg _ O _ _ P2) as P2'. pose proof (Tr _ _ _ (proj2 (or_neg0 _ O)) P2') as P2''.
  assert (N3 : is_number (- mn)%num) by apply (or_num _ O _ _ P2').
  assert (B : forall i, 0 <= i < m -> a_le (a_abs (at_ a_zero l i)) mx = true \/ a_le (a_abs (at_ a_zero l i)) (- mn)%num = true).
  { intros i Hi. destruct (P3 i Hi) as [Q1 Q2].
    destruct (a_le a_zero (at_ a_zero l i)) eqn:E; [left; exact (Tr _ _ _ (proj1 (or_pos _ O _ E)) Q1)|].
    right. assert (Ln : a_le (at_ a_zero l i) a_zero = true).
    { apply nlt_le; [exact (or_zero _ O)|apply Hnan; exact Hi|]. destruct (a_lt a_zero (at_ a_zero l i)) eqn:E2; [apply Lt in E2; congruence|reflexivity]. }
    exact (Tr _ _ _ (proj1 (or_negs _ O _ Ln)) (or_neg _ O _ _ Q2)). }
  destruct (a_lt (- mn)%num mx) eqn:EC.
  - apply Lt in EC. split.
    + intros i Hi. destruct (B i Hi) as [Bi|Bi]; [exact Bi|exact (Tr _ _ _ Bi EC)].
    + destruct P4 as [P4|(i & Hi & P4)]; [left; rewrite P4; exact (same_refl _ (or_zero _ O))|]. right. exists i. split; [exact Hi|]. rewrite <- P4.
      destruct (or_pos _ O _ P1) as [Q1 Q2]. split; assumption.
  - apply nlt_le in EC; auto. split.
    + intros i Hi. destruct (B i Hi) as [Bi|Bi]; [exact (Tr _ _ _ Bi EC)|exact Bi].
    + destruct P5 as [P5|(i & Hi & P5)]; [left; rewrite P5; split; apply (or_neg0 _ O)|]. right. exists i. split; [exact Hi|]. rewrite <- P5.
      destruct (or_negs _ O _ P2) as [Q1 Q2]. split; assumption.
Qed.

Lemma getMax_ord (x y : T) : is_number x -> is_number y -> (getMax x y = x \/ getMax x y = y) /\ a_le x (getMax x y) = true /\ a_le y (getMax x y) = true.
Proof.
  intros Nx Ny. unfold getMax. destruct (a_lt y x) eqn:E; (split; [auto|]); split; auto; try (apply (or_lt _ O); exact E). apply nlt_le; auto.
Qed.
Lemma getMin_ord (x y : T) : is_number x -> is_number y -> (getMin x y = x \/ getMin x y = y) /\ a_le (getMin x y) x = true /\ a_le (getMin x y) y = true.
Proof.
  intros Nx Ny. unfold getMin. destruct (a_lt x y) eqn:E; (split; [auto|]); split; auto; try (apply (or_lt _ O); exact E). apply nlt_le; auto.
Qed.
End Ord.

(** ** The theorems on scalars *)
Lemma p_C41_f64 (l : list f64) m : 0 <= m <= len l -> (forall i, 0 <= i < m -> at_ a_zero l i <> S754_nan) ->
  exists v, MaxAbs (lift l) m = Ok v /\
    (forall i, 0 <= i < m -> SFleb (SFabs (at_ a_zero l i)) v = true) /\
    (SFeqb v (S754_zero false) = true \/ exists i, 0 <= i < m /\ SFeqb v (SFabs (at_ a_zero l i)) = true).
Proof.
  intros Hm N. destruct (max_abs_ord f64_ordered l m Hm (fun i Hi => f64_refl _ (N i Hi))) as (v & E & B & V). exists v. split; [exact E|]. split; [exact B|].
  assert (S : forall x y : f64, same x y -> SFeqb x y = true).
  { intros x y (S1 & S2). pose proof (f64_tot x y) as Tt. pose proof (or_num _ f64_ordered _ _ S1) as [Nx Ny]. specialize (Tt Nx Ny).
    pose proof (f64_tot y x Ny Nx) as Tt'. rewrite S1 in Tt. rewrite S2 in Tt'. clear - Tt Tt' S1 S2. cbn in *. unfold SFeqb, SFleb, SFltb in *.
    destruct (SFcompare x y) as [[]|] eqn:E; try reflexivity; try discriminate. }
  destruct V as [V|(i & Hi & V)]; [left; apply S; exact V|right; exists i; split; [exact Hi|apply S; exact V]].
Qed.
Lemma p_C68_max_f64 (x y : f64) : x <> S754_nan -> y <> S754_nan ->
  (getMax x y = x \/ getMax x y = y) /\ SFleb x (getMax x y) = true /\ SFleb y (getMax x y) = true /\
  (getMin x y = x \/ getMin x y = y) /\ SFleb (getMin x y) x = true /\ SFleb (getMin x y) y = true.
Proof.
  intros Nx Ny. apply f64_refl in Nx, Ny. destruct (getMax_ord f64_ordered x y Nx Ny) as (A1 & A2 & A3). destruct (getMin_ord f64_ordered x y Nx Ny) as (B1 & B2 & B3). auto 10.
Qed.
Lemma p_C68_max (x y : xq) : x <> NaN -> y <> NaN ->
  (getMax x y = x \/ getMax x y = y) /\ a_le x (getMax x y) = true /\ a_le y (getMax x y) = true /\
  (getMin x y = x \/ getMin x y = y) /\ a_le (getMin x y) x = true /\ a_le (getMin x y) y = true.
Proof.
  intros Nx Ny. assert (R : forall z : xq, z <> NaN -> is_number z) by (intros z; unfold is_number; destruct z; cbn; try reflexivity; try contradiction; intros _; apply Qc_leb_spec, Qcle_refl).
  apply R in Nx, Ny. destruct (getMax_ord xq_ordered x y Nx Ny) as (A1 & A2 & A3). destruct (getMin_ord xq_ordered x y Nx Ny) as (B1 & B2 & B3). auto 10.
Qed.
Lemma abs_le (x t : Qc) : a_le (a_abs (Fin x)) (Fin t) = true <-> (- t <= x <= t)%Qc.
Proof.
  change (a_abs (Fin x)) with (Fin (if Qc_ltb x 0 then (- x)%Qc else x)). cbn [a_le xq_arith x_le]. rewrite Qc_leb_spec. destruct (Qc_ltb x 0) eqn:E; [apply Qc_ltb_spec in E|apply Qc_ltb_false in E]; unfold Qcle, Qclt in *; rewrite ?this_opp in *.
  - change (this 0%Qc) with 0%Q in *. split; [intros H; split; lra|intros [H1 H2]; lra].
  - change (this 0%Qc) with 0%Q in *. split; [intros H; split; lra|intros [H1 H2]; lra].
Qed.
Lemma p_C68_equal (x y t : Qc) : isEqual (Fin x) (Fin y) (Fin t) = true <-> (- t <= x - y <= t)%Qc.
Proof. unfold isEqual, getAbs. change (Fin x - Fin y)%num with (Fin (x - y)%Qc). apply abs_le. Qed.
Lemma p_C68_zero (x : Qc) : isZero (Fin x) = true <-> (- Qc_lit 1 (-25) <= x <= Qc_lit 1 (-25))%Qc.
Proof. unfold isZero, getAbs, ZERO. change (a_lit 1 (-25)) with (Fin (Qc_lit 1 (-25))). apply abs_le. Qed.
