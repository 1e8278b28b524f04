(** * Exact: lemmas about the exact instance [xq] (extended rationals). *)
From Coq Require Import QArith Qcanon.
From Verif Require Import Base Arith Loops.
Open Scope Z_scope.

Lemma Qc_ltb_spec a b : Qc_ltb a b = true <-> (a < b)%Qc.
Proof. unfold Qc_ltb. rewrite Qclt_alt. destruct (Qccompare a b); intuition discriminate. Qed.
Lemma Qc_leb_spec a b : Qc_leb a b = true <-> (a <= b)%Qc.
Proof. unfold Qc_leb. rewrite Qcle_alt. destruct (Qccompare a b); intuition congruence. Qed.
Lemma Qc_eqb_spec a b : Qc_eqb a b = true <-> a = b.
Proof. unfold Qc_eqb. rewrite Qceq_alt. destruct (Qccompare a b); intuition congruence. Qed.
Lemma Qc_ltb_false a b : Qc_ltb a b = false <-> (b <= a)%Qc.
Proof.
  destruct (Qc_ltb a b) eqn:E.
  - split; [discriminate|]. intros L. apply Qc_ltb_spec in E. apply Qclt_not_le in E. contradiction.
  - split; auto. intros _. apply Qcnot_lt_le. intros C. apply Qc_ltb_spec in C. congruence.
Qed.
Lemma Qc_leb_false a b : Qc_leb a b = false <-> (b < a)%Qc.
Proof.
  destruct (Qc_leb a b) eqn:E.
  - split; [discriminate|]. intros L. apply Qc_leb_spec in E. apply Qcle_not_lt in E. contradiction.
  - split; auto. intros _. apply Qcnot_le_lt. intros C. apply Qc_leb_spec in C. congruence.
Qed.

Lemma fin_add a b : (Fin a + Fin b)%num = Fin (a + b)%Qc. Proof. reflexivity. Qed.
Lemma fin_mul a b : (Fin a * Fin b)%num = Fin (a * b)%Qc. Proof. reflexivity. Qed.
Lemma fin_sub a b : (Fin a - Fin b)%num = Fin (a - b)%Qc. Proof. reflexivity. Qed.
Lemma fin_neg a : (- Fin a)%num = Fin (- a)%Qc. Proof. reflexivity. Qed.
Lemma fin_div a b : b <> 0%Qc -> (Fin a / Fin b)%num = Fin (a / b)%Qc.
Proof. intros Hb. cbn. destruct (Qc_eqb b 0) eqn:E; auto. apply Qc_eqb_spec in E. contradiction. Qed.
Lemma fin_lt a b : a_lt (Fin a) (Fin b) = true <-> (a < b)%Qc. Proof. apply Qc_ltb_spec. Qed.
Lemma fin_lt_f a b : a_lt (Fin a) (Fin b) = false <-> (b <= a)%Qc. Proof. apply Qc_ltb_false. Qed.
Lemma fin_le a b : a_le (Fin a) (Fin b) = true <-> (a <= b)%Qc. Proof. apply Qc_leb_spec. Qed.
Lemma fin_le_f a b : a_le (Fin a) (Fin b) = false <-> (b < a)%Qc. Proof. apply Qc_leb_false. Qed.
Lemma fin_inj a b : Fin a = Fin b -> a = b. Proof. congruence. Qed.

(** Linear (in)equalities over Qc, through Q *)
Lemma Qc_eq_Q a b : a = b <-> (this a == this b)%Q.
Proof. split; [intros ->; reflexivity|apply Qc_is_canon]. Qed.
Lemma this_add a b : (this (a + b)%Qc == this a + this b)%Q. Proof. apply Qred_correct. Qed.
Lemma this_mul a b : (this (a * b)%Qc == this a * this b)%Q. Proof. apply Qred_correct. Qed.
Lemma this_opp a : (this (- a)%Qc == - this a)%Q. Proof. apply Qred_correct. Qed.
Lemma this_sub a b : (this (a - b)%Qc == this a - this b)%Q.
Proof. unfold Qcminus. rewrite this_add, this_opp. reflexivity. Qed.
Lemma this_0 : (this 0%Qc == 0)%Q. Proof. reflexivity. Qed.
Lemma this_1 : (this 1%Qc == 1)%Q. Proof. reflexivity. Qed.
