(** * SpecMath: finite sums, vectors and matrices of rationals, as used in the exact statements (no LCQPow code). *)
From Coq Require Import QArith Qcanon.
From Verif Require Import Base Arith Loops.
Open Scope Z_scope.

(** sum of f 0 .. f (n-1) *)
Fixpoint qsum_nat (n : nat) (f : Z -> Qc) : Qc :=
  match n with O => 0%Qc | S k => (qsum_nat k f + f (Z.of_nat k))%Qc end.
(** f 0 + ... + f (n-1). No LCQPow code. *)
Definition qsum (n : Z) (f : Z -> Qc) : Qc := qsum_nat (Z.to_nat n) f.

(** Component of a vector; entry (i,j) of a row-major matrix with [n] columns *)
Definition qat (l : list Qc) (i : Z) : Qc := at_ 0%Qc l i.
(** Entry (i,j) of a row-major matrix with n columns. No LCQPow code. *)
Definition qent (l : list Qc) (n i j : Z) : Qc := qat l (i * n + j).

(** Component [i] of M*x (n columns) and component [j] of M'*y (m rows, n columns) *)
Definition qmul (M : list Qc) (n : Z) (x : list Qc) (i : Z) : Qc := qsum n (fun j => qent M n i j * qat x j)%Qc.
(** Entry j of M'y. No LCQPow code. *)
Definition qtmul (M : list Qc) (m n : Z) (y : list Qc) (j : Z) : Qc := qsum m (fun i => qent M n i j * qat y i)%Qc.
(** Scalar product and quadratic form *)
Definition qdot (n : Z) (a b : list Qc) : Qc := qsum n (fun i => qat a i * qat b i)%Qc.
(** x'M x. No LCQPow code. *)
Definition qquad (M : list Qc) (n : Z) (x : list Qc) : Qc := qsum n (fun i => qat x i * qmul M n x i)%Qc.

(** Symmetric n x n matrix *)
Definition qsymmetric (M : list Qc) (n : Z) : Prop := forall i j, 0 <= i < n -> 0 <= j < n -> qent M n i j = qent M n j i.

(** The entry (i,j) of the matrix whose columns store [cols]: duplicates add up *)
Definition qcol (c : list (Z * Qc)) (i : Z) : Qc :=
  fold_right (fun e s => if (fst e =? i)%Z then (snd e + s)%Qc else s) 0%Qc c.
(** Entry (i,j) of a matrix given by columns. No LCQPow code. *)
Definition qentry (cols : list (list (Z * Qc))) (i j : Z) : Qc := qcol (at_ [] cols j) i.

(** Data consisting of finite numbers *)
Definition fins (l : list Qc) : list xq := map Fin l.
(** A column of exact numbers as a column of [xq]. No LCQPow code. *)
Definition fincol (c : list (Z * Qc)) : list (Z * xq) := map (fun e => (fst e, Fin (snd e))) c.
(** The same for a matrix. No LCQPow code. *)
Definition fincols (cols : list (list (Z * Qc))) : list (list (Z * xq)) := map fincol cols.

(** [l] stores the m x n matrix with columns [cols] row by row *)
Definition same_matrix (l : list Qc) (cols : list (list (Z * Qc))) (m n : Z) : Prop :=
  forall i j, 0 <= i < m -> 0 <= j < n -> qent l n i j = qentry cols i j.
