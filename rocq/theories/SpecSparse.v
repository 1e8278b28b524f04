(** * SpecSparse: what it means that a compressed sparse column structure stores given columns (no LCQPow code). *)
From Verif Require Import Base Arith Utilities Loops.

Section SpecSparse.
Context {T : Type}.

(** Position of the first entry of column [j] *)
Definition off (cols : list (list (Z * T))) (j : Z) : Z := len (concat (take j cols)).
(** Column [j] *)
Definition col (cols : list (list (Z * T))) (j : Z) : list (Z * T) := at_ [] cols j.

(** [S] is a structure with [m] rows and [n] columns storing the columns [cols]; row indices arbitrary *)
Record stored (S : csc T) (m n : Z) (cols : list (list (Z * T))) : Prop := mkStored {
  so_m : c_m S = m;
  so_n : c_n S = n;
  so_len : len cols = n;
  so_p : c_p S = Some (lift (tab (n + 1) (off cols)));
  so_i : c_i S = Some (lift (map fst (concat cols)));
  so_x : c_x S = Some (lift (map snd (concat cols)));
  so_nz : c_nzmax S = len (concat cols) }.

(** [S] is an m x n matrix in CSC format whose j-th column stores the (row, value) pairs [col cols j], in that order *)
Record repr (S : csc T) (m n : Z) (cols : list (list (Z * T))) : Prop := mkRepr {
  rp_m : c_m S = m;
  rp_n : c_n S = n;
  rp_len : len cols = n;
  rp_p : c_p S = Some (lift (tab (n + 1) (off cols)));
  rp_i : c_i S = Some (lift (map fst (concat cols)));
  rp_x : c_x S = Some (lift (map snd (concat cols)));
  rp_nz : c_nzmax S = len (concat cols);
  rp_rows : forall c r x, In c cols -> In (r, x) c -> 0 <= r < m }.

(** Row indices strictly increasing within a column *)
Fixpoint sorted (c : list (Z * T)) : Prop :=
  match c with
  | [] => True
  | e :: t => (forall e', In e' t -> fst e < fst e') /\ sorted t
  end.

Lemma repr_stored S m n cols : repr S m n cols -> stored S m n cols.
Proof. intros []. constructor; auto. Qed.

End SpecSparse.
