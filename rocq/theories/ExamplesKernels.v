(** * ExamplesKernels: concrete matrices for the kernel theorems (no LCQPow code). *)
From Coq Require Import QArith Qcanon SpecFloat.
From Verif Require Import Base Arith Utilities Loops SpecSparse SpecMath.
Open Scope Z_scope.

(** Rational vector from integers *)
Definition zq (l : list Z) : list Qc := map (fun z => Q2Qc (inject_Z z)) l.
(** A column with integer entries. No LCQPow code. *)
Definition zcol (l : list (Z * Z)) : list (Z * Qc) := map (fun e => (fst e, Q2Qc (inject_Z (snd e)))) l.

(** The structure storing given columns *)
Definition mk_csc {T} (m n : Z) (cols : list (list (Z * T))) : csc T :=
  mkCsc m n (Some (lift (tab (n + 1) (off cols)))) (Some (lift (map fst (concat cols)))) (Some (lift (map snd (concat cols)))) (len (concat cols)).
Lemma mk_csc_stored {T} m n (cols : list (list (Z * T))) : len cols = n -> stored (mk_csc m n cols) m n cols.
Proof. intros. constructor; auto. Qed.
Lemma mk_csc_repr {T} m n (cols : list (list (Z * T))) : len cols = n ->
  forallb (fun c => forallb (fun e => (0 <=? fst e) && (fst e <? m)) c) cols = true -> repr (mk_csc m n cols) m n cols.
Proof.
  intros L B. constructor; auto. intros c r x Hc Hr. rewrite forallb_forall in B. specialize (B c Hc). rewrite forallb_forall in B.
  specialize (B (r, x) Hr). apply andb_prop in B. destruct B as [B1 B2]. simpl in B1, B2. lia.
Qed.

(** [[2,-1,0],[0,3,1]] and its columns *)
Definition ex_M : list Qc := zq [2; -1; 0; 0; 3; 1].
(** Example data. No LCQPow code. *)
Definition ex_Mc : list (list (Z * Qc)) := [zcol [(0, 2)]; zcol [(0, -1); (1, 3)]; zcol [(1, 1)]].
(** a second matrix of the same shape, [[1,0,4],[0,0,5]] *)
Definition ex_N : list Qc := zq [1; 0; 4; 0; 0; 5].
(** Example data. No LCQPow code. *)
Definition ex_Nc : list (list (Z * Qc)) := [zcol [(0, 1)]; []; zcol [(0, 4); (1, 5)]].
(** a symmetric matrix, [[2,-1],[-1,3]] *)
Definition ex_S : list Qc := zq [2; -1; -1; 3].
(** Example data. No LCQPow code. *)
Definition ex_Sc : list (list (Z * Qc)) := [zcol [(0, 2); (1, -1)]; zcol [(0, -1); (1, 3)]].

Lemma ex_M_repr : repr (mk_csc 2 3 (fincols ex_Mc)) 2 3 (fincols ex_Mc).
Proof. apply mk_csc_repr; reflexivity. Qed.
Lemma ex_N_repr : repr (mk_csc 2 3 (fincols ex_Nc)) 2 3 (fincols ex_Nc).
Proof. apply mk_csc_repr; reflexivity. Qed.
Lemma ex_S_repr : repr (mk_csc 2 2 (fincols ex_Sc)) 2 2 (fincols ex_Sc).
Proof. apply mk_csc_repr; reflexivity. Qed.
Lemma ex_M_same : same_matrix ex_M ex_Mc 2 3.
Proof. intros i j Hi Hj. assert (Ci : i = 0 \/ i = 1) by lia. assert (Cj : j = 0 \/ j = 1 \/ j = 2) by lia.
  destruct Ci as [->| ->], Cj as [->|[->| ->]]; apply Qc_is_canon; vm_compute; reflexivity. Qed.
Lemma ex_S_same : same_matrix ex_S ex_Sc 2 2.
Proof. intros i j Hi Hj. assert (Ci : i = 0 \/ i = 1) by lia. assert (Cj : j = 0 \/ j = 1) by lia.
  destruct Ci as [->| ->], Cj as [->| ->]; apply Qc_is_canon; vm_compute; reflexivity. Qed.
Lemma ex_S_sym : qsymmetric ex_S 2.
Proof. intros i j Hi Hj. assert (Ci : i = 0 \/ i = 1) by lia. assert (Cj : j = 0 \/ j = 1) by lia.
  destruct Ci as [->| ->], Cj as [->| ->]; reflexivity. Qed.
Lemma ex_sorted : (forall c, In c ex_Mc -> sorted c) /\ (forall c, In c ex_Nc -> sorted c).
Proof.
  split; intros c Hc; repeat (destruct Hc as [<-|Hc]; [simpl; repeat split; intros e' He'; repeat (destruct He' as [<-|He']; [simpl; lia|]); contradiction|]); contradiction.
Qed.
