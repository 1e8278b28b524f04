(** * ExamplesRenumber: a concrete problem in two orders (no LCQPow code). *)
From Coq Require Import QArith Qcanon Permutation.
From Verif Require Import Base Arith Codes Utilities Options Stats FileIO Subsolver State LCQProblem Loops SpecSparse SpecMath SpecLoad SpecExact SpecRun LoadSparse StartSparse
  Examples ExamplesKernels ExamplesExact ExamplesSwap SpecRenumber.
Open Scope Z_scope.

(** Two constraints and two pairs change places, and the pair that was the second one has its sides exchanged.  No LCQPow code. *)
Definition exo_nu : numbering := mkNumbering (fun i => 1 - i) (fun i => 1 - i) (fun i => i =? 0).
Lemma exo_renumbers : renumbers 2 2 exo_nu.
Proof. split; split; cbn [exo_nu nb_row nb_pair]; intros; lia. Qed.
(** Vectors of the problem, [b]: in the new order.  No LCQPow code. *)
Definition exo_v (b : bool) : qvec :=
  mkQvec 4 2 2 (zq [-2; -4; -2; -6]) (Some (zq [0; 0])) None (Some (zq [0; 0])) None
    None (Some (fz (if b then [12; 10] else [10; 12]))) None None (Some (zq [1; 1; 1; 1])) None.
(** min x'x + g'x, x0 complements x1, x2 complements x3, x0 + x2 <= 10, x1 + x3 <= 12.  No LCQPow code. *)
Definition exo_d (b : bool) : qdense :=
  mkQdense (exo_v b) (zq [2; 0; 0; 0;  0; 2; 0; 0;  0; 0; 2; 0;  0; 0; 0; 2])
    (zq (if b then [0; 0; 0; 1;  1; 0; 0; 0] else [1; 0; 0; 0;  0; 0; 1; 0]))
    (zq (if b then [0; 0; 1; 0;  0; 1; 0; 0] else [0; 1; 0; 0;  0; 0; 0; 1]))
    (zq (if b then [0; 1; 0; 1;  1; 0; 1; 0] else [1; 0; 1; 0;  0; 1; 0; 1])).
(** The same in sparse form.  No LCQPow code. *)
Definition exo_s (b : bool) : qsparse :=
  mkQsparse (exo_v b) [zcol [(0, 2)]; zcol [(1, 2)]; zcol [(2, 2)]; zcol [(3, 2)]]
    (if b then [zcol [(1, 1)]; []; []; zcol [(0, 1)]] else [zcol [(0, 1)]; []; zcol [(1, 1)]; []])
    (if b then [[]; zcol [(1, 1)]; zcol [(0, 1)]; []] else [[]; zcol [(0, 1)]; []; zcol [(1, 1)]])
    (Some (if b then [zcol [(1, 1)]; zcol [(0, 1)]; zcol [(1, 1)]; zcol [(0, 1)]] else [zcol [(0, 1)]; zcol [(1, 1)]; zcol [(0, 1)]; zcol [(1, 1)]])).
(** Number of box multipliers.  No LCQPow code. *)
Definition exo_b (qs : QPSolver) : Z := match qs with OSQP_SPARSE => 0 | _ => 4 end.
(** Exact solver of  min x'x + g'x, x >= 0, multipliers in the order of the problem.  No LCQPow code. *)
Definition exo_orc (b : bool) (qs : QPSolver) : oracle xq := fun calls =>
  let g := match calls with [] => [] | c :: _ => qc_g c end in
  let gi i := nth (Z.to_nat i) g (Fin 0) in
  let pos (v : xq) := if a_lt (Fin 0) v then v else Fin 0 in
  let var k := if k =? 0 then 0 else if k =? 1 then 2 else if k =? 2 then 1 else 3 in
  let y k := if k <? 2 then Fin 0 else pos (gi (var (k - 2))) in
  let sgn (v : xq) := match qs with OSQP_SPARSE => (- v)%num | _ => v end in
  mkRaw 0 1 1 true false false (fun i => pos ((- gi i) / a_of_Z 2)%num)
    (fun k => if k <? exo_b qs then Fin 0 else sgn (y (if b then place 2 2 exo_nu (k - exo_b qs) else k - exo_b qs))).
Lemma exo_order_blind qs : order_blind 4 (exo_b qs) 6 (place 2 2 exo_nu) (exo_orc false qs) (exo_orc true qs).
Proof.
  intros h h' F. assert (E : match h' with [] => [] | c :: _ => qc_g c end = match h with [] => [] | c :: _ => qc_g c end).
  { destruct F as [|c d h h' X F]; [reflexivity|]. exact (nq_g _ _ _ _ _ _ X). }
  unfold exo_orc. rewrite E. constructor; try reflexivity; cbn [q_y].
  - intros i Hi. rewrite (proj2 (Z.ltb_lt i (exo_b qs))) by lia. reflexivity.
  - intros i Hi. rewrite (proj2 (Z.ltb_ge (exo_b qs + i) (exo_b qs))) by lia.
    assert (P : 0 <= place 2 2 exo_nu i) by (unfold place; cbn [exo_nu nb_row nb_pair nb_flip]; repeat match goal with |- context [if ?c then _ else _] => destruct c eqn:? end; lia).
    rewrite (proj2 (Z.ltb_ge (exo_b qs + place 2 2 exo_nu i) (exo_b qs))) by lia. replace (exo_b qs + i - exo_b qs) with i by ring. replace (exo_b qs + place 2 2 exo_nu i - exo_b qs) with (place 2 2 exo_nu i) by ring. reflexivity.
Qed.
Lemma exo_no_nan qs : good_for 2 exo_nu (exo_orc false qs).
Proof.
  right. intros h k. unfold exo_orc. cbn [q_y].
  assert (N : forall v : xq, (if a_lt (Fin 0) v then v else Fin 0) <> NaN) by (intros [q| | |]; try discriminate; cbn [a_lt xq_arith x_lt]; destruct (Qc_ltb 0 q); discriminate).
  destruct (k <? exo_b qs); [discriminate|]. set (j := k - exo_b qs). destruct (j <? 2); [destruct qs; discriminate|].
  match goal with |- match qs with OSQP_SPARSE => (- ?v)%num | _ => _ end <> NaN => assert (X : v <> NaN) by apply N; destruct qs; [exact X|exact X|destruct v; cbn; congruence] end.
Qed.
Lemma exo_wf_vec b : wf_vec (to_vec (exo_v b)).
Proof. destruct b; constructor; vm_compute; try reflexivity; try discriminate; exact I. Qed.
Lemma exo_wf_d b : wf_dense (to_dense (exo_d b)).
Proof. constructor; [apply exo_wf_vec|destruct b; reflexivity..]. Qed.
Lemma exo_wf_s b : wf_sparse (to_sparse (exo_s b)).
Proof. constructor; [apply exo_wf_vec| | | | |vm_compute; discriminate]; (apply wf_cols_check; [destruct b; reflexivity|destruct b; reflexivity|destruct b; repeat constructor]). Qed.
Lemma exo_paired b : paired (to_vec (exo_v b)).
Proof. split; cbn; congruence. Qed.
Lemma exo_fin_lower b : fin_lower (to_vec (exo_v b)).
Proof. split; intros v [<-|[<-|[]]]; reflexivity. Qed.
Lemma exo_osqp b opt : osqp_ok (to_vec (exo_v b)) opt.
Proof. intros _. repeat split. Qed.
Lemma exo_C b : concat (us_C (to_sparse (exo_s b))) <> [].
Proof. destruct b; vm_compute; discriminate. Qed.
Lemma two i : 0 <= i < 2 -> i = 0 \/ i = 1.
Proof. lia. Qed.
Lemma four i : 0 <= i < 4 -> i = 0 \/ i = 1 \/ i = 2 \/ i = 3.
Proof. lia. Qed.
Lemma exo_vec q : renum_vec q exo_nu (to_vec (exo_v false)) (to_vec (exo_v true)).
Proof.
  constructor; try reflexivity; try exact I; intros i Hi; apply two in Hi; destruct Hi as [-> | ->]; try split; reflexivity.
Qed.
Lemma exo_dense : renum_dense exo_nu (to_dense (exo_d false)) (to_dense (exo_d true)).
Proof.
  constructor; [apply exo_vec|reflexivity| | |]; intros i Hi j Hj; apply two in Hi; apply four in Hj; destruct Hi as [-> | ->], Hj as [->|[->|[->| ->]]]; reflexivity.
Qed.
Lemma exo_sparse q : renum_sparse q exo_nu (to_sparse (exo_s false)) (to_sparse (exo_s true)).
Proof.
  constructor; [apply exo_vec|reflexivity|]. intros j Hj. apply four in Hj. destruct Hj as [->|[->|[->| ->]]]; vm_compute; first [apply perm_swap|apply Permutation_refl].
Qed.
(** A whole run.  No LCQPow code. *)
Definition exo_run (b : bool) (qs : QPSolver) : res (ReturnValue * lcqp xq) :=
  match qs with
  | QPOASES_DENSE => solve_dense (to_dense (exo_d b)) (ex_options qs) (exo_orc b qs) no_rand
  | _ => solve_sparse (to_sparse (exo_s b)) (ex_options qs) (exo_orc b qs) no_rand
  end.
Lemma exo_succeeds b qs : exists o, exo_run b qs = Ok (SUCCESSFUL_RETURN, o).
Proof. exists (snd (ok_or (SUCCESSFUL_RETURN, LCQProblem_default) (exo_run b qs))). destruct b, qs; vm_compute; reflexivity. Qed.
Lemma exo_differs : ud_L (to_dense (exo_d true)) <> ud_L (to_dense (exo_d false)) /\ us_L (to_sparse (exo_s true)) <> us_L (to_sparse (exo_s false)).
Proof. split; vm_compute; discriminate. Qed.
