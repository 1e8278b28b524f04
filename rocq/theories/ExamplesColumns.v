(** * ExamplesColumns: a concrete problem with its variables in two orders (no LCQPow code). *)
From Coq Require Import QArith Qcanon Permutation.
From Verif Require Import Base Arith Codes Utilities Options Stats FileIO Subsolver State LCQProblem Loops SpecSparse SpecMath SpecLoad SpecExact SpecRun LoadSparse StartSparse
  Examples ExamplesKernels ExamplesExact ExamplesSwap SpecRenumber ExamplesRenumber SpecColumns.
Open Scope Z_scope.

(** Three of the four variables change places in a cycle.  No LCQPow code. *)
Definition exk_f (i : Z) : Z := if i =? 0 then 1 else if i =? 1 then 2 else if i =? 2 then 0 else i.
(** Where an old variable is now.  No LCQPow code. *)
Definition exk_back (i : Z) : Z := if i =? 0 then 2 else if i =? 1 then 0 else if i =? 2 then 1 else i.
Lemma exk_permutes : permutes 4 exk_f.
Proof.
  split.
  - intros i Hi. apply four in Hi. destruct Hi as [->|[->|[->| ->]]]; cbn; lia.
  - intros i j Hi Hj. apply four in Hi. apply four in Hj. destruct Hi as [->|[->|[->| ->]]], Hj as [->|[->|[->| ->]]]; cbn; lia.
Qed.
(** Vectors of the problem, [box]: with upper bounds, [b]: with its variables in the new order.  No LCQPow code. *)
Definition exk_v (box b : bool) : qvec :=
  mkQvec 4 2 2 (zq (if b then [-4; -3; -2; -6] else [-2; -4; -3; -6])) (Some (zq [0; 0])) None (Some (zq [0; 0])) None
    None (Some (fz [10; 12])) None (if box then Some (fz (if b then [8; 9; 7; 6] else [7; 8; 9; 6])) else None) (Some (zq (if b then [1; 1; 2; 1] else [2; 1; 1; 1]))) None.
(** min x'x + g'x, x0 complements x1, x2 complements x3, x0 + x2 <= 10, x1 + x3 <= 12, x <= ub.  No LCQPow code. *)
Definition exk_d (b : bool) : qdense :=
  mkQdense (exk_v true b) (zq [2; 0; 0; 0;  0; 2; 0; 0;  0; 0; 2; 0;  0; 0; 0; 2])
    (zq (if b then [0; 0; 1; 0;  0; 1; 0; 0] else [1; 0; 0; 0;  0; 0; 1; 0]))
    (zq (if b then [1; 0; 0; 0;  0; 0; 0; 1] else [0; 1; 0; 0;  0; 0; 0; 1]))
    (zq (if b then [0; 1; 1; 0;  1; 0; 0; 1] else [1; 0; 1; 0;  0; 1; 0; 1])).
(** The same in sparse form.  No LCQPow code. *)
Definition exk_s (box b : bool) : qsparse :=
  mkQsparse (exk_v box b) [zcol [(0, 2)]; zcol [(1, 2)]; zcol [(2, 2)]; zcol [(3, 2)]]
    (if b then [[]; zcol [(1, 1)]; zcol [(0, 1)]; []] else [zcol [(0, 1)]; []; zcol [(1, 1)]; []])
    (if b then [zcol [(0, 1)]; []; []; zcol [(1, 1)]] else [[]; zcol [(0, 1)]; []; zcol [(1, 1)]])
    (Some (if b then [zcol [(1, 1)]; zcol [(0, 1)]; zcol [(0, 1)]; zcol [(1, 1)]] else [zcol [(0, 1)]; zcol [(1, 1)]; zcol [(0, 1)]; zcol [(1, 1)]])).
(** Exact solver of  min x'x + g'x, x >= 0, answering in the order of the problem.  No LCQPow code. *)
Definition exk_orc (b : bool) (qs : QPSolver) : oracle xq := fun calls =>
  let g := match calls with [] => [] | c :: _ => qc_g c end in
  let gi i := at_ (Fin 0) g (if b then exk_back i else i) in
  let pos (v : xq) := if a_lt (Fin 0) v then v else Fin 0 in
  let var k := if k =? 0 then 0 else if k =? 1 then 2 else if k =? 2 then 1 else 3 in
  let y k := if k <? 2 then Fin 0 else pos (gi (var (k - 2))) in
  let sgn (v : xq) := match qs with OSQP_SPARSE => (- v)%num | _ => v end in
  mkRaw 0 1 1 true false false (fun i => pos ((- at_ (Fin 0) g i) / a_of_Z 2)%num)
    (fun k => if k <? exo_b qs then Fin 0 else sgn (y (k - exo_b qs))).
Lemma exk_names_blind qs : names_blind 4 (exo_b qs) 6 exk_f (exk_orc false qs) (exk_orc true qs).
Proof.
  intros h h' F. unfold exk_orc.
  set (g := match h with [] => [] | c :: _ => qc_g c end). set (g' := match h' with [] => [] | c :: _ => qc_g c end).
  assert (E : forall i, 0 <= i < 4 -> at_ (Fin 0) g' i = at_ (Fin 0) g (exk_f i)).
  { subst g g'. destruct F as [|c d h h' X F].
    - intros i Hi. unfold at_. destruct (Z.to_nat i), (Z.to_nat (exk_f i)); reflexivity.
    - intros i Hi. exact (proj2 (proj2 (mq_g _ _ _ _ _ _ X)) i Hi). }
  clearbody g g'. constructor; try reflexivity; cbn [q_x q_y].
  - intros i Hi. rewrite E by auto. reflexivity.
  - intros i Hi. pose proof (proj1 exk_permutes i) as P. assert (B : exo_b qs = 0 \/ exo_b qs = 4) by (destruct qs; auto).
    destruct B as [B|B]; rewrite B in *; [lia|]. specialize (P Hi). rewrite !(proj2 (Z.ltb_lt _ 4)) by lia. reflexivity.
  - intros i Hi. rewrite (proj2 (Z.ltb_ge i (exo_b qs))) by lia. destruct (i - exo_b qs <? 2); [reflexivity|].
    match goal with |- context [at_ _ g' (exk_back ?k)] => assert (D : k = 0 \/ k = 2 \/ k = 1 \/ k = 3) by (destruct (_ =? 0); [|destruct (_ =? 1); [|destruct (_ =? 2)]]; auto);
      assert (X : at_ (Fin 0) g' (exk_back k) = at_ (Fin 0) g k) by (destruct D as [->|[->|[->| ->]]]; cbn [exk_back Z.eqb Pos.eqb]; rewrite E by lia; reflexivity) end.
    rewrite X. reflexivity.
Qed.
Lemma exk_wf_vec x b : wf_vec (to_vec (exk_v x b)).
Proof. destruct x, b; constructor; vm_compute; try reflexivity; try discriminate; exact I. Qed.
Lemma exk_wf_d b : wf_dense (to_dense (exk_d b)).
Proof. constructor; [apply exk_wf_vec|destruct b; reflexivity..]. Qed.
Lemma exk_wf_s x b : wf_sparse (to_sparse (exk_s x b)).
Proof. constructor; [apply exk_wf_vec| | | | |vm_compute; discriminate]; (apply wf_cols_check; [destruct b; reflexivity|destruct b; reflexivity|destruct b; repeat constructor]). Qed.
Lemma exk_paired x b : paired (to_vec (exk_v x b)).
Proof. split; cbn; congruence. Qed.
Lemma exk_fin_lower x b : fin_lower (to_vec (exk_v x b)).
Proof. split; intros v [<-|[<-|[]]]; reflexivity. Qed.
Lemma exk_C x b : concat (us_C (to_sparse (exk_s x b))) <> [].
Proof. destruct b; vm_compute; discriminate. Qed.
Lemma exk_vec x q : moved_vec q exk_f (to_vec (exk_v x false)) (to_vec (exk_v x true)).
Proof.
  destruct x; (constructor; try reflexivity; try exact I; [split; [reflexivity|]; split; [reflexivity|]|..]; intros i Hi; apply four in Hi; destruct Hi as [->|[->|[->| ->]]]; reflexivity).
Qed.
Lemma exk_dense : moved_dense exk_f (to_dense (exk_d false)) (to_dense (exk_d true)).
Proof.
  constructor; [apply exk_vec| | | |]; intros i j Hi Hj; apply four in Hj; first [apply two in Hi; destruct Hi as [-> | ->]|apply four in Hi; destruct Hi as [->|[->|[->| ->]]]];
    destruct Hj as [->|[->|[->| ->]]]; reflexivity.
Qed.
(** Boxes with qpOASES only.  No LCQPow code. *)
Definition exk_box (qs : QPSolver) : bool := match qs with OSQP_SPARSE => false | _ => true end.
Lemma exk_sparse x q : moved_sparse q exk_f (to_sparse (exk_s x false)) (to_sparse (exk_s x true)).
Proof.
  constructor; [apply exk_vec|..]; intros j Hj; apply four in Hj; destruct Hj as [->|[->|[->| ->]]]; first [reflexivity|vm_compute; apply Permutation_refl].
Qed.
Lemma exk_two_sided x b : two_sided 4 (us_Q (to_sparse (exk_s x b))).
Proof. intros i j v Hi Hj. apply four in Hj. destruct Hj as [->|[->|[->| ->]]]; intros [E|[]]; injection E as <- <-; left; reflexivity. Qed.
Lemma exk_osqp qs b : osqp_ok (to_vec (exk_v (exk_box qs) b)) (ex_options qs).
Proof. destruct qs; intros X; try discriminate. repeat split. Qed.
(** A whole run.  No LCQPow code. *)
Definition exk_run (b : bool) (qs : QPSolver) : res (ReturnValue * lcqp xq) :=
  match qs with
  | QPOASES_DENSE => solve_dense (to_dense (exk_d b)) (ex_options qs) (exk_orc b qs) no_rand
  | _ => solve_sparse (to_sparse (exk_s (exk_box qs) b)) (ex_options qs) (exk_orc b qs) no_rand
  end.
Lemma exk_succeeds b qs : exists o, exk_run b qs = Ok (SUCCESSFUL_RETURN, o).
Proof. exists (snd (ok_or (SUCCESSFUL_RETURN, LCQProblem_default) (exk_run b qs))). destruct b, qs; vm_compute; reflexivity. Qed.
Lemma exk_differs x : ud_L (to_dense (exk_d true)) <> ud_L (to_dense (exk_d false)) /\ us_L (to_sparse (exk_s x true)) <> us_L (to_sparse (exk_s x false)).
Proof. split; vm_compute; discriminate. Qed.
Lemma exk_draws : moved_draws 4 exk_f no_rand no_rand.
Proof. intros k i Hi. reflexivity. Qed.
