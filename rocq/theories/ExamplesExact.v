(** * ExamplesExact: a concrete problem with rational data, loaded densely and sparsely (no LCQPow code).

    minimise  x1^2 + x2^2 - 2 x1 - 4 x2  subject to  x1 + x2 <= 10, x1 <= 5, 0 <= x1, 0 <= x2, x1 x2 = 0. *)
From Coq Require Import QArith Qcanon.
From Verif Require Import Base Arith Codes Utilities Options Stats FileIO Subsolver State LCQProblem Loops SpecSparse SpecMath SpecLoad SpecExact SpecRun
  Exact LoadSparse StartSparse NoUB Examples ExamplesKernels.
Open Scope Z_scope.

(** Finite numbers from integers.  No LCQPow code. *)
Definition fz (l : list Z) : list xq := map (fun z => Fin (Q2Qc (inject_Z z))) l.
(** The vectors of the problem; [bounds]: lbL = lbR = 0 are passed, otherwise NULL.  No LCQPow code. *)
Definition exq_v (bounds : bool) : qvec :=
  mkQvec 2 1 1 (zq [-2; -4]) (if bounds then Some (zq [0]) else None) None (if bounds then Some (zq [0]) else None) None
    None (Some (fz [10])) None None (Some (zq [1; 1])) None.
(** Dense data.  No LCQPow code. *)
Definition exq_d (bounds : bool) : qdense := mkQdense (exq_v bounds) (zq [2; 0; 0; 2]) (zq [1; 0]) (zq [0; 1]) (zq [1; 1]).
(** Sparse data.  No LCQPow code. *)
Definition exq_s (bounds : bool) : qsparse :=
  mkQsparse (exq_v bounds) [zcol [(0, 2)]; zcol [(1, 2)]] [zcol [(0, 1)]; []] [[]; zcol [(0, 1)]] (Some [zcol [(0, 1)]; zcol [(0, 1)]]).

(** Exact solver of  min x'x + g'x, x >= 0: multipliers of box (absent for OSQP), A, L, R.  No LCQPow code. *)
Definition exq_orc (qs : QPSolver) : oracle xq := fun calls =>
  let g := match calls with [] => [] | c :: _ => qc_g c end in
  let gi i := nth (Z.to_nat i) g (Fin 0) in
  let pos (v : xq) := if a_lt (Fin 0) v then v else Fin 0 in
  let y i := if i <? 3 then Fin 0 else pos (gi (i - 3)) in
  mkRaw 0 1 1 true false false (fun i => pos ((- gi i) / a_of_Z 2)%num)
    (match qs with OSQP_SPARSE => fun i => (- y (i + 2)%Z)%num | _ => y end).

(** A whole run.  No LCQPow code. *)
Definition exq_run (b : bool) (qs : QPSolver) : res (ReturnValue * lcqp xq) :=
  match qs with
  | QPOASES_DENSE => solve_dense (to_dense (exq_d b)) (ex_options qs) (exq_orc qs) no_rand
  | _ => solve_sparse (to_sparse (exq_s b)) (ex_options qs) (exq_orc qs) no_rand
  end.
(** The object after the run.  No LCQPow code. *)
Definition exq_done (b : bool) (qs : QPSolver) : lcqp xq := snd (ok_or (SUCCESSFUL_RETURN, LCQProblem_default) (exq_run b qs)).

Lemma exq_runs b qs : exq_run b qs = Ok (SUCCESSFUL_RETURN, exq_done b qs).
Proof. destruct b, qs; vm_compute; reflexivity. Qed.
Lemma exq_wf_vec b : wf_vec (to_vec (exq_v b)).
Proof. destruct b; constructor; vm_compute; try reflexivity; try discriminate; exact I. Qed.
Lemma exq_wf_d b : wf_dense (to_dense (exq_d b)).
Proof. constructor; [apply exq_wf_vec|reflexivity..]. Qed.
Lemma wf_cols_check m n (cols : list (list (Z * xq))) : len cols = n ->
  forallb (fun c => forallb (fun e => (0 <=? fst e) && (fst e <? m)) c) cols = true ->
  Forall (fun c => match map fst c with [] => True | [_] => True | _ => False end) cols -> wf_cols m n cols.
Proof.
  intros Hl Hb Hs. split; [auto|]. rewrite forallb_forall in Hb. rewrite Forall_forall in Hs. split.
  - intros c r x Hc Hr. specialize (Hb c Hc). rewrite forallb_forall in Hb. specialize (Hb _ Hr). cbn in Hb. lia.
  - intros c Hc. specialize (Hs c Hc). destruct c as [|e [|e' c]]; cbn in *; [auto|split; [intros ? []|auto]|contradiction].
Qed.
Lemma exq_wf_s b : wf_sparse (to_sparse (exq_s b)).
Proof.
  constructor; [apply exq_wf_vec| | | | |vm_compute; discriminate]; (apply wf_cols_check; [reflexivity|reflexivity|repeat constructor]).
Qed.
Lemma exq_paired b : paired (to_vec (exq_v b)).
Proof. destruct b; split; cbn; congruence. Qed.
Lemma exq_osqp b opt : osqp_ok (to_vec (exq_v b)) opt.
Proof. intros _. repeat split. Qed.
Lemma exq_C b : concat (us_C (to_sparse (exq_s b))) <> [].
Proof. destruct b; vm_compute; discriminate. Qed.
Lemma exq_fin_lower b : fin_lower (to_vec (exq_v b)).
Proof. destruct b; split; cbn; auto; intros v [<-|[]]; reflexivity. Qed.
Lemma exq_counts qs : small_counts (ex_options qs) (exq_orc qs) 1.
Proof. constructor; [intros; cbn; lia|vm_compute; discriminate..]. Qed.
Lemma exq_setup qs : setup_works (ex_options qs) (exq_orc qs).
Proof. intros _ h. split; reflexivity. Qed.
Lemma exq_orc_finite qs c h n m : (exists g, qc_g c = fins g) -> finite_answer n m (exq_orc qs (c :: h)).
Proof.
  intros (g & Eg). unfold exq_orc. cbv zeta. rewrite Eg.
  assert (N : forall k, exists q, nth (Z.to_nat k) (fins g) (Fin 0) = Fin q) by (intros k; unfold fins; rewrite map_nth; eauto).
  assert (P : forall v, (exists q, v = Fin q) -> exists q, (if a_lt (Fin 0) v then v else Fin 0) = Fin q) by (intros v (q & ->); destruct (a_lt _ _); eauto).
  assert (Y : forall k, exists q, (if k <? 3 then Fin 0 else if a_lt (Fin 0) (nth (Z.to_nat (k - 3)) (fins g) (Fin 0)) then nth (Z.to_nat (k - 3)) (fins g) (Fin 0) else Fin 0) = Fin q).
  { intros k. destruct (k <? 3); eauto. }
  split; intros i _; cbn [q_x q_y].
  - apply P. destruct (N i) as (q & ->). eexists. apply fin_div. discriminate.
  - destruct qs; try apply Y. destruct (Y (i + 2)) as (q & ->). eexists. reflexivity.
Qed.
(** All entries finite.  No LCQPow code. *)
Definition all_fin (l : list xq) : bool := forallb (fun v => match v with Fin _ => true | _ => false end) l.
Lemma all_fin_ok l : all_fin l = true -> exists g, l = fins g.
Proof.
  induction l as [|v l IH]; intros E; [exists []; reflexivity|]. cbn in E. apply andb_prop in E. destruct E as [E1 E2]. destruct v; try discriminate.
  destruct (IH E2) as (g & ->). exists (q :: g). reflexivity.
Qed.
Lemma exq_finite qs (cs : list (qp_call xq)) n m : forallb (fun c => all_fin (qc_g c)) cs = true ->
  Forall (fun ca => finite_answer n m (snd ca)) (answers (exq_orc qs) cs []).
Proof.
  induction cs as [|c cs IH]; intros E; [constructor|]. cbn in E. apply andb_prop in E. destruct E as [E1 E2]. constructor; [|auto].
  cbn [snd]. apply exq_orc_finite, all_fin_ok, E1.
Qed.

(** The problem with lbL only.  No LCQPow code. *)
Definition exq_unpaired : udense xq :=
  to_dense (mkQdense (mkQvec 2 1 1 (zq [-2; -4]) (Some (zq [0])) None None None None (Some (fz [10])) None None None None)
    (zq [2; 0; 0; 2]) (zq [1; 0]) (zq [0; 1]) (zq [1; 1])).
Lemma exq_unpaired_ok : wf_dense exq_unpaired /\ ~ paired (ud_v exq_unpaired) /\ fin_lower (ud_v exq_unpaired).
Proof.
  split; [constructor; [constructor; vm_compute; try reflexivity; try discriminate; exact I|reflexivity..]|]. split.
  - intros [_ C]. specialize (C eq_refl). discriminate.
  - split; [|exact I]. intros v [<-|[]]; reflexivity.
Qed.
