(** * ExamplesSwap: a concrete problem and its exchanged form (no LCQPow code). *)
From Coq Require Import QArith Qcanon.
From Verif Require Import Base Arith Codes Utilities Options Stats FileIO Subsolver State LCQProblem Loops SpecSparse SpecMath SpecLoad SpecExact SpecRun
  Examples ExamplesKernels ExamplesExact SpecSwap.
Open Scope Z_scope.

(** Number of box multipliers.  No LCQPow code. *)
Definition exw_b (qs : QPSolver) : Z := match qs with OSQP_SPARSE => 0 | _ => 2 end.
(** The QP solver of [exq_orc] with the multipliers of L and R exchanged.  No LCQPow code. *)
Definition exw_orc (qs : QPSolver) : oracle xq := fun h =>
  let a := exq_orc qs h in
  mkRaw (q_ret a) (q_iter a) (q_status a) (q_work a) (q_wsx_fails a) (q_wsy_fails a) (q_x a) (fun k => q_y a (other (exw_b qs + 1) 1 k)).
Lemma exw_indifferent qs : indifferent 2 (exw_b qs) 1 1 (exq_orc qs) (exw_orc qs).
Proof.
  intros h h' F. assert (E : exq_orc qs h' = exq_orc qs h).
  { unfold exq_orc. destruct F as [|c d h h' X F]; [reflexivity|]. rewrite (xq_g _ _ _ _ _ _ X). reflexivity. }
  unfold exw_orc. rewrite E. constructor; try reflexivity.
Qed.
Lemma exw_no_nan qs h k : q_y (exq_orc qs h) k <> NaN.
Proof.
  assert (N : forall (l : list xq) i, (if i <? 3 then Fin 0 else if a_lt (Fin 0) (nth (Z.to_nat (i - 3)) l (Fin 0)) then nth (Z.to_nat (i - 3)) l (Fin 0) else Fin 0) <> NaN).
  { intros l i. destruct (i <? 3); [discriminate|]. set (v := nth _ _ _). destruct v as [q| | |]; try discriminate. cbn [a_lt xq_arith x_lt]. destruct (Qc_ltb 0 q); discriminate. }
  unfold exq_orc. cbn [q_y]. destruct qs; try apply N. set (l := match h with [] => [] | c :: _ => qc_g c end). specialize (N l (k + 2)).
  destruct (if k + 2 <? 3 then _ else _); cbn; congruence.
Qed.
(** The exchanged run.  No LCQPow code. *)
Definition exw_run (b : bool) (qs : QPSolver) : res (ReturnValue * lcqp xq) :=
  match qs with
  | QPOASES_DENSE => solve_dense (swap_dense None (to_dense (exq_d b))) (ex_options qs) (exw_orc qs) no_rand
  | _ => solve_sparse (swap_sparse None (to_sparse (exq_s b))) (ex_options qs) (exw_orc qs) no_rand
  end.
Lemma exw_succeeds b qs : exists o, exw_run b qs = Ok (SUCCESSFUL_RETURN, o).
Proof. exists (snd (ok_or (SUCCESSFUL_RETURN, LCQProblem_default) (exw_run b qs))). destruct b, qs; vm_compute; reflexivity. Qed.
Lemma exw_differs b : ud_L (swap_dense None (to_dense (exq_d b))) <> ud_L (to_dense (exq_d b)) /\ us_L (swap_sparse None (to_sparse (exq_s b))) <> us_L (to_sparse (exq_s b)).
Proof. destruct b; split; vm_compute; discriminate. Qed.

(** A QP library that delivers the origin, a NaN multiplier for L and -4 for R ([b]: exchanged).  No LCQPow code. *)
Definition nan_orc (b : bool) : oracle xq := fun _ =>
  mkRaw 0 1 1 true false false (fun _ => Fin 0)
    (fun k => if k =? (if b then 4 else 3) then NaN else if k =? (if b then 3 else 4) then Fin (Q2Qc (inject_Z (-4))) else Fin 0).
Lemma nan_indifferent : indifferent 2 2 1 1 (nan_orc false) (nan_orc true).
Proof.
  intros h h' _. constructor; try reflexivity. cbn [nan_orc q_y]. intros k Hk. unfold other.
  assert (k = 0 \/ k = 1 \/ k = 2 \/ k = 3 \/ k = 4) as D by lia. destruct D as [->|[->|[->|[->| ->]]]]; reflexivity.
Qed.
(** The two runs.  No LCQPow code. *)
Definition nan_run (b : bool) : res (ReturnValue * lcqp xq) :=
  solve_dense (if b then swap_dense None (to_dense (exq_d false)) else to_dense (exq_d false)) (ex_options QPOASES_DENSE) (nan_orc b) no_rand.
Lemma nan_differs : exists (u : udense xq) (opt : options xq) (orc orc' : oracle xq) (rand : nat -> Z) (o o' : lcqp xq) (x : arr xq),
  wf_dense u /\ paired (ud_v u) /\ fin_lower (ud_v u) /\ o_qpSolver opt = QPOASES_DENSE /\ u_y0 (ud_v u) = None /\ indifferent 2 2 1 1 orc orc' /\
  solve_dense u opt orc rand = Ok (SUCCESSFUL_RETURN, o) /\ solve_dense (swap_dense None u) opt orc' rand = Ok (SUCCESSFUL_RETURN, o') /\
  getPrimalSolution (Some (repeat None 2)) o = Ok (S_STATIONARY_SOLUTION, Some x) /\ getPrimalSolution (Some (repeat None 2)) o' = Ok (M_STATIONARY_SOLUTION, Some x).
Proof.
  exists (to_dense (exq_d false)), (ex_options QPOASES_DENSE), (nan_orc false), (nan_orc true), no_rand,
    (snd (ok_or (SUCCESSFUL_RETURN, LCQProblem_default) (nan_run false))), (snd (ok_or (SUCCESSFUL_RETURN, LCQProblem_default) (nan_run true))), [Some (Fin 0); Some (Fin 0)].
  split; [apply exq_wf_d|]. split; [apply exq_paired|]. split; [apply exq_fin_lower|]. split; [reflexivity|]. split; [reflexivity|]. split; [apply nan_indifferent|].
  split; [vm_compute; reflexivity|]. split; [vm_compute; reflexivity|]. split; vm_compute; reflexivity.
Qed.
