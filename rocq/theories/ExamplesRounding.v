(** * ExamplesRounding: in doubles the order of rows matters (no LCQPow code). *)
From Coq Require Import SpecFloat Permutation.
From Verif Require Import Base Arith Codes Utilities Options Stats FileIO Subsolver State LCQProblem Loops SpecSparse SpecMath SpecLoad SpecRun
  Examples ExamplesKernels SpecSwap SpecRenumber SpecColumns.
Open Scope Z_scope.

(** Integers as doubles.  No LCQPow code. *)
Definition dz (l : list Z) : list f64 := map a_of_Z l.
(** Few iterations, dense qpOASES.  No LCQPow code. *)
Definition exr_options : options f64 := snd (setMaxIterations 3 (ex_options QPOASES_DENSE)).
(** A QP library that always delivers x = 0 and these multipliers.  No LCQPow code. *)
Definition exr_orc (y : list Z) : oracle f64 := fun _ => mkRaw 0 1 1 true false false (fun _ => a_zero) (fun k => at_ a_zero (dz y) k).

(** min x^2 + x subject to one constraint x, and 2x complements x.  No LCQPow code. *)
Definition exr_side : udense f64 :=
  mkUdense (mkUvec 1 1 1 (dz [1]) None None None None None None None None None None) (dz [2]) (dz [2]) (dz [1]) (dz [1]).
(** Multipliers: box, constraint, L, R.  No LCQPow code. *)
Definition exr_side_y (b : bool) : list Z := if b then [0; 10000000000000000; 1; -5000000000000000] else [0; 10000000000000000; -5000000000000000; 1].
(** The two runs.  No LCQPow code. *)
Definition exr_side_run (b : bool) : res (ReturnValue * lcqp f64) :=
  solve_dense (if b then swap_dense None exr_side else exr_side) exr_options (exr_orc (exr_side_y b)) no_rand.
Lemma exr_side_ok : exists (u : udense f64) opt orc orc' rand o o',
  wf_dense u /\ paired (ud_v u) /\ fin_lower (ud_v u) /\ o_qpSolver opt = QPOASES_DENSE /\ exchanged_opt 2 1 (u_y0 (ud_v u)) None /\ indifferent 1 1 1 1 orc orc' /\
  (forall h k, exists z, q_y (orc h) k = a_of_Z z) /\
  solve_dense u opt orc rand = Ok (SUCCESSFUL_RETURN, o) /\ solve_dense (swap_dense None u) opt orc' rand = Ok (MAX_ITERATIONS_REACHED, o').
Proof.
  exists exr_side, exr_options, (exr_orc (exr_side_y false)), (exr_orc (exr_side_y true)), no_rand,
    (snd (ok_or (SUCCESSFUL_RETURN, LCQProblem_default) (exr_side_run false))), (snd (ok_or (SUCCESSFUL_RETURN, LCQProblem_default) (exr_side_run true))).
  split; [constructor; [constructor; vm_compute; try reflexivity; try discriminate; exact I|reflexivity..]|]. split; [split; auto|]. split; [split; exact I|]. split; [reflexivity|]. split; [exact I|].
  split. { intros h h' _. constructor; try reflexivity. intros k Hk. assert (k = 0 \/ k = 1 \/ k = 2 \/ k = 3) as D by lia. destruct D as [->|[->|[->| ->]]]; reflexivity. }
  split. { intros h k. exists (at_ 0 (exr_side_y false) k). unfold exr_orc, dz. cbn [q_y]. unfold at_. change (@a_zero f64 _) with (a_of_Z (T := f64) 0). apply map_nth. }
  split; vm_compute; reflexivity.
Qed.

(** min x^2 + x subject to three constraints x in two orders, and x complements x.  No LCQPow code. *)
Definition exr_rows (b : bool) : udense f64 :=
  mkUdense (mkUvec 1 3 1 (dz [1]) None None None None None None None None None None) (dz [2]) (dz [1]) (dz [1]) (dz (if b then [1; 1; 2] else [1; 2; 1])).
(** Multipliers: box, three constraints, L, R.  No LCQPow code. *)
Definition exr_rows_y (b : bool) : list Z := if b then [0; 10000000000000000; 1; -5000000000000000; 0; 0] else [0; 10000000000000000; -5000000000000000; 1; 0; 0].
(** The second and the third constraint change places.  No LCQPow code. *)
Definition exr_nu : numbering := mkNumbering (fun i => if i =? 1 then 2 else if i =? 2 then 1 else i) (fun i => i) (fun _ => false).
(** The two runs.  No LCQPow code. *)
Definition exr_rows_run (b : bool) : res (ReturnValue * lcqp f64) := solve_dense (exr_rows b) exr_options (exr_orc (exr_rows_y b)) no_rand.
Lemma exr_rows_wf b : wf_dense (exr_rows b).
Proof. constructor; [constructor; vm_compute; try reflexivity; try discriminate; exact I|destruct b; reflexivity..]. Qed.
Lemma exr_rows_ok : exists nu (u u' : udense f64) opt orc orc' rand o o',
  wf_dense u /\ wf_dense u' /\ paired (ud_v u) /\ paired (ud_v u') /\ fin_lower (ud_v u) /\ o_qpSolver opt = QPOASES_DENSE /\
  renumbers 3 1 nu /\ renum_dense nu u u' /\ order_blind 1 1 5 (place 3 1 nu) orc orc' /\ (forall i, nb_flip nu i = false) /\ (forall h k, exists z, q_y (orc h) k = a_of_Z z) /\
  solve_dense u opt orc rand = Ok (SUCCESSFUL_RETURN, o) /\ solve_dense u' opt orc' rand = Ok (MAX_ITERATIONS_REACHED, o').
Proof.
  exists exr_nu, (exr_rows false), (exr_rows true), exr_options, (exr_orc (exr_rows_y false)), (exr_orc (exr_rows_y true)), no_rand,
    (snd (ok_or (SUCCESSFUL_RETURN, LCQProblem_default) (exr_rows_run false))), (snd (ok_or (SUCCESSFUL_RETURN, LCQProblem_default) (exr_rows_run true))).
  split; [apply exr_rows_wf|]. split; [apply exr_rows_wf|]. split; [split; auto|]. split; [split; auto|]. split; [split; exact I|]. split; [reflexivity|].
  assert (D3 : forall i, 0 <= i < 3 -> i = 0 \/ i = 1 \/ i = 2) by lia.
  split. { split; split; cbn [exr_nu nb_row nb_pair]; intros; try lia.
    - destruct (i =? 1); [lia|]. destruct (i =? 2); lia.
    - destruct (Z.eqb_spec i 1), (Z.eqb_spec j 1), (Z.eqb_spec i 2), (Z.eqb_spec j 2); lia. }
  split.
  { constructor; try reflexivity.
    - constructor; try reflexivity; try exact I; intros i Hi; cbn in Hi.
      + split; reflexivity.
      + split; reflexivity.
    - intros i Hi j Hj. cbn in Hi, Hj. replace j with 0 by lia. destruct (D3 i Hi) as [->|[->| ->]]; reflexivity.
    - intros i Hi j Hj. cbn in Hi, Hj. replace j with 0 by lia. replace i with 0 by lia. reflexivity.
    - intros i Hi j Hj. cbn in Hi, Hj. replace j with 0 by lia. replace i with 0 by lia. reflexivity. }
  split. { intros h h' _. constructor; try reflexivity; intros i Hi.
    - replace i with 0 by lia. reflexivity.
    - assert (i = 0 \/ i = 1 \/ i = 2 \/ i = 3 \/ i = 4) as D by lia. destruct D as [->|[->|[->|[->| ->]]]]; reflexivity. }
  split; [reflexivity|].
  split. { intros h k. exists (at_ 0 (exr_rows_y false) k). unfold exr_orc, dz. cbn [q_y]. unfold at_. change (@a_zero f64 _) with (a_of_Z (T := f64) 0). apply map_nth. }
  split; vm_compute; reflexivity.
Qed.

(** min (x0 + x1 + x2 - 1)^2 + x3^2, x3 complements x3: the first three variables are interchangeable.  No LCQPow code. *)
Definition exr_cols : udense f64 :=
  mkUdense (mkUvec 4 0 1 (dz [-1; -1; -1; 0]) None None None None None None None None None None)
    (dz [1; 1; 1; 0;  1; 1; 1; 0;  1; 1; 1; 0;  0; 0; 0; 1]) (dz [0; 0; 0; 1]) (dz [0; 0; 0; 1]) (dz []).
(** A solution, with its second and third entry exchanged.  No LCQPow code. *)
Definition exr_cols_x (b : bool) : list Z := if b then [10000000000000000; 1; -10000000000000000; 0] else [10000000000000000; -10000000000000000; 1; 0].
(** A QP library that always delivers this point, all multipliers zero.  No LCQPow code. *)
Definition exr_cols_orc (b : bool) : oracle f64 := fun _ => mkRaw 0 1 1 true false false (fun k => at_ a_zero (dz (exr_cols_x b)) k) (fun _ => a_zero).
(** The second and the third variable change places.  No LCQPow code. *)
Definition exr_f (i : Z) : Z := if i =? 1 then 2 else if i =? 2 then 1 else i.
(** The two runs.  No LCQPow code. *)
Definition exr_cols_run (b : bool) : res (ReturnValue * lcqp f64) := solve_dense exr_cols exr_options (exr_cols_orc b) no_rand.
Lemma exr_cols_ok : exists f (u u' : udense f64) opt orc orc' rand o o' x,
  wf_dense u /\ wf_dense u' /\ paired (ud_v u) /\ fin_lower (ud_v u) /\ o_qpSolver opt = QPOASES_DENSE /\ o_perturbStep opt = false /\
  permutes 4 f /\ moved_dense f u u' /\ names_blind 4 4 2 f orc orc' /\ ud_Q u = dz [1; 1; 1; 0;  1; 1; 1; 0;  1; 1; 1; 0;  0; 0; 0; 1] /\ u_g (ud_v u) = dz [-1; -1; -1; 0] /\
  (forall h k, 0 <= k < 4 -> q_x (orc h) k = a_of_Z (at_ 0 x k)) /\ at_ 0 x 0 + at_ 0 x 1 + at_ 0 x 2 = 1 /\ at_ 0 x 3 = 0 /\
  solve_dense u opt orc rand = Ok (SUCCESSFUL_RETURN, o) /\ solve_dense u' opt orc' rand = Ok (MAX_ITERATIONS_REACHED, o').
Proof.
  exists exr_f, exr_cols, exr_cols, exr_options, (exr_cols_orc false), (exr_cols_orc true), no_rand,
    (snd (ok_or (SUCCESSFUL_RETURN, LCQProblem_default) (exr_cols_run false))), (snd (ok_or (SUCCESSFUL_RETURN, LCQProblem_default) (exr_cols_run true))), (exr_cols_x false).
  assert (WF : wf_dense exr_cols) by (constructor; [constructor; vm_compute; try reflexivity; try discriminate; exact I|reflexivity..]).
  assert (D4 : forall i, 0 <= i < 4 -> i = 0 \/ i = 1 \/ i = 2 \/ i = 3) by lia.
  split; [exact WF|]. split; [exact WF|]. split; [split; auto|]. split; [split; exact I|]. split; [reflexivity|]. split; [reflexivity|].
  split. { split; unfold exr_f; intros; [destruct (Z.eqb_spec i 1), (Z.eqb_spec i 2); lia|destruct (Z.eqb_spec i 1), (Z.eqb_spec j 1), (Z.eqb_spec i 2), (Z.eqb_spec j 2); lia]. }
  split.
  { constructor.
    - constructor; try reflexivity; try exact I. split; [reflexivity|]. split; [reflexivity|]. intros i Hi. destruct (D4 i Hi) as [->|[->|[->| ->]]]; reflexivity.
    - intros i j Hi Hj. destruct (D4 i Hi) as [->|[->|[->| ->]]], (D4 j Hj) as [->|[->|[->| ->]]]; reflexivity.
    - intros i j Hi Hj. cbn in Hi. lia.
    - intros i j Hi Hj. cbn in Hi. replace i with 0 by lia. destruct (D4 j Hj) as [->|[->|[->| ->]]]; reflexivity.
    - intros i j Hi Hj. cbn in Hi. replace i with 0 by lia. destruct (D4 j Hj) as [->|[->|[->| ->]]]; reflexivity. }
  split. { intros h h' _. constructor; try reflexivity. intros i Hi. destruct (D4 i Hi) as [->|[->|[->| ->]]]; reflexivity. }
  split; [reflexivity|]. split; [reflexivity|].
  split. { intros h k Hk. destruct (D4 k Hk) as [->|[->|[->| ->]]]; reflexivity. }
  split; [reflexivity|]. split; [reflexivity|]. split; vm_compute; reflexivity.
Qed.
