(** * NoUB: a run of the list-level loop never overflows a counter (no LCQPow code). *)
From Verif Require Import Base Arith Codes Utilities Options Stats FileIO Subsolver State LCQProblem Tactics Loops Kernels CscKernels Pure Refine.

(** The counts reported by the QP library lie in [0, B] and maxIterations + 2 of them fit into an int, as does twice the
    number of passes.  No LCQPow code. *)
Record small_counts {T} (opt : options T) (orc : oracle T) (B : Z) : Prop := mkSmall {
  sc_iter : forall h, 0 <= q_iter (orc h) <= B;
  sc_max : 0 <= o_maxIterations opt;
  sc_sum : B * (o_maxIterations opt + 2) <= INT_MAX;
  sc_outer : 2 * (o_maxIterations opt + 1) <= INT_MAX }.
(** osqp_setup delivers a workspace and accepts the primal guess.  No LCQPow code. *)
Definition setup_works {T} (opt : options T) (orc : oracle T) : Prop :=
  o_qpSolver opt = OSQP_SPARSE -> forall h, q_work (orc h) = true /\ q_wsx_fails (orc h) = false.

Section NoUB.
Context {T : Type} `{Arith T} {K : Type}.
Variables (p : ops T K) (orc : oracle T) (rand : nat -> Z) (B : Z).
Hypothesis (SC : small_counts (p_opt p) orc B).
Let M := o_maxIterations (p_opt p).

(** Counters after [n] passes with the last QP already counted.  No LCQPow code. *)
Record cnt (n : Z) (v : vst T K) : Prop := mkCnt {
  ct_total : v_total v = n;
  ct_outer : 0 <= v_outer v <= 2 * n;
  ct_inner : 0 <= v_inner v <= n;
  ct_sto : st_iterTotal (v_stats v) = n;
  ct_stu : st_iterOuter (v_stats v) = v_outer v;
  ct_work : p_solver p = OSQP_SPARSE -> v_work v = true;
  ct_flag : v_flag v <> None;
  ct_qpit : exists k, v_qpit v = Some k /\ 0 <= k <= B;
  ct_acc : match st_accuSubproblemIters (v_stats v) with [] => True | l => 0 <= last l 0 <= B * n end }.
(** No LCQPow code. *)
Definition cnt_sub (n : Z) (v : vst T K) : Prop := 0 <= st_subproblemIter (v_stats v) <= B * n.

Lemma B_pos : 0 <= B.
Proof. pose proof (sc_iter _ _ _ SC []). lia. Qed.

Lemma chk_ok z : 0 <= z <= INT_MAX -> chk_int z = Ok z.
Proof. intros. unfold chk_int. replace (in_int z) with true by (unfold in_int, INT_MIN, INT_MAX in *; lia). reflexivity. Qed.


Lemma store_ok n v : 0 <= p_nV p -> len (v_x v) = p_nV p -> cnt n v -> 0 <= n <= M ->
  exists st, v_store p v = Ok (w_stats st v) /\ st_iterTotal st = st_iterTotal (v_stats v) /\ st_iterOuter st = st_iterOuter (v_stats v) /\
    st_subproblemIter st = st_subproblemIter (v_stats v) /\
    match st_accuSubproblemIters st with [] => True | l => 0 <= last l 0 <= B * (n + 1) end.
Proof.
  intros HnV Lx C Hn. destruct C. destruct ct_qpit0 as (k & Ek & Hk). pose proof B_pos. pose proof (sc_sum _ _ _ SC) as HS. fold M in HS.
  unfold v_store. rewrite Ek. cbn [get bind]. unfold updateTrackingVectors.
  rewrite <- Lx. erewrite (for_list' (@a_zero T _) (v_x v) (fun (xs : list T) x => xs ++ [x])).
  2:{ intros i s Hi. cbn [deref bind]. rewrite rd_vec_ by auto. reflexivity. }
  cbn [bind]. set (l := st_accuSubproblemIters (v_stats v)) in *.
  match goal with |- context [bind ?m _] => assert (E : exists a, m = Ok a /\ 0 <= a <= B * (n + 1)) end.
  { destruct l as [|z l']; [exists k; split; [reflexivity|nia]|]. cbv beta iota zeta in ct_acc0. exists (last (z :: l') 0 + k).
    assert (0 <= last (z :: l') 0 + k <= B * (n + 1)) by lia. split; auto. apply chk_ok. nia. }
  destruct E as (a & Ea & Ha). rewrite Ea. cbn [bind]. eexists. split; [reflexivity|]. cbn [st_iterTotal st_iterOuter st_subproblemIter st_accuSubproblemIters].
  repeat (split; [reflexivity|]). pose proof (last_last l a 0) as LL. destruct (l ++ [a]); [auto|]. cbv zeta. rewrite LL. exact Ha.
Qed.

Lemma cnt_stats n v st : cnt n v -> st_iterTotal st = st_iterTotal (v_stats v) -> st_iterOuter st = st_iterOuter (v_stats v) ->
  st_accuSubproblemIters st = st_accuSubproblemIters (v_stats v) -> cnt n (w_stats st v).
Proof. intros [] E1 E2 E3. constructor; cbn; auto; congruence || (rewrite E3; auto). Qed.

Lemma leyffer_cnt (v : vst T K) : exists h, snd (v_leyffer p v) = w_hist h v.
Proof.
  unfold v_leyffer. destruct (_ <=? 0); [exists (v_hist v); destruct v; reflexivity|]. destruct (_ <? _); [eexists; reflexivity|].
  destruct (v_complOK p v); eexists; reflexivity.
Qed.
Lemma penalty_cnt (v : vst T K) : v_total (v_penalty p v) = v_total v /\ v_outer (v_penalty p v) = v_outer v /\ v_inner (v_penalty p v) = v_inner v /\
  v_work (v_penalty p v) = v_work v /\ v_flag (v_penalty p v) = v_flag v /\ v_qpit (v_penalty p v) = v_qpit v /\ v_x (v_penalty p v) = v_x v /\
  st_iterTotal (v_stats (v_penalty p v)) = st_iterTotal (v_stats v) /\ st_iterOuter (v_stats (v_penalty p v)) = st_iterOuter (v_stats v) /\
  st_subproblemIter (v_stats (v_penalty p v)) = st_subproblemIter (v_stats v) /\
  st_accuSubproblemIters (v_stats (v_penalty p v)) = st_accuSubproblemIters (v_stats v).
Proof.
  unfold v_penalty, updateRhoOpt. destruct (p_gphi p), (0 <? _); cbn; destruct (a_le _ _); cbn; repeat split.
Qed.

(** Counters inside a pass: [n] passes counted, up to [m] penalty updates.  No LCQPow code. *)
Record mid (n m : Z) (v : vst T K) : Prop := mkMid {
  md_total : v_total v = n;
  md_outer : 0 <= v_outer v <= m;
  md_inner : 0 <= v_inner v <= n;
  md_sto : st_iterTotal (v_stats v) = n;
  md_stu : st_iterOuter (v_stats v) = v_outer v;
  md_work : p_solver p = OSQP_SPARSE -> v_work v = true;
  md_flag : v_flag v <> None;
  md_qpit : exists k, v_qpit v = Some k /\ 0 <= k <= B;
  md_sub : 0 <= st_subproblemIter (v_stats v) <= B * n;
  md_acc : match st_accuSubproblemIters (v_stats v) with [] => True | l => 0 <= last l 0 <= B * n end }.

Lemma penaltyStep_mid n m v : mid n m v -> 0 <= n -> m + 1 <= INT_MAX -> exists v', v_penaltyStep p v = Ok v' /\ mid n (m + 1) v'.
Proof.
  intros [] Hn Hm. pose proof (penalty_cnt v) as (P1 & P2 & P3 & P4 & P5 & P6 & P7 & P8 & P9 & P10 & P11).
  unfold v_penaltyStep, v_outerIter. rewrite P2. rewrite chk_ok by lia. cbn [bind]. unfold updateIterOuter. change (1 <? 0) with false. cbn match.
  rewrite P9, md_stu0. rewrite chk_ok by lia. cbn [bind]. eexists. split; [reflexivity|].
  constructor; cbn; try congruence; try lia; rewrite ?P4, ?P5, ?P6, ?P10, ?P11; auto.
Qed.

Lemma mid_eq n m v v' : mid n m v -> v_total v' = v_total v -> v_outer v' = v_outer v -> v_inner v' = v_inner v -> v_stats v' = v_stats v ->
  v_work v' = v_work v -> v_flag v' = v_flag v -> v_qpit v' = v_qpit v -> mid n m v'.
Proof. intros [] E1 E2 E3 E E4 E5 E6. constructor; rewrite ?E, ?E1, ?E2, ?E3, ?E4, ?E5, ?E6; auto. Qed.

Lemma head_ok n v : 0 <= p_nV p -> cnt n v -> cnt_sub (n + 1) v -> 0 <= n <= M -> exists v', v_head p v = Ok v' /\ mid (n + 1) (2 * n + 1) v'.
Proof.
  intros HnV C Hs Hn. pose proof (sc_outer _ _ _ SC) as HO. fold M in HO. pose proof B_pos. unfold v_head.
  set (w := v_station p (v_step p v)).
  assert (Lw : len (v_x w) = p_nV p). { change (len (wadd a_one (v_x v) (v_alpha v) (v_p v) (p_nV p)) = p_nV p). unfold wadd. apply len_tab. auto. }
  assert (Cw : cnt n w) by (destruct C; constructor; auto). assert (Hw : cnt_sub (n + 1) w) by exact Hs.
  assert (E1 : v_print p w = Ok w). { unfold v_print. destruct (ct_qpit _ _ Cw) as (k & Ek & _). rewrite Ek. destruct (o_printLevel _); reflexivity. }
  rewrite E1. cbn [bind].
  assert (E2 : exists w1, (if o_storeSteps (p_opt p) then v_store p w else Ok w) = Ok w1 /\ v_total w1 = n /\ 0 <= v_outer w1 <= 2 * n /\ 0 <= v_inner w1 <= n /\
    st_iterTotal (v_stats w1) = n /\ st_iterOuter (v_stats w1) = v_outer w1 /\ (p_solver p = OSQP_SPARSE -> v_work w1 = true) /\ v_flag w1 <> None /\
    (exists k, v_qpit w1 = Some k /\ 0 <= k <= B) /\ 0 <= st_subproblemIter (v_stats w1) <= B * (n + 1) /\
    match st_accuSubproblemIters (v_stats w1) with [] => True | l => 0 <= last l 0 <= B * (n + 1) end).
  { destruct (o_storeSteps _).
    - destruct (store_ok n w HnV Lw Cw Hn) as (st & -> & A1 & A2 & A3 & A4). eexists. split; [reflexivity|]. destruct Cw. cbn.
      rewrite A1, A2, A3. repeat (split; [assumption|]). auto.
    - exists w. split; [reflexivity|]. destruct Cw. repeat (split; [assumption|]). destruct (st_accuSubproblemIters (v_stats w)); [auto|]. cbv zeta in *. nia. }
  destruct E2 as (w1 & -> & T1 & O1 & I1 & S1 & U1 & W1 & F1 & Q1 & B1 & A1). cbn [bind].
  unfold v_totalIter. rewrite T1. rewrite chk_ok by lia. cbn [bind]. unfold updateIterTotal. change (1 <? 0) with false. cbn match.
  rewrite S1. rewrite chk_ok by lia. cbn [bind]. rewrite chk_ok by (cbn; lia). cbn [bind].
  match goal with |- context [v_leyffer p ?x] => set (w2 := x) end.
  destruct (leyffer_cnt w2) as (h & Eh). destruct (v_leyffer p w2) as [b w3]. cbn [snd] in Eh. subst w3.
  assert (Md : mid (n + 1) (2 * n) (w_hist h w2)) by (constructor; cbn; auto; lia).
  destruct b.
  - destruct (penaltyStep_mid _ _ _ Md) as (v' & -> & Md'); try lia. cbn [bind]. eexists. split; [reflexivity|]. eapply mid_eq; eauto.
  - cbn [bind]. eexists. split; [reflexivity|]. apply (mid_eq _ _ (w_hist h w2)); auto. destruct Md; constructor; auto; lia.
Qed.

Lemma solve_later n v : cnt_sub n v -> 0 <= n <= M + 1 -> (p_solver p = OSQP_SPARSE -> v_work v = true) ->
  exists r v', v_solve p orc false None v = Ok (r, v') /\ v_total v' = v_total v /\ v_outer v' = v_outer v /\ v_inner v' = v_inner v /\
    st_iterTotal (v_stats v') = st_iterTotal (v_stats v) /\ st_iterOuter (v_stats v') = st_iterOuter (v_stats v) /\
    st_accuSubproblemIters (v_stats v') = st_accuSubproblemIters (v_stats v) /\ v_work v' = v_work v /\ v_flag v' <> None /\
    (exists k, v_qpit v' = Some k /\ 0 <= k <= B) /\ cnt_sub (n + 1) v'.
Proof.
  intros Hs Hn Hw. pose proof B_pos. pose proof (sc_sum _ _ _ SC) as HS. fold M in HS.
  unfold v_solve.
  set (calls := v_call p false (v_x v) None (v_gk v) :: v_calls v). pose proof (sc_iter _ _ _ SC calls) as Hk.
  assert (E : exists ret fl raw, v_sub p orc false None v = mkSubRes ret (Some (q_iter (orc calls))) (Some fl) (v_work v) (Some raw) calls).
  { unfold v_sub. fold calls. destruct (p_solver p); cbn [andb]; [do 3 eexists; reflexivity..|]. rewrite Hw by auto. cbn [negb]. do 3 eexists; reflexivity. }
  destruct E as (ret & fl & raw & ->). unfold v_record. cbn [sr_calls sr_work sr_iter sr_flag sr_ret sr_raw]. cbn [v_qpit w_flag w_qpit get bind].
  unfold updateSubproblemIter. replace (q_iter (orc calls) <? 0) with false by lia.
  change (v_stats (w_flag (Some fl) (w_qpit (Some (q_iter (orc calls))) (w_calls calls (w_work (v_work v) v))))) with (v_stats v).
  unfold cnt_sub in Hs. rewrite chk_ok by nia. cbn [bind]. cbn [v_flag w_flag get bind].
  destruct (negb (is_success ret)); cbn [get bind]; do 2 eexists; (split; [reflexivity|]); cbn;
    repeat (split; [reflexivity|]); (split; [discriminate|]); (split; [eexists; split; [reflexivity|lia]|]); unfold cnt_sub; cbn; nia.
Qed.

Lemma tail_ok n m v : mid n m v -> 0 <= n <= M + 1 -> m <= 2 * n ->
  exists v' e, v_tail p orc rand v = Ok (v', e) /\ (e = None -> n <= M /\ cnt n v' /\ cnt_sub (n + 1) v').
Proof.
  intros [] Hn Hm. unfold v_tail. fold M. destruct (Z.ltb_spec M (v_total v)); [do 2 eexists; split; [reflexivity|discriminate]|].
  destruct (a_lt _ _); [do 2 eexists; split; [reflexivity|discriminate]|].
  destruct (solve_later n (v_lin p v)) as (r & v' & -> & A1 & A2 & A3 & A4 & A5 & A6 & A7 & A8 & A9 & A10); auto.
  cbn [bind]. destruct (negb (is_success r)); [do 2 eexists; split; [reflexivity|discriminate]|].
  do 2 eexists. split; [reflexivity|]. intros _. split; [lia|].
  assert (G : forall u : vst T K, v_total u = v_total v' -> v_outer u = v_outer v' -> v_inner u = v_inner v' -> v_stats u = v_stats v' -> v_work u = v_work v' ->
     v_flag u = v_flag v' -> v_qpit u = v_qpit v' -> cnt n u /\ cnt_sub (n + 1) u).
  { intros u U1 U2 U3 E U4 U5 U6. unfold cnt_sub. rewrite E. split; [|exact A10]. cbn in A1, A2, A3, A4, A5, A6, A7.
    constructor; rewrite ?E, ?U1, ?U2, ?U3, ?U4, ?U5, ?U6, ?A1, ?A2, ?A3, ?A4, ?A5, ?A6, ?A7; auto; lia. }
  destruct (o_perturbStep _); apply G; reflexivity.
Qed.

Lemma loop_no_ub : 0 <= p_nV p -> forall fuel n v, cnt n v -> cnt_sub (n + 1) v -> 0 <= n <= M -> (Z.to_nat (M - n) + 1 < fuel + 1)%nat ->
  exists r, v_loop p fuel orc rand v = Ok r.
Proof.
  intros HnV. pose proof (sc_outer _ _ _ SC) as HO. fold M in HO.
  induction fuel as [|fuel IH]; intros n v C Hs Hn Hf; [lia|]. cbn [v_loop]. unfold v_pass.
  destruct (head_ok n v HnV C Hs Hn) as (v1 & -> & Md). cbn [bind].
  assert (Tl : forall v2 m, mid (n + 1) m v2 -> m <= 2 * (n + 1) -> exists r, (let! '(v, e) := v_tail p orc rand v2 in match e with Some r => Ok (r, v) | None => v_loop p fuel orc rand v end) = Ok r).
  { intros v2 m Md2 Hm. destruct (tail_ok (n + 1) m v2 Md2) as (v3 & e & -> & Hc); try lia. cbn [bind]. destruct e as [r|]; [eauto|].
    destruct (Hc eq_refl) as (Hn' & C3 & Hs3). apply (IH (n + 1)); auto; lia. }
  destruct (v_statOK p v1).
  - destruct (v_complOK p v1); [cbn [bind]; eauto|]. destruct (penaltyStep_mid _ _ _ Md) as (v2 & -> & Md2); try lia. cbn [bind].
    apply (Tl v2 (2 * n + 1 + 1)); auto; lia.
  - apply (Tl v1 (2 * n + 1)); auto; lia.
Qed.

Lemma run_no_ub y0 x0 : 0 <= p_nV p -> p_solver p = o_qpSolver (p_opt p) -> setup_works (p_opt p) orc ->
  (o_qpSolver (p_opt p) = OSQP_SPARSE -> y0 = None) ->
  exists r, v_run p (Z.to_nat M + 2) orc rand y0 (v_init p x0) = Ok r.
Proof.
  intros HnV Hp SW Hy. pose proof B_pos. pose proof (sc_sum _ _ _ SC) as HS. pose proof (sc_max _ _ _ SC) as HM. fold M in HS, HM. unfold v_run, v_first.
  set (w := if o_solveZeroPenaltyFirst (p_opt p) then w_gk (p_g p) (v_init p x0) else v_lin p (v_init p x0)).
  assert (Ew : exists g, w = w_gk g (v_init p x0)) by (unfold w; destruct (o_solveZeroPenaltyFirst _); eexists; reflexivity).
  destruct Ew as (g & Ew). clearbody w. subst w. unfold v_solve.
  set (v := w_gk g (v_init p x0)).
  set (calls := v_call p true (v_x v) y0 (v_gk v) :: v_calls v). pose proof (sc_iter _ _ _ SC calls) as Hk.
  assert (E : exists ret fl wk raw, v_sub p orc true y0 v = mkSubRes ret (Some (q_iter (orc calls))) (Some fl) wk (Some raw) calls /\ (p_solver p = OSQP_SPARSE -> wk = true)).
  { unfold v_sub. fold calls. destruct (p_solver p) eqn:Es; cbn [andb]; [do 4 eexists; split; [reflexivity|discriminate]..|].
    destruct (SW (eq_sym Hp) calls) as [-> ->]. rewrite Hy by auto. cbn [notNull isNull negb andb]. do 4 eexists. split; [reflexivity|auto]. }
  destruct E as (ret & fl & wk & raw & -> & Hw). unfold v_record. cbn [sr_calls sr_work sr_iter sr_flag sr_ret sr_raw]. cbn [v_qpit w_flag w_qpit get bind].
  unfold updateSubproblemIter. replace (q_iter (orc calls) <? 0) with false by lia. cbn [v_stats w_flag w_qpit w_calls w_work v w_gk v_init stats_reset st_subproblemIter].
  rewrite chk_ok by nia. cbn [bind]. cbn [v_flag w_flag get bind].
  destruct (negb (is_success ret)) eqn:Er; cbn [get bind].
  - destruct (is_success ret); [discriminate|]. cbn [negb bind]. eauto.
  - cbn [is_success negb bind].
    match goal with |- context [v_loop p _ _ _ ?x] => assert (C : cnt 0 x /\ cnt_sub 1 x) end.
    { unfold updateRhoOpt, cnt_sub. split; [constructor|]; destruct (a_le _ _); cbn; try lia; auto; try discriminate; try (eexists; split; [reflexivity|lia]). }
    apply (loop_no_ub HnV _ 0); [apply C|apply C|lia|lia].
Qed.
End NoUB.
