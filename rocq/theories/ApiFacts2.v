(** * ApiFacts2: classification of QP results, and counters (no LCQPow code). *)
From Verif Require Import Base Arith Codes Utilities Options Stats FileIO Subsolver State LCQProblem Tactics Loops Kernels SpecLoad NoFuel Frames Control RunControl SpecRun Spec QPHistory RunStats RunFacts RunProps
  NoUB Safety SpecApi.

Section ApiFacts2.
Context {T : Type} `{Arith T}.

(** ** QP results *)
Lemma qpOASES_result orc s calls work ini (g lbA ubA x0 y0 lb ub : ptr T) res : uses_qpOASES (sub_qpSolver s) ->
  sub_solve orc s calls work ini g lbA ubA x0 y0 lb ub = Ok res ->
  exists c, sr_calls res = c :: calls /\ let a := orc (c :: calls) in
    sr_raw res = Some a /\ (sr_ret res = SUCCESSFUL_RETURN <-> q_ret a = 0) /\ sr_iter res = Some (q_iter a) /\ sr_flag res = Some (q_ret a).
Proof.
  intros Hq E. assert (E' : solve_qpOASES orc s calls work ini g lbA ubA x0 y0 lb ub = Ok res) by (unfold sub_solve, uses_qpOASES in *; destruct (sub_qpSolver s); auto; contradiction).
  clear E. unfold solve_qpOASES in E'. apply bind_ok in E'. destruct E' as ([Hm Am] & _ & E').
  repeat (apply bind_ok in E'; destruct E' as (? & _ & E')). injection E' as <-. cbn [sr_calls sr_raw sr_ret sr_iter sr_flag].
  eexists. split; [reflexivity|]. cbv zeta. split; [reflexivity|]. split; [|split; reflexivity].
  destruct (Z.eqb_spec (q_ret (orc (mkCall (sub_qpSolver s) ini Hm Am x x1 x2 x3 x4 x5 x6 :: calls))) 0); split; intros; auto; try discriminate. contradiction.
Qed.
Lemma OSQP_result orc s calls work ini (g lbA ubA x0 y0 lb ub : ptr T) res a : sub_qpSolver s = OSQP_SPARSE ->
  sub_solve orc s calls work ini g lbA ubA x0 y0 lb ub = Ok res -> sr_raw res = Some a ->
  (exists c, sr_calls res = c :: calls /\ a = orc (c :: calls)) /\
  (sr_ret res = SUCCESSFUL_RETURN <-> q_ret a = 0 /\ 0 < q_status a) /\ sr_iter res = Some (q_iter a) /\ sr_flag res = Some (q_status a).
Proof.
  intros Hq E Ra. unfold sub_solve in E. rewrite Hq in E. unfold solve_OSQP in E. destruct (notNull lb || notNull ub); [injection E as <-; discriminate|].
  apply bind_ok in E. destruct E as ([Hm Am] & _ & E). repeat (apply bind_ok in E; destruct E as (? & _ & E)).
  destruct (ini && notNull x0 && _); [injection E as <-; discriminate|]. destruct (ini && notNull y0 && _); [injection E as <-; discriminate|].
  destruct (negb _); [injection E as <-; discriminate|]. injection E as <-. cbn [sr_calls sr_raw sr_ret sr_iter sr_flag] in *. injection Ra as <-.
  split; [eexists; split; reflexivity|]. split; [|split; reflexivity].
  match goal with |- context [q_ret ?z] => set (a := z) end.
  destruct (Z.eqb_spec (q_ret a) 0); cbn [negb orb]; [|split; [discriminate|intros []; contradiction]].
  destruct (Z.leb_spec (q_status a) 0); split; intros; try discriminate; try lia; auto.
Qed.
Lemma OSQP_result_known orc s calls work ini (g lbA ubA x0 y0 lb ub : ptr T) res a : sub_qpSolver s = OSQP_SPARSE ->
  sub_solve orc s calls work ini g lbA ubA x0 y0 lb ub = Ok res -> sr_raw res = Some a -> q_status a <= 2 ->
  (exists c, sr_calls res = c :: calls /\ a = orc (c :: calls)) /\
  (sr_ret res = SUCCESSFUL_RETURN <-> q_ret a = 0 /\ osqp_solved (q_status a)) /\ sr_iter res = Some (q_iter a) /\ sr_flag res = Some (q_status a).
Proof.
  intros Hq E Ra B. destruct (OSQP_result _ _ _ _ _ _ _ _ _ _ _ _ _ _ Hq E Ra) as (A1 & A2 & A3). split; [exact A1|]. split; [|exact A3].
  rewrite A2. unfold osqp_solved. split; intros (G1 & G2); split; auto; lia.
Qed.
Lemma solution_copied s a (x y : list T) : 0 <= sub_nV s -> 0 <= sub_nC s -> len x = sub_nV s ->
  (uses_qpOASES (sub_qpSolver s) -> len y = sub_nV s + sub_nC s ->
     sub_getSolution s a (Some (lift x)) (Some (lift y)) = Ok (Some (lift (tab (sub_nV s) (q_x a))), Some (lift (tab (sub_nV s + sub_nC s) (q_y a))))) /\
  (sub_qpSolver s = OSQP_SPARSE -> len y = sub_nC s ->
     sub_getSolution s a (Some (lift x)) (Some (lift y)) = Ok (Some (lift (tab (sub_nV s) (q_x a))), Some (lift (tab (sub_nC s) (fun i => (- q_y a i)%num))))).
Proof.
  intros Hn Hc Hx.
  assert (G : forall (f : Z -> T) (l : list T) n, 0 <= n -> len l = n -> for_ 0 n (fun i o => wr o i (f i)) (lift l) = Ok (lift (tab n f))).
  { intros f l n Hn0 Hl. rewrite (for_fill1 _ f n) by (rewrite ?len_lift; try lia; intros i b Hi Hb _; apply wr_ok; try rewrite Hb; try rewrite len_lift; lia).
    rewrite drop_all, app_nil_r by (rewrite len_lift; lia). reflexivity. }
  split; intros Hq Hy; unfold sub_getSolution.
  - destruct (sub_qpSolver s); [| |exfalso; apply Hq; reflexivity]; cbn [deref bind]; rewrite G by lia; cbn [bind]; rewrite G by lia; reflexivity.
  - rewrite Hq. cbn [deref bind]. rewrite G by lia. cbn [bind]. rewrite (G (fun i => (- q_y a i)%num)) by lia. reflexivity.
Qed.

(** ** Counters *)
Lemma updateTotalIter_int (s s' : iter T) : updateTotalIter s = Ok s' -> in_int (s_totalIter s + 1) = true /\ in_int (st_iterTotal (s_stats s) + 1) = true.
Proof.
  unfold updateTotalIter, updateIterTotal. intros E. apply bind_ok in E. destruct E as (n & En & E). apply chk_int_ok in En. destruct En as [_ En].
  apply bind_ok in E. destruct E as ([r st] & Es & E). cbn [Z.ltb] in Es. change (1 <? 0) with false in Es. cbv iota in Es. apply bind_ok in Es. destruct Es as (v & Ev & _). apply chk_int_ok in Ev. tauto.
Qed.
Lemma pass_total_int orc rand d (s : iter T) x : pass orc rand d s = Ok x -> in_int (s_totalIter s + 1) = true.
Proof.
  unfold pass, pass_head. intros E. apply bind_ok in E. destruct E as (h & E & _).
  apply bind_ok in E; destruct E as (s1 & E1 & E). apply updateStep_frame in E1. destruct E1 as (v & ->).
  apply bind_ok in E; destruct E as (s2 & E2 & E). apply updateStationarity_frame in E2. destruct E2 as (a1 & a2 & a3 & ->).
  apply bind_ok in E; destruct E as (s3 & E3 & E). apply printIteration_frame in E3. destruct E3 as (l & ->).
  apply bind_ok in E; destruct E as (s4 & E4 & E).
  assert (Hs : s_totalIter s4 = s_totalIter s).
  { destruct (o_storeSteps _); [apply storeSteps_frame in E4; destruct E4 as (st & ->); reflexivity|]. injection E4 as <-. reflexivity. }
  apply bind_ok in E; destruct E as (s5 & E5 & _). apply updateTotalIter_int in E5. rewrite Hs in E5. tauto.
Qed.
Lemma limit_unreachable orc rand (o : lcqp T) r o' : INT_MAX <= o_maxIterations (d_options (pd o)) -> runSolver orc rand o = Ok (r, o') -> r <> MAX_ITERATIONS_REACHED.
Proof.
  intros HM E ->. pose proof (run_ends _ _ _ _ _ _ E) as RE. inversion RE as [r1 o1 E1 Er|r1 o1 s1 E1 E2|r1 d s s' P Ep]; subst.
  - pose proof (run_not_started _ _ _ _ _ _ E) as N. destruct N as (_ & _ & _ & N).
    + intros C. apply C. simpl. apply (init_fail_calls _ _ _ E1).
    + simpl in N. intuition discriminate.
  - destruct (first_ctl _ _ _ _ E1 _ E2) as (_ & N1 & N2). auto.
  - destruct (pass_end_total _ _ _ _ _ _ Ep) as [Q1 Q2]. destruct (proj1 Q2 eq_refl) as (_ & Q3).
    destruct (pass_start_init _ _ _ _ _ P) as (o1 & E1 & ->). rewrite (init_options _ _ E1) in Q3. pose proof (pass_total_int _ _ _ _ _ Ep) as B.
    unfold in_int in B. lia.
Qed.
End ApiFacts2.
