(** * RunStats: the recorded step statistics along a run (any arithmetic, any state). *)
From Verif Require Import Base Arith Codes Utilities Options Stats FileIO Subsolver State LCQProblem Tactics Loops NoFuel Frames Control RunControl SpecRun Spec QPHistory.

Section RunStats.
Context {T : Type} `{Arith T}.
Implicit Types (orc : oracle T) (d : pdata T) (s : iter T) (o : lcqp T) (st : stats T).

(** The tracking vectors agree *)
Record same_track st st' : Prop := {
  sm_x : st_xSteps st' = st_xSteps st;
  sm_inner : st_innerIters st' = st_innerIters st;
  sm_sub : st_subproblemIters st' = st_subproblemIters st;
  sm_accu : st_accuSubproblemIters st' = st_accuSubproblemIters st;
  sm_sl : st_stepLength st' = st_stepLength st;
  sm_ss : st_stepSize st' = st_stepSize st;
  sm_stat : st_statVals st' = st_statVals st;
  sm_obj : st_objVals st' = st_objVals st;
  sm_phi : st_phiVals st' = st_phiVals st;
  sm_merit : st_meritVals st' = st_meritVals st
}.

Lemma same_refl st : same_track st st.
Proof. constructor; reflexivity. Qed.
Lemma same_trans a b c : same_track a b -> same_track b c -> same_track a c.
Proof. intros [] []; constructor; congruence. Qed.
Lemma same_tracked a b n : same_track a b -> tracked a n -> tracked b n.
Proof. intros [] []; constructor; congruence. Qed.
Lemma same_untracked a b : same_track a b -> untracked a -> untracked b.
Proof. intros [] ?; unfold untracked in *; intuition congruence. Qed.

Lemma last_nonempty {X} (l : list X) a b : l <> [] -> last l a = last l b.
Proof. induction l; intros; [congruence|]. destruct l; auto. simpl in *. apply IHl; discriminate. Qed.
Lemma prefix_sums_snoc l : forall acc x, prefix_sums acc (l ++ [x]) = prefix_sums acc l ++ [last (prefix_sums acc l) acc + x].
Proof.
  induction l as [|a l IH]; intros acc x; [reflexivity|]. cbn [prefix_sums app]. rewrite IH.
  destruct l as [|b l]; [reflexivity|].
  do 2 f_equal. f_equal. f_equal. cbn [prefix_sums]. 
  change (last (acc + a :: acc + a + b :: prefix_sums (acc + a + b) l) acc) with (last (acc + a + b :: prefix_sums (acc + a + b) l) acc).
  apply last_nonempty. discriminate.
Qed.

(** The newest record describes the current iterate: point, residual norm, objective, complementarity value. *)
Definition newest d s : Prop :=
  exists nV x statk xs m obj phi X M O P,
    d_nV d = Some nV /\ s_xk s = Some x /\ s_statk s = Some statk /\
    holds (s_xk s) nV xs /\ MaxAbs statk nV = Ok m /\ getObj d s = Ok obj /\ getPhi d s = Ok phi /\
    st_xSteps (s_stats s) = X ++ [xs] /\ st_statVals (s_stats s) = M ++ [m] /\
    st_objVals (s_stats s) = O ++ [obj] /\ st_phiVals (s_stats s) = P ++ [phi].

Lemma getPhi_xk d s s' : s_xk s' = s_xk s -> getPhi d s' = getPhi d s.
Proof. unfold getPhi; intros ->; reflexivity. Qed.
Lemma getObj_xk d s s' : s_xk s' = s_xk s -> getObj d s' = getObj d s.
Proof. unfold getObj; intros ->; reflexivity. Qed.

Lemma newest_frame d s s' : newest d s -> s_xk s' = s_xk s -> s_statk s' = s_statk s -> same_track (s_stats s) (s_stats s') ->
  newest d s'.
Proof.
  intros (nV & x & sk & xs & m & ob & ph & X & M & O & P & H1 & H2 & H3 & H4 & H5 & H6 & H7 & H8 & H9 & H10 & H11) E1 E2 [].
  exists nV, x, sk, xs, m, ob, ph, X, M, O, P.
  rewrite (getObj_xk d s s' E1), (getPhi_xk d s s' E1), E1, E2.
  repeat split; auto; try congruence; apply H4.
Qed.

Lemma for_append (x : ptr T) nV xs :
  for_ 0 nV (fun i xs => let! a := deref x in let! v := rd a i in Ok (xs ++ [v])) [] = Ok xs -> holds x nV xs.
Proof.
  intros E.
  pose (P := fun (i : Z) (xs : list T) => len xs = i /\ forall j, 0 <= j < i -> exists a, x = Some a /\ rd a j = Ok (at_ a_zero xs j)).
  apply (for_inv P) in E.
  - destruct E as [E1 E2]. split; [assumption|]. intros i Hi. apply E2. lia.
  - split; [reflexivity|]. intros; lia.
  - intros i l l' Hi [L Hl] E'. apply bind_ok in E'. destruct E' as (a & Ea & E'). apply bind_ok in E'. destruct E' as (v & Ev & E').
    injection E' as <-. split; [rewrite len_app, len_cons, len_nil; lia|].
    intros j Hj. destruct (Z.eq_dec j i) as [->|].
    + exists a. destruct x; simpl in Ea; [|discriminate]. injection Ea as ->. split; auto. rewrite at_app_r by lia. rewrite L, Z.sub_diag. exact Ev.
    + destruct (Hl j) as (a' & Ha' & Hr); [lia|]. exists a'. split; auto. rewrite at_app_l by lia. exact Hr.
Qed.

Lemma tracked_storeSteps d s s' : storeSteps d s = Ok s' ->
  (forall n, tracked (s_stats s) n -> tracked (s_stats s') (n + 1)) /\
  (exists k, s_qpIterk s = Some k /\ st_subproblemIters (s_stats s') = st_subproblemIters (s_stats s) ++ [k]) /\
  (s_xk s <> None -> newest d s').
Proof.
  unfold storeSteps; intros E.
  apply bind_ok in E; destruct E as (nV & EnV & E). apply bind_ok in E; destruct E as (k & Ek & E).
  apply bind_ok in E; destruct E as (pk & Epk & E). apply bind_ok in E; destruct E as (np & Enp & E).
  apply bind_ok in E; destruct E as (sk & Esk & E). apply bind_ok in E; destruct E as (ns & Ens & E).
  apply bind_ok in E; destruct E as (ob & Eob & E). apply bind_ok in E; destruct E as (ph & Eph & E).
  apply bind_ok in E; destruct E as (me & Eme & E). apply bind_ok in E; destruct E as (st' & Est & E).
  assert (Hs : s' = set_stats st' s) by congruence. clear E. subst s'.
  unfold updateTrackingVectors in Est.
  apply bind_ok in Est; destruct Est as (xs & Exs & Est). apply bind_ok in Est; destruct Est as (ac & Eac & Est).
  destruct (d_nV d) as [nV'|] eqn:HnV; simpl in EnV; [injection EnV as ->|discriminate].
  destruct (s_qpIterk s) as [k'|] eqn:Hk; simpl in Ek; [injection Ek as ->|discriminate].
  destruct (s_statk s) as [sk'|] eqn:Hsk; simpl in Esk; [injection Esk as ->|discriminate].
  apply for_append in Exs.
  assert (Hst : exists f, st' = f) by eauto. destruct Hst as (f & Hf).
  split; [|split].
  - intros n []. assert (Hacc : ac = last (prefix_sums 0 (st_subproblemIters (s_stats s))) 0 + k).
    { rewrite <- tr_accu. destruct (st_accuSubproblemIters (s_stats s)); [injection Eac as <-; reflexivity|].
      apply chk_int_ok in Eac. tauto. }
    inversion Est; subst st'. constructor; simpl; rewrite ?len_app, ?len_cons, ?len_nil; try lia.
    rewrite prefix_sums_snoc. rewrite tr_accu, Hacc. reflexivity.
  - exists k. split; auto. inversion Est; reflexivity.
  - intros Hx. destruct (s_xk s) as [x|] eqn:Hxk; [|congruence].
    exists nV, x, sk, xs, ns, ob, ph, (st_xSteps (s_stats s)), (st_statVals (s_stats s)), (st_objVals (s_stats s)), (st_phiVals (s_stats s)).
    simpl. rewrite (getObj_xk d s) by reflexivity. rewrite (getPhi_xk d s) by reflexivity.
    inversion Est; subst st'. rewrite Hxk. repeat (split; [solve [auto]|]). auto.
Qed.

Lemma same_pen d b r st : same_track st (pen_stats d b r st).
Proof. destruct b; constructor; reflexivity. Qed.

Lemma pass_head_xk d s s' : pass_head d s = Ok s' -> s_xk s' <> None.
Proof.
  unfold pass_head; intros E.
  apply bind_ok in E; destruct E as (s1 & E1 & E). apply updateStep_frame in E1. destruct E1 as (x & ->).
  apply bind_ok in E; destruct E as (s2 & E2 & E). apply updateStationarity_frame in E2. destruct E2 as (a1 & a2 & a3 & ->).
  apply bind_ok in E; destruct E as (s3 & E3 & E). apply printIteration_frame in E3. destruct E3 as (l & ->).
  apply bind_ok in E; destruct E as (s4 & E4 & E).
  assert (E4' : exists st1, s4 = set_stats st1 (set_log l (set_statk a1 (set_box_statk a2 (set_constr_statk a3 (set_xk (Some x) s)))))).
  { destruct (o_storeSteps _).
    - apply storeSteps_frame in E4. destruct E4 as (st & ->). eauto.
    - injection E4 as <-. exists (s_stats s). reflexivity. }
  destruct E4' as (st1 & ->). clear E4.
  apply bind_ok in E; destruct E as (s5 & E5 & E). apply updateTotalIter_frame in E5.
  apply bind_ok in E; destruct E as (n & En & E).
  apply bind_ok in E; destruct E as ([b s6] & E6 & E). apply leyffer_frame in E6. destruct E6 as (h & ->).
  apply bind_ok in E; destruct E as (s7 & E7 & E). apply updateLinearization_frame in E. destruct E as (gk & ->).
  subst s5. destruct b.
  - apply penaltyStep_frame in E7. destruct E7 as (q & qs & gt & ->). simpl. discriminate.
  - injection E7 as <-. simpl. discriminate.
Qed.

Lemma penaltyStep_keep d s s' : penaltyStep d s = Ok s' -> s_xk s' = s_xk s /\ s_statk s' = s_statk s.
Proof. intros E. apply penaltyStep_frame in E. destruct E as (q & qs & gt & ->). auto. Qed.

Lemma solveQP_fail_xk orc d b s r s' : solveQPSubproblem orc d b s = Ok (r, s') -> is_success r = false ->
  s_xk s <> None -> s_xk s' = s_xk s.
Proof.
  unfold solveQPSubproblem; intros E Hr Hx.
  apply bind_ok in E; destruct E as (sub & Esub & E).
  apply bind_ok in E; destruct E as (rs & Ers & E). cbv beta zeta in E.
  apply bind_ok in E; destruct E as (k & Ek & E).
  apply bind_ok in E; destruct E as ([r1 st1] & Est & E).
  apply bind_ok in E; destruct E as (f & Ef & E).
  apply bind_ok in E; destruct E as (nV & EnV & E). apply bind_ok in E; destruct E as (nD & EnD & E).
  apply bind_ok in E; destruct E as (s1 & E1 & E). apply bind_ok in E; destruct E as (s2 & E2 & E).
  assert (H0 : s_xk (sqp_record rs s) = s_xk s) by (unfold sqp_record; destruct (sr_iter rs), (sr_flag rs); reflexivity).
  assert (H1 : s_xk s1 = s_xk s).
  { cbn [s_xk set_stats] in E1. rewrite H0 in E1. destruct (s_xk s) eqn:Hxx; [|congruence]. 
    assert (Q : s1 = set_stats (updateQPSolverExitFlag f st1) (sqp_record rs s)) by congruence. rewrite Q. simpl. exact H0. }
  assert (H2 : s_xk s2 = s_xk s).
  { destruct (s_yk s1); [injection E2 as <-; assumption|]. apply bind_ok in E2. destruct E2 as (a & _ & E2).
    assert (Q : s2 = set_yk (Some a) s1) by congruence. rewrite Q. exact H1. }
  destruct (is_success (sr_ret rs)) eqn:Es; simpl in E.
  - exfalso. clear - E Hr. repeat (apply bind_ok in E; let x := fresh in destruct E as (x & _ & E); try destruct x; cbv beta iota in E).
    all: injection E as <- _; discriminate.
  - injection E as <- <-. assumption.
Qed.

(** ** Along a run *)
(** The recorded subproblem iteration counts: those of all solved QPs except the newest [skip] ones, oldest first *)
Definition counts (l : list (qp_call T * qp_raw T)) : list Z := map (fun p => q_iter (snd p)) (rev l).

(** Loop invariant on the tracking vectors. No LCQPow code. *)
Record trk_inv orc d c0 s : Prop := {
  ti_on : o_storeSteps (d_options d) = true -> tracked (s_stats s) (s_totalIter s);
  ti_off : o_storeSteps (d_options d) = false -> untracked (s_stats s);
  ti_sub : o_storeSteps (d_options d) = true -> forall new, s_calls s = new ++ c0 ->
     st_subproblemIters (s_stats s) = counts (tl (answers orc new c0))
}.

(** The same after the run. No LCQPow code. *)
Record trk_post orc d c0 s : Prop := {
  tp_on : o_storeSteps (d_options d) = true -> tracked (s_stats s) (s_totalIter s);
  tp_off : o_storeSteps (d_options d) = false -> untracked (s_stats s);
  tp_sub : o_storeSteps (d_options d) = true -> forall new c a rest, s_calls s = new ++ c0 -> answers orc new c0 = (c, a) :: rest ->
     st_subproblemIters (s_stats s) = counts (if qp_error c a then rest else (c, a) :: rest);
  tp_newest : o_storeSteps (d_options d) = true -> 0 < s_totalIter s -> newest d s
}.

(** The state after the first part of a pass *)
Lemma head_track orc d c0 s s1 b : trk_inv orc d c0 s -> qp_inv orc d c0 s -> pass_head d s = Ok s1 -> head_effect d s s1 b ->
  (o_storeSteps (d_options d) = true -> tracked (s_stats s1) (s_totalIter s1) /\ newest d s1 /\
     forall new, s_calls s1 = new ++ c0 -> st_subproblemIters (s_stats s1) = counts (answers orc new c0)) /\
  (o_storeSteps (d_options d) = false -> untracked (s_stats s1)).
Proof.
  intros I QI Hhd Hh. pose proof (pass_head_xk _ _ _ Hhd) as Hx. destruct I. destruct Hh.
  destruct he_stats as (sx & st1 & A1 & A2 & A3 & A4 & A5 & A6 & A7 & A8).
  destruct (o_storeSteps (d_options d)); split; try discriminate; intros _.
  - apply tracked_storeSteps in A7. destruct A7 as (B1 & (k & B2 & B3) & B4). rewrite A1 in *. simpl in *.
    assert (Hsm : same_track st1 (s_stats s1)).
    { rewrite A8. eapply same_trans; [|apply same_pen]. constructor; reflexivity. }
    split; [|split].
    + rewrite he_total. eapply same_tracked; [exact Hsm|]. apply B1. auto.
    + assert (N : newest d (set_stats st1 sx)) by (apply B4; congruence).
      apply newest_frame with (s := set_stats st1 sx); simpl; auto.
    + intros new Hn. rewrite he_calls in Hn. rewrite (sm_sub _ _ Hsm), B3, (ti_sub0 eq_refl new Hn).
      destruct QI as [(new' & Hn' & Hne & Hs & Hsum & Hsol & c & a & r0 & Ha & Hf & Hk) Hw].
      assert (new' = new) by (apply (app_inv_tail c0); congruence). subst new'. rewrite Ha. simpl.
      unfold counts. simpl. rewrite map_app. simpl. congruence.
  - rewrite A8, A7. eapply same_untracked; [|apply ti_off0; reflexivity]. eapply same_trans; [|apply same_pen]. constructor; reflexivity.
Qed.

Lemma pass_trk orc rand d c0 s s' e : sub_info d -> ctl_inv d c0 s -> qp_inv orc d c0 s -> trk_inv orc d c0 s ->
  pass orc rand d s = Ok (s', e) -> match e with None => trk_inv orc d c0 s' | Some _ => trk_post orc d c0 s' end.
Proof.
  intros SI CI QI I E. pose proof QI as QI'.
  destruct QI' as [(new & Hn & Hne & Hs & Hsum & Hsol & c & a & r0 & Ha & Hf & Hk) Hw].
  assert (Herr : qp_error c a = None).
  { unfold all_solved in *. rewrite Ha in Hs. inversion Hs; subst. auto. }
  assert (Hpost : forall s1 s2, 
     (o_storeSteps (d_options d) = true -> tracked (s_stats s1) (s_totalIter s1) /\ newest d s1 /\
       forall new, s_calls s1 = new ++ c0 -> st_subproblemIters (s_stats s1) = counts (answers orc new c0)) ->
     (o_storeSteps (d_options d) = false -> untracked (s_stats s1)) ->
     s_calls s1 = s_calls s ->
     s_calls s2 = s_calls s1 -> same_track (s_stats s1) (s_stats s2) -> s_totalIter s2 = s_totalIter s1 -> s_xk s2 = s_xk s1 -> s_statk s2 = s_statk s1 ->
     trk_post orc d c0 s2).
  { intros s1 s2 H1 H2 Hcs H3 H4 H5 H6 H7. constructor.
    - intros O. rewrite H5. eapply same_tracked; [exact H4|]. apply H1; auto.
    - intros O. eapply same_untracked; [exact H4|]. auto.
    - intros O new' c' a' rest' Hc' Ha'. rewrite (sm_sub _ _ H4).
      assert (new' = new) by (apply (app_inv_tail c0); congruence). subst new'.
      rewrite Ha in Ha'. injection Ha' as -> -> ->. rewrite Herr, <- Ha. apply H1; auto. congruence.
    - intros O _. apply newest_frame with (s := s1); auto. apply H1; auto. }
  apply pass_inv in E. destruct E as [s1 s' b1 Hh Hhd Hst Hcc Hfin | s1 s2 s' e b1 b2 Hh Hhd Hp Hb2 Ht].
  - destruct (head_track orc d c0 s s1 b1) as [H1 H2]; auto.
    apply finish_frame in Hfin. destruct Hfin as (y & al & l & Hal & ->).
    apply (Hpost s1); simpl; auto. { apply he_calls in Hh; exact Hh. } constructor; reflexivity.
  - destruct (head_track orc d c0 s s1 b1) as [H1 H2]; auto.
    assert (Hk2 : s_xk s2 = s_xk s1 /\ s_statk s2 = s_statk s1).
    { destruct b2; [apply (penaltyStep_keep d); tauto | destruct Hb2 as [_ ->]; auto]. }
    destruct Hk2 as [Hx2 Hs2].
    assert (Hsm : same_track (s_stats s1) (s_stats s2)) by (rewrite (pe_stats _ _ _ _ Hp); apply same_pen).
    pose proof (he_calls _ _ _ _ Hh) as Hcs. pose proof (pe_calls _ _ _ _ Hp) as Hcs2. pose proof (pe_total _ _ _ _ Hp) as Ht2.
    apply pass_tail_inv in Ht. destruct Ht as [Hm | Hm Hr | s3 s4 r Hm Hr E3 E4 Er | s3 s4 s5 s6 Hm Hr E3 E4 E5 E6].
    + apply (Hpost s1); auto.
    + apply (Hpost s1); auto.
    + apply updateLinearization_frame in E3. destruct E3 as (v & ->).
      pose proof (solveQP_fail_xk _ _ _ _ _ _ E4 Er) as Hx4. simpl in Hx4. rewrite Hx2 in Hx4.
      specialize (Hx4 (pass_head_xk _ _ _ Hhd)).
      pose proof (solveQPSubproblem_effect _ _ _ _ _ _ E4) as Q.
      apply solveQP_step in E4; auto; [|simpl; intros; rewrite (pe_work _ _ _ _ Hp), (he_work _ _ _ _ Hh); auto].
      destruct E4 as (c1 & [Q1 Q2 Q3 Q4 Q5 Q6]). simpl in *.
      destruct Q. simpl in *. destruct qe_stats as (k & f & [rr st] & K1 & K2 & K3 & K4). apply updateSubproblemIter_ok in K3.
      rewrite K3 in K4. simpl in K4.
      assert (Hsm4 : same_track (s_stats s1) (s_stats s4)).
      { eapply same_trans; [exact Hsm|]. rewrite K4. constructor; reflexivity. }
      constructor; simpl.
      * intros O. rewrite qe_total, Ht2. eapply same_tracked; [exact Hsm4|]. apply H1; auto.
      * intros O. eapply same_untracked; [exact Hsm4|]. auto.
      * intros O new' c' a' rest' Hc' Ha'. rewrite (sm_sub _ _ Hsm4).
        assert (new' = c1 :: new) by (apply (app_inv_tail c0); simpl; congruence). subst new'.
        simpl in Ha'. injection Ha' as <- <- <-.
        replace (s_calls s2) with (new ++ c0) in Q5 by congruence.
        destruct (qp_error c1 _) eqn:Ee; [|subst r; discriminate]. apply H1; auto. congruence.
      * intros O _. apply newest_frame with (s := s1); simpl; auto; [apply H1; auto | congruence].
    + apply updateLinearization_frame in E3. destruct E3 as (v & ->).
      pose proof (solveQPSubproblem_effect _ _ _ _ _ _ E4) as Q.
      apply solveQP_step in E4; auto; [|simpl; intros; rewrite (pe_work _ _ _ _ Hp), (he_work _ _ _ _ Hh); auto].
      destruct E4 as (c1 & [Q1 Q2 Q3 Q4 Q5 Q6]). simpl in *.
      destruct Q. simpl in *. destruct qe_stats as (k & f & [rr st] & K1 & K2 & K3 & K4). apply updateSubproblemIter_ok in K3.
      rewrite K3 in K4. simpl in K4.
      assert (Hsm4 : same_track (s_stats s1) (s_stats s4)).
      { eapply same_trans; [exact Hsm|]. rewrite K4. constructor; reflexivity. }
      apply getOptimalStepLength_frame in E6. destruct E6 as (al & lk & ->).
      assert (Hs5 : exists a b, s5 = set_rnd a (set_xk b s4)).
      { destruct (o_perturbStep _); [apply perturbStep_frame in E5; destruct E5 as (a' & b & ->); eauto|].
        subst s5. exists (s_rnd s4), (s_xk s4). reflexivity. }
      destruct Hs5 as (a' & b & ->).
      constructor; simpl.
      * intros O. rewrite qe_total, Ht2. eapply same_tracked; [exact Hsm4|]. apply H1; auto.
      * intros O. eapply same_untracked; [exact Hsm4|]. auto.
      * intros O new' Hc'. rewrite (sm_sub _ _ Hsm4).
        assert (new' = c1 :: new) by (apply (app_inv_tail c0); simpl; congruence). subst new'. simpl. apply H1; auto. congruence.
Qed.

Lemma answers_cons orc new c0 c a rest : answers orc new c0 = (c, a) :: rest ->
  exists new', new = c :: new' /\ rest = answers orc new' c0.
Proof. destruct new; simpl; intros E; [discriminate|]. injection E as <- <- <-. eauto. Qed.

Lemma first_trk orc o o1 s1 : initializeSolver o = Ok (SUCCESSFUL_RETURN, o1) ->
  forall e, first_solve orc (pd o1) (it o1) = Ok (s1, e) ->
  match e with
  | None => trk_inv orc (pd o1) (s_calls (it o)) s1
  | Some r => trk_post orc (pd o1) (s_calls (it o)) s1
  end.
Proof.
  intros E e F. pose proof (init_info _ _ E) as SI. 
  apply initializeSolver_ok in E.
  destruct E as [(_ & _ & a & b & c & e' & f & g1 & g2 & y & gt & l & ->)|(C & _)]; [|discriminate].
  simpl in F, SI. apply first_solve_inv in F. destruct F as [g s2 r Es Er | g s2 s3 Es Eq].
  - pose proof (solveQPSubproblem_effect _ _ _ _ _ _ Es) as Q.
    apply solveQP_step in Es; auto; [|discriminate]. destruct Es as (c1 & [Q1 Q2 Q3 Q4 Q5 Q6]). simpl in *.
    destruct Q. simpl in *. destruct qe_stats as (k & f0 & [rr st] & K1 & K2 & K3 & K4). apply updateSubproblemIter_ok in K3.
    rewrite K3 in K4. simpl in K4.
    constructor; simpl; rewrite ?K4.
    + intros O. rewrite qe_total. constructor; reflexivity.
    + intros O. repeat split; reflexivity.
    + intros O new' c' a' rest' Hc' Ha'. simpl.
      assert (new' = [c1]) by (apply (app_inv_tail (s_calls (it o))); simpl; congruence). subst new'.
      simpl in Ha'. injection Ha' as <- <- <-. destruct (qp_error c1 _) eqn:Ee; [|subst r; discriminate]. reflexivity.
    + rewrite qe_total. lia.
  - pose proof (solveQPSubproblem_effect _ _ _ _ _ _ Es) as Q.
    apply solveQP_step in Es; auto; [|discriminate]. destruct Es as (c1 & [Q1 Q2 Q3 Q4 Q5 Q6]). simpl in *.
    destruct Q. simpl in *. destruct qe_stats as (k & f0 & [rr st] & K1 & K2 & K3 & K4). apply updateSubproblemIter_ok in K3.
    rewrite K3 in K4. simpl in K4.
    apply setQk_frame in Eq. destruct Eq as (q1 & q2 & q3 & ->). rewrite updateRhoOpt_eq. simpl.
    constructor; simpl; rewrite ?K4.
    + intros O. rewrite qe_total. constructor; reflexivity.
    + intros O. repeat split; reflexivity.
    + intros O new' Hc'. simpl.
      assert (new' = [c1]) by (apply (app_inv_tail (s_calls (it o))); simpl; congruence). subst new'. reflexivity.
Qed.

Theorem run_trk fuel orc rand o r o' : runSolver_fuel fuel orc rand o = Ok (r, o') ->
  (exists o1, initializeSolver o = Ok (r, o1) /\ is_success r = false /\ o' = logL (EvMessage r) o1) \/
  (exists o1, initializeSolver o = Ok (SUCCESSFUL_RETURN, o1) /\ pd o' = pd o1 /\ trk_post orc (pd o1) (s_calls (it o)) (it o')).
Proof.
  intros E. apply run_inv in E. destruct E as [r o1 E1 Er | r o1 s1 E1 E2 | r o1 s1 s2 E1 E2 E3].
  - left; eauto.
  - right. exists o1. split; auto. split; auto. apply (first_trk _ _ _ _ E1 _ E2).
  - right. exists o1. split; auto. split; auto. pose proof (first_ctl _ _ _ _ E1 _ E2) as [F _]. pose proof (first_qp _ _ _ _ E1 _ E2) as G.
    pose proof (first_trk _ _ _ _ E1 _ E2) as K. simpl in *. pose proof (init_info _ _ E1) as SI.
    apply (loop_ind orc rand (pd o1) (fun s => ctl_inv (pd o1) (s_calls (it o)) s /\ qp_inv orc (pd o1) (s_calls (it o)) s /\ trk_inv orc (pd o1) (s_calls (it o)) s)
             (fun r s => trk_post orc (pd o1) (s_calls (it o)) s)) with (n := fuel) (s := s1) (r := r); auto.
    + intros s s' (I1 & I2 & I3) Ep. split; [apply (pass_ctl _ _ _ _ _ _ _ I1 Ep) | split; [apply (pass_qp _ _ _ _ _ _ _ SI I1 I2 Ep)|]].
      apply (pass_trk _ _ _ _ _ _ _ SI I1 I2 I3 Ep).
    + intros s s' r' (I1 & I2 & I3) Ep. apply (pass_trk _ _ _ _ _ _ _ SI I1 I2 I3 Ep).
Qed.

End RunStats.
