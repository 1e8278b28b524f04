(** * Schedule: a run raises the penalty as SpecSchedule.v says (proofs; no LCQPow code). *)
From Verif Require Import Base Arith Codes Utilities Options Stats FileIO Subsolver State LCQProblem Tactics Loops NoFuel Frames Control RunControl SpecRun Spec QPHistory RunStats RunFacts RunProps RunTheorems SpecSchedule.

Section Schedule.
Context {T : Type} `{Arith T}.
Implicit Types (orc : oracle T) (s : iter T) (o : lcqp T) (st : stats T).
Variable d : pdata T.
Let opt := d_options d.
Let n := o_nDynamicPenalty opt.
Hypothesis Hn : INT_MIN <= n <= INT_MAX.
Hypothesis Hstore : o_storeSteps opt = true.

(** State between two passes and its phase *)
Record in_phase s (w : phase T) : Prop := mkInPhase {
  ip_outer : s_outerIter s = Z.of_nat (ph_updates w);
  ip_inner : s_innerIter s = Z.of_nat (ph_inner w);
  ip_stats : st_iterOuter (s_stats s) = s_outerIter s;
  ip_total : s_totalIter s <= INT_MAX;
  ip_hist : if 0 <? n then s_complHistory s = last_n n (ph_values w) else len (s_complHistory s) <= s_totalIter s }.

(** The recorded values *)
Definition tracks st : list Z * list T * list T := (st_innerIters st, st_phiVals st, st_statVals st).
(** One more entry in the tracking vectors. No LCQPow code. *)
Definition tracks_more s phi stat st' : Prop :=
  tracks st' = (st_innerIters (s_stats s) ++ [s_innerIter s], st_phiVals (s_stats s) ++ [phi], st_statVals (s_stats s) ++ [stat]).

Lemma size_neg : n < 0 -> INT_MAX + 1 < to_size_t n.
Proof.
  intros. unfold to_size_t. replace (n mod 2 ^ 64) with (n + 2 ^ 64); [unfold INT_MIN, INT_MAX in *; lia|].
  symmetry. rewrite <- (Z_mod_plus_full n 1 (2 ^ 64)). apply Z.mod_small. unfold INT_MIN in *. lia.
Qed.
Lemma len_last_n (l : list T) : 0 < n -> len (last_n n l) = Z.min (len l) n.
Proof. intros. unfold last_n, len. rewrite skipn_length. lia. Qed.
Lemma last_n_snoc (l : list T) (x : T) : 0 < n -> last_n n (l ++ [x]) = (if len l <? n then last_n n l else tl (last_n n l)) ++ [x].
Proof.
  intros. unfold last_n, len. rewrite app_length. cbn [length]. destruct (Z.ltb_spec (Z.of_nat (length l)) n) as [L|L].
  - replace (length l + 1 - Z.to_nat n)%nat with O by lia. replace (length l - Z.to_nat n)%nat with O by lia. reflexivity.
  - replace (length l + 1 - Z.to_nat n)%nat with (S (length l - Z.to_nat n)) by lia.
    assert (E : forall k (q : list T), (k < length q)%nat -> skipn (S k) (q ++ [x]) = tl (skipn k q) ++ [x]).
    { induction k; intros [|y q] Hk; cbn in *; try lia; [reflexivity|]. apply IHk. lia. }
    apply E. lia.
Qed.

Lemma leyffer_phase s w phi b s' : (if 0 <? n then s_complHistory s = last_n n (ph_values w) else len (s_complHistory s) <= INT_MAX) ->
  getPhi d s = Ok phi -> leyfferCheckPositive d s = Ok (b, s') ->
  b = dynamic_update opt w phi /\
  (if 0 <? n then s_complHistory s' = last_n n (ph_values w ++ [phi]) else len (s_complHistory s') <= len (s_complHistory s) + 1).
Proof.
  intros Hh Hp E. destruct (Z.ltb_spec 0 n) as [Pn|Pn].
  - unfold leyfferCheckPositive in E. cbv zeta in E. fold opt n in E. rewrite to_size_t_pos in E by lia. unfold dynamic_update. fold n. replace (0 <? n) with true by lia.
    destruct (Z.leb_spec n 0); [lia|]. rewrite Hp in E. cbn [bind] in E. rewrite Hh in E.
    fold (len (last_n n (ph_values w))) in E. rewrite len_last_n in E by auto. rewrite last_n_snoc by auto. cbn [andb].
    destruct (Z.ltb_spec (Z.min (len (ph_values w)) n) n) as [L|L].
    + destruct (Z.leb_spec n (len (ph_values w))); [lia|]. destruct (Z.ltb_spec (len (ph_values w)) n); [|lia].
      assert (Q : b = false /\ s' = set_complHistory (last_n n (ph_values w) ++ [phi]) s) by (split; congruence). destruct Q as [-> ->]. split; reflexivity.
    + destruct (Z.leb_spec n (len (ph_values w))); [|lia]. destruct (Z.ltb_spec (len (ph_values w)) n); [lia|]. cbn [andb].
      unfold complementarityCheck in E. rewrite Hp in E. cbn [bind] in E. fold opt in E. fold (complementary opt phi) in E.
      destruct (complementary opt phi); cbn [negb andb].
      { assert (Q : b = false /\ s' = set_complHistory (tl (last_n n (ph_values w)) ++ [phi]) s) by (split; congruence). destruct Q as [-> ->]. split; reflexivity. }
      rewrite (forb_all (fun hi => a_lt phi (o_etaDynamicPenalty opt * hi)%num)) in E by (rewrite len_last_n by auto; lia). cbn [bind] in E.
      assert (Q : b = (if existsb (fun hi => a_lt phi (o_etaDynamicPenalty opt * hi)%num) (last_n n (ph_values w)) then false else true) /\
        s' = set_complHistory (tl (last_n n (ph_values w)) ++ [phi]) s) by (destruct (existsb _ _); split; congruence).
      destruct Q as [-> ->]. split; [|reflexivity]. clear. induction (last_n n (ph_values w)) as [|a l IH]; [reflexivity|]. cbn [existsb forallb].
      rewrite <- IH. destruct (a_lt phi _); reflexivity.
  - pose proof (leyffer_len _ _ _ _ E) as L. apply leyffer_off in E; [|fold opt n; lia|exact Hh]. unfold dynamic_update. fold n. replace (0 <? n) with false by lia. auto.
Qed.

(** The first part of a pass *)
Definition dyn_step (w : phase T) (phi : T) : phase T :=
  if dynamic_update opt w phi then mkPhase (S (ph_updates w)) 0 [] else mkPhase (ph_updates w) (S (ph_inner w)) (ph_values w ++ [phi]).

Lemma head_phase s w s' : in_phase s w -> pass_head d s = Ok s' ->
  exists phi stat nV sk, getPhi d s' = Ok phi /\ d_nV d = Some nV /\ s_statk s' = Some sk /\ MaxAbs sk nV = Ok stat /\
    in_phase s' (dyn_step w phi) /\ tracks_more s phi stat (s_stats s').
Proof.
  intros [I1 I2 I3 I4 I5]. unfold pass_head; intros E.
  apply bind_ok in E; destruct E as (s1 & E1 & E). apply updateStep_frame in E1. destruct E1 as (x & ->).
  apply bind_ok in E; destruct E as (s2 & E2 & E). apply updateStationarity_frame in E2. destruct E2 as (a1 & a2 & a3 & ->).
  apply bind_ok in E; destruct E as (s3 & E3 & E). apply printIteration_frame in E3. destruct E3 as (l & ->).
  apply bind_ok in E; destruct E as (s4 & E4 & E). fold opt in E4. rewrite Hstore in E4.
  set (s3 := set_log l _) in *.
  assert (V : exists phi stat nV sk st, s4 = set_stats st s3 /\ getPhi d s3 = Ok phi /\ d_nV d = Some nV /\ a1 = Some sk /\ MaxAbs sk nV = Ok stat /\ tracks_more s phi stat st /\
     st_iterOuter st = st_iterOuter (s_stats s)).
  { unfold storeSteps in E4.
    apply bind_ok in E4; destruct E4 as (nV & EnV & E4). apply bind_ok in E4; destruct E4 as (k & _ & E4).
    apply bind_ok in E4; destruct E4 as (pk & _ & E4). apply bind_ok in E4; destruct E4 as (np & _ & E4).
    apply bind_ok in E4; destruct E4 as (sk & Esk & E4). apply bind_ok in E4; destruct E4 as (ns & Ens & E4).
    apply bind_ok in E4; destruct E4 as (ob & _ & E4). apply bind_ok in E4; destruct E4 as (ph & Eph & E4).
    apply bind_ok in E4; destruct E4 as (me & _ & E4). apply bind_ok in E4; destruct E4 as (st & Est & E4).
    exists ph, ns, nV, sk, st. split; [congruence|]. split; [exact Eph|]. split; [destruct (d_nV d); simpl in EnV; congruence|].
    split; [change (s_statk s3) with a1 in Esk; destruct a1; simpl in Esk; congruence|]. split; [exact Ens|].
    unfold updateTrackingVectors in Est. apply bind_ok in Est; destruct Est as (xs & _ & Est). apply bind_ok in Est; destruct Est as (ac & _ & Est).
    assert (Q : st = st) by reflexivity. injection Est as <-. split; reflexivity. }
  destruct V as (phi & stat & nV & sk & st & -> & V1 & V2 & V3 & V4 & V5 & V6). clear E4.
  exists phi, stat, nV, sk.
  apply bind_ok in E; destruct E as (s5 & E5 & E).
  assert (Ti : s_totalIter s + 1 <= INT_MAX).
  { unfold updateTotalIter in E5. apply bind_ok in E5. destruct E5 as (k & Ek & _). apply chk_int_ok in Ek. destruct Ek as [_ Ek]. apply andb_prop in Ek. destruct Ek as [_ Ek].
    apply Z.leb_le in Ek. exact Ek. }
  apply updateTotalIter_frame in E5.
  apply bind_ok in E; destruct E as (m & Em & E). apply chk_int_ok in Em. destruct Em as [-> _].
  apply bind_ok in E; destruct E as ([b s6] & E6 & E).
  subst s5. match type of E6 with leyfferCheckPositive d ?u = _ => set (s5 := u) in * end.
  assert (I5' : if 0 <? n then s_complHistory s5 = last_n n (ph_values w) else len (s_complHistory s5) <= INT_MAX) by (destruct (0 <? n); [exact I5|cbn; lia]).
  destruct (leyffer_phase s5 w phi b s6 I5' V1 E6) as (B & Hh).
  apply leyffer_frame in E6. destruct E6 as (h & ->).
  apply bind_ok in E; destruct E as (s7 & E7 & E). apply updateLinearization_frame in E. destruct E as (gk & ->).
  unfold dyn_step. rewrite <- B. unfold s5 in *. destruct b.
  - apply penaltyStep_frame in E7. destruct E7 as (q & qs & gt & ->). split; [exact V1|]. split; [exact V2|]. split; [exact V3|]. split; [exact V4|]. split; [constructor|].
    + cbn. lia.
    + reflexivity.
    + cbn. lia.
    + cbn. lia.
    + cbn. fold opt n. cbn in Hh. destruct (0 <? n); [reflexivity|]. lia.
    + exact V5.
  - injection E7 as <-. split; [exact V1|]. split; [exact V2|]. split; [exact V3|]. split; [exact V4|]. split; [constructor|].
    + cbn. lia.
    + cbn. lia.
    + cbn. lia.
    + cbn. lia.
    + cbn. cbn in Hh. destruct (0 <? n); [exact Hh|]. lia.
    + exact V5.
Qed.

Lemma tail_phase orc rand s s' e : pass_tail orc rand d s = Ok (s', e) ->
  e <> Some SUCCESSFUL_RETURN /\ s_outerIter s' = s_outerIter s /\ s_innerIter s' = s_innerIter s /\ st_iterOuter (s_stats s') = st_iterOuter (s_stats s) /\
  s_totalIter s' = s_totalIter s /\ s_complHistory s' = s_complHistory s /\ tracks (s_stats s') = tracks (s_stats s).
Proof.
  intros E. apply pass_tail_inv in E.
  assert (Q : forall s1 s2 r, updateLinearization d s = Ok s1 -> solveQPSubproblem orc d false s1 = Ok (r, s2) ->
    s_outerIter s2 = s_outerIter s /\ s_innerIter s2 = s_innerIter s /\ st_iterOuter (s_stats s2) = st_iterOuter (s_stats s) /\
    s_totalIter s2 = s_totalIter s /\ s_complHistory s2 = s_complHistory s /\ tracks (s_stats s2) = tracks (s_stats s)).
  { intros s1 s2 r E1 E2. apply updateLinearization_frame in E1. destruct E1 as (g & ->). apply solveQPSubproblem_effect in E2. destruct E2. cbn in *.
    destruct qe_stats as (k & f & [r1 st] & _ & _ & E3 & E4). apply updateSubproblemIter_ok in E3. subst st. rewrite E4. repeat split; auto. }
  inversion E as [Hm| |s1 s2 r Hm Hr E1 E2 Er|s1 s2 s3 s4 Hm Hr E1 E2 E3 E4]; subst.
  - repeat split; auto; discriminate.
  - repeat split; auto; discriminate.
  - split; [intros C; injection C as ->; discriminate Er|]. exact (Q _ _ _ E1 E2).
  - split; [discriminate|]. specialize (Q _ _ _ E1 E2). apply getOptimalStepLength_frame in E4. destruct E4 as (a & lk & ->).
    destruct (o_perturbStep _); [apply perturbStep_frame in E3; destruct E3 as (a' & b & ->)|subst s3]; exact Q.
Qed.

Lemma pass_phase orc rand s w s' e : in_phase s w -> pass orc rand d s = Ok (s', e) ->
  exists phi stat, let w' := after_pass opt w (phi, stat) in
  (e = Some SUCCESSFUL_RETURN <-> converged opt (phi, stat) = true) /\
  st_iterOuter (s_stats s') = Z.of_nat (ph_updates w') /\ tracks_more s phi stat (s_stats s') /\ (e = None -> in_phase s' w').
Proof.
  intros I E. apply pass_inv in E.
  assert (Tl : forall u w2 phi stat, in_phase u w2 -> tracks_more s phi stat (s_stats u) -> pass_tail orc rand d u = Ok (s', e) ->
    e <> Some SUCCESSFUL_RETURN /\ st_iterOuter (s_stats s') = Z.of_nat (ph_updates w2) /\ tracks_more s phi stat (s_stats s') /\ (e = None -> in_phase s' w2)).
  { intros u w2 phi stat [U1 U2 U3 U4 U5] Tu Eu. apply tail_phase in Eu. destruct Eu as (G0 & G1 & G2 & G3 & G4 & G5 & G6). split; [exact G0|]. split; [congruence|].
    split; [unfold tracks_more in *; rewrite G6; exact Tu|]. intros _. constructor; [congruence|congruence|congruence|lia|]. rewrite G5, G4. exact U5. }
  inversion E as [s1 s2 b1 Hh Hhd Hst Hcc Hf|s1 s2 s3 e2 b1 b2 Hh Hhd Hp Hb2 Ht]; subst; clear E.
  - destruct (head_phase _ _ _ I Hhd) as (phi & stat & nV & sk & V1 & V2 & V3 & V4 & J & V5). exists phi, stat. cbv zeta.
    unfold stationarityCheck in Hst. rewrite V2, V3 in Hst. cbn [get deref bind] in Hst. rewrite V4 in Hst. cbn [bind] in Hst. fold opt in Hst. fold (stationary opt stat) in Hst. injection Hst as Hst.
    unfold complementarityCheck in Hcc. rewrite V1 in Hcc. cbn [bind] in Hcc. fold opt in Hcc. fold (complementary opt phi) in Hcc. injection Hcc as Hcc.
    unfold after_pass, converged. cbn [fst snd]. rewrite Hst, Hcc. cbn [negb andb]. fold (dyn_step w phi).
    apply finish_frame in Hf. destruct Hf as (y & a & l & _ & ->). destruct J as [J1 J2 J3 J4 J5]. split; [split; auto|]. split; [cbn; lia|]. split; [exact V5|discriminate].
  - destruct (head_phase _ _ _ I Hhd) as (phi & stat & nV & sk & V1 & V2 & V3 & V4 & J & V5). exists phi, stat. cbv zeta.
    unfold stationarityCheck in Hb2. rewrite V2, V3 in Hb2. cbn [get deref bind] in Hb2. rewrite V4 in Hb2. cbn [bind] in Hb2. fold opt in Hb2. fold (stationary opt stat) in Hb2.
    unfold complementarityCheck in Hb2. rewrite V1 in Hb2. cbn [bind] in Hb2. fold opt in Hb2. fold (complementary opt phi) in Hb2.
    unfold after_pass, converged. cbn [fst snd]. fold (dyn_step w phi). destruct b2.
    + destruct Hb2 as (Hst & Hcc & Hps). injection Hst as ->. injection Hcc as ->. cbn [negb andb].
      apply penaltyStep_frame in Hps. destruct Hps as (q & qs & gt & ->). destruct J as [J1 J2 J3 J4 J5].
      match type of Ht with pass_tail _ _ _ ?u = _ => assert (Ju : in_phase u (mkPhase (S (ph_updates (dyn_step w phi))) 0 [])); [constructor|] end.
      * cbn. lia.
      * reflexivity.
      * cbn. lia.
      * cbn. lia.
      * cbn. fold opt n. destruct (0 <? n); [reflexivity|exact J5].
      * destruct (Tl _ _ phi stat Ju V5 Ht) as (H1 & H2 & H3 & H4). split; [split; [intros C; contradiction|discriminate]|]. auto.
    + destruct Hb2 as (Hst & ->). injection Hst as ->. rewrite andb_false_r. cbn [andb].
      destruct (Tl _ _ phi stat J V5 Ht) as (H1 & H2 & H3 & H4). split; [split; [intros C; contradiction|discriminate]|]. auto.
Qed.

(** The loop *)
Variable h0 : list T.
(** Inner iteration counts along a run. No LCQPow code. *)
Definition inner_counts (l : list (T * T)) : list Z := map (fun j => Z.of_nat (ph_inner (phase_from opt h0 (firstn j l)))) (seq 0 (length l)).
(** Loop invariant. No LCQPow code. *)
Record loop_phase s (l : list (T * T)) : Prop := mkLoopPhase {
  lp_phase : in_phase s (phase_from opt h0 l);
  lp_tracks : tracks (s_stats s) = (inner_counts l, map fst l, map snd l);
  lp_open : Forall (fun v => converged opt v = false) l }.
(** The same after the run. No LCQPow code. *)
Record loop_done (r : ReturnValue) s (l : list (T * T)) : Prop := mkLoopDone {
  ld_outer : st_iterOuter (s_stats s) = Z.of_nat (ph_updates (phase_from opt h0 l));
  ld_tracks : tracks (s_stats s) = (inner_counts l, map fst l, map snd l);
  ld_open : exists l' v, l = l' ++ [v] /\ Forall (fun v => converged opt v = false) l' /\ (r = SUCCESSFUL_RETURN <-> converged opt v = true) }.

Lemma phase_snoc l v : phase_from opt h0 (l ++ [v]) = after_pass opt (phase_from opt h0 l) v.
Proof. unfold phase_from. rewrite fold_left_app. reflexivity. Qed.
Lemma counts_snoc l v : inner_counts (l ++ [v]) = inner_counts l ++ [Z.of_nat (ph_inner (phase_from opt h0 l))].
Proof.
  unfold inner_counts. rewrite app_length. cbn [length]. rewrite Nat.add_1_r, seq_S, map_app. f_equal.
  - apply map_ext_in. intros j Hj. apply in_seq in Hj. rewrite firstn_app. replace (j - length l)%nat with O by lia. cbn. rewrite app_nil_r. reflexivity.
  - cbn [map]. rewrite firstn_app. cbn [Nat.add]. rewrite Nat.sub_diag, firstn_all. cbn. rewrite app_nil_r. reflexivity.
Qed.

Lemma loop_schedule orc rand : forall fuel s r s' l, loop_phase s l -> loop fuel orc rand d s = Ok (r, s') -> exists l', loop_done r s' l'.
Proof.
  induction fuel as [|fuel IH]; intros s r s' l [L1 L2 L3] E; cbn [loop] in E; [discriminate|].
  apply bind_ok in E. destruct E as ([s1 e] & E1 & E). destruct (pass_phase _ _ _ _ _ _ L1 E1) as (phi & stat & V). cbv zeta in V. destruct V as (V1 & V2 & V3 & V4).
  rewrite <- phase_snoc in *.
  assert (Tr : tracks (s_stats s1) = (inner_counts (l ++ [(phi, stat)]), map fst (l ++ [(phi, stat)]), map snd (l ++ [(phi, stat)]))).
  { rewrite V3. unfold tracks in L2. injection L2 as -> -> ->. rewrite !map_app, counts_snoc, (ip_inner _ _ L1). reflexivity. }
  destruct e as [r1|].
  - injection E as <- <-. exists (l ++ [(phi, stat)]). constructor; auto. exists l, (phi, stat). split; [reflexivity|]. split; [exact L3|].
    rewrite <- V1. split; [intros ->; reflexivity|intros C; congruence].
  - apply (IH s1 r s' (l ++ [(phi, stat)])); auto. constructor; auto. apply Forall_app. split; [exact L3|]. constructor; [|constructor].
    destruct (converged opt (phi, stat)); [|reflexivity]. destruct V1 as [_ V1]. discriminate (V1 eq_refl).
Qed.
End Schedule.

Section Run.
Context {T : Type} `{Arith T}.
Implicit Types (orc : oracle T) (o : lcqp T).

Lemma combine_map {A B} (l : list (A * B)) : combine (map fst l) (map snd l) = l.
Proof. induction l as [|[a b] l IH]; [reflexivity|]. cbn. rewrite IH. reflexivity. Qed.

Lemma run_schedule fuel orc rand o r o' : runSolver_fuel fuel orc rand o = Ok (r, o') -> started o o' ->
  INT_MIN <= o_nDynamicPenalty (d_options (pd o)) <= INT_MAX -> o_storeSteps (d_options (pd o)) = true ->
  len (s_complHistory (it o)) <= Z.max 0 (o_nDynamicPenalty (d_options (pd o))) ->
  follows_rule (d_options (pd o)) (s_complHistory (it o)) r (getOutputStatistics o').
Proof.
  intros E St Hn Hs Hh. destruct (run_post _ _ _ _ _ _ E St) as (o1 & E1 & Epd & Eo & CP & QP & K & _). pose proof (init_options _ _ E1) as Eo1.
  apply run_inv in E. inversion E as [r1 o2 E2 Er|r1 o2 s1 E2 E3|r1 o2 s1 s2 E2 E3 E4]; subst.
  - exfalso. rewrite E1 in E2. injection E2 as <- <-. discriminate.
  - rewrite E1 in E2. injection E2 as <-. cbn [pd it] in *.
    assert (Hi := E1). apply initializeSolver_ok in Hi. destruct Hi as [(_ & _ & a & b & c & e' & f & g1 & g2 & y & gt & l & ->)|(C3 & _)]; [|discriminate].
    apply first_solve_inv in E3. inversion E3 as [g s2 r2 Es Er|]; subst. cbn in *.
    apply solveQPSubproblem_effect in Es. destruct Es. destruct qe_stats as (k & ff & [r1 st] & _ & _ & E4 & E5). apply updateSubproblemIter_ok in E4. cbn in E4, E5. subst st.
    unfold follows_rule, passes, getOutputStatistics. cbn. rewrite E5. cbn. repeat split.
    + intros ->. discriminate Er.
    + intros (before & v & C & _). destruct before; discriminate C.
    + intros before v after C. destruct before; discriminate C.
  - rewrite E1 in E2. injection E2 as <-. cbn [pd it] in *.
    assert (L : exists l, loop_done (pd o1) (s_complHistory (it o)) r s2 l).
    { apply (loop_schedule (pd o1)) with (orc := orc) (rand := rand) (fuel := fuel) (s := s1) (l := []); try (rewrite Eo1; assumption); [|exact E4].
      assert (Hi := E1). apply initializeSolver_ok in Hi. destruct Hi as [(_ & _ & a & b & c & e' & f & g1 & g2 & y & gt & l & ->)|(C3 & _)]; [|discriminate].
      apply first_solve_inv in E3. inversion E3 as [|g s3 s4 Es Eq]; subst. cbn in *.
      apply solveQPSubproblem_effect in Es. destruct Es. destruct qe_stats as (k & ff & [r1 st] & _ & _ & F4 & F5). apply updateSubproblemIter_ok in F4. cbn in F4, F5. subst st.
      apply setQk_frame in Eq. destruct Eq as (q1 & q2 & q3 & ->). rewrite updateRhoOpt_eq. constructor; [constructor| |constructor]; cbn in *.
      - exact qe_outer.
      - exact qe_inner.
      - rewrite F5. cbn. congruence.
      - rewrite qe_total. unfold INT_MAX. lia.
      - rewrite qe_hist, qe_total. destruct (Z.ltb_spec 0 (o_nDynamicPenalty (d_options (pd o)))); [|lia].
        unfold last_n. replace (length (s_complHistory (it o)) - Z.to_nat (o_nDynamicPenalty (d_options (pd o))))%nat with O by (unfold len in Hh; lia). reflexivity.
      - rewrite F5. reflexivity. }
    destruct L as (l & [D1 D2 (l' & v & -> & D4 & D5)]). unfold tracks in D2. injection D2 as D21 D22 D23. rewrite Eo1 in *.
    unfold follows_rule, passes, getOutputStatistics. cbn [it]. unfold stats_assign. cbn [st_phiVals st_statVals st_innerIters st_iterOuter st_iterTotal]. rewrite D22, D23, combine_map.
    split; [|split; [exact D1|split; [rewrite D21; unfold inner_counts; rewrite Eo1; reflexivity|split]]].
    + destruct K as [K1 _ _ _]. rewrite Eo1 in K1. specialize (K1 Hs). cbn in K1. pose proof (tr_phi _ _ K1) as P. rewrite D22 in P. rewrite <- (cp_total _ _ _ _ CP) in P. cbn in P. rewrite <- P. unfold len. rewrite map_length. reflexivity.
    + rewrite D5. split.
      * intros C. exists l', v. auto.
      * intros (l2 & v2 & C & C2). apply app_inj_tail in C. destruct C as [_ <-]. exact C2.
    + intros before w after C NE. destruct (exists_last NE) as (a2 & z & ->). rewrite app_comm_cons, app_assoc in C. apply app_inj_tail in C. destruct C as [C _]. subst l'.
      apply Forall_app in D4. destruct D4 as [_ D4]. inversion D4; auto.
Qed.
End Run.
