(** * Output: what a run prints (proofs; no LCQPow code). *)
From Verif Require Import Base Arith Codes Utilities Options Stats FileIO Subsolver State LCQProblem Tactics Loops NoFuel Frames Control RunControl SpecRun Spec QPHistory RunStats RunFacts RunProps SpecPrint.

Section Output.
Context {T : Type} `{Arith T}.
Implicit Types (orc : oracle T) (s : iter T) (o : lcqp T) (st : stats T).
Variable d : pdata T.
Let opt := d_options d.
Let lvl := o_printLevel opt.

(** Counters of a printed row. No LCQPow code. *)
Definition row_counts (v : row T) : Z * Z := (rw_outer v, rw_inner v).
(** Counters of the last printed row. No LCQPow code. *)
Definition end_counts (rows : list (row T)) : Z * Z := last (map row_counts rows) (0, -1).
Lemma counted_snoc rows v : forall a, counted a rows -> next_row (last (map row_counts rows) a) (row_counts v) -> counted a (rows ++ [v]).
Proof.
  induction rows as [|w rows IH]; intros a C N; cbn [app counted map last] in *; [split; [exact N|exact I]|]. destruct C as [C1 C2]. split; [exact C1|]. apply IH; [exact C2|].
  destruct rows as [|z rows]; [exact N|]. cbn [map] in *. rewrite (last_nonempty _ _ a) by discriminate. exact N.
Qed.

(** The recorded columns *)
Definition recorded (rows : list (row T)) st : Prop :=
  map rw_inner rows = st_innerIters st /\ map rw_stat rows = st_statVals st /\ map rw_compl rows = st_phiVals st /\
  map rw_step rows = st_stepSize st /\ map rw_alpha rows = st_stepLength st /\ map rw_qp rows = st_subproblemIters st.
(** Penalty value after n updates. No LCQPow code. *)
Definition rho_at (n : Z) : T := Nat.iter (Z.to_nat n) (fun p => p * o_penaltyUpdateFactor opt)%num (o_initialPenaltyParameter opt).

(** Between two passes *)
Record on_table (base : list (print_event T)) s (rows : list (row T)) : Prop := mkOnTable {
  ot_log : s_log s = rev (flat_map (shown lvl) rows) ++ base;
  ot_len : Z.of_nat (length rows) = s_totalIter s;
  ot_stat : st_iterTotal (s_stats s) = s_totalIter s;
  ot_outer : st_iterOuter (s_stats s) = s_outerIter s;
  ot_count : counted (0, -1) rows;
  ot_next : next_row (end_counts rows) (s_outerIter s, s_innerIter s);
  ot_rhos : Forall (fun v => rw_rho v = rho_at (rw_outer v)) rows;
  ot_rho : s_rho s = rho_at (s_outerIter s);
  ot_pos : 0 <= s_outerIter s;
  ot_qp : s_qpIterk s <> None;
  ot_rec : o_storeSteps opt = true -> recorded rows (s_stats s) }.

Lemma print_shown s s' : printIteration d s = Ok s' -> exists l, s' = set_log l s /\
  ((lvl = PL_NONE \/ (lvl = OUTER_LOOP_ITERATES /\ (0 <? s_innerIter s) = true)) /\ l = s_log s \/
   exists nV sk pk stat phi step k, d_nV d = Some nV /\ s_statk s = Some sk /\ s_pk s = Some pk /\ MaxAbs sk nV = Ok stat /\ getPhi d s = Ok phi /\ MaxAbs pk nV = Ok step /\
     (lvl = INNER_LOOP_ITERATES -> s_qpIterk s = Some k) /\
     l = rev (shown lvl (mkRow (s_outerIter s) (s_innerIter s) stat phi (s_rho s) step (s_alphak s) k)) ++ s_log s).
Proof.
  unfold printIteration. fold opt lvl. intros E.
  assert (G : forall inner hd : bool, (let! nV := get (d_nV d) in let! statk := deref (s_statk (if hd then logI EvHeader s else s)) in let! stat := MaxAbs statk nV in
      let! phi := getPhi d (if hd then logI EvHeader s else s) in let! pk := deref (s_pk (if hd then logI EvHeader s else s)) in let! step := MaxAbs pk nV in
      let! more := if inner then let! k := get (s_qpIterk (if hd then logI EvHeader s else s)) in Ok (Some (s_innerIter (if hd then logI EvHeader s else s), s_alphak (if hd then logI EvHeader s else s), k)) else Ok None in
      Ok (logI (EvIter (s_outerIter (if hd then logI EvHeader s else s)) stat phi (s_rho (if hd then logI EvHeader s else s)) step more) (if hd then logI EvHeader s else s))) = Ok s' ->
    exists nV sk pk stat phi step k, d_nV d = Some nV /\ s_statk s = Some sk /\ s_pk s = Some pk /\ MaxAbs sk nV = Ok stat /\ getPhi d s = Ok phi /\ MaxAbs pk nV = Ok step /\
     (inner = true -> s_qpIterk s = Some k) /\
     s' = set_log (EvIter (s_outerIter s) stat phi (s_rho s) step (if inner then Some (s_innerIter s, s_alphak s, k) else None) :: (if hd then [EvHeader] else []) ++ s_log s) s).
  { intros inner hd F. apply bind_ok in F; destruct F as (nV & F1 & F). apply bind_ok in F; destruct F as (sk & F2 & F). apply bind_ok in F; destruct F as (stat & F3 & F).
    apply bind_ok in F; destruct F as (phi & F4 & F). apply bind_ok in F; destruct F as (pk & F5 & F). apply bind_ok in F; destruct F as (step & F6 & F).
    apply bind_ok in F; destruct F as (more & F7 & F). injection F as <-.
    exists nV, sk, pk, stat, phi, step. 
    assert (K : exists k, (inner = true -> s_qpIterk s = Some k) /\ more = if inner then Some (s_innerIter s, s_alphak s, k) else None).
    { destruct inner; [|exists 0; split; [discriminate|congruence]]. apply bind_ok in F7; destruct F7 as (k & F7 & F8). exists k. destruct hd; cbn in F7, F8; (split; [intros _; destruct (s_qpIterk s); cbn in F7; congruence|congruence]). }
    destruct K as (k & K1 & ->). exists k.
    destruct (d_nV d); cbn in F1; [|discriminate]. destruct hd; cbn in F2, F5; (destruct (s_statk s); cbn in F2; [|discriminate]); (destruct (s_pk s); cbn in F5; [|discriminate]).
    - injection F1 as ->. injection F2 as ->. injection F5 as ->. repeat split; auto.
    - injection F1 as ->. injection F2 as ->. injection F5 as ->. repeat split; auto. }
  destruct lvl.
  - injection E as <-. exists (s_log s). split; [reflexivity|]. left. auto.
  - cbv zeta in E. destruct (0 <? s_innerIter s) eqn:Ei; cbn [negb andb] in E.
    { injection E as <-. exists (s_log s). split; [reflexivity|]. left. auto. }
    specialize (G false (s_outerIter s mod 10 =? 0)). destruct (G E) as (nV & sk & pk & stat & phi & step & k & G1 & G2 & G3 & G4 & G5 & G6 & G7 & ->).
    eexists. split; [reflexivity|]. right. exists nV, sk, pk, stat, phi, step, k. repeat (split; [assumption|]). split; [discriminate|]. cbn [shown rw_inner rw_outer rw_stat rw_compl rw_rho rw_step]. rewrite Ei.
    destruct (s_outerIter s mod 10 =? 0); reflexivity.
  - cbv zeta in E. cbn [negb andb] in E. specialize (G true (s_innerIter s mod 10 =? 0)). destruct (G E) as (nV & sk & pk & stat & phi & step & k & G1 & G2 & G3 & G4 & G5 & G6 & G7 & ->).
    eexists. split; [reflexivity|]. right. exists nV, sk, pk, stat, phi, step, k. repeat (split; [assumption|]). split; [auto|]. cbn [shown rw_inner rw_outer rw_stat rw_compl rw_rho rw_step rw_alpha rw_qp].
    destruct (s_innerIter s mod 10 =? 0); reflexivity.
Qed.

(** What storing adds *)
Lemma store_cols s s' : storeSteps d s = Ok s' -> exists nV sk pk stat phi step k st, d_nV d = Some nV /\ s_statk s = Some sk /\ s_pk s = Some pk /\ MaxAbs sk nV = Ok stat /\ getPhi d s = Ok phi /\
  MaxAbs pk nV = Ok step /\ s_qpIterk s = Some k /\ s' = set_stats st s /\ st_iterTotal st = st_iterTotal (s_stats s) /\ st_iterOuter st = st_iterOuter (s_stats s) /\
  st_innerIters st = st_innerIters (s_stats s) ++ [s_innerIter s] /\ st_statVals st = st_statVals (s_stats s) ++ [stat] /\ st_phiVals st = st_phiVals (s_stats s) ++ [phi] /\
  st_stepSize st = st_stepSize (s_stats s) ++ [step] /\ st_stepLength st = st_stepLength (s_stats s) ++ [s_alphak s] /\ st_subproblemIters st = st_subproblemIters (s_stats s) ++ [k].
Proof.
  unfold storeSteps. intros E.
  apply bind_ok in E; destruct E as (nV & EnV & E). apply bind_ok in E; destruct E as (k & Ek & E).
  apply bind_ok in E; destruct E as (pk & Epk & E). apply bind_ok in E; destruct E as (np & Enp & E).
  apply bind_ok in E; destruct E as (sk & Esk & E). apply bind_ok in E; destruct E as (ns & Ens & E).
  apply bind_ok in E; destruct E as (ob & _ & E). apply bind_ok in E; destruct E as (ph & Eph & E).
  apply bind_ok in E; destruct E as (me & _ & E). apply bind_ok in E; destruct E as (st & Est & E). injection E as <-.
  destruct (d_nV d); [|discriminate]. destruct (s_qpIterk s); [|discriminate]. destruct (s_pk s); [|discriminate]. destruct (s_statk s); [|discriminate].
  injection EnV as ->. injection Ek as ->. injection Epk as ->. injection Esk as ->.
  exists nV, sk, pk, ns, ph, np, k, st. do 7 (split; [auto|]). split; [reflexivity|].
  unfold updateTrackingVectors in Est. apply bind_ok in Est; destruct Est as (xs & _ & Est). apply bind_ok in Est; destruct Est as (ac & _ & Est).
  injection Est as <-. cbn. auto 10.
Qed.

Lemma rho_succ n : 0 <= n -> rho_at (n + 1) = (rho_at n * o_penaltyUpdateFactor opt)%num.
Proof. intros. unfold rho_at. replace (Z.to_nat (n + 1)) with (S (Z.to_nat n)) by lia. reflexivity. Qed.

(** The state after the first part of a pass; [b]: the penalty was just updated *)
Record row_done (base : list (print_event T)) s (rows : list (row T)) (k : Z) : Prop := mkRowDone {
  rd_log : s_log s = rev (flat_map (shown lvl) rows) ++ base;
  rd_len : Z.of_nat (length rows) = s_totalIter s;
  rd_stat : st_iterTotal (s_stats s) = s_totalIter s;
  rd_outer : st_iterOuter (s_stats s) = s_outerIter s;
  rd_count : counted (0, -1) rows;
  rd_ne : rows <> [];
  rd_next : (k = 0 /\ s_outerIter s = fst (end_counts rows) /\ s_innerIter s = snd (end_counts rows) + 1) \/
            (0 < k /\ s_outerIter s = fst (end_counts rows) + k /\ s_innerIter s = 0);
  rd_rhos : Forall (fun v => rw_rho v = rho_at (rw_outer v)) rows;
  rd_rho : s_rho s = rho_at (s_outerIter s);
  rd_pos : 0 <= s_outerIter s;
  rd_rec : o_storeSteps opt = true -> recorded rows (s_stats s) }.

Lemma end_snoc rows v : end_counts (rows ++ [v]) = row_counts v.
Proof. unfold end_counts. rewrite map_app. cbn [map]. apply last_last. Qed.

Lemma pen_done base s s' rows k : row_done base s rows k -> 0 <= k -> penaltyStep d s = Ok s' -> row_done base s' rows (k + 1).
Proof.
  intros [] Hk E. apply penaltyStep_frame in E. destruct E as (q & qs & gt & ->). constructor; cbn; auto; try lia.
  - rewrite rho_succ by lia. rewrite rd_rho0. reflexivity.
Qed.

Lemma head_done base s rows s' : on_table base s rows -> pass_head d s = Ok s' -> exists v b, row_done base s' (rows ++ [v]) b /\ 0 <= b <= 1.
Proof.
  intros [O1 O2 O3 O3' O4 O5 O6 O7 O8 O9 O10]. unfold pass_head; intros E.
  apply bind_ok in E; destruct E as (s1 & E1 & E). apply updateStep_frame in E1. destruct E1 as (x & ->).
  apply bind_ok in E; destruct E as (s2 & E2 & E). apply updateStationarity_frame in E2. destruct E2 as (a1 & a2 & a3 & ->).
  apply bind_ok in E; destruct E as (s3 & E3 & E). 
  match type of E3 with printIteration d ?u = _ => set (s2 := u) in * end.
  apply print_shown in E3. destruct E3 as (l & -> & P).
  apply bind_ok in E; destruct E as (s4 & E4 & E).
  assert (V : exists v st, s4 = set_stats st (set_log l s2) /\ rw_outer v = s_outerIter s /\ rw_inner v = s_innerIter s /\ rw_rho v = s_rho s /\ l = rev (shown lvl v) ++ s_log s /\
     st_iterTotal st = st_iterTotal (s_stats s) /\ st_iterOuter st = st_iterOuter (s_stats s) /\
     (o_storeSteps opt = true -> recorded (rows ++ [v]) st)).
  { fold opt in E4. destruct (o_storeSteps opt).
    - apply store_cols in E4. destruct E4 as (nV & sk & pk & stat & phi & step & k & st & S1 & S2 & S3 & S4 & S5 & S6 & S7 & -> & S8 & S8' & S9).
      exists (mkRow (s_outerIter s) (s_innerIter s) stat phi (s_rho s) step (s_alphak s) k), st. do 4 (split; [reflexivity|]). split; [|split; [exact S8|split; [exact S8'|]]].
      + destruct P as [[[N|[N N2]] ->]|(nV' & sk' & pk' & stat' & phi' & step' & k' & P1 & P2 & P3 & P4 & P5 & P6 & P7 & ->)].
        * rewrite N. reflexivity.
        * rewrite N. cbn [shown rw_inner]. change (s_innerIter s2) with (s_innerIter s) in N2. rewrite N2. reflexivity.
        * change (s_log s2) with (s_log s).
          assert (Q : k' = k \/ lvl = OUTER_LOOP_ITERATES \/ lvl = PL_NONE) by (destruct lvl; auto; left; specialize (P7 eq_refl); cbn in S7, P7; congruence).
          assert (Q1 : nV' = nV) by congruence. assert (Q2 : sk' = sk) by (cbn in S2, P2; congruence). assert (Q3 : pk' = pk) by (cbn in S3, P3; congruence). subst nV' sk' pk'.
          assert (Q4 : stat' = stat) by congruence. assert (Q5 : step' = step) by congruence.
          assert (Q6 : phi' = phi) by (clear - P5 S5; match type of S5 with getPhi d ?u = _ => change (getPhi d u) with (getPhi d s2) in S5 end; congruence). subst stat' step' phi'.
          destruct Q as [->|[-> | ->]]; reflexivity.
      + intros _. specialize (O10 eq_refl). unfold recorded in *. rewrite !map_app. cbn [map rw_inner rw_stat rw_compl rw_step rw_alpha rw_qp]. 
        destruct O10 as (R1 & R2 & R3 & R4 & R5 & R6). destruct S9 as (T1 & T2 & T3 & T4 & T5 & T6). rewrite R1, R2, R3, R4, R5, R6. cbn in T1, T2, T3, T4, T5, T6. auto 10.
    - injection E4 as <-. destruct P as [[N ->]|(nV' & sk' & pk' & stat' & phi' & step' & k' & P1 & P2 & P3 & P4 & P5 & P6 & P7 & ->)].
      + exists (mkRow (s_outerIter s) (s_innerIter s) a_zero a_zero (s_rho s) a_zero a_zero 0), (s_stats s). do 4 (split; [reflexivity|]). split; [|split; [reflexivity|split; [reflexivity|discriminate]]].
        destruct N as [N|[N N2]]; rewrite N; [reflexivity|]. cbn [shown rw_inner]. change (s_innerIter s2) with (s_innerIter s) in N2. rewrite N2. reflexivity.
      + exists (mkRow (s_outerIter s) (s_innerIter s) stat' phi' (s_rho s) step' (s_alphak s) k'), (s_stats s). do 5 (split; [reflexivity|]). split; [reflexivity|split; [reflexivity|discriminate]]. }
  destruct V as (v & st & -> & V1 & V2 & V3 & -> & V4 & V4' & V5). clear E4 P.
  apply bind_ok in E; destruct E as (s5 & E5 & E). apply updateTotalIter_frame in E5.
  apply bind_ok in E; destruct E as (n & En & E). apply chk_int_ok in En. destruct En as [-> _].
  apply bind_ok in E; destruct E as ([b s6] & E6 & E). apply leyffer_frame in E6. destruct E6 as (h & ->).
  apply bind_ok in E; destruct E as (s7 & E7 & E). apply updateLinearization_frame in E. destruct E as (gk & ->).
  exists v. subst s5.
  match type of E7 with (if b then penaltyStep d ?u else _) = _ => assert (D : row_done base u (rows ++ [v]) 0); [|set (u0 := u) in *] end.
  { constructor; cbn.
    - rewrite flat_map_app, rev_app_distr. cbn [flat_map]. rewrite app_nil_r, O1, app_assoc. reflexivity.
    - rewrite app_length. cbn. lia.
    - rewrite V4. lia.
    - rewrite V4'. exact O3'.
    - apply counted_snoc; [exact O4|]. unfold row_counts. rewrite V1, V2. exact O5.
    - intros C. destruct rows; discriminate C.
    - left. rewrite end_snoc. unfold row_counts. cbn [fst snd]. rewrite V1, V2. auto.
    - apply Forall_app. split; [exact O6|]. constructor; [|constructor]. rewrite V1, V3. exact O7.
    - exact O7.
    - exact O8.
    - intros Hs. exact (V5 Hs). }
  destruct b.
  - exists 1. split; [|lia]. pose proof (pen_done _ _ _ _ _ D ltac:(lia) E7) as D'. destruct D'. constructor; assumption.
  - injection E7 as <-. exists 0. split; [|lia]. destruct D. constructor; assumption.
Qed.

(** At the end *)
Record table_done (base : list (print_event T)) (r : ReturnValue) s (rows : list (row T)) : Prop := mkTableDone {
  td_log : s_log s = rev (flat_map (shown lvl) rows ++ closing lvl r (st_status (s_stats s))) ++ base;
  td_len : Z.of_nat (length rows) = st_iterTotal (s_stats s);
  td_count : counted (0, -1) rows;
  td_rhos : Forall (fun v => rw_rho v = rho_at (rw_outer v)) rows;
  td_last : fst (end_counts rows) <= st_iterOuter (s_stats s);
  td_rec : o_storeSteps opt = true -> recorded rows (s_stats s) }.

Lemma qp_ret orc b s r s' : solveQPSubproblem orc d b s = Ok (r, s') -> is_success r = false -> forall a, closing lvl r a = [EvMessage (T := T) r].
Proof.
  intros E F a. apply solveQPSubproblem_inv in E. destruct E as (sub & res & k & f & st & _ & Hs & _ & _ & _ & -> & _).
  unfold sub_solve, solve_OSQP, solve_qpOASES in Hs. destruct (sub_qpSolver sub); inv_ok; cbn in F |- *; try discriminate; try reflexivity;
    repeat match goal with |- context [if ?c then _ else _] => destruct c eqn:? | H : context [if ?c then _ else _] |- _ => destruct c eqn:? end; cbn in *; try discriminate; reflexivity.
Qed.
Lemma qp_table orc b s r s' rows : solveQPSubproblem orc d b s = Ok (r, s') -> s_qpIterk s' <> None /\ s_log s' = s_log s /\ s_totalIter s' = s_totalIter s /\
  st_iterTotal (s_stats s') = st_iterTotal (s_stats s) /\ st_iterOuter (s_stats s') = st_iterOuter (s_stats s) /\ s_outerIter s' = s_outerIter s /\ s_innerIter s' = s_innerIter s /\ s_rho s' = s_rho s /\
  (recorded rows (s_stats s) -> recorded rows (s_stats s')).
Proof.
  intros E. apply solveQPSubproblem_effect in E. destruct E. destruct qe_stats as (k & f & [r1 st] & E0 & _ & E4 & E5). apply updateSubproblemIter_ok in E4. subst st.
  rewrite E5. split; [congruence|]. do 7 (split; [assumption || reflexivity|]). intros R. exact R.
Qed.

Lemma tail_table orc rand base s s' e rows k : row_done base s rows k -> 0 <= k <= 2 -> pass_tail orc rand d s = Ok (s', e) ->
  match e with None => on_table base s' rows | Some r => r <> SUCCESSFUL_RETURN /\ table_done base r s' rows end.
Proof.
  intros D Hk E. apply pass_tail_inv in E. destruct D as [D1 D2 D3 D3' D4 Dn D5 D6 D7 D8 D9].
  assert (L : fst (end_counts rows) <= s_outerIter s) by lia.
  inversion E as [Hm|Hm Hr|s1 s2 r Hm Hr E1 E2 Er|s1 s2 s3 s4 Hm Hr E1 E2 E3 E4]; subst.
  - split; [discriminate|]. constructor; auto; [cbn [closing]; rewrite app_nil_r; exact D1|congruence|lia].
  - split; [discriminate|]. constructor; auto; [cbn [closing]; rewrite app_nil_r; exact D1|congruence|lia].
  - split; [intros ->; discriminate|]. pose proof (qp_ret _ _ _ _ _ E2 Er) as C. destruct (qp_table _ _ _ _ _ rows E2) as (Q1 & Q2 & Q3 & Q4 & Q4' & Q5 & Q6 & Q7 & Q8).
    apply updateLinearization_frame in E1. destruct E1 as (g & ->). cbn in *. constructor; cbn; auto; try lia.
    rewrite C, rev_app_distr. cbn. rewrite Q2, D1. reflexivity.
  - destruct (qp_table _ _ _ _ _ rows E2) as (Q1 & Q2 & Q3 & Q4 & Q4' & Q5 & Q6 & Q7 & Q8). apply updateLinearization_frame in E1. destruct E1 as (g & ->). cbn in *.
    apply getOptimalStepLength_frame in E4. destruct E4 as (a & lk & ->).
    assert (G : on_table base s2 rows).
    { constructor; auto; try congruence; try lia. rewrite Q5, Q6. unfold next_row. cbn [fst snd]. lia. }
    destruct (o_perturbStep _); [apply perturbStep_frame in E3; destruct E3 as (a' & b & ->)|subst s3]; destruct G; constructor; assumption.
Qed.

Lemma finish_table base s s' rows k : row_done base s rows k -> 0 <= k <= 2 -> finish d s = Ok s' -> table_done base SUCCESSFUL_RETURN s' rows.
Proof.
  intros D Hk E. destruct D as [D1 D2 D3 D3' D4 Dn D5 D6 D7 D8 D9]. unfold finish in E.
  apply bind_ok in E; destruct E as (s1 & E1 & E). apply transformDuals_frame in E1. destruct E1 as (y & ->).
  apply bind_ok in E; destruct E as (s2 & E2 & E).
  assert (F : exists a, s2 = set_algoStat (Some a) (set_yk y s)) by (unfold determineStationarityType in E2; inv_ok; eauto).
  destruct F as (a & ->). cbn in E. injection E as <-. fold opt lvl.
  assert (Lg : forall u, s_log u = s_log s -> s_stats u = updateSolutionStatus a (s_stats s) ->
    table_done base SUCCESSFUL_RETURN (match lvl with PL_NONE => u | _ => logI (EvSolution a) u end) rows).
  { intros u U1 U2. constructor; auto.
    - destruct lvl; cbn; rewrite ?U1, ?U2; cbn; rewrite ?app_nil_r, ?rev_app_distr; cbn; rewrite D1; reflexivity.
    - destruct lvl; cbn; rewrite U2; cbn; lia.
    - destruct lvl; cbn; rewrite U2; cbn; lia.
    - intros Hs. specialize (D9 Hs). destruct lvl; cbn; rewrite U2; exact D9. }
  apply Lg; reflexivity.
Qed.

Lemma pass_table orc rand base s rows s' e : on_table base s rows -> pass orc rand d s = Ok (s', e) -> exists v,
  match e with None => on_table base s' (rows ++ [v]) | Some r => table_done base r s' (rows ++ [v]) end.
Proof.
  intros O E. apply pass_inv in E.
  inversion E as [s1 s2 b1 Hh Hhd Hst Hcc Hf|s1 s2 s3 e2 b1 b2 Hh Hhd Hp Hb2 Ht]; subst; clear E.
  - destruct (head_done _ _ _ _ O Hhd) as (v & b & D & Hb). exists v. apply (finish_table _ _ _ _ _ D ltac:(lia) Hf).
  - destruct (head_done _ _ _ _ O Hhd) as (v & b & D & Hb). exists v. destruct b2.
    + destruct Hb2 as (_ & _ & Hps). pose proof (pen_done _ _ _ _ _ D ltac:(lia) Hps) as D'. pose proof (tail_table _ _ _ _ _ _ _ _ D' ltac:(lia) Ht) as G. destruct e; tauto.
    + destruct Hb2 as (_ & ->). pose proof (tail_table _ _ _ _ _ _ _ _ D ltac:(lia) Ht) as G. destruct e; tauto.
Qed.

Lemma loop_table orc rand base : forall fuel s r s' rows, on_table base s rows -> loop fuel orc rand d s = Ok (r, s') -> exists rows', table_done base r s' rows'.
Proof.
  induction fuel as [|fuel IH]; intros s r s' rows O E; cbn [loop] in E; [discriminate|].
  apply bind_ok in E. destruct E as ([s1 e] & E1 & E). destruct (pass_table _ _ _ _ _ _ _ O E1) as (v & G). destruct e as [r1|].
  - injection E as <- <-. eauto.
  - exact (IH _ _ _ _ G E).
Qed.
End Output.

Section Run.
Context {T : Type} `{Arith T}.
Implicit Types (orc : oracle T) (o : lcqp T).

Lemma init_log o o1 : initializeSolver o = Ok (SUCCESSFUL_RETURN, o1) -> s_log (it o1) = rev (opening (o_printLevel (d_options (pd o)))) ++ printed o.
Proof.
  intros E. unfold initializeSolver, and_then_quiet in E. apply bind_ok in E; destruct E as ([r1 o2] & E1 & E). apply init_subsolver_frame in E1.
  destruct E1 as (a & b & c & e & f & y & ->). destruct (is_success r1) eqn:Er; [|injection E as -> _; discriminate]. inv_ok; match goal with H : init_phi _ _ _ = _ |- _ => apply init_phi_frame in H; destruct H as (g1 & g2 & ->) end;
    cbn; destruct (o_printLevel (d_options (pd o))); reflexivity.
Qed.
Lemma init_fail_log o r o1 : initializeSolver o = Ok (r, o1) -> is_success r = false -> s_log (it o1) = printed o.
Proof. intros E F. apply initializeSolver_ok in E. destruct E as [(C & _)|(_ & a & b & c & e & f & y & ->)]; [congruence|reflexivity]. Qed.

Lemma run_prints fuel orc rand o r o' : runSolver_fuel fuel orc rand o = Ok (r, o') -> started o o' ->
  exists rows, table (d_options (pd o)) (getOutputStatistics o') rows /\
    printed o' = rev (run_text (d_options (pd o)) rows r (getOutputStatistics o')) ++ printed o.
Proof.
  intros E St. destruct (run_post _ _ _ _ _ _ E St) as (o1 & E1 & Epd & Eo & CP & QP & K & _). pose proof (init_options _ _ E1) as Eo1. pose proof (init_log _ _ E1) as Lg.
  assert (G : forall s rows, table_done (pd o1) (s_log (it o1)) r s rows -> table (d_options (pd o)) (stats_assign (s_stats s)) rows /\
    s_log s = rev (run_text (d_options (pd o)) rows r (stats_assign (s_stats s))) ++ printed o).
  { intros s rows [G1 G2 G3 G4 G5 G6]. rewrite Eo1 in *. split; [constructor; auto|].
    - unfold rho_at in G4. rewrite Eo1 in G4. exact G4.
    - cbn [st_iterOuter stats_assign]. destruct rows as [|v rows]; [exact G5|]. destruct (@exists_last _ (v :: rows) ltac:(discriminate)) as (l & z & El). rewrite El in *.
      rewrite last_last. rewrite end_snoc in G5. exact G5.
    - rewrite G1, Lg. unfold run_text. cbn [st_status stats_assign]. rewrite !rev_app_distr, !app_assoc. reflexivity. }
  apply run_inv in E. inversion E as [r1 o2 E2 Er|r1 o2 s1 E2 E3|r1 o2 s1 s2 E2 E3 E4]; subst.
  - exfalso. rewrite E1 in E2. injection E2 as <- <-. discriminate.
  - rewrite E1 in E2. injection E2 as <-. unfold getOutputStatistics, printed in *. cbn [pd it] in *. exists []. apply G.
    assert (Hi := E1). apply initializeSolver_ok in Hi. destruct Hi as [(_ & _ & a & b & c & e' & f & g1 & g2 & y & gt & l & ->)|(C3 & _)]; [|discriminate].
    apply first_solve_inv in E3. inversion E3 as [g s2 r2 Es Er|]; subst. cbn in *. pose proof (qp_ret _ _ _ _ _ _ Es Er) as C.
    apply solveQPSubproblem_effect in Es. destruct Es. destruct qe_stats as (k & ff & [r1 st] & _ & _ & E4 & E5). apply updateSubproblemIter_ok in E4. cbn in E4, E5. subst st.
    constructor; cbn; auto.
    + rewrite C, qe_log. reflexivity.
    + rewrite E5. reflexivity.
    + rewrite E5. cbn. lia.
    + intros _. rewrite E5. cbn. repeat split.
  - rewrite E1 in E2. injection E2 as <-. unfold getOutputStatistics, printed in *. cbn [pd it] in *.
    assert (L : exists rows, table_done (pd o1) (s_log (it o1)) r s2 rows).
    { apply (loop_table (pd o1)) with (orc := orc) (rand := rand) (fuel := fuel) (s := s1) (rows := []); [|exact E4].
      assert (Hi := E1). apply initializeSolver_ok in Hi. destruct Hi as [(_ & _ & a & b & c & e' & f & g1 & g2 & y & gt & l & ->)|(C3 & _)]; [|discriminate].
      apply first_solve_inv in E3. inversion E3 as [|g s3 s4 Es Eq]; subst. cbn in *.
      apply solveQPSubproblem_effect in Es. destruct Es. destruct qe_stats as (k & ff & [r1 st] & F0 & _ & F4 & F5). apply updateSubproblemIter_ok in F4. cbn in F4, F5. subst st.
      apply setQk_frame in Eq. destruct Eq as (q1 & q2 & q3 & ->). rewrite updateRhoOpt_eq. constructor; cbn in *; try rewrite F5; cbn; auto; try congruence.
      - rewrite qe_outer, qe_inner. left. split; reflexivity.
      - rewrite qe_outer. exact qe_rho.
      - lia.
      - intros _. repeat split. }
    destruct L as (rows & L). exists rows. apply G, L.
Qed.
Lemma run_refused_prints fuel orc rand o r o' : runSolver_fuel fuel orc rand o = Ok (r, o') -> ~ started o o' -> is_success r = false /\ printed o' = EvMessage r :: printed o.
Proof.
  intros E St. destruct (run_not_started _ _ _ _ _ _ E St) as (_ & _ & _ & Hr).
  destruct (run_qp _ _ _ _ _ _ E) as [(o1 & E1 & Er & ->)|(o1 & E1 & Epd & CP & QP)].
  - split; [exact Er|]. unfold printed. cbn. rewrite (init_fail_log _ _ _ E1 Er). reflexivity.
  - exfalso. apply St. intros C. destruct QP as [(new & E2 & _ & c & a & rest & E3 & _)].
    rewrite C in E2. destruct new; [discriminate|]. apply (f_equal (@length _)) in E2. rewrite app_length in E2. simpl in E2. lia.
Qed.
End Run.
