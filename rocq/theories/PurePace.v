(** * PurePace: the list-level run raises the penalty as SpecSchedule.v says (proofs; no LCQPow code). *)
From Verif Require Import Base Arith Codes Utilities Options Stats FileIO Subsolver State LCQProblem Tactics Loops Kernels Pure PureFacts Spec SpecSchedule RunProps.

Section Pace.
Context {T : Type} `{Arith T} {K : Type}.
Variable p : ops T K.
Let opt := p_opt p.
Let n := o_nDynamicPenalty opt.
Hypothesis Hn : INT_MIN <= n <= INT_MAX.

(** State between two passes and its phase.  No LCQPow code. *)
Record v_phase (v : vst T K) (w : phase T) : Prop := mkVPhase {
  vp_outer : v_outer v = Z.of_nat (ph_updates w);
  vp_len : len (v_hist v) <= v_total v;
  vp_hist : 0 < n -> v_hist v = last_n n (ph_values w) }.

Lemma vsize_neg : n < 0 -> INT_MAX + 1 < to_size_t n.
Proof.
  intros. unfold to_size_t. replace (n mod 2 ^ 64) with (n + 2 ^ 64); [unfold INT_MIN, INT_MAX in *; lia|].
  symmetry. rewrite <- (Z_mod_plus_full n 1 (2 ^ 64)). apply Z.mod_small. unfold INT_MIN in *. lia.
Qed.
Lemma vlen_last_n (l : list T) : 0 < n -> len (last_n n l) = Z.min (len l) n.
Proof. intros. unfold last_n, len. rewrite skipn_length. lia. Qed.
Lemma vlast_n_snoc (l : list T) (x : T) : 0 < n -> last_n n (l ++ [x]) = (if len l <? n then last_n n l else tl (last_n n l)) ++ [x].
Proof.
  intros. unfold last_n, len. rewrite app_length. cbn [length]. destruct (Z.ltb_spec (Z.of_nat (length l)) n) as [L|L].
  - replace (length l + 1 - Z.to_nat n)%nat with O by lia. replace (length l - Z.to_nat n)%nat with O by lia. reflexivity.
  - replace (length l + 1 - Z.to_nat n)%nat with (S (length l - Z.to_nat n)) by lia.
    assert (E : forall k (q : list T), (k < length q)%nat -> skipn (S k) (q ++ [x]) = tl (skipn k q) ++ [x]).
    { induction k; intros [|y q] Hk; cbn in *; try lia; [reflexivity|]. apply IHk. lia. }
    apply E. lia.
Qed.
Lemma len_tl_le (l : list T) : len (tl l) <= len l.
Proof. destruct l; cbn [tl]; [lia|]. rewrite len_cons. lia. Qed.

Lemma leyffer_pace v w b v' : (0 < n -> v_hist v = last_n n (ph_values w)) -> len (v_hist v) <= INT_MAX -> v_leyffer p v = (b, v') ->
  b = dynamic_update opt w (v_phi p v) /\ len (v_hist v') <= len (v_hist v) + 1 /\ (0 < n -> v_hist v' = last_n n (ph_values w ++ [v_phi p v])) /\
  exists h, v' = w_hist h v.
Proof.
  intros Hh Hl E. pose proof (f_leyffer p v) as F. rewrite E in F. cbn [snd] in F. destruct F as (h & F).
  unfold v_leyffer in E. cbv zeta in E. fold opt n in E. unfold dynamic_update. fold n. destruct (Z.ltb_spec 0 n) as [Pn|Pn].
  - specialize (Hh Pn). rewrite to_size_t_pos in E by lia. destruct (Z.leb_spec n 0); [lia|]. rewrite Hh in E. rewrite vlen_last_n in E by auto. cbn [andb].
    destruct (Z.ltb_spec (Z.min (len (ph_values w)) n) n) as [L|L].
    + injection E as <- <-. destruct (Z.leb_spec n (len (ph_values w))); [lia|]. split; [reflexivity|]. cbn [v_hist w_hist]. split; [rewrite Hh, len_app; cbn; lia|]. split; [|eauto].
      intros _. rewrite vlast_n_snoc by auto. destruct (Z.ltb_spec (len (ph_values w)) n); [reflexivity|lia].
    + destruct (Z.leb_spec n (len (ph_values w))); [|lia]. cbn [andb]. unfold v_complOK in E. fold opt in E. fold (complementary opt (v_phi p v)) in E.
      assert (Lh : v_hist v' = tl (last_n n (ph_values w)) ++ [v_phi p v]) by (destruct (complementary opt (v_phi p v)); injection E as <- <-; reflexivity).
      split; [|split; [rewrite Lh, Hh, len_app; pose proof (len_tl_le (last_n n (ph_values w))); cbn; lia|split; [|eauto]]].
      2: { intros _. rewrite Lh, vlast_n_snoc by auto. destruct (Z.ltb_spec (len (ph_values w)) n); [lia|reflexivity]. }
      destruct (complementary opt (v_phi p v)); injection E as <- _; cbn [negb andb]; [reflexivity|].
      rewrite firstn_all2; [|unfold last_n; rewrite skipn_length; unfold len in *; lia].
      clear. induction (last_n n (ph_values w)) as [|a l IH]; [reflexivity|]. cbn [existsb forallb]. rewrite <- IH. destruct (a_lt (v_phi p v) _); reflexivity.
  - cbn [andb]. destruct (Z.leb_spec (to_size_t n) 0).
    + injection E as <- <-. split; [reflexivity|]. split; [lia|]. split; [intros; lia|eauto].
    + assert (n < 0) by (destruct (Z.eq_dec n 0) as [E0|E0]; [rewrite E0 in *; cbn in *; lia|lia]). pose proof (vsize_neg H1).
      destruct (Z.ltb_spec (len (v_hist v)) (to_size_t n)); [|lia]. injection E as <- <-. split; [reflexivity|]. cbn [v_hist w_hist]. split; [rewrite len_app; cbn; lia|]. split; [intros; lia|eauto].
Qed.

Lemma penalty_pace v v' : v_penaltyStep p v = Ok v' -> v_outer v' = v_outer v + 1 /\ v_hist v' = (if 0 <? n then [] else v_hist v) /\ v_x v' = v_x v /\ v_stat v' = v_stat v /\ v_total v' = v_total v.
Proof.
  unfold v_penaltyStep. intros E. apply bind_ok in E. destruct E as (w & Ew & E). injection E as <-. apply f_outer in Ew. destruct Ew as (st & -> & _).
  unfold v_penalty. fold opt n. cbn [v_outer v_hist v_x v_stat v_total w_inner w_stats w_outer]. destruct (0 <? n), (p_gphi p); repeat split; reflexivity.
Qed.
Lemma v_phi_x (v w : vst T K) : v_x v = v_x w -> v_phi p v = v_phi p w.
Proof. intros E. unfold v_phi. rewrite E. reflexivity. Qed.

Lemma head_pace v w v' : v_phase v w -> v_head p v = Ok v' ->
  v_phase v' (if dynamic_update opt w (v_phi p (v_step p v)) then mkPhase (S (ph_updates w)) 0 [] else mkPhase (ph_updates w) (S (ph_inner w)) (ph_values w ++ [v_phi p (v_step p v)])) /\
  v_phi p v' = v_phi p (v_step p v) /\ v_stat v' = v_stat (v_station p (v_step p v)).
Proof.
  intros [P1 P2 P3] E. unfold v_head in E. set (v1 := v_station p (v_step p v)) in *.
  assert (K1 : v_x v1 = v_x (v_step p v)) by reflexivity. assert (K2 : v_outer v1 = v_outer v /\ v_hist v1 = v_hist v /\ v_total v1 = v_total v) by (split; [reflexivity|split; reflexivity]). clearbody v1. destruct K2 as (K2 & K3 & K4).
  apply bind_ok in E. destruct E as (w1 & E1 & E). apply f_print in E1. subst w1.
  apply bind_ok in E. destruct E as (w2 & E2 & E). assert (F2 : exists st, w2 = w_stats st v1).
  { destruct (o_storeSteps (p_opt p)); [apply f_store in E2; exact E2|]. injection E2 as <-. exists (v_stats v1). destruct v1; reflexivity. }
  destruct F2 as (st & ->). clear E2.
  apply bind_ok in E. destruct E as (w3 & E3 & E). assert (B3 : v_total v1 + 1 <= INT_MAX).
  { unfold v_totalIter in E3. apply bind_ok in E3. destruct E3 as (z & Ez & _). apply chk_int_ok in Ez. cbn in Ez. destruct Ez as (_ & Ez). unfold in_int in Ez. lia. }
  apply f_total in E3. destruct E3 as (st' & -> & _). apply bind_ok in E. destruct E as (k & _ & E).
  match type of E with context [v_leyffer p ?x] => set (v4 := x) in * end.
  assert (J : v_x v4 = v_x v1 /\ v_outer v4 = v_outer v1 /\ v_hist v4 = v_hist v1 /\ v_total v4 = v_total v1 + 1 /\ v_stat v4 = v_stat v1) by (repeat split; reflexivity).
  clearbody v4. destruct J as (J1 & J2 & J3 & J4 & J5). destruct (v_leyffer p v4) as [b v5] eqn:El.
  apply (leyffer_pace v4 w) in El; [|rewrite J3, K3; exact P3|rewrite J3, K3; lia]. destruct El as (L1 & L2 & L3 & h & ->). rewrite (v_phi_x v4 (v_step p v)) in L1, L3 by congruence.
  apply bind_ok in E. destruct E as (v6 & E6 & E). injection E as <-. cbn [v_hist w_hist] in L2, L3. rewrite J3, K3 in L2. destruct b.
  - apply penalty_pace in E6. destruct E6 as (A1 & A2 & A3 & A4 & A5). rewrite <- L1. cbn [v_outer v_hist v_x v_stat v_total w_hist] in *. split; [|split; [apply v_phi_x; change (v_x (v_lin p v6)) with (v_x v6)|change (v_stat (v_lin p v6)) with (v_stat v6)]; congruence].
    split; cbn [v_lin v_outer v_hist v_total w_gk ph_updates ph_values].
    + lia.
    + rewrite A2, A5. destruct (0 <? n); cbn [v_hist w_hist len length]; try lia; pose proof (len_nonneg (v_hist v)); cbn; lia.
    + intros Pn. rewrite A2. replace (0 <? n) with true by lia. reflexivity.
  - injection E6 as <-. rewrite <- L1. split; [|split; [apply v_phi_x; change (v_x v4 = v_x (v_step p v))|change (v_stat v4 = v_stat v1)]; congruence].
    split; cbn [v_lin v_outer v_hist v_total w_gk w_hist ph_updates ph_values]; [lia|lia|exact L3].
Qed.

Lemma solve_pace orc b y0 v r v' : v_solve p orc b y0 v = Ok (r, v') -> v_outer v' = v_outer v /\ v_hist v' = v_hist v /\ v_total v' = v_total v.
Proof.
  unfold v_solve. set (w := v_record (v_sub p orc b y0 v) v). assert (W : v_outer w = v_outer v /\ v_hist w = v_hist v /\ v_total w = v_total v).
  { unfold w, v_record. destruct (sr_iter _), (sr_flag _); repeat split; reflexivity. }
  clearbody w. intros E. inv_ok; exact W.
Qed.
Lemma tail_pace orc rand v v' ex : v_tail p orc rand v = Ok (v', ex) -> v_outer v' = v_outer v /\ v_hist v' = v_hist v /\ v_total v' = v_total v.
Proof.
  unfold v_tail. intros E. destruct (_ <? _); [injection E as <- <-; auto|]. destruct (a_lt _ _); [injection E as <- <-; auto|].
  apply bind_ok in E. destruct E as ([r w] & Ew & E). apply solve_pace in Ew. change (v_outer (v_lin p v)) with (v_outer v) in Ew. change (v_hist (v_lin p v)) with (v_hist v) in Ew. change (v_total (v_lin p v)) with (v_total v) in Ew.
  destruct (negb (is_success r)); injection E as <- <-; [exact Ew|]. destruct (o_perturbStep (p_opt p)); exact Ew.
Qed.
Lemma v_phase_same v v' w : v_outer v' = v_outer v /\ v_hist v' = v_hist v /\ v_total v' = v_total v -> v_phase v w -> v_phase v' w.
Proof. intros (E1 & E2 & E3) [P1 P2 P3]. split; rewrite ?E1, ?E2, ?E3; auto. Qed.

Lemma pass_pace orc rand v w v' ex : v_phase v w -> v_pass p orc rand v = Ok (v', ex) ->
  v_phase v' (after_pass opt w (v_phi p (v_step p v), maxabs (v_stat (v_station p (v_step p v))) (p_nV p))).
Proof.
  intros P E. unfold v_pass in E. apply bind_ok in E. destruct E as (w1 & E1 & E). destruct (head_pace _ _ _ P E1) as (P1 & Ph & Es).
  cbn [after_pass]. set (wd := if dynamic_update opt w _ then _ else _) in *. clearbody wd.
  unfold v_statOK, v_complOK in E. rewrite Ph, Es in E. fold opt in E. unfold stationary, complementary.
  destruct (a_lt (maxabs _ _) _); cbn [andb]; [|eapply v_phase_same; [eapply tail_pace; exact E|exact P1]].
  destruct (a_lt (v_phi p _) _); cbn [negb].
  - injection E as <- <-. eapply v_phase_same; [|exact P1]. repeat split; reflexivity.
  - apply bind_ok in E. destruct E as (w2 & E2 & E). apply penalty_pace in E2. destruct E2 as (A1 & A2 & _ & _ & A5). eapply v_phase_same; [eapply tail_pace; exact E|]. destruct P1 as [Q1 Q2 Q3].
    split; cbn [ph_updates ph_values]; [lia| |]; rewrite A2.
    + rewrite A5. destruct (0 <? n) eqn:En; [pose proof (len_nonneg (v_hist w1)); cbn; lia|lia].
    + intros Pn. replace (0 <? n) with true by lia. reflexivity.
Qed.
Lemma first_pace orc y0 x0 v : v_first p orc y0 (v_init p x0) = Ok (v, None) -> v_phase v (mkPhase 0 0 []).
Proof.
  unfold v_first. intros E. apply bind_ok in E. destruct E as ([r w] & Ew & E). apply solve_pace in Ew. destruct (negb (is_success r)); [discriminate|]. injection E as <-.
  assert (K0 : forall b : bool, let q := if b then w_gk (p_g p) (v_init p x0) else v_lin p (v_init p x0) in v_outer q = 0 /\ v_hist q = [] /\ v_total q = 0) by (intros []; repeat split; reflexivity).
  destruct (K0 (o_solveZeroPenaltyFirst (p_opt p))) as (K1 & K2 & K3). rewrite K1, K2, K3 in Ew. destruct Ew as (W1 & W2 & W3).
  split; cbn [v_outer v_hist v_total w_stats w_h ph_updates ph_values]; [exact W1|rewrite W2, W3; cbn; lia|]. intros Pn. rewrite W2. unfold last_n. rewrite skipn_nil. reflexivity.
Qed.
End Pace.
