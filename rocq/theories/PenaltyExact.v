(** * PenaltyExact: the penalty law in exact arithmetic. *)
From Coq Require Import QArith Qcanon Lqa.
From Verif Require Import Base Arith Codes Utilities Options Stats FileIO Subsolver State LCQProblem Tactics Loops NoFuel Frames Control RunControl SpecRun Spec QPHistory RunStats RunFacts RunProps Exact.
Open Scope Z_scope.

Ltac qc := unfold Qclt, Qcle in *; rewrite ?this_add, ?this_mul, ?this_opp, ?this_sub, ?this_0, ?this_1 in *; try nra.

Lemma rho_seq_fin (o : lcqp xq) r0 f k : o_initialPenaltyParameter (d_options (pd o)) = Fin r0 ->
  o_penaltyUpdateFactor (d_options (pd o)) = Fin f -> rho_seq o k = Fin (r0 * f ^ k)%Qc.
Proof.
  intros H1 H2. unfold rho_seq. rewrite H1, H2. induction k as [|k IHk].
  - cbn. f_equal. ring.
  - change (Nat.iter (S k) ?f ?x) with (f (Nat.iter k f x)). rewrite IHk, fin_mul. f_equal. cbn [Qcpower]. ring.
Qed.

Lemma pow_pos f k : (1 < f)%Qc -> (0 < f ^ k)%Qc.
Proof. intros Hf. induction k; simpl; [reflexivity|]. qc. Qed.

Lemma rho_seq_pos (o : lcqp xq) r0 f k : o_initialPenaltyParameter (d_options (pd o)) = Fin r0 ->
  o_penaltyUpdateFactor (d_options (pd o)) = Fin f -> (0 < r0)%Qc -> (1 < f)%Qc -> a_le (rho_seq o k) a_zero = false.
Proof.
  intros H1 H2 Hr Hf. rewrite (rho_seq_fin _ _ _ _ H1 H2). apply fin_le_f. pose proof (pow_pos f k Hf). qc.
Qed.

(** The larger of two rationals *)
Definition Qcmax (a b : Qc) : Qc := if Qc_ltb a b then b else a.

Lemma run_penalty_exact fuel orc rand (o : lcqp xq) r o' r0 f : runSolver_fuel fuel orc rand o = Ok (r, o') -> started o o' ->
  o_initialPenaltyParameter (d_options (pd o)) = Fin r0 -> o_penaltyUpdateFactor (d_options (pd o)) = Fin f ->
  (0 < r0)%Qc -> (1 < f)%Qc -> 0 < st_iterTotal (getOutputStatistics o') ->
  exists k : nat, st_iterOuter (getOutputStatistics o') = Z.of_nat k /\
    st_rhoOpt (getOutputStatistics o') = Fin (r0 * f ^ k)%Qc /\
    forall m, o_maxPenaltyParameter (d_options (pd o)) = Fin m ->
      (r = MAX_PENALTY_REACHED -> (m < r0 * f ^ k)%Qc) /\ (r0 * f ^ k <= Qcmax r0 m * (f * f))%Qc.
Proof.
  intros E St H1 H2 Hr Hf Ht.
  destruct (run_penalty _ _ _ _ _ _ E St (fun k => rho_seq_pos o r0 f k H1 H2 Hr Hf) Ht) as (A1 & A2 & A3 & m' & A4 & A5).
  exists (Z.to_nat (st_iterOuter (getOutputStatistics o'))). split; [lia|].
  rewrite (rho_seq_fin _ _ _ _ H1 H2) in A2. split; [exact A2|].
  intros m Hm. rewrite Hm, A2 in *. split; [intros Er; apply fin_lt; auto|].
  set (R := (r0 * f ^ _)%Qc) in *.
  assert (Rp : (0 < R)%Qc). { unfold R. pose proof (pow_pos f (Z.to_nat (st_iterOuter (getOutputStatistics o'))) Hf). qc. }
  clearbody R.
  assert (Mm : exists q, m' = Fin q /\ (0 < q)%Qc /\ (q <= Qcmax r0 m)%Qc).
  { assert (G : exists q, m' = Fin q /\ (0 < q)%Qc).
    { unfold two_more in A5. rewrite H2 in A5. destruct m' as [q| | |].
      - exists q. split; auto. destruct A5 as [A5|[A5|A5]]; apply fin_inj in A5; subst R; qc.
      - destruct A5 as [A5|[A5|A5]]; try discriminate; cbn in A5; destruct (f ?= 0)%Qc eqn:C; try discriminate; cbn in A5; rewrite C in A5; discriminate.
      - destruct A5 as [A5|[A5|A5]]; try discriminate; cbn in A5; destruct (f ?= 0)%Qc eqn:C; try discriminate; cbn in A5; rewrite C in A5; discriminate.
      - destruct A5 as [A5|[A5|A5]]; discriminate. }
    destruct G as (q & -> & Hq). exists q. split; auto. split; auto. unfold Qcmax.
    destruct (Qc_ltb r0 m) eqn:C; [apply Qc_ltb_spec in C|apply Qc_ltb_false in C].
    - destruct A4 as [A4|A4]; [rewrite H1 in A4; apply fin_inj in A4; subst; qc|apply fin_lt_f in A4; auto].
    - destruct A4 as [A4|A4]; [rewrite H1 in A4; apply fin_inj in A4; subst; qc|apply fin_lt_f in A4; qc]. }
  destruct Mm as (q & -> & Hq & Hle). unfold two_more in A5. rewrite H2 in A5.
  assert (F2 : (1 <= f * f)%Qc) by qc. assert (F3 : (f <= f * f)%Qc) by qc.
  assert (G : (q * (f * f) <= Qcmax r0 m * (f * f))%Qc).
  { set (M := Qcmax r0 m) in *. set (F := (f * f)%Qc) in *. clearbody M F. qc. }
  set (M := Qcmax r0 m) in *. set (F := (f * f)%Qc) in *.
  destruct A5 as [A5|[A5|A5]]; apply fin_inj in A5; subst R.
  - clearbody M F. qc.
  - apply Qcle_trans with (q * F)%Qc; [|exact G]. clearbody M F. qc.
  - replace (q * f * f)%Qc with (q * F)%Qc by (unfold F; ring). exact G.
Qed.

(** Every QP of a pass is solved with a penalty not above the maximum *)
Lemma pass_qp_rho {T} `{Arith T} orc rand (d : pdata T) s s' e : pass orc rand d s = Ok (s', e) -> s_calls s' <> s_calls s ->
  a_lt (o_maxPenaltyParameter (d_options d)) (s_rho s') = false.
Proof.
  intros Ep Hc. apply pass_inv in Ep. inversion Ep as [s1 s2 b1 Hh Hhd Hst Hcc Hfin|s1 s2 s3 e' b1 b2 Hh Hhd Hp Hb2 Ht]; subst.
  - exfalso. apply Hc. apply finish_frame in Hfin. destruct Hfin as (y & a & l & Ha & ->). destruct Hh. simpl. auto.
  - apply pass_tail_inv in Ht.
    inversion Ht as [Hm|Hm Hr|s4 s5 r' Hm Hr E3 E4 Er|s4 s5 s6 s7 Hm Hr E3 E4 E5 E6]; subst; try (exfalso; apply Hc; destruct Hh, Hp; simpl; congruence).
    + apply updateLinearization_frame in E3. destruct E3 as (v & ->). apply solveQPSubproblem_effect in E4. destruct E4. simpl in *. congruence.
    + apply updateLinearization_frame in E3. destruct E3 as (v & ->). apply solveQPSubproblem_effect in E4. destruct E4. simpl in *.
      apply getOptimalStepLength_frame in E6. destruct E6 as (al & lk & ->).
      assert (Hs5 : s_rho s6 = s_rho s5).
      { destruct (o_perturbStep _); [apply perturbStep_frame in E5; destruct E5 as (a & b & ->); eauto|]. subst s6. auto. }
      simpl. congruence.
Qed.
