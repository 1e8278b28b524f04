(** * ExactPasses: the passes of a run seen through the recorded statistics (no LCQPow code). *)
From Coq Require Import QArith Qcanon Lqa.
From Verif Require Import Base Arith Codes Utilities Options Stats FileIO Subsolver State LCQProblem Tactics Loops Kernels Exact SpecSparse CscKernels CscBuild SpecMath QSum
  KernelProps2 SpecLoad SpecExact SpecRun SpecTrace SpecSolve Spec SpecSchedule RunControl RunFacts RunProps PenaltyExact LoadDense LoadSparse StartDense StartSparse ExactOps ExactDense ExactRun ExactProps ExactProps2 ExactSolve.
Open Scope Z_scope.

Local Arguments Qc_ltb : simpl never.
Local Arguments Qc_leb : simpl never.

Lemma fins_inj x y : fins x = fins y -> x = y.
Proof. revert y. induction x as [|q x IH]; intros [|q' y] E; try discriminate; [reflexivity|]. cbn in E. injection E as -> E. f_equal. apply IH, E. Qed.
Lemma answer_eq n a z z' : primal_answer n a z -> len z' = n -> (forall i, 0 <= i < n -> q_x a i = Fin (qat z' i)) -> forall i, 0 <= i < n -> qat z' i = qat z i.
Proof. intros (L & E) L' E' i Hi. specialize (E i Hi). specialize (E' i Hi). congruence. Qed.

Lemma combine_maps {A B C} (f : A -> B) (g : A -> C) l : combine (map f l) (map g l) = map (fun x => (f x, g x)) l.
Proof. induction l as [|a l IH]; cbn; [reflexivity|]. rewrite IH. reflexivity. Qed.
Lemma follows_nth pr opt r0 fac tr : ExactRun.follows pr opt r0 fac tr -> forall j f, nth_error (rev tr) j = Some f ->
  f_k f = ph_updates (phase_from opt [] (firstn j (map (fun f => (Fin (e_phi (pr_data pr) (f_x (pr_data pr) f)), maxabs (fins (f_res (pr_data pr) r0 fac (box_duals pr opt) f)) (e_nV (pr_data pr)))) (rev tr)))).
Proof.
  induction tr as [|g tr IH]; intros F j f E; [destruct j; discriminate|]. cbn [ExactRun.follows] in F. destruct F as (F1 & F2). cbn [rev] in *.
  destruct (Nat.lt_ge_cases j (length (rev tr))) as [Hj|Hj].
  - rewrite nth_error_app1 in E by exact Hj. rewrite (IH F2 _ _ E), map_app, firstn_app. rewrite map_length. replace (j - length (rev tr))%nat with O by lia. cbn [firstn]. rewrite app_nil_r. reflexivity.
  - rewrite nth_error_app2 in E by exact Hj. destruct (j - length (rev tr))%nat as [|m] eqn:Em; [|destruct m; discriminate]. injection E as <-.
    rewrite F1. unfold rule_phase. rewrite map_app, firstn_app, map_length, Em. cbn [firstn]. rewrite app_nil_r, firstn_all2 by (rewrite map_length; exact Hj). reflexivity.
Qed.

Section Passes.
Variables (pr : problem) (opt : options xq) (orc : oracle xq) (rand : nat -> Z) (r0 fac : Qc) (r : ReturnValue) (o : lcqp xq).
Hypothesis Adm : admissible pr opt.
Hypothesis Sol : pr_solve pr opt orc rand = Ok (r, o).
Hypothesis Rat : rational_run pr opt orc o r0 fac.
Hypothesis Sto : o_storeSteps opt = true.
Let e := pr_data pr.
Let n := e_nV e.
Let off := box_duals pr opt.
Let tr_ := trace e r0 fac off (o_solveZeroPenaltyFirst opt) (o_perturbStep opt) (o_qpSolver opt) (pr_x0 pr).
Let st := getOutputStatistics o.

(** The number of updates is that of the rule.  No LCQPow code. *)
Definition pinned (ks : nat -> nat) : Prop := INT_MIN <= o_nDynamicPenalty opt <= INT_MAX -> forall j, ks j = updates_after opt st j.

(** The run with its penalty updates: [ks i] updates were made before QP [i] *)
Lemma schedule : exists (tr : list frame) (ks : nat -> nat) cs rest,
  ((tr = [] /\ cs = []) \/ tr_ tr (answers orc cs [])) /\ s_calls (it o) = rest ++ cs /\ length tr = length cs /\
  st_xSteps st = map (fun f => fins (f_x e f)) (rev tr) /\ st_stepLength st = map (fun f => Fin (f_a f)) (rev tr) /\
  st_objVals st = map (fun f => Fin (e_obj e (f_x e f))) (rev tr) /\ st_phiVals st = map (fun f => Fin (e_phi e (f_x e f))) (rev tr) /\
  st_statVals st = map (fun f => maxabs (fins (f_res e r0 fac off f)) n) (rev tr) /\
  st_meritVals st = map (fun f => Fin (qdot n (e_g e) (f_x e f) + qform (e_H e (t_rho r0 fac (f_k f))) n (f_x e f) * qhalf)%Qc) (rev tr) /\ st_stepSize st = map (fun f => maxabs (fins (f_d e f)) n) (rev tr) /\
  ks O = O /\ (forall j, (ks j <= ks (S j) <= ks j + 2)%nat) /\ (forall j f, nth_error (rev tr) j = Some f -> f_k f = ks j) /\
  (forall c, rest = [c] -> match rev tr with [] => qc_g c = g_first pr opt r0 fac | _ => forall f, hd_error tr = Some f -> qc_g c = g_next pr r0 fac (ks (length tr)) (f_x e f) end) /\
  (rest = [] \/ exists c, rest = [c]) /\ pinned ks.
Proof.
  assert (Lists : forall tr, shown pr opt r0 fac o tr ->
    st_xSteps st = map (fun f => fins (f_x e f)) (rev tr) /\ st_stepLength st = map (fun f => Fin (f_a f)) (rev tr) /\
    st_objVals st = map (fun f => Fin (e_obj e (f_x e f))) (rev tr) /\ st_phiVals st = map (fun f => Fin (e_phi e (f_x e f))) (rev tr) /\
    st_statVals st = map (fun f => maxabs (fins (f_res e r0 fac off f)) n) (rev tr) /\
    st_meritVals st = map (fun f => Fin (qdot n (e_g e) (f_x e f) + qform (e_H e (t_rho r0 fac (f_k f))) n (f_x e f) * qhalf)%Qc) (rev tr) /\ st_stepSize st = map (fun f => maxabs (fins (f_d e f)) n) (rev tr)).
  { intros tr Sh. specialize (Sh Sto). cbv zeta in Sh.
    split; [exact (f_equal (fun t => fst (fst (fst (fst (fst (fst t)))))) Sh)|]. split; [exact (f_equal (fun t => snd (fst (fst (fst (fst (fst t)))))) Sh)|].
    split; [exact (f_equal (fun t => snd (fst (fst t))) Sh)|]. split; [exact (f_equal (fun t => snd (fst t)) Sh)|].
    split; [exact (f_equal (fun t => snd (fst (fst (fst t)))) Sh)|split; [exact (f_equal snd Sh)|exact (f_equal (fun t => snd (fst (fst (fst (fst t))))) Sh)]]. }
  destruct (out _ _ _ _ _ _ _ _ Adm Sol Rat) as (D1 & D2 & _ & [(N & (c & C & _ & G) & X & Sh)|(f & tr & k & cs & T & C & Rh & Ou & Hk & X & Sh & Su & Pc)]).
  - exists [], (fun _ => O), [], [c]. destruct (Lists _ Sh) as (L1 & L2 & L3 & L4 & L5 & L6 & L7). split; [left; auto|]. split; [exact C|]. split; [reflexivity|].
    split; [exact L1|]. split; [exact L2|]. split; [exact L3|]. split; [exact L4|]. split; [exact L5|]. split; [exact L6|]. split; [exact L7|].
    split; [reflexivity|]. split; [lia|]. split; [intros j f E; destruct j; discriminate|]. split; [intros c' E; injection E as <-; exact G|]. split; [eauto|]. intros _ j. unfold updates_after, passes. rewrite L4. destruct j; reflexivity.
  - destruct (Lists _ Sh) as (L1 & L2 & L3 & L4 & L5 & L6 & L7).
    set (ks := fun j => match nth_error (rev (f :: tr)) j with Some f => f_k f | None => k end).
    assert (K0 : ks O = O).
    { unfold ks. destruct (nth_error (rev (f :: tr)) 0) as [f0|] eqn:E0.
      - destruct (trace_nth _ _ _ _ _ _ _ _ _ _ T _ _ E0) as (c & a & _ & _ & _ & B). apply B.
      - apply nth_error_None in E0. rewrite rev_length in E0. cbn in E0. lia. }
    assert (Kl : ks (length tr) = f_k f) by (unfold ks; rewrite (nth_rev e), Nat.ltb_irrefl, Nat.eqb_refl; reflexivity).
    assert (Kn : ks (S (length tr)) = k).
    { unfold ks. destruct (nth_error (rev (f :: tr)) (S (length tr))) eqn:E0; [|reflexivity].
      assert (S (length tr) < length (rev (f :: tr)))%nat by (apply nth_error_Some; congruence). rewrite rev_length in H. cbn in H. lia. }
    assert (Ks : forall j, (ks j <= ks (S j) <= ks j + 2)%nat).
    { intros j. destruct (Nat.lt_trichotomy j (length tr)) as [Hj|[->|Hj]].
      - assert (E1 : exists f1, nth_error (rev (f :: tr)) (S j) = Some f1).
        { destruct (nth_error (rev (f :: tr)) (S j)) eqn:E; [eauto|]. apply nth_error_None in E. rewrite rev_length in E. cbn in E. lia. }
        destruct E1 as (f1 & E1). destruct (trace_nth _ _ _ _ _ _ _ _ _ _ T _ _ E1) as (c & a & _ & _ & _ & f0 & E0 & (F1 & _)). unfold ks. rewrite E0, E1. exact F1.
      - rewrite Kl, Kn. exact Hk.
      - assert (E1 : forall i, (length tr < i)%nat -> ks i = k).
        { intros i Hi. unfold ks. destruct (nth_error (rev (f :: tr)) i) eqn:E0; [|reflexivity].
          assert (i < length (rev (f :: tr)))%nat by (apply nth_error_Some; congruence). rewrite rev_length in H. cbn in H. lia. }
        rewrite !E1 by lia. lia. }
    assert (Pin : pinned ks).
    { intros Dyn j. destruct (Pc Dyn) as (Pf & Pk).
      assert (Ps : passes st = map (fun f => (Fin (e_phi e (f_x e f)), maxabs (fins (f_res e r0 fac off f)) n)) (rev (f :: tr))) by (unfold passes; rewrite L4, L5; apply combine_maps).
      unfold updates_after. rewrite Ps. unfold ks. destruct (nth_error (rev (f :: tr)) j) as [f1|] eqn:E1.
      - exact (follows_nth _ _ _ _ (f :: tr) Pf _ _ E1).
      - apply nth_error_None in E1. rewrite firstn_all2 by (rewrite map_length; exact E1). exact Pk. }
    assert (Len : length (f :: tr) = length cs) by (rewrite (trace_length _ _ _ _ _ _ _ _ _ _ T); apply answers_len).
    exists (f :: tr), ks, cs. destruct C as [C|(c & C & N & G)]; [exists []|exists [c]].
    + split; [right; exact T|]. split; [exact C|]. split; [exact Len|].
      split; [exact L1|]. split; [exact L2|]. split; [exact L3|]. split; [exact L4|]. split; [exact L5|]. split; [exact L6|]. split; [exact L7|].
      split; [exact K0|]. split; [exact Ks|]. split; [intros j f1 E1; unfold ks; rewrite E1; reflexivity|]. split; [discriminate|]. split; [auto|exact Pin].
    + split; [right; exact T|]. split; [exact C|]. split; [exact Len|].
      split; [exact L1|]. split; [exact L2|]. split; [exact L3|]. split; [exact L4|]. split; [exact L5|]. split; [exact L6|]. split; [exact L7|].
      split; [exact K0|]. split; [exact Ks|]. split; [intros j f1 E1; unfold ks; rewrite E1; reflexivity|]. split; [|split; [eauto|exact Pin]].
      intros c' Ec. injection Ec as <-. destruct (rev (f :: tr)) eqn:E0; [apply (f_equal (@length _)) in E0; rewrite rev_length in E0; discriminate E0|].
      intros f1 E1. injection E1 as <-. cbn [length]. rewrite Kn. exact G.
Qed.

(** The step of a pass in terms of recorded values *)
Definition step_of (ks : nat -> nat) (j : nat) (x x' z : list Qc) (al : Qc) (c : qp_call xq) : Prop :=
  exists s : Z -> Z, (forall i, s i = -1 \/ s i = 0 \/ s i = 1) /\ (o_perturbStep opt = false -> forall i, s i = 0) /\
    let b := tab n (fun i => qat x i + Q2Qc (inject_Z (s i)) * Qc_lit 2221 (-19))%Qc in
    let d := vsub n z x in
    x' = on_line n b x z al /\ len x = n /\ al = t_len e r0 fac (ks (S j)) b d /\
    qc_g c = fins (tab n (fun i => t_rho r0 fac (ks (S j)) * mv (e_C e) n x i + t_lin e r0 fac (ks (S j)) i)%Qc).

Lemma slope_ext k b b' d d' : (forall i, 0 <= i < n -> qat b i = qat b' i) -> (forall i, 0 <= i < n -> qat d i = qat d' i) -> t_len e r0 fac k b d = t_len e r0 fac k b' d'.
Proof.
  intros Eb Ed. assert (E1 : t_curv e r0 fac k d = t_curv e r0 fac k d').
  { unfold t_curv, qform. apply qsum_ext. intros i Hi. rewrite Ed, (mv_ext_x _ _ d d') by auto. reflexivity. }
  assert (E2 : t_slope e r0 fac k b d = t_slope e r0 fac k b' d').
  { unfold t_slope. apply qsum_ext. intros i Hi. rewrite Ed, (mv_ext_x _ _ b b') by auto. reflexivity. }
  unfold t_len. rewrite E1, E2. reflexivity.
Qed.

Lemma steps : exists ks : nat -> nat, pinned ks /\ ks O = O /\ (forall j, (ks j <= ks (S j) <= ks j + 2)%nat) /\
  (forall j x, nth_error (st_xSteps st) j = Some (fins x) ->
     nth_error (st_objVals st) j = Some (Fin (e_obj e x)) /\ nth_error (st_phiVals st) j = Some (Fin (e_phi e x)) /\
     nth_error (st_meritVals st) j = Some (Fin (qdot n (e_g e) x + qform (e_H e (t_rho r0 fac (ks j))) n x * qhalf)%Qc)) /\
  (forall j x x' z al c, recorded_pass pr orc o j x x' z al c -> step_of ks j x x' z al c) /\
  (forall c, nth_error (rev (s_calls (it o))) O = Some c -> qc_g c = g_first pr opt r0 fac) /\
  (forall j c x, nth_error (rev (s_calls (it o))) (S j) = Some c -> nth_error (st_xSteps st) j = Some (fins x) -> qc_g c = g_next pr r0 fac (ks (S j)) x).
Proof.
  pose proof (dims_pos _ _ _ _ _ _ _ _ Adm Sol Rat) as (Hn & HC & Hm).
  destruct schedule as (tr & ks & cs & rest & T & Ec & Len & L1 & L2 & L3 & L4 & L5 & L6 & L7 & K0 & Ks & Kf & Rc & Rr & Pin). exists ks. split; [exact Pin|]. split; [exact K0|]. split; [exact Ks|].
  assert (Calls : forall cs, map fst (answers orc cs []) = cs) by (induction cs0 as [|c cs0 IH]; [reflexivity|]; rewrite answers_app; cbn; f_equal; auto).
  split; [|split; [|split]].
  - intros j x E. rewrite L1, nth_error_map in E. rewrite L3, L4, L6, !nth_error_map. destruct (nth_error (rev tr) j) as [f|] eqn:Ef; [|discriminate].
    cbn [option_map] in *. injection E as E. apply fins_inj in E. rewrite <- E, <- (Kf j f Ef). auto.
  - intros j x x' z al c [R1 R2 R3 (a & R4 & R5 & R6)]. fold st in R1, R2, R3. rewrite L1, nth_error_map in R1, R2. rewrite L2, nth_error_map in R3.
    destruct (nth_error (rev tr) (S j)) as [f|] eqn:Ef; [|discriminate]. destruct (nth_error (rev tr) j) as [f0|] eqn:Ef0; [|discriminate].
    cbn [option_map] in *. injection R1 as R1. injection R2 as R2. injection R3 as R3. apply fins_inj in R1, R2.
    destruct T as [(-> & _)|T]; [discriminate|]. destruct (trace_nth _ _ _ _ _ _ _ _ _ _ T _ _ Ef) as (c1 & a1 & N1 & A1 & Q1 & f0' & Ef0' & (F1 & F2 & F3 & F4 & F5)).
    rewrite Ef0 in Ef0'. injection Ef0' as <-.
    pose proof (nth_answers pr opt orc rest cs (S j) _ Rr N1) as N2. rewrite <- Ec, R4 in N2. injection N2 as <- <-.
    destruct A1 as (Z1 & Z2 & Z3). assert (Ez : forall i, 0 <= i < n -> qat (f_z f) i = qat z i) by (eapply answer_eq; eauto).
    assert (Lx : len x = n) by (rewrite <- R1; apply len_fx; apply Z.lt_le_incl; exact Hn).
    assert (Hs : exists s : Z -> Z, (forall i, s i = -1 \/ s i = 0 \/ s i = 1) /\ (o_perturbStep opt = false -> forall i, s i = 0) /\
      forall i, 0 <= i < n -> qat (f_base f) i = (qat x i + Q2Qc (inject_Z (s i)) * Qc_lit 2221 (-19))%Qc).
    { destruct (o_perturbStep opt).
      - destruct F3 as (s & S1 & S2). exists s. split; [exact S1|]. split; [discriminate|]. intros i Hi. rewrite S2, qat_tab by exact Hi. rewrite R1. reflexivity.
      - exists (fun _ => 0). split; [auto|]. split; [auto|]. intros i Hi. rewrite F3, R1. assert (E0 : Q2Qc (inject_Z 0) = 0%Qc) by (apply Qc_is_canon; reflexivity). rewrite E0. ring. }
    destruct Hs as (s & S1 & S2 & S3). exists s. split; [exact S1|]. split; [exact S2|]. cbv zeta.
    set (b := tab n (fun i => qat x i + Q2Qc (inject_Z (s i)) * Qc_lit 2221 (-19))%Qc).
    assert (Eb : forall i, 0 <= i < n -> qat (f_base f) i = qat b i) by (intros i Hi; unfold b; rewrite qat_tab by auto; auto).
    assert (Ed : forall i, 0 <= i < n -> qat (f_d e f) i = qat (vsub n z x) i) by (intros i Hi; unfold f_d, vsub; rewrite !qat_tab by auto; rewrite F2, R1, Ez by auto; reflexivity).
    split.
    { rewrite <- R2. unfold f_x, on_line. apply tab_ext. intros i Hi. rewrite Eb, Ed by auto. unfold vsub. rewrite qat_tab by auto. rewrite R3. reflexivity. }
    split; [exact Lx|]. rewrite <- (Kf _ _ Ef). split; [rewrite <- R3, F4; apply slope_ext; auto|]. rewrite F5, R1. reflexivity.
  - intros c E. destruct T as [(-> & ->)|T].
    + rewrite app_nil_r in Ec. rewrite Ec in E. destruct Rr as [->|(c' & ->)]; [discriminate|]. cbn in E. injection E as <-. exact (Rc c' eq_refl).
    + destruct (nth_error (rev tr) 0) as [f|] eqn:Ef.
      * destruct (trace_nth _ _ _ _ _ _ _ _ _ _ T _ _ Ef) as (c1 & a1 & N1 & A1 & Q1 & B). pose proof (nth_answers pr opt orc rest cs 0 _ Rr N1) as N2. rewrite <- Ec in N2.
        rewrite <- (Calls (s_calls (it o))), <- map_rev, nth_error_map, N2 in E. cbn in E. injection E as <-. apply B.
      * apply nth_error_None in Ef. rewrite rev_length in Ef. inversion T; subst; cbn in Ef; lia.
  - intros j c x E Ex. rewrite L1, nth_error_map in Ex. destruct (nth_error (rev tr) j) as [f0|] eqn:Ef0; [|discriminate]. cbn [option_map] in Ex. injection Ex as Ex. apply fins_inj in Ex.
    destruct T as [(-> & ->)|T]; [destruct j; discriminate|].
    destruct (nth_error (rev tr) (S j)) as [f|] eqn:Ef.
    + destruct (trace_nth _ _ _ _ _ _ _ _ _ _ T _ _ Ef) as (c1 & a1 & N1 & A1 & Q1 & f0' & Ef0' & (F1 & F2 & F3 & F4 & F5)). rewrite Ef0 in Ef0'. injection Ef0' as <-.
      pose proof (nth_answers pr opt orc rest cs (S j) _ Rr N1) as N2. rewrite <- Ec in N2.
      rewrite <- (Calls (s_calls (it o))), <- map_rev, nth_error_map, N2 in E. cbn in E. injection E as <-. rewrite F5, (Kf _ _ Ef), Ex. reflexivity.
    + apply nth_error_None in Ef. rewrite rev_length in Ef. assert (Hj : (j < length (rev tr))%nat) by (apply nth_error_Some; congruence). rewrite rev_length in Hj.
      assert (Ej : S j = length tr) by lia. assert (Hc : (S j < length (rev (s_calls (it o))))%nat) by (apply nth_error_Some; congruence).
      rewrite rev_length, Ec, app_length, <- Len in Hc. destruct Rr as [->|(c' & ->)]; [cbn in Hc; lia|]. specialize (Rc c' eq_refl).
      assert (Ecc : c = c').
      { rewrite Ec in E. cbn [app] in E. rewrite (nth_rev e) in E. rewrite <- Len, Ej, Nat.ltb_irrefl, Nat.eqb_refl in E. congruence. }
      subst c'. destruct tr as [|f tr]; [cbn in Hj; lia|]. destruct (rev (f :: tr)) eqn:E0; [destruct j; discriminate|].
      specialize (Rc f eq_refl). rewrite Rc, Ej. rewrite <- E0, (nth_rev e) in Ef0. cbn in Ej. replace j with (length tr) in Ef0 by lia.
      rewrite Nat.ltb_irrefl, Nat.eqb_refl in Ef0. injection Ef0 as <-. rewrite Ex. reflexivity.
Qed.
End Passes.

Lemma sub_nonneg a b : (a <= b -> 0 <= b - a)%Qc.
Proof. intros. qc. Qed.

Lemma slope_neg v w q : (v <= w -> 0 < q -> v - w - q * qhalf < 0)%Qc.
Proof. intros H P. assert (Hh : (0 < qhalf)%Qc) by reflexivity. generalize dependent qhalf. intros h Hh.
  assert (0 < q * h)%Qc by (clear H; qc). generalize dependent (q * h)%Qc. intros y Hy. qc. Qed.

Section Claims.
Variables (pr : problem) (opt : options xq) (orc : oracle xq) (rand : nat -> Z) (r0 fac : Qc) (r : ReturnValue) (o : lcqp xq).
Hypothesis Adm : admissible pr opt.
Hypothesis Sol : pr_solve pr opt orc rand = Ok (r, o).
Hypothesis Rat : rational_run pr opt orc o r0 fac.
Hypothesis Sto : o_storeSteps opt = true.
Let e := pr_data pr.
Let n := e_nV e.
Let off := box_duals pr opt.
Let st := getOutputStatistics o.

(** Every pass is recorded *)
Lemma c_seen j : (S j < length (st_xSteps st))%nat -> exists x x' z al c, recorded_pass pr orc o j x x' z al c.
Proof.
  intros Hj. destruct (nth_error (st_xSteps st) (S j)) as [x1|] eqn:E1; [|apply nth_error_None in E1; lia].
  destruct (pass_seen _ _ _ _ _ _ _ _ Adm Sol Rat Sto j x1 E1) as (f0 & f & c & a & P1 & P2 & P3 & P4 & P5 & P6 & _).
  exists (f_x e f0), (f_x e f), (f_z f), (f_a f), c. constructor; [exact P1|fold st; unfold e; rewrite <- P2; exact E1|exact P3|].
  exists a. split; [exact P4|]. split; [exact P5|]. destruct P6 as (Z1 & Z2 & _). split; [exact Z1|exact Z2].
Qed.

Lemma c15 j x x' z al c : recorded_pass pr orc o j x x' z al c ->
  exists s : Z -> Z, (forall i, s i = -1 \/ s i = 0 \/ s i = 1) /\ (o_perturbStep opt = false -> forall i, s i = 0) /\
    forall i, 0 <= i < n -> qat x' i = (qat x i + Q2Qc (inject_Z (s i)) * Qc_lit 2221 (-19) + al * (qat z i - qat x i))%Qc.
Proof.
  intros R. destruct (steps _ _ _ _ _ _ _ _ Adm Sol Rat Sto) as (ks1 & _ & _ & _ & _ & St & _). destruct (St _ _ _ _ _ _ R) as (s & S1 & S2 & S3 & _).
  exists s. split; [exact S1|]. split; [exact S2|]. intros i Hi. rewrite S3. fold e. fold n. rewrite qat_line by exact Hi. rewrite qat_tab by exact Hi. reflexivity.
Qed.

(** Linear part for updated penalties or no shift *)
Lemma lin_full k i : (0 < k)%nat \/ no_shift e -> 0 <= i < n -> t_lin e r0 fac k i = (qat (e_g e) i + t_rho r0 fac k * e_gphi e i)%Qc.
Proof. intros [Hk|Ns] Hi; destruct k; try lia; try reflexivity. unfold t_lin. rewrite (Ns i Hi). ring. Qed.

(** What a pass does *)
Definition c_step (ks : nat -> nat) : Prop := forall j x x' z al c, recorded_pass pr orc o j x x' z al c ->
  let rho := (r0 * fac ^ ks (S j))%Qc in
  (0 <= al <= 1)%Qc /\
  exists b, (o_perturbStep opt = false -> b = x) /\ (forall i, 0 <= i < n -> (qat x i - Qc_lit 2221 (-19) <= qat b i <= qat x i + Qc_lit 2221 (-19))%Qc) /\
    x' = on_line n b x z al /\
    (e_symmetric e -> (0 < ks (S j))%nat \/ no_shift e -> (qsum n (fun i => (qat z i - qat x i) * e_pengrad e rho b i) < 0)%Qc ->
     forall t, (0 <= t <= 1)%Qc -> (e_pen e rho x' <= e_pen e rho (on_line n b x z t))%Qc).
Lemma step_claims (ks : nat -> nat) j x x' z al c : step_of pr opt r0 fac ks j x x' z al c ->
  let rho := (r0 * fac ^ ks (S j))%Qc in
  (0 <= al <= 1)%Qc /\
  exists b, (o_perturbStep opt = false -> b = x) /\ (forall i, 0 <= i < n -> (qat x i - Qc_lit 2221 (-19) <= qat b i <= qat x i + Qc_lit 2221 (-19))%Qc) /\
    x' = on_line n b x z al /\
    (e_symmetric e -> (0 < ks (S j))%nat \/ no_shift e -> (qsum n (fun i => (qat z i - qat x i) * e_pengrad e rho b i) < 0)%Qc ->
     forall t, (0 <= t <= 1)%Qc -> (e_pen e rho x' <= e_pen e rho (on_line n b x z t))%Qc).
Proof.
  intros (s & S1 & S2 & S3 & Lx & S4 & S5). cbv zeta in *. fold e in S3, S4, Lx. fold n in S3, S4, Lx. set (b := tab n (fun i => qat x i + Q2Qc (inject_Z (s i)) * Qc_lit 2221 (-19))%Qc) in *.
  split; [rewrite S4; apply t_len_range|]. exists b. split.
  { intros Np. unfold b. rewrite <- Lx. transitivity (tab (len x) (qat x)); [|apply tab_at]. apply tab_ext. intros i Hi. rewrite (S2 Np i).
    assert (E0 : Q2Qc (inject_Z 0) = 0%Qc) by (apply Qc_is_canon; reflexivity). rewrite E0. ring. }
  split.
  { intros i Hi. unfold b. rewrite qat_tab by auto. assert (Pe : (0 <= Qc_lit 2221 (-19))%Qc) by (vm_compute; discriminate). set (ep := Qc_lit 2221 (-19)) in *. clearbody ep.
    assert (E1 : Q2Qc (inject_Z (-1)) = (- (1))%Qc) by (apply Qc_is_canon; reflexivity). assert (E0 : Q2Qc (inject_Z 0) = 0%Qc) by (apply Qc_is_canon; reflexivity).
    assert (E2 : Q2Qc (inject_Z 1) = 1%Qc) by (apply Qc_is_canon; reflexivity). clear - Pe S1 E0 E1 E2.
    destruct (S1 i) as [->|[->| ->]]; rewrite ?E0, ?E1, ?E2; split; qc. }
  split; [exact S3|]. intros Sy Hk Sl t Ht. set (rho := (r0 * fac ^ ks (S j))%Qc) in *. fold n in Sl.
  rewrite S3. unfold n. rewrite !pen_line by auto. fold n.
  assert (Esl : t_slope e r0 fac (ks (S j)) b (vsub n z x) = qsum n (fun i => (qat z i - qat x i) * e_pengrad e rho b i)%Qc).
  { unfold t_slope. apply qsum_ext. intros i Hi. unfold vsub. rewrite qat_tab by auto. rewrite lin_full by auto. unfold e_pengrad. fold (t_rho r0 fac (ks (S j))) in rho. change (t_rho r0 fac (ks (S j))) with rho. ring. }
  pose proof (best_step (t_slope e r0 fac (ks (S j)) b (vsub n z x)) (t_curv e r0 fac (ks (S j)) (vsub n z x)) t) as B. assert (Sl' : (t_slope e r0 fac (ks (S j)) b (vsub n z x) < 0)%Qc) by (rewrite Esl; exact Sl).
  specialize (B Sl' Ht).
  assert (B' : (al * t_slope e r0 fac (ks (S j)) b (vsub n z x) + al * al * (t_curv e r0 fac (ks (S j)) (vsub n z x) * qhalf) <=
    t * t_slope e r0 fac (ks (S j)) b (vsub n z x) + t * t * (t_curv e r0 fac (ks (S j)) (vsub n z x) * qhalf))%Qc) by (rewrite S4; exact B).
  clear B. rename B' into B. rewrite Esl in B. unfold t_curv in B. change (t_rho r0 fac (ks (S j))) with rho in B.
  fold n in B. set (A := qsum n _) in *. set (Cq := (qform (e_H e rho) n (vsub n z x) * qhalf)%Qc) in *.
  apply (le_by _ _ ((t * A + t * t * Cq) - (al * A + al * al * Cq))%Qc); [|ring]. apply sub_nonneg. exact B.
Qed.
Let ks := updates_after opt st.
Hypothesis Dyn : INT_MIN <= o_nDynamicPenalty opt <= INT_MAX.
Lemma pin ks' : pinned opt o ks' -> forall j, ks' j = ks j.
Proof. intros P j. exact (P Dyn j). Qed.
Lemma stepped : ks O = O /\ (forall j, (ks j <= ks (S j) <= ks j + 2)%nat) /\
  (forall j x, nth_error (st_xSteps st) j = Some (fins x) ->
     nth_error (st_objVals st) j = Some (Fin (e_obj e x)) /\ nth_error (st_phiVals st) j = Some (Fin (e_phi e x)) /\
     nth_error (st_meritVals st) j = Some (Fin (qdot n (e_g e) x + qform (e_H e (t_rho r0 fac (ks j))) n x * qhalf)%Qc)) /\
  (forall j x x' z al c, recorded_pass pr orc o j x x' z al c -> step_of pr opt r0 fac ks j x x' z al c) /\
  (forall c, nth_error (rev (s_calls (it o))) O = Some c -> qc_g c = g_first pr opt r0 fac) /\
  (forall j c x, nth_error (rev (s_calls (it o))) (S j) = Some c -> nth_error (st_xSteps st) j = Some (fins x) -> qc_g c = g_next pr r0 fac (ks (S j)) x).
Proof.
  destruct (steps _ _ _ _ _ _ _ _ Adm Sol Rat Sto) as (ks' & P & K0 & Ks & H1 & H2 & H3 & H4). pose proof (pin _ P) as E.
  split; [rewrite <- E; exact K0|]. split; [intros j; rewrite <- !E; apply Ks|]. split; [intros j x; rewrite <- E; apply H1|].
  split; [intros j x x' z al c R; pose proof (H2 _ _ _ _ _ _ R) as S; unfold step_of in *; rewrite <- E; exact S|]. split; [exact H3|]. intros j c x. rewrite <- E. apply H4.
Qed.

Lemma c16 : (forall j, (ks j <= ks (S j) <= ks j + 2)%nat) /\ c_step ks.
Proof.
  destruct stepped as (K0 & Ks & _ & St & _). split; [exact Ks|].
  intros j x x' z al c R. apply step_claims with (c := c). apply St. exact R.
Qed.

Lemma iterates_feasible : o_perturbStep opt = false -> feasible_answers pr orc o -> forall j x, nth_error (st_xSteps st) j = Some (fins x) -> feasible pr x.
Proof.
  intros Np Fe j x E. destruct (schedule _ _ _ _ _ _ _ _ Adm Sol Rat Sto) as (tr & ks1 & cs & rest & T & Ec & Len & L1 & _). unfold st in E. rewrite L1, nth_error_map in E.
  destruct (nth_error (rev tr) j) as [f|] eqn:Ef; [|discriminate]. cbn in E. injection E as E. apply fins_inj in E. rewrite <- E.
  destruct T as [(-> & _)|T]; [destruct j; discriminate|].
  eapply (feas_trace pr opt r0 fac); [exact T|exact Np| |apply in_rev; eapply nth_error_In; exact Ef].
  intros c a Hi Hq z Hz. apply (Fe c a z); auto. rewrite Ec. clear - Hi. induction rest as [|c' rest IH]; [exact Hi|]. cbn [app]. rewrite answers_app. right. auto.
Qed.

Lemma c17 : o_perturbStep opt = false -> e_symmetric e -> pos_def e -> feasible_answers pr orc o -> optimal_answers pr orc o ->
  forall j x x' z al c, recorded_pass pr orc o j x x' z al c -> (0 < ks (S j))%nat \/ no_shift e ->
    (e_pen e (r0 * fac ^ ks (S j)) x' <= e_pen e (r0 * fac ^ ks (S j)) x)%Qc.
Proof.
  intros Np Sy Pd Fe Op. destruct stepped as (K0 & Ks & _ & St & _).
  intros j x x' z al c R Hk. pose proof (St _ _ _ _ _ _ R) as Stp. destruct (step_claims _ _ _ _ _ _ _ Stp) as (A1 & b & B1 & _ & B3 & B4). specialize (B1 Np). subst b. specialize (B4 Sy Hk).
  destruct Stp as (s & _ & _ & _ & Lx & _ & Eg). fold e in Lx, Eg. fold n in Lx, Eg.
  set (rho := (r0 * fac ^ ks (S j))%Qc) in *. change (t_rho r0 fac (ks (S j))) with rho in Eg. set (d := vsub n z x).
  pose proof (iterates_feasible Np Fe j x (rp_from _ _ _ _ _ _ _ _ _ R)) as Fx.
  destruct (rp_answer _ _ _ _ _ _ _ _ _ R) as (a & R4 & R5 & R6). assert (Ia : In (c, a) (answers orc (s_calls (it o)) [])) by (apply in_rev; eapply nth_error_In; exact R4).
  set (g := tab n (fun i => rho * mv (e_C e) n x i + t_lin e r0 fac (ks (S j)) i)%Qc) in *.
  pose proof (Op c a z g x Ia R5 R6 Eg Lx Fx) as Ov. fold e in Ov.
  (* slope *)
  set (sl := qsum n (fun i => (qat z i - qat x i) * e_pengrad e rho x i)%Qc) in *.
  assert (Ez : qform (e_Q e) n z = qform (e_Q e) n (on_line n x x z 1)).
  { unfold qform. apply qsum_ext. intros i Hi. rewrite qat_line by auto. rewrite (mv_ext_x _ n z (on_line n x x z 1)); [f_equal; ring|]. intros k Hk'. rewrite qat_line by auto. ring. }
  assert (Eq : (qp_value e g z - qp_value e g x = sl + qform (e_Q e) n d * qhalf)%Qc).
  { unfold qp_value. fold n. rewrite Ez, qform_line by exact Sy. fold d. unfold qdot.
    rewrite (qsum_ext n (fun i => qat g i * qat z i)%Qc (fun i => qat g i * qat x i + qat d i * qat g i)%Qc) by (intros i Hi; unfold d, vsub; rewrite (qat_tab _ (fun i => (qat z i - qat x i)%Qc)) by auto; ring).
    rewrite qsum_add.
    assert (Es : sl = (qsum n (fun i => qat d i * mv (e_Q e) n x i) + qsum n (fun i => qat d i * qat g i))%Qc).
    { unfold sl. rewrite <- qsum_add. apply qsum_ext. intros i Hi. unfold d, vsub, g. rewrite !qat_tab by auto. rewrite lin_full by auto. change (t_rho r0 fac (ks (S j))) with rho. unfold e_pengrad. fold n.
      unfold n. rewrite mv_H. ring. }
    rewrite Es. set (A := qsum n (fun i => qat d i * mv (e_Q e) n x i)%Qc). set (B := qsum n (fun i => qat d i * qat g i)%Qc).
    transitivity ((1 + 1) * A * qhalf + B + qform (e_Q e) n d * qhalf)%Qc; [ring|]. rewrite half2. ring. }
  destruct (existsb (fun i => negb (Qc_eqb (qat d i) 0)) (tab n (fun i => i))) eqn:Ex.
  - apply existsb_exists in Ex. destruct Ex as (i & Hi & Hne). apply negb_true_iff in Hne.
    assert (Hi' : 0 <= i < n). { unfold tab in Hi. apply in_map_iff in Hi. destruct Hi as (k & <- & Hk'). apply in_seq in Hk'. lia. }
    assert (Hn : 0 <= n) by lia.
    assert (Pq : (0 < qform (e_Q e) n d)%Qc).
    { apply Pd; [apply len_tab; exact Hn|]. exists i. split; [exact Hi'|]. intros C. rewrite <- Qc_eqb_spec in C. congruence. }
    assert (Hs : (sl < 0)%Qc).
    { assert (Eq2 : (sl = (qp_value e g z - qp_value e g x) - qform (e_Q e) n d * qhalf)%Qc) by (rewrite Eq; ring).
      rewrite Eq2. apply slope_neg; auto. }
    specialize (B4 Hs 0%Qc). assert (T0 : (0 <= 0 <= 1)%Qc) by (split; discriminate). specialize (B4 T0).
    assert (Elx : on_line n x x z 0 = x).
    { unfold on_line. rewrite <- Lx at 1. transitivity (tab (len x) (qat x)); [|apply tab_at]. apply tab_ext. intros k Hk'. ring. }
    rewrite Elx in B4. exact B4.
  - assert (Hd : forall i, 0 <= i < n -> qat d i = 0%Qc).
    { intros i Hi. destruct (Qc_eqb (qat d i) 0) eqn:E0; [apply Qc_eqb_spec; auto|]. exfalso. assert (existsb (fun i => negb (Qc_eqb (qat d i) 0)) (tab n (fun i => i)) = true); [|congruence].
      apply existsb_exists. exists i. split; [unfold tab; apply in_map_iff; exists (Z.to_nat i); split; [lia|apply in_seq; lia]|rewrite E0; reflexivity]. }
    assert (Exx : x' = x).
    { rewrite B3. unfold on_line. rewrite <- Lx at 1. transitivity (tab (len x) (qat x)); [|apply tab_at]. apply tab_ext. intros i Hi. rewrite Lx in Hi. specialize (Hd i Hi). unfold d, vsub in Hd. rewrite qat_tab in Hd by auto.
      rewrite Hd. ring. }
    rewrite Exx. apply Qcle_refl.
Qed.

Lemma len_g : len (e_g e) = n.
Proof.
  unfold n, e. destruct pr as [u|u]; cbn in Adm.
  - destruct Adm as (_ & W & _). pose proof (wv_g _ (wu_v _ W)) as H. cbn in H. rewrite len_fins in H. exact H.
  - destruct Adm as (_ & W & _). pose proof (wv_g _ (ws_v _ W)) as H. cbn in H. rewrite len_fins in H. exact H.
Qed.
Lemma c18 :
  (forall c, nth_error (rev (s_calls (it o))) O = Some c ->
     if o_solveZeroPenaltyFirst opt then qc_g c = fins (e_g e) else no_shift e -> qc_g c = penalised_term e r0 (pr_x0 pr)) /\
  (forall j c x, nth_error (rev (s_calls (it o))) (S j) = Some c -> nth_error (st_xSteps st) j = Some (fins x) ->
     (0 < ks (S j))%nat \/ no_shift e -> qc_g c = penalised_term e (r0 * fac ^ ks (S j)) x).
Proof.
  destruct stepped as (K0 & Ks & _ & _ & C1 & C2). split.
  - intros c E. specialize (C1 c E). rewrite C1. unfold g_first. fold e. fold n. destruct (o_solveZeroPenaltyFirst opt).
    + rewrite <- len_g. f_equal. apply tab_at.
    + intros Ns. unfold penalised_term. fold n. f_equal. apply tab_ext. intros i Hi. rewrite (Ns i Hi). unfold t_rho. cbn [Qcpower]. ring.
  - intros j c x E Ex Hk. rewrite (C2 j c x E Ex). unfold g_next, penalised_term. fold e. fold n. f_equal. apply tab_ext. intros i Hi. rewrite lin_full by auto. unfold t_rho. ring.
Qed.
Lemma c34 j x : nth_error (st_xSteps st) j = Some (fins x) ->
  nth_error (st_objVals st) j = Some (Fin (e_obj e x)) /\ nth_error (st_phiVals st) j = Some (Fin (e_phi e x)).
Proof.
  intros E. destruct (steps _ _ _ _ _ _ _ _ Adm Sol Rat Sto) as (ks1 & _ & _ & _ & H & _). destruct (H j x E) as (H1 & H2 & _). auto.
Qed.
Lemma c39 :
  forall j x, nth_error (st_xSteps st) j = Some (fins x) ->
    nth_error (st_meritVals st) j = Some (Fin (qdot n (e_g e) x + qform (fun a b => e_Q e a b + r0 * fac ^ ks j * e_C e a b) n x * qhalf)%Qc).
Proof.
  destruct stepped as (K0 & Ks & H & _).
  intros j x E. destruct (H j x E) as (_ & _ & H3). exact H3.
Qed.

Lemma peak_of l : len l = n -> 0 <= n -> exists v, maxabs (fins l) n = Fin v /\ max_norm n (qat l) v.
Proof.
  intros L Hn. destruct (max_abs (fins l) n) as (v & E & B & V).
  - rewrite len_fins. lia.
  - intros i Hi. change (@a_zero xq _) with (Fin 0). rewrite at_fins. discriminate.
  - rewrite MaxAbs_ok in E by (rewrite ?len_fins; lia). injection E as E. change (@a_zero xq _) with (Fin 0) in *.
    assert (Ab : forall q, a_abs (Fin q) = Fin (if Qc_ltb q 0 then (- q)%Qc else q)) by reflexivity.
    assert (Fv : exists q, v = Fin q) by (destruct V as [->|(i & _ & ->)]; [eauto|rewrite at_fins, Ab; eauto]).
    destruct Fv as (q & ->). exists q. split; [exact E|]. split.
    + intros i Hi. specialize (B i Hi). rewrite at_fins, Ab in B. apply Qc_leb_spec in B. clear - B. destruct (Qc_ltb (qat l i) 0) eqn:E1.
      * apply Qc_ltb_spec in E1. split; qc.
      * apply Qc_ltb_false in E1. split; qc.
    + destruct V as [V|(i & Hi & V)]; [left; exact (f_equal (fun t => match t with Fin q => q | _ => q end) V)|right]. exists i. split; [exact Hi|].
      rewrite at_fins, Ab in V. apply (f_equal (fun t => match t with Fin q => q | _ => q end)) in V. rewrite V. destruct (Qc_ltb (qat l i) 0); auto.
Qed.
Lemma norm_ext f g v : (forall i, 0 <= i < n -> f i = g i) -> max_norm n f v -> max_norm n g v.
Proof.
  intros E (A & B). split; [intros i Hi; rewrite <- E by auto; apply A; auto|]. destruct B as [B|(i & Hi & B)]; [auto|right]. exists i. rewrite <- E by auto. auto.
Qed.
Lemma c67_stat j x c a y : nth_error (st_xSteps st) j = Some (fins x) -> nth_error (rev (answers orc (s_calls (it o)) [])) j = Some (c, a) ->
  dual_answer (o_qpSolver opt) (off + e_nA e) a y -> (0 < ks j)%nat \/ no_shift e ->
  exists v, nth_error (st_statVals st) j = Some (Fin v) /\
    max_norm n (fun i => e_lagrangian e off x y i + r0 * fac ^ ks j * (mv (e_C e) n x i + e_gphi e i))%Qc v.
Proof.
  intros Ex Ea (Ly & Ey) Hk. pose proof (dims_pos _ _ _ _ _ _ _ _ Adm Sol Rat) as Hd.
  destruct (schedule _ _ _ _ _ _ _ _ Adm Sol Rat Sto) as (tr & ks' & cs & rest & T & Ec & Len & L1 & L2 & L3 & L4 & L5 & L6 & L7 & K0 & Ks & Kf & Rc & Rr & Pin).
  fold st in L1, L5. rewrite L1, nth_error_map in Ex. rewrite L5, nth_error_map. destruct (nth_error (rev tr) j) as [f|] eqn:Ef; [|discriminate].
  cbn [option_map] in *. injection Ex as Ex. apply fins_inj in Ex. destruct T as [(-> & _)|T]; [destruct j; discriminate|].
  destruct (trace_nth _ _ _ _ _ _ _ _ _ _ T _ _ Ef) as (c1 & a1 & N1 & A1 & _).
  pose proof (nth_answers pr opt orc rest cs j _ Rr N1) as N2. rewrite <- Ec, Ea in N2. injection N2 as <- <-. destruct A1 as (_ & _ & Z3 & Z4).
  pose proof (Kf _ _ Ef) as Ek. rewrite (pin _ Pin) in Ek.
  assert (Hn : 0 <= n) by (unfold n, e; lia).
  destruct (peak_of (f_res e r0 fac off f) (len_tab _ _ Hn) Hn) as (v & V1 & V2). exists v. split; [f_equal; exact V1|].
  eapply norm_ext; [|exact V2]. intros i Hi. cbv beta.
  assert (Eyy : forall k, 0 <= k < off + e_nA e -> qat (f_y f) k = qat y k).
  { intros k Hk'. specialize (Z4 k Hk'). specialize (Ey k Hk'). rewrite Z4 in Ey. apply (f_equal (fun t => match t with Fin q => q | _ => 0%Qc end)) in Ey. clear - Ey. destruct (o_qpSolver opt); cbn beta iota in Ey; try exact Ey.
    rewrite <- (Qcopp_involutive (qat (f_y f) k)), Ey. apply Qcopp_involutive. }
  pose proof (off_cases pr opt r0 fac) as Of. fold off in Of. fold e in Of. assert (HA : 0 <= e_nC e /\ 0 <= e_nComp e) by (unfold e; lia).
  unfold f_res. unfold n. rewrite qat_tab by exact Hi. rewrite rows_split by (unfold e; lia). rewrite mv_H, Ek. rewrite lin_full by auto. unfold e_lagrangian. fold n. rewrite <- Ex.
  unfold t_rho. fold e. 
  rewrite (qsum_ext (e_nC e) (fun i0 => e_A e i0 i * qat (f_yA e off f) i0)%Qc (fun i0 => e_A e i0 i * qat y (off + i0))%Qc)
    by (intros; unfold f_yA; rewrite qat_tab by (unfold e_nA; lia); rewrite Eyy by (unfold e_nA; lia); reflexivity).
  rewrite (qsum_ext (e_nComp e) (fun i0 => e_L e i0 i * qat (f_yA e off f) (e_nC e + i0))%Qc (fun i0 => e_L e i0 i * qat y (off + e_nC e + i0))%Qc)
    by (intros; unfold f_yA; rewrite qat_tab by (unfold e_nA; lia); rewrite Eyy by (unfold e_nA; lia); rewrite Z.add_assoc; reflexivity).
  rewrite (qsum_ext (e_nComp e) (fun i0 => e_R e i0 i * qat (f_yA e off f) (e_nC e + e_nComp e + i0))%Qc (fun i0 => e_R e i0 i * qat y (off + e_nC e + e_nComp e + i0))%Qc)
    by (intros; unfold f_yA; rewrite qat_tab by (unfold e_nA; lia); rewrite Eyy by (unfold e_nA; lia); rewrite !Z.add_assoc; reflexivity).
  assert (EB : (if 0 <? off then qat (f_y f) i else 0)%Qc = (if 0 <? off then qat y i else 0)%Qc).
  { destruct (Z.ltb_spec 0 off); [|reflexivity]. apply Eyy. unfold n in Hi. destruct Of as [Of|Of]; unfold e_nA; lia. }
  rewrite EB. ring.
Qed.
Lemma c67_size j c a z : nth_error (rev (answers orc (s_calls (it o)) [])) j = Some (c, a) -> qp_error c a = None -> primal_answer n a z ->
  forall x, match j with O => x = pr_x0 pr | S i => nth_error (st_xSteps st) i = Some (fins x) end -> (j < length (st_xSteps st))%nat ->
  exists v, nth_error (st_stepSize st) j = Some (Fin v) /\ max_norm n (fun i => qat z i - qat x i)%Qc v.
Proof.
  intros Ea Qa Pz x Hx Hj. pose proof (dims_pos _ _ _ _ _ _ _ _ Adm Sol Rat) as Hd.
  destruct (schedule _ _ _ _ _ _ _ _ Adm Sol Rat Sto) as (tr & ks' & cs & rest & T & Ec & Len & L1 & L2 & L3 & L4 & L5 & L6 & L7 & _ & _ & _ & _ & Rr & _).
  fold st in L1, L7. rewrite L1, map_length in Hj. rewrite L7, nth_error_map. destruct (nth_error (rev tr) j) as [f|] eqn:Ef; [|apply nth_error_None in Ef; lia].
  cbn [option_map]. destruct T as [(-> & _)|T]; [destruct j; discriminate|].
  destruct (trace_nth _ _ _ _ _ _ _ _ _ _ T _ _ Ef) as (c1 & a1 & N1 & A1 & _ & M).
  pose proof (nth_answers pr opt orc rest cs j _ Rr N1) as N2. rewrite <- Ec, Ea in N2. injection N2 as <- <-. destruct A1 as (Z1 & Z2 & _).
  assert (Hn : 0 <= n) by (unfold n, e; lia).
  destruct (peak_of (f_d e f) (len_tab _ _ Hn) Hn) as (v & V1 & V2). exists v. split; [f_equal; exact V1|].
  eapply norm_ext; [|exact V2]. intros i Hi. cbv beta. unfold f_d, n. rewrite qat_tab by exact Hi.
  rewrite (answer_eq n a z (f_z f) Pz Z1 Z2 i Hi).
  assert (Ep : f_prev f = x); [|rewrite Ep; reflexivity].
  destruct j as [|j].
  - destruct M as (_ & M & _). rewrite Hx. exact M.
  - destruct M as (f0 & E0 & (_ & F2 & _)). rewrite L1, nth_error_map, E0 in Hx. cbn in Hx. injection Hx as Hx. apply fins_inj in Hx. rewrite F2. exact Hx.
Qed.
Lemma c67_seen j : (j < length (st_xSteps st))%nat ->
  exists x x' c a z y, match j with O => x = pr_x0 pr | S i => nth_error (st_xSteps st) i = Some (fins x) end /\ nth_error (st_xSteps st) j = Some (fins x') /\
    nth_error (rev (answers orc (s_calls (it o)) [])) j = Some (c, a) /\ qp_error c a = None /\ primal_answer n a z /\ dual_answer (o_qpSolver opt) (off + e_nA e) a y.
Proof.
  intros Hj. pose proof (dims_pos _ _ _ _ _ _ _ _ Adm Sol Rat) as Hd.
  destruct (schedule _ _ _ _ _ _ _ _ Adm Sol Rat Sto) as (tr & ks' & cs & rest & T & Ec & Len & L1 & L2 & L3 & L4 & L5 & L6 & L7 & _ & _ & _ & _ & Rr & _).
  fold st in L1. rewrite L1, map_length in Hj. destruct (nth_error (rev tr) j) as [f|] eqn:Ef; [|apply nth_error_None in Ef; lia].
  destruct T as [(-> & _)|T]; [destruct j; discriminate|].
  destruct (trace_nth _ _ _ _ _ _ _ _ _ _ T _ _ Ef) as (c & a & N1 & A1 & Q1 & M). destruct A1 as (Z1 & Z2 & Z3 & Z4).
  pose proof (nth_answers pr opt orc rest cs j _ Rr N1) as N2. rewrite <- Ec in N2.
  exists (f_prev f), (f_x e f), c, a, (f_z f), (f_y f). split; [|split; [rewrite L1, nth_error_map, Ef; reflexivity|]; split; [exact N2|]; split; [exact Q1|]; split; split; assumption].
  destruct j as [|j]; [apply M|]. destruct M as (f0 & E0 & (_ & F2 & _)). rewrite L1, nth_error_map, E0, F2. reflexivity.
Qed.
End Claims.
