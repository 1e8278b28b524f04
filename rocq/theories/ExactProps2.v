(** * ExactProps2: facts about whole runs on rational data (no LCQPow code). *)
From Coq Require Import QArith Qcanon Lqa.
From Verif Require Import Base Arith Codes Utilities Options Stats FileIO Subsolver State LCQProblem Tactics Loops Kernels Exact SpecSparse CscKernels CscBuild SpecMath QSum
  KernelProps2 SpecLoad SpecExact SpecRun SpecTrace SpecSolve Spec RunControl RunFacts RunProps PenaltyExact Control LoadDense LoadSparse StartDense StartSparse ExactOps ExactDense ExactRun ExactProps.
Open Scope Z_scope.

Local Arguments Qc_ltb : simpl never.
Local Arguments Qc_leb : simpl never.

(** A successful run makes at least one pass *)
Lemma success_total orc rand (o1 o : lcqp xq) : runSolver orc rand o1 = Ok (SUCCESSFUL_RETURN, o) -> started o1 o -> 0 < st_iterTotal (getOutputStatistics o).
Proof.
  intros E St. destruct (run_post _ _ _ _ _ _ E St) as (o2 & E1 & Epd & Eo2 & CP & _ & _ & RE). remember SUCCESSFUL_RETURN as r eqn:Hr.
  assert (Et : st_iterTotal (getOutputStatistics o) = s_totalIter (it o)) by exact (cp_total _ _ _ _ CP). rewrite Et. clear E Et.
  destruct RE as [r o3 E2 Er|r o3 s1 E2 E3|r d s s' P Ep].
  - subst r. discriminate.
  - apply first_solve_inv in E3. inversion E3 as [g s2 r' Es Er|]; subst. discriminate.
  - pose proof (run_total_pos _ _ _ _ _ P). destruct (pass_end_total _ _ _ _ _ _ Ep) as (Et & _). cbn [it]. lia.
Qed.

Section Run.
Variables (pr : problem) (opt : options xq) (orc : oracle xq) (rand : nat -> Z) (r0 fac : Qc) (r : ReturnValue) (o : lcqp xq).
Hypothesis Adm : admissible pr opt.
Hypothesis Sol : pr_solve pr opt orc rand = Ok (r, o).
Hypothesis Rat : rational_run pr opt orc o r0 fac.
Let e := pr_data pr.
Let n := e_nV e.
Let off := box_duals pr opt.
Let tr_ := trace e r0 fac off (o_solveZeroPenaltyFirst opt) (o_perturbStep opt) (o_qpSolver opt) (pr_x0 pr).
Let fol := follows e r0 fac (o_perturbStep opt).

Lemma dims_pos : 0 < n /\ 0 <= e_nC e /\ 0 <= e_nComp e.
Proof.
  destruct pr as [u|u]; cbn in Adm.
  - destruct Adm as (_ & W & _). pose proof (wu_v _ W) as V. pose proof (wv_nV _ V) as H1. pose proof (wv_nC _ V) as H2. pose proof (wv_nComp _ V) as H3.
    unfold n, e. cbn in *. lia.
  - destruct Adm as (_ & W & _). pose proof (ws_v _ W) as V. pose proof (wv_nV _ V) as H1. pose proof (wv_nC _ V) as H2. pose proof (wv_nComp _ V) as H3.
    unfold n, e. cbn in *. lia.
Qed.
Lemma off_cases : off = 0 \/ off = n.
Proof. unfold off, box_duals. destruct (o_qpSolver opt); auto. Qed.

Lemma off_nonneg : 0 <= off + e_nA e.
Proof. pose proof dims_pos as (H1 & H2 & H3). unfold e_nA. destruct off_cases as [->| ->]; lia. Qed.
Lemma out : outcome pr opt orc r0 fac r o.
Proof. eapply solved; eauto. Qed.

(** The answers to all QPs *)
Lemma answers_app c cs : answers orc (c :: cs) [] = (c, orc (c :: cs)) :: answers orc cs [].
Proof. cbn. rewrite app_nil_r. reflexivity. Qed.
Lemma answers_len cs : length (answers orc cs []) = length cs.
Proof. induction cs as [|c cs IH]; [reflexivity|]. rewrite answers_app. cbn. auto. Qed.

(** The run as a list of frames; [rest] is a failing last QP *)
Lemma view : exists tr rest cs, s_calls (it o) = rest ++ cs /\ ((tr = [] /\ cs = []) \/ tr_ tr (answers orc cs [])) /\ shown pr opt r0 fac o tr /\
  (rest = [] \/ exists c, rest = [c] /\ r <> SUCCESSFUL_RETURN).
Proof.
  destruct out as (D1 & D2 & _ & [(N & (c & C & _) & X & S)|(f & tr & k & cs & T & C & Rh & Ou & Hk & X & S & Su & Pc)]).
  - exists [], [c], []. split; [auto|]. split; [auto|]. split; [auto|]. eauto.
  - destruct C as [C|(c & C & N & _)].
    + exists (f :: tr), [], cs. auto.
    + exists (f :: tr), [c], cs. split; [auto|]. split; [auto|]. split; [auto|]. eauto.
Qed.

Lemma nth_answers rest cs j x : (rest = [] \/ exists c : qp_call xq, rest = [c]) -> nth_error (rev (answers orc cs [])) j = Some x ->
  nth_error (rev (answers orc (rest ++ cs) [])) j = Some x.
Proof.
  intros [->|(c & ->)] E; [exact E|]. cbn [app]. rewrite answers_app, (nth_rev e).
  assert (j < length (answers orc cs []))%nat. { rewrite <- rev_length. apply nth_error_Some. congruence. }
  destruct (Nat.ltb_spec j (length (answers orc cs []))); [auto|lia].
Qed.

(** A recorded pass is a frame *)
Lemma pass_seen : o_storeSteps opt = true -> forall j x1, nth_error (st_xSteps (getOutputStatistics o)) (S j) = Some x1 ->
  exists f0 f c a, nth_error (st_xSteps (getOutputStatistics o)) j = Some (fins (f_x e f0)) /\ x1 = fins (f_x e f) /\
    nth_error (st_stepLength (getOutputStatistics o)) (S j) = Some (Fin (f_a f)) /\
    nth_error (rev (answers orc (s_calls (it o)) [])) (S j) = Some (c, a) /\ qp_error c a = None /\ f_answer e off (o_qpSolver opt) f a /\ fol f0 f c /\
    exists tr cs, tr_ tr cs /\ nth_error (rev tr) (S j) = Some f /\ nth_error (rev tr) j = Some f0.
Proof.
  intros Hs j x1 E. destruct view as (tr & rest & cs & Ec & T & Sh & Rs). specialize (Sh Hs). cbv zeta in Sh. fold e in Sh.
  assert (Sx : st_xSteps (getOutputStatistics o) = map (fun f => fins (f_x e f)) (rev tr)) by exact (f_equal (fun t => fst (fst (fst (fst (fst (fst t)))))) Sh).
  assert (Sl : st_stepLength (getOutputStatistics o) = map (fun f => Fin (f_a f)) (rev tr)) by exact (f_equal (fun t => snd (fst (fst (fst (fst (fst t)))))) Sh).
  rewrite Sx in E. rewrite Sx, Sl.
  rewrite nth_error_map in E. destruct (nth_error (rev tr) (S j)) as [f|] eqn:Ef; [|discriminate]. injection E as <-.
  destruct T as [(-> & _)|T]; [discriminate|].
  destruct (trace_nth _ _ _ _ _ _ _ _ _ _ T _ _ Ef) as (c & a & E1 & A1 & Q1 & f0 & E0 & F).
  exists f0, f, c, a. rewrite !nth_error_map, E0, Ef. cbn [option_map]. split; [reflexivity|]. split; [reflexivity|]. split; [reflexivity|].
  split; [rewrite Ec; apply nth_answers; [destruct Rs as [->|(c' & -> & _)]; eauto|exact E1]|]. split; [auto|]. split; [auto|]. split; [exact F|].
  exists tr, (answers orc cs []). auto.
Qed.

(** ** The final iterate *)
Lemma returned : exists x, returns_primal o x /\
  ((x = pr_x0 pr /\ exists c, s_calls (it o) = [c] /\ qp_error c (orc [c]) <> None) \/
   exists f tr rest cs, tr_ (f :: tr) (answers orc cs []) /\ s_calls (it o) = rest ++ cs /\ x = f_x e f).
Proof.
  pose proof dims_pos as (Hn & _). destruct out as (D1 & D2 & (a & Ha) & [(N & (c & C & Q & _) & X & S)|(f & tr & k & cs & T & C & Rh & Ou & Hk & X & S & Su & Pc)]).
  - exists (pr_x0 pr). split; [|left; split; [auto|exists c; split; [auto|congruence]]]. eapply primal_of; eauto. fold e.
    destruct pr as [u|u]; [apply dense_x0; apply Adm|apply sparse_x0; apply Adm].
  - exists (f_x e f). split; [eapply primal_of; eauto; apply len_fx; apply Z.lt_le_incl; exact Hn|]. right. exists f, tr.
    destruct C as [C|(c & C & _)]; [exists [], cs|exists [c], cs]; auto.
Qed.

(** Success *)
Lemma success : r = SUCCESSFUL_RETURN -> exists f tr, tr_ (f :: tr) (answers orc (s_calls (it o)) []) /\
  returns_primal o (f_x e f) /\ returns_dual o (f_duals e r0 fac off f) /\
  s_rho (it o) = Fin (t_rho r0 fac (f_k f)) /\ s_outerIter (it o) = Z.of_nat (f_k f) /\
  a_lt (maxabs (fins (f_res e r0 fac off f)) n) (o_stationarityTolerance opt) = true /\
  a_lt (Fin (e_phi e (f_x e f))) (o_complementarityTolerance opt) = true /\
  s_algoStat (it o) = Some (classed pr opt (f_yA e off f) (weak_pairs pr opt (f_x e f)) true true).
Proof.
  intros Er. pose proof dims_pos as (Hn & HC & Hm). destruct out as (D1 & D2 & (a & Ha) & [(N & _)|(f & tr & k & cs & T & C & Rh & Ou & Hk & X & S & Su & Pc)]); [contradiction|].
  destruct (Su Er) as (S1 & S2 & S3 & S4 & S5 & S6). exists f, tr. rewrite S1. split; [exact T|].
  split; [eapply primal_of; eauto; apply len_fx; apply Z.lt_le_incl; exact Hn|].
  split; [eapply dual_of; eauto; apply len_tab; apply off_nonneg|]. subst k. auto 10.
Qed.

(** Statistics of a successful run *)
Lemma success_stats : r = SUCCESSFUL_RETURN -> (0 < r0)%Qc -> (0 < fac)%Qc ->
  st_rhoOpt (getOutputStatistics o) = s_rho (it o) /\ st_iterOuter (getOutputStatistics o) = s_outerIter (it o).
Proof.
  intros Er P0 Pf. destruct (pr_run _ _ _ _ _ _ Adm Sol) as (o1 & E & Eo & Ec).
  assert (St : started o1 o). { unfold started. rewrite Ec. destruct (success Er) as (f & tr & T & _). intros C. rewrite C in T. inversion T. }
  destruct (run_post _ _ _ _ _ _ E St) as (o2 & E1 & Epd & Eo2 & CP & _ & _ & RE).
  split; [|apply (cp_outer _ _ _ _ CP)].
  assert (Tot : 0 < st_iterTotal (getOutputStatistics o)) by (rewrite Er in E; apply (success_total _ _ _ _ E); exact St).
  destruct Rat as ((F1 & F2 & _) & _).
  assert (Hpos : forall k, a_le (rho_seq o1 k) a_zero = false).
  { intros k. rewrite (rho_seq_fin _ r0 fac) by (rewrite Eo; auto). change a_zero with (Fin 0). apply fin_le_f.
    assert (0 < fac ^ k)%Qc. { induction k; cbn; [reflexivity|]. clear - IHk Pf. qc. } clear - H P0. qc. }
  destruct (run_penalty _ _ _ _ _ _ E St Hpos Tot) as (_ & R1 & _). rewrite R1.
  rewrite (cp_rho _ _ _ _ CP).
  assert (Eu : st_iterOuter (getOutputStatistics o) = s_outerIter (it o)) by exact (cp_outer _ _ _ _ CP). rewrite Eu. unfold rho_seq, Control.next_rho.
  assert (Ed : d_options (pd o2) = d_options (pd o1)) by (rewrite <- Epd; exact Eo2). rewrite Ed. reflexivity.
Qed.
End Run.
