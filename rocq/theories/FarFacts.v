(** * FarFacts: a dynamic penalty that needs more past values than there can be is off (proofs; no LCQPow code). *)
From Verif Require Import Base Arith Codes Utilities Options Stats FileIO Subsolver State LCQProblem Tactics Loops Frames Control RunControl RunProps LifeFacts SpecFar.

Section Rel.
Context {T : Type} `{Arith T}.
(** No LCQPow code. *)
Definition no_ (a : options T) : options T :=
  mkOptions (o_stationarityTolerance a) (o_complementarityTolerance a) (o_initialPenaltyParameter a) (o_penaltyUpdateFactor a) (o_solveZeroPenaltyFirst a) (o_perturbStep a)
    (o_maxIterations a) (o_maxPenaltyParameter a) 0 (o_etaDynamicPenalty a) (o_printLevel a) (o_storeSteps a) (o_qpSolver a).
(** Iteration data with other past values.  No LCQPow code. *)
Definition nI (h : list T) (s : iter T) : iter T := set_complHistory h s.
(** Problem data with the dynamic penalty off.  No LCQPow code. *)
Definition nD (d : pdata T) : pdata T := set_d_options (no_ (d_options d)) d.
(** The object with both.  No LCQPow code. *)
Definition nO (h : list T) (o : lcqp T) : lcqp T := mkLcqp (nD (pd o)) (nI h (it o)).
(** Relations between an execution and the same execution with the dynamic penalty off.  No LCQPow code. *)
Definition fI (s s' : iter T) : Prop := s' = nI (s_complHistory s') s.
(** The same for a pair with a result.  No LCQPow code. *)
Definition fP {X} (a b : X * iter T) : Prop := fst b = fst a /\ fI (snd a) (snd b).
(** The same for a pair with an exit code.  No LCQPow code. *)
Definition fX {X} (a b : iter T * X) : Prop := snd b = snd a /\ fI (fst a) (fst b).
(** The same for problem data.  No LCQPow code. *)
Definition fD (a b : pdata T) : Prop := b = nD a.
(** The same for an object.  No LCQPow code. *)
Definition fO (a b : lcqp T) : Prop := b = nO (s_complHistory (it b)) a.
(** The same for a return value and an object.  No LCQPow code. *)
Definition fR (a b : ReturnValue * lcqp T) : Prop := fst b = fst a /\ fO (snd a) (snd b).
Lemma fI_inv s s' : fI s s' -> exists h, s' = nI h s.
Proof. eexists; eassumption. Qed.
Lemma fO_inv o o' : fO o o' -> exists h, o' = nO h o.
Proof. eexists; eassumption. Qed.
End Rel.

Ltac far_split1 :=
  match goal with
  | H : fI _ ?b |- _ => apply fI_inv in H; destruct H as [? ->]
  | H : fO _ ?b |- _ => apply fO_inv in H; destruct H as [? ->]
  | H : fD _ ?b |- _ => red in H; subst b
  | H : fP ?a ?b |- _ => destruct a, b; destruct H as [? ?]; cbn [fst snd] in *
  | H : fX ?a ?b |- _ => destruct a, b; destruct H as [? ?]; cbn [fst snd] in *
  | H : fR ?a ?b |- _ => destruct a, b; destruct H as [? ?]; cbn [fst snd] in *
  end.
Ltac far_split := repeat far_split1; subst.
Ltac far_step :=
  match goal with
  | |- ro _ (bind _ _) (bind _ _) => eapply ro_bind; [ apply ro_eq | intros; far_split; cbv beta zeta ]
  | |- ro _ (Ok _) (Ok _) => simpl; repeat split; reflexivity
  | |- ro _ (UB _) _ => exact I
  | |- ro _ (match ?b with _ => _ end) (match ?b' with _ => _ end) => first [ change b' with b; destruct b | destruct b ]
  end.

Section Facts.
Context {T : Type} `{Arith T}.
Variables (orc : oracle T) (rand : nat -> Z).

Lemma f_lin lg d (s : iter T) : ro fI (updateLinearization d s) (updateLinearization (nD d) (nI lg s)).
Proof. unfold updateLinearization. repeat far_step. Qed.
Lemma f_rec lg r (s : iter T) : sqp_record r (nI lg s) = nI lg (sqp_record r s).
Proof. unfold sqp_record. destruct (sr_iter r), (sr_flag r); reflexivity. Qed.

Lemma f_solve lg d ini (s : iter T) : ro fP (solveQPSubproblem orc d ini s) (solveQPSubproblem orc (nD d) ini (nI lg s)).
Proof.
  unfold solveQPSubproblem.
  eapply ro_bind; [apply ro_eq | intros sub ? <-].
  eapply ro_bind; [apply ro_eq | intros r ? <-]. cbv zeta.
  rewrite f_rec. set (s1 := sqp_record r s). clearbody s1. clear s.
  eapply ro_bind; [apply ro_eq | intros k ? <-].
  eapply ro_bind; [apply ro_eq | intros [? st] ? <-].
  eapply ro_bind; [apply ro_eq | intros f ? <-].
  set (s2 := set_stats (updateQPSolverExitFlag f st) s1).
  change (set_stats (updateQPSolverExitFlag f st) (nI ?lg s1)) with (nI lg s2).
  clearbody s2. clear s1 st.
  eapply ro_bind; [apply ro_eq | intros nV ? <-].
  eapply ro_bind; [apply ro_eq | intros nD ? <-].
  eapply ro_bind with (P := fI). { change (s_xk (nI ?lg s2)) with (s_xk s2). destruct (s_xk s2); repeat far_step. }
  intros s3 ? ?; far_split.
  eapply ro_bind with (P := fI). { change (s_yk (nI ?lg s3)) with (s_yk s3). destruct (s_yk s3); repeat far_step. }
  intros s4 ? ?; far_split. clear s2 s3.
  repeat far_step.
Qed.
Lemma f_stat lg d (s : iter T) : ro eq (stationarityCheck d s) (stationarityCheck (nD d) (nI lg s)).
Proof. apply ro_eq. Qed.
Lemma f_phi lg d (s : iter T) : ro eq (getPhi d s) (getPhi (nD d) (nI lg s)).
Proof. apply ro_eq. Qed.
Lemma f_compl lg d (s : iter T) : ro eq (complementarityCheck d s) (complementarityCheck (nD d) (nI lg s)).
Proof. apply ro_eq. Qed.
Lemma f_setQk lg d (s : iter T) : ro fI (setQk d s) (setQk (nD d) (nI lg s)).
Proof. unfold setQk. repeat far_step. Qed.
Lemma f_updQk lg d (s : iter T) : ro fI (updateQk d s) (updateQk (nD d) (nI lg s)).
Proof. unfold updateQk. repeat far_step. Qed.

Lemma f_steplen lg d (s : iter T) : ro fI (getOptimalStepLength d s) (getOptimalStepLength (nD d) (nI lg s)).
Proof. unfold getOptimalStepLength. repeat far_step. Qed.
Lemma f_updStep lg d (s : iter T) : ro fI (updateStep d s) (updateStep (nD d) (nI lg s)).
Proof. unfold updateStep. repeat far_step. Qed.
Lemma f_updStat lg d (s : iter T) : ro fI (updateStationarity d s) (updateStationarity (nD d) (nI lg s)).
Proof.
  unfold updateStationarity. repeat far_step.
Qed.
Lemma f_perturb lg d (s : iter T) : ro fI (perturbStep rand d s) (perturbStep rand (nD d) (nI lg s)).
Proof. unfold perturbStep. repeat far_step. Qed.
Lemma f_part lg d M Ms off tmp (s : iter T) : ro fP (transform_part d M Ms off tmp s) (transform_part (nD d) M Ms off tmp (nI lg s)).
Proof. unfold transform_part. repeat far_step. Qed.
Lemma f_duals lg d (s : iter T) : ro fI (transformDuals d s) (transformDuals (nD d) (nI lg s)).
Proof.
  unfold transformDuals. do 4 far_step.
  eapply ro_bind; [apply f_part | intros [? s1] [? ?] [e1 e2]; cbn [fst snd] in *; subst; far_split].
  eapply ro_bind; [apply f_part | intros [? s2] [? ?] [e1 e2]; cbn [fst snd] in *; subst; far_split]. reflexivity.
Qed.
Lemma f_type lg d (s : iter T) : ro fI (determineStationarityType d s) (determineStationarityType (nD d) (nI lg s)).
Proof. unfold determineStationarityType. repeat far_step. Qed.

Lemma f_penalty lg d (s : iter T) : ro fI (updatePenalty d s) (updatePenalty (nD d) (nI lg s)).
Proof.
  unfold updatePenalty. cbv zeta.
  set (s1 := if 0 <? o_nDynamicPenalty (d_options d) then set_complHistory [] s else s).
  assert (Q : (if 0 <? o_nDynamicPenalty (d_options (nD d)) then set_complHistory [] (nI lg s) else nI lg s) = nI lg s1)
    by (unfold s1; change (o_nDynamicPenalty (d_options (nD d))) with 0; destruct (0 <? o_nDynamicPenalty _); reflexivity).
  rewrite Q. clear Q. clearbody s1. clear s.
  set (s2 := set_rho (s_rho s1 * o_penaltyUpdateFactor (d_options d))%num s1).
  change (set_rho (s_rho (nI ?lg s1) * o_penaltyUpdateFactor (d_options (nD d)))%num (nI ?lg s1)) with (nI lg s2).
  clearbody s2. clear s1.
  set (s3 := set_stats (snd (updateRhoOpt (s_rho s2) (s_stats s2))) s2).
  change (set_stats (snd (updateRhoOpt (s_rho (nI lg s2)) (s_stats (nI lg s2)))) (nI lg s2)) with (nI lg s3).
  clearbody s3. clear s2.
  eapply ro_bind; [apply f_updQk | intros s4 ? ?; far_split].
  change (d_g_phi (nD d)) with (d_g_phi d). destruct (d_g_phi d); repeat far_step.
Qed.
Lemma f_outer lg (s : iter T) : ro fI (updateOuterIter s) (updateOuterIter (nI lg s)).
Proof.
  unfold updateOuterIter. eapply ro_bind; [apply ro_eq | intros n ? <-].
  eapply ro_bind; [apply ro_eq | intros [? st] ? <-]. reflexivity.
Qed.
Lemma f_total lg (s : iter T) : ro fI (updateTotalIter s) (updateTotalIter (nI lg s)).
Proof.
  unfold updateTotalIter. eapply ro_bind; [apply ro_eq | intros n ? <-].
  eapply ro_bind; [apply ro_eq | intros [? st] ? <-]. reflexivity.
Qed.
Lemma f_print lg d (s : iter T) : ro fI (printIteration d s) (printIteration (nD d) (nI lg s)).
Proof.
  unfold printIteration. change (o_printLevel (d_options (nD d))) with (o_printLevel (d_options d)).
  change (s_innerIter (nI lg s)) with (s_innerIter s). change (s_outerIter (nI lg s)) with (s_outerIter s).
  destruct (o_printLevel (d_options d)); [reflexivity| |]; cbv zeta; cbn [negb andb].
  all: try (destruct (0 <? s_innerIter s); [reflexivity|]).
  all: match goal with |- context [if ?c then logI EvHeader _ else _] => destruct c end.
  all: repeat far_step.
Qed.
Lemma f_store lg d (s : iter T) : ro fI (storeSteps d s) (storeSteps (nD d) (nI lg s)).
Proof. unfold storeSteps. repeat far_step. Qed.
Lemma f_pen lg d (s : iter T) : ro fI (penaltyStep d s) (penaltyStep (nD d) (nI lg s)).
Proof.
  unfold penaltyStep. eapply ro_bind; [apply f_penalty | intros s1 ? ?; far_split].
  eapply ro_bind; [apply f_outer | intros s2 ? ?; far_split]. reflexivity.
Qed.

(** The past values are too few for the dynamic penalty.  No LCQPow code. *)
Definition few (d : pdata T) (s : iter T) : Prop := o_nDynamicPenalty (d_options d) = 0 \/ len (s_complHistory s) < to_size_t (o_nDynamicPenalty (d_options d)).
Lemma f_leyffer lg d (s : iter T) : few d s -> ro fP (leyfferCheckPositive d s) (leyfferCheckPositive (nD d) (nI lg s)).
Proof.
  intros F. change (leyfferCheckPositive (nD d) (nI lg s)) with (Ok (false, nI lg s)). unfold leyfferCheckPositive. cbv zeta.
  destruct (Z.leb_spec (to_size_t (o_nDynamicPenalty (d_options d))) 0) as [L|L]; [split; reflexivity|].
  destruct F as [F|F]; [rewrite F in L; unfold to_size_t in L; rewrite Z.mod_0_l in L; lia|].
  destruct (getPhi d s); cbn [bind]; [|exact I]. unfold len in F. destruct (Z.ltb_spec (Z.of_nat (length (s_complHistory s))) (to_size_t (o_nDynamicPenalty (d_options d)))); [split; reflexivity|lia].
Qed.
Lemma ley_grows d (s : iter T) b s' : leyfferCheckPositive d s = Ok (b, s') -> len (s_complHistory s') <= len (s_complHistory s) + 1.
Proof.
  assert (A : forall h (c : T), len (h ++ [c]) <= len h + 1) by (intros; unfold len; rewrite app_length; simpl; lia).
  assert (B : forall h (c : T), len (tl h ++ [c]) <= len h + 1) by (intros h c; unfold len; rewrite app_length; destruct h; simpl; lia).
  unfold leyfferCheckPositive. cbv zeta. intros E. destruct (_ <=? 0); [injection E as _ <-; lia|].
  apply bind_ok in E. destruct E as (c & _ & E). destruct (_ <? _); [injection E as _ <-; apply A|].
  apply bind_ok in E. destruct E as (cc & _ & E). destruct cc; [injection E as _ <-; apply B|].
  apply bind_ok in E. destruct E as (o & _ & E). injection E as _ <-. apply B.
Qed.
(** The part of a pass before the dynamic penalty, src/LCQProblem.cpp:479-497 *)
Definition before (d : pdata T) (s : iter T) : res (iter T) :=
  let! s := updateStep d s in
  let! s := updateStationarity d s in
  let! s := printIteration d s in
  let! s := if o_storeSteps (d_options d) then storeSteps d s else Ok s in
  let! s := updateTotalIter s in
  let! n := chk_int (s_innerIter s + 1) in
  Ok (set_innerIter n s).
(** The part of a pass from the dynamic penalty to the linearisation, src/LCQProblem.cpp:498-508 *)
Definition dynamic (d : pdata T) (s : iter T) : res (iter T) :=
  let! '(b, s) := leyfferCheckPositive d s in
  let! s := if b then penaltyStep d s else Ok s in
  updateLinearization d s.
Lemma head_split d s : pass_head d s = let! s := before d s in dynamic d s.
Proof.
  unfold pass_head, before, dynamic. destruct (updateStep d s); cbn [bind]; [|reflexivity].
  repeat match goal with |- bind ?a _ = bind (bind ?a _) _ => destruct a; cbn [bind]; [|reflexivity] end. reflexivity.
Qed.
Lemma before_hist d s s' : before d s = Ok s' -> s_complHistory s' = s_complHistory s.
Proof.
  unfold before. intros E.
  apply bind_ok in E; destruct E as (s1 & E1 & E). apply updateStep_frame in E1. destruct E1 as (x & ->).
  apply bind_ok in E; destruct E as (s2 & E2 & E). apply updateStationarity_frame in E2. destruct E2 as (a1 & a2 & a3 & ->).
  apply bind_ok in E; destruct E as (s3 & E3 & E). apply printIteration_frame in E3. destruct E3 as (l & ->).
  apply bind_ok in E; destruct E as (s4 & E4 & E).
  assert (Q : s_complHistory s4 = s_complHistory s).
  { destruct (o_storeSteps _); [apply storeSteps_frame in E4; destruct E4 as (st & ->)|injection E4 as <-]; reflexivity. }
  apply bind_ok in E; destruct E as (s5 & E5 & E). apply updateTotalIter_frame in E5. subst s5.
  apply bind_ok in E; destruct E as (n & En & E). injection E as <-. exact Q.
Qed.
Lemma f_before lg d (s : iter T) : ro fI (before d s) (before (nD d) (nI lg s)).
Proof.
  unfold before. eapply ro_bind; [apply f_updStep | intros s1 ? ?; far_split].
  eapply ro_bind; [apply f_updStat | intros s2 ? ?; far_split]. clear s s1.
  eapply ro_bind; [apply f_print | intros s3 ? ?; far_split].
  change (o_storeSteps (d_options (nD d))) with (o_storeSteps (d_options d)).
  eapply ro_bind with (P := fI). { destruct (o_storeSteps (d_options d)); [apply f_store|reflexivity]. }
  intros s4 ? ?; far_split. eapply ro_bind; [apply f_total | intros s5 ? ?; far_split].
  eapply ro_bind; [apply ro_eq | intros n ? <-]. reflexivity.
Qed.
Lemma f_dynamic lg d (s : iter T) : few d s -> ro fI (dynamic d s) (dynamic (nD d) (nI lg s)).
Proof.
  intros F. unfold dynamic. eapply ro_bind; [apply f_leyffer; exact F | intros [b s7] [? ?] [e1 e2]; cbn [fst snd] in *; subst; far_split].
  eapply ro_bind with (P := fI). { destruct b; [apply f_pen | reflexivity]. }
  intros s8 ? ?; far_split. apply f_lin.
Qed.
Lemma f_head lg d (s : iter T) : few d s -> ro fI (pass_head d s) (pass_head (nD d) (nI lg s)).
Proof.
  intros F. rewrite !head_split. pose proof (f_before lg d s) as B. destruct (before d s) as [s1|] eqn:E; [|exact I].
  cbn [ro] in B. destruct (before (nD d) (nI lg s)) as [s2|]; [|contradiction]. far_split. cbn [bind]. apply f_dynamic.
  unfold few. rewrite (before_hist _ _ _ E). exact F.
Qed.
Lemma f_finish lg d (s : iter T) : ro fI (finish d s) (finish (nD d) (nI lg s)).
Proof.
  unfold finish. eapply ro_bind; [apply f_duals | intros s1 ? ?; far_split].
  eapply ro_bind; [apply f_type | intros s2 ? ?; far_split]. far_step.
  change (o_printLevel (d_options (nD d))) with (o_printLevel (d_options d)). destruct (o_printLevel (d_options d)); reflexivity.
Qed.
Lemma f_tail lg d (s : iter T) : ro fX (pass_tail orc rand d s) (pass_tail orc rand (nD d) (nI lg s)).
Proof.
  unfold pass_tail. cbv zeta. far_step; [far_step|]. far_step; [far_step|].
  eapply ro_bind; [apply f_lin | intros s1 ? ?; far_split].
  eapply ro_bind; [apply f_solve | intros [r s2] [? ?] [e1 e2]; cbn [fst snd] in *; subst; far_split].
  far_step; [far_step|].
  eapply ro_bind with (P := fI).
  { change (o_perturbStep (d_options (nD d))) with (o_perturbStep (d_options d)). destruct (o_perturbStep (d_options d)); [apply f_perturb | reflexivity]. }
  intros s3 ? ?; far_split. eapply ro_bind; [apply f_steplen | intros s4 ? ?; far_split]. split; reflexivity.
Qed.
Lemma f_pass lg d (s : iter T) : few d s -> ro fX (pass orc rand d s) (pass orc rand (nD d) (nI lg s)).
Proof.
  intros F. unfold pass. eapply ro_bind; [apply f_head; exact F | intros s1 ? ?; far_split].
  far_step. far_step; [|apply f_tail]. far_step. far_step.
  - eapply ro_bind; [apply f_finish | intros s2 ? ?; far_split]. split; reflexivity.
  - eapply ro_bind; [apply f_pen | intros s2 ? ?; far_split]. apply f_tail.
Qed.
(** At the start of a pass there are at most as many past values as iterations.  No LCQPow code. *)
Record counted (d : pdata T) (s : iter T) : Prop := {
  cn_hist : len (s_complHistory s) <= s_totalIter s;
  cn_total : s_totalIter s <= Z.max 0 (o_maxIterations (d_options d)) }.
Lemma pass_counted d s s' : counted d s -> pass orc rand d s = Ok (s', None) -> counted d s'.
Proof.
  intros [C1 C2] Ep. apply pass_inv in Ep. inversion Ep as [|s2 s3 s4 e b1 b2 Hh Hhd Hp Hb2 Ht]; subst. clear Ep.
  apply pass_tail_inv in Ht. inversion Ht as [| | |s4 s5 s6 s7 Hm Hr E3 E4 E5 E6]; subst. clear Ht.
  apply updateLinearization_frame in E3. destruct E3 as (w & ->). apply solveQPSubproblem_effect in E4. destruct E4. simpl in *.
  apply getOptimalStepLength_frame in E6. destruct E6 as (al & lk & ->).
  assert (Hs5 : s_complHistory s6 = s_complHistory s5 /\ s_totalIter s6 = s_totalIter s5).
  { destruct (o_perturbStep _); [apply perturbStep_frame in E5; destruct E5 as (a & b & ->); eauto|]. subst s6. auto. }
  destruct Hs5 as (B1 & B2). pose proof (he_total _ _ _ _ Hh) as O1. pose proof (pe_total _ _ _ _ Hp) as O2.
  apply head_leyffer in Hhd. destruct Hhd as (sx & sa & b & sb & G1 & G2 & G3 & G4 & G5 & G6).
  apply ley_grows in G4. rewrite G2 in G4.
  assert (N : len (@nil T) = 0) by reflexivity. assert (P : 0 <= len (s_complHistory s)) by (unfold len; lia).
  assert (L2 : len (s_complHistory s2) <= len (s_complHistory s) + 1) by (rewrite G6; destruct (_ && _); lia).
  assert (L3 : len (s_complHistory s3) <= len (s_complHistory s2) \/ len (s_complHistory s3) = 0).
  { destruct b2; [|destruct Hb2 as (_ & ->); left; lia]. destruct Hb2 as (_ & _ & Hps). apply penaltyStep_frame in Hps.
    destruct Hps as (q & qs & gt & ->). simpl. destruct (0 <? _); [right; exact N|left; lia]. }
  constructor; simpl; rewrite ?B1, ?B2, ?qe_hist, ?qe_total; lia.
Qed.
(** The dynamic penalty wants more past values than there can be.  No LCQPow code. *)
Definition far (d : pdata T) : Prop := o_nDynamicPenalty (d_options d) = 0 \/ Z.max 0 (o_maxIterations (d_options d)) < to_size_t (o_nDynamicPenalty (d_options d)).
Lemma f_loop d fuel : far d -> forall lg (s : iter T), counted d s -> ro fP (loop fuel orc rand d s) (loop fuel orc rand (nD d) (nI lg s)).
Proof.
  intros F. induction fuel as [|fuel IH]; intros lg s C; cbn [loop]; [exact I|].
  assert (W : few d s). { destruct F as [F|F]; [left; exact F|right]. destruct C. lia. }
  pose proof (f_pass lg d s W) as P. destruct (pass orc rand d s) as [[s1 e]|] eqn:E; [|exact I]. cbn [ro] in P.
  destruct (pass orc rand (nD d) (nI lg s)) as [[s2 e2]|]; [|contradiction]. destruct P as [e1 P]. cbn [fst snd] in *. subst e2. far_split. cbn [bind].
  destruct e; [split; reflexivity|]. apply IH. eapply pass_counted; eassumption.
Qed.
Lemma f_first lg d (s : iter T) : ro fX (first_solve orc d s) (first_solve orc (nD d) (nI lg s)).
Proof.
  unfold first_solve. eapply ro_bind with (P := fI).
  { far_step; [repeat far_step | apply f_lin]. }
  intros s1 ? ?; far_split. eapply ro_bind; [apply f_solve | intros [r s2] [? ?] [e1 e2]; cbn [fst snd] in *; subst; far_split].
  far_step; [far_step|]. eapply ro_bind; [apply f_setQk | intros s3 ? ?; far_split]. split; reflexivity.
Qed.

(** ** Initialisation *)
Lemma f_quiet m m' k k' : ro fR m m' -> (forall lg (o : lcqp T), ro fR (k o) (k' (nO lg o))) -> ro fR (and_then_quiet m k) (and_then_quiet m' k').
Proof.
  intros E K. unfold and_then_quiet. eapply ro_bind; [exact E | intros [r o] [? ?] [e1 e2]; cbn [fst snd] in *; subst; far_split].
  far_step; [apply K | split; reflexivity].
Qed.
Lemma f_setLB lg b (o : lcqp T) : ro fR (setLB b o) (setLB b (nO lg o)).
Proof. unfold setLB. repeat far_step. Qed.
Lemma f_setUB lg b (o : lcqp T) : ro fR (setUB b o) (setUB b (nO lg o)).
Proof. unfold setUB. repeat far_step. Qed.
Lemma f_initsub lg (o : lcqp T) : ro fR (init_subsolver o) (init_subsolver (nO lg o)).
Proof.
  unfold init_subsolver. cbv zeta. change (o_qpSolver (d_options (pd (nO ?lg o)))) with (o_qpSolver (d_options (pd o))).
  destruct (o_qpSolver (d_options (pd o))).
  1, 2: do 3 far_step; far_step; [repeat far_step|];
    (eapply f_quiet; [match goal with |- ro _ (setLB ?b ?x) _ => exact (f_setLB lg b x) end | intros lg1 o1]); (eapply f_quiet; [match goal with |- ro _ (setUB ?b ?x) _ => exact (f_setUB lg1 b x) end | intros lg2 o2]); repeat far_step.
  repeat far_step.
Qed.
Lemma f_phi_init nV nComp (d : pdata T) : ro fD (init_phi nV nComp d) (init_phi nV nComp (nD d)).
Proof. unfold init_phi. repeat far_step. Qed.
Lemma f_init lg (o : lcqp T) : ro fR (initializeSolver o) (initializeSolver (nO lg o)).
Proof.
  unfold initializeSolver. apply f_quiet; [apply f_initsub | intros lg1 o1]. cbv zeta. do 4 far_step.
  eapply ro_bind; [apply f_phi_init | intros d ? ?; far_split].
  change (o_printLevel (d_options (nD d))) with (o_printLevel (d_options d)). destruct (o_printLevel (d_options d)); split; reflexivity.
Qed.
Lemma init_counted o o1 s1 : s_complHistory (it o) = [] -> initializeSolver o = Ok (SUCCESSFUL_RETURN, o1) -> first_solve orc (pd o1) (it o1) = Ok (s1, None) -> counted (pd o1) s1.
Proof.
  intros Hf E1 E2. apply initializeSolver_ok in E1.
  destruct E1 as [(_ & _ & a & b & c & e' & f & g1 & g2 & y & gt & l & ->)|(C3 & _)]; [|discriminate].
  apply first_solve_inv in E2. inversion E2 as [|g s2 s3 Es Eq]; subst. simpl in *.
  apply solveQPSubproblem_effect in Es. destruct Es. simpl in *. apply setQk_frame in Eq. destruct Eq as (q1 & q2 & q3 & ->).
  constructor; simpl; rewrite ?qe_hist, ?qe_total, ?Hf; [reflexivity|lia].
Qed.
Lemma f_fuel lg fuel (o : lcqp T) : far (pd o) -> s_complHistory (it o) = [] -> ro fR (runSolver_fuel fuel orc rand o) (runSolver_fuel fuel orc rand (nO lg o)).
Proof.
  intros F Hf. unfold runSolver_fuel. pose proof (f_init lg o) as Q. destruct (initializeSolver o) as [[r o1]|] eqn:E1; [|exact I]. cbn [ro] in Q.
  destruct (initializeSolver (nO lg o)) as [[r2 o2]|]; [|contradiction]. destruct Q as [e1 Q]. cbn [fst snd] in *. subst r2. far_split. cbn [bind].
  destruct (is_success r) eqn:S; cbn [negb]; [|split; reflexivity]. apply is_success_true in S. subst r.
  match goal with |- context [nO ?h o1] => set (lg1 := h) end. change (pd (nO lg1 o1)) with (nD (pd o1)). change (it (nO lg1 o1)) with (nI lg1 (it o1)).
  pose proof (f_first lg1 (pd o1) (it o1)) as Q. destruct (first_solve orc (pd o1) (it o1)) as [[s e]|] eqn:E2; [|exact I]. cbn [ro] in Q.
  destruct (first_solve orc (nD (pd o1)) (nI lg1 (it o1))) as [[s2 e2]|]; [|contradiction]. destruct Q as [e1 Q]. cbn [fst snd] in *. subst e2. far_split. cbn [bind].
  destruct e; [split; reflexivity|].
  assert (F1 : far (pd o1)) by (unfold far; rewrite (init_options _ _ E1); exact F).
  eapply ro_bind; [apply f_loop; [exact F1|exact (init_counted _ _ _ Hf E1 E2)] | intros [r' s'] [? ?] [e1 e2]; cbn [fst snd] in *; subst; far_split]. split; reflexivity.
Qed.
End Facts.

Lemma no_eq {T} (a b : options T) : same_but_n a b -> o_nDynamicPenalty b = 0 -> b = no_ a.
Proof.
  intros [] N. unfold no_. rewrite <- N, <- sn_stat, <- sn_compl, <- sn_rho, <- sn_factor, <- sn_zero, <- sn_perturb, <- sn_iter, <- sn_pen, <- sn_eta, <- sn_print, <- sn_store, <- sn_solver.
  reflexivity.
Qed.
Theorem thm_far {T : Type} `{Arith T} (orc : oracle T) rand opt (o : lcqp T) r o1 : same_but_n (d_options (pd o)) opt -> o_nDynamicPenalty opt = 0 ->
  INT_MIN <= o_nDynamicPenalty (d_options (pd o)) <= INT_MAX -> o_maxIterations opt <= INT_MAX ->
  o_nDynamicPenalty (d_options (pd o)) <= 0 \/ o_maxIterations opt < o_nDynamicPenalty (d_options (pd o)) ->
  s_complHistory (it o) = [] -> runSolver orc rand o = Ok (r, o1) ->
  exists o2, runSolver orc rand (setOptions opt o) = Ok (r, o2) /\ same_outcome o1 o2.
Proof.
  intros S N R M D Hf E.
  assert (F : far (pd o)).
  { unfold far. rewrite (sn_iter _ _ S) in *. set (n := o_nDynamicPenalty (d_options (pd o))) in *. destruct (Z.eq_dec n 0) as [->|Z0]; [left; reflexivity|right].
    unfold to_size_t, INT_MIN, INT_MAX in *. destruct (Z.le_gt_cases n 0).
    - rewrite <- (Z.mod_add _ 1) by lia. rewrite Z.mod_small by lia. lia.
    - rewrite Z.mod_small by lia. lia. }
  assert (Q : setOptions opt o = nO (s_complHistory (it o)) o) by (rewrite (no_eq _ _ S N); reflexivity).
  pose proof (f_fuel orc rand (s_complHistory (it o)) (Z.to_nat (o_maxIterations (d_options (pd o))) + 2) o F Hf) as G.
  change (runSolver_fuel (Z.to_nat (o_maxIterations (d_options (pd o))) + 2) orc rand o) with (runSolver orc rand o) in G. rewrite E in G. cbn [ro] in G.
  rewrite Q. change (runSolver orc rand (nO (s_complHistory (it o)) o)) with (runSolver_fuel (Z.to_nat (o_maxIterations (d_options (pd o))) + 2) orc rand (nO (s_complHistory (it o)) o)).
  destruct (runSolver_fuel _ orc rand (nO _ o)) as [[r2 o2]|]; [|contradiction]. destruct G as [e1 G]. cbn [fst snd] in *. subst r2. far_split.
  eexists. split; [reflexivity|]. constructor; reflexivity.
Qed.
