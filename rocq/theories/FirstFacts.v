(** * FirstFacts: a run ends at the first recorded step that meets both tolerances (proofs; no LCQPow code). *)
From Verif Require Import Base Arith Codes Utilities Options Stats FileIO Subsolver State LCQProblem Tactics Loops Frames Control RunControl SpecRun Spec RunStats SpecFirst.

Section First.
Context {T : Type} `{Arith T}.
Variables (orc : oracle T) (rand : nat -> Z).
Implicit Types (d : pdata T) (s : iter T).

(** Stationarity and complementarity values of the recorded steps, paired *)
Definition vals s (l : list (T * T)) : Prop := st_statVals (s_stats s) = map fst l /\ st_phiVals (s_stats s) = map snd l.
(** No recorded step meets both tests *)
Definition none d (l : list (T * T)) : Prop := forall p, In p l -> ~ meets_both (d_options d) (fst p) (snd p).

Lemma head_vals d s s1 b l : o_storeSteps (d_options d) = true -> pass_head d s = Ok s1 -> head_effect d s s1 b -> vals s l ->
  exists nV sk m ph, d_nV d = Some nV /\ s_statk s1 = Some sk /\ MaxAbs sk nV = Ok m /\ getPhi d s1 = Ok ph /\ vals s1 (l ++ [(m, ph)]).
Proof.
  intros St Hhd Hh [V1 V2]. pose proof (pass_head_xk _ _ _ Hhd) as Hx. destruct Hh. destruct he_stats as (sx & st1 & A1 & A2 & A3 & A4 & A5 & A6 & A7 & A8).
  rewrite St in A7. pose proof A7 as A9. apply tracked_storeSteps in A7. destruct A7 as (_ & _ & B4).
  destruct B4 as (nV & x & sk & xs & m & ob & ph & X & M & O & P & H1 & H2 & H3 & H4 & H5 & H6 & H7 & H8 & H9 & H10 & H11); [congruence|].
  cbn [s_stats set_stats s_statk] in *.
  assert (G : st_statVals st1 = st_statVals (s_stats sx) ++ [m] /\ st_phiVals st1 = st_phiVals (s_stats sx) ++ [ph]).
  { unfold storeSteps in A9. repeat match goal with H : bind _ _ = Ok _ |- _ => apply bind_ok in H; let v := fresh "v" in let F := fresh "F" in destruct H as (v & F & H); cbv beta in H end.
    match goal with F : updateTrackingVectors _ _ _ _ _ _ _ _ _ _ _ = Ok _ |- _ => unfold updateTrackingVectors in F; apply bind_ok in F; destruct F as (xs1 & _ & F);
      apply bind_ok in F; destruct F as (ac & _ & F); injection F as <- end.
    apply (f_equal (fun r => match r with Ok q => Some (s_stats q) | UB _ => None end)) in A9. cbn [s_stats set_stats] in A9. injection A9 as A9.
    rewrite <- A9 in H9, H11 |- *. cbn [st_statVals st_phiVals] in *. apply app_inj_tail in H9. apply app_inj_tail in H11.
    destruct H9 as [<- ->], H11 as [<- ->]. split; reflexivity. }
  destruct G as [G1 G2]. rewrite A1 in *.
  exists nV, sk, m, ph. split; [exact H1|]. split; [congruence|]. split; [exact H5|]. split.
  - rewrite <- H7. apply getPhi_xk. cbn. congruence.
  - assert (Hsm : same_track st1 (s_stats s1)) by (rewrite A8; eapply same_trans; [|apply same_pen]; constructor; reflexivity).
    split; [rewrite (sm_stat _ _ Hsm), G1, V1|rewrite (sm_phi _ _ Hsm), G2, V2]; rewrite map_app; reflexivity.
Qed.
Lemma vals_track s s' l : same_track (s_stats s) (s_stats s') -> vals s l -> vals s' l.
Proof. intros [] [V1 V2]. split; congruence. Qed.
Lemma solve_track d b s r s' : solveQPSubproblem orc d b s = Ok (r, s') -> same_track (s_stats s) (s_stats s').
Proof.
  intros E. apply solveQPSubproblem_effect in E. destruct E. destruct qe_stats as (k & f & [rr st] & K1 & K2 & K3 & K4). apply updateSubproblemIter_ok in K3.
  cbn [snd] in K4. rewrite K4, K3. constructor; reflexivity.
Qed.
Lemma tail_track d s s' e : pass_tail orc rand d s = Ok (s', e) -> same_track (s_stats s) (s_stats s') /\ e <> Some SUCCESSFUL_RETURN.
Proof.
  intros Ht. apply pass_tail_inv in Ht. destruct Ht as [Hm | Hm Hr | s3 s4 r Hm Hr E3 E4 Er | s3 s4 s5 s6 Hm Hr E3 E4 E5 E6].
  - split; [constructor; reflexivity|discriminate].
  - split; [constructor; reflexivity|discriminate].
  - apply updateLinearization_frame in E3. destruct E3 as (v & ->). apply solve_track in E4. split; [exact E4|]. intros [= ->]. discriminate.
  - apply updateLinearization_frame in E3. destruct E3 as (v & ->). apply solve_track in E4. split; [|discriminate].
    apply getOptimalStepLength_frame in E6. destruct E6 as (al & lk & ->).
    destruct (o_perturbStep _); [apply perturbStep_frame in E5; destruct E5 as (a & b & ->); exact E4|]. subst s5. exact E4.
Qed.
(** The outcome of a loop *)
Definition ends d (r : ReturnValue) s : Prop := exists l, vals s l /\
  ((r <> SUCCESSFUL_RETURN /\ none d l) \/ (r = SUCCESSFUL_RETURN /\ exists l0 p, l = l0 ++ [p] /\ none d l0 /\ meets_both (d_options d) (fst p) (snd p))).
Lemma pass_first d s s' e l : o_storeSteps (d_options d) = true -> vals s l -> none d l -> pass orc rand d s = Ok (s', e) ->
  match e with None => exists l', vals s' l' /\ none d l' | Some r => ends d r s' end.
Proof.
  intros St V N E. apply pass_inv in E. destruct E as [s1 s' b1 Hh Hhd Hst Hcc Hfin | s1 s2 s' e b1 b2 Hh Hhd Hp Hb2 Ht].
  - destruct (head_vals _ _ _ _ _ St Hhd Hh V) as (nV & sk & m & ph & A1 & A2 & A3 & A4 & A5).
    exists (l ++ [(m, ph)]). split.
    + apply finish_frame in Hfin. destruct Hfin as (y & al & lg & Hal & ->). apply (vals_track s1); [constructor; reflexivity|exact A5].
    + right. split; [reflexivity|]. exists l, (m, ph). split; [reflexivity|]. split; [exact N|].
      unfold stationarityCheck in Hst. rewrite A1, A2 in Hst. cbn [get deref bind] in Hst. rewrite A3 in Hst. cbn [bind] in Hst.
      unfold complementarityCheck in Hcc. rewrite A4 in Hcc. cbn [bind] in Hcc. split; cbn [fst snd]; congruence.
  - destruct (head_vals _ _ _ _ _ St Hhd Hh V) as (nV & sk & m & ph & A1 & A2 & A3 & A4 & A5).
    assert (V' : vals s' (l ++ [(m, ph)])).
    { apply (vals_track s1); [|exact A5]. apply same_trans with (s_stats s2); [rewrite (pe_stats _ _ _ _ Hp); apply same_pen|]. apply (tail_track _ _ _ _ Ht). }
    assert (N' : none d (l ++ [(m, ph)])).
    { intros p I. apply in_app_or in I. destruct I as [I|[<-|[]]]; [apply N; exact I|]. intros [M1 M2]. cbn [fst snd] in *.
      assert (Q1 : stationarityCheck d s1 = Ok true) by (unfold stationarityCheck; rewrite A1, A2; cbn [get deref bind]; rewrite A3; cbn [bind]; rewrite M1; reflexivity).
      assert (Q2 : complementarityCheck d s1 = Ok true) by (unfold complementarityCheck; rewrite A4; cbn [bind]; rewrite M2; reflexivity).
      destruct b2; [destruct Hb2 as (_ & B & _)|destruct Hb2 as (B & _)]; congruence. }
    apply tail_track in Ht. destruct Ht as [_ Ne]. destruct e as [r|]; [|eauto]. exists (l ++ [(m, ph)]). split; [exact V'|]. left. split; [congruence|exact N'].
Qed.
Lemma loop_first d : o_storeSteps (d_options d) = true -> forall fuel s r s' l, vals s l -> none d l -> loop fuel orc rand d s = Ok (r, s') -> ends d r s'.
Proof.
  intros St. induction fuel as [|fuel IH]; intros s r s' l V N E; cbn [loop] in E; [discriminate|].
  apply bind_ok in E. destruct E as ([s1 e] & E1 & E). pose proof (pass_first _ _ _ _ _ St V N E1) as P. destruct e as [r1|].
  - injection E as <- <-. exact P.
  - destruct P as (l' & V' & N'). eapply IH; eassumption.
Qed.
Lemma first_vals d s s' e : vals s [] -> first_solve orc d s = Ok (s', e) -> vals s' [] /\ e <> Some SUCCESSFUL_RETURN.
Proof.
  intros V F. apply first_solve_inv in F. destruct F as [g s2 r Es Er | g s2 s3 Es Eq].
  - apply solve_track in Es. split; [apply (vals_track s); [exact Es|exact V]|]. intros [= ->]. discriminate.
  - apply solve_track in Es. apply setQk_frame in Eq. destruct Eq as (q1 & q2 & q3 & ->). rewrite updateRhoOpt_eq. split; [|discriminate].
    apply (vals_track s); [|exact V]. eapply same_trans; [exact Es|]. destruct (_ : bool); constructor; reflexivity.
Qed.
Lemma run_first fuel o r o' : runSolver_fuel fuel orc rand o = Ok (r, o') -> started o o' -> o_storeSteps (d_options (pd o)) = true -> ends (pd o) r (it o').
Proof.
  intros E S St. apply RunControl.run_inv in E. destruct E as [r o1 E1 Er | r o1 s1 E1 E2 | r o1 s1 s2 E1 E2 E3].
  - exfalso. apply S. apply initializeSolver_ok in E1. destruct E1 as [(_ & _ & a & b & c & e & f & g1 & g2 & y & gt & l & ->)|(_ & a & b & c & e & f & y & ->)]; reflexivity.
  - pose proof (init_options _ _ E1) as Eo. apply initializeSolver_ok in E1.
    destruct E1 as [(_ & _ & a & b & c & e' & f & g1 & g2 & y & gt & l & ->)|(C & _)]; [|discriminate].
    apply first_vals in E2; [|split; reflexivity]. destruct E2 as [V Ne]. exists []. split; [exact V|]. left. split; [congruence|intros p []].
  - pose proof (init_options _ _ E1) as Eo. apply initializeSolver_ok in E1.
    destruct E1 as [(_ & _ & a & b & c & e' & f & g1 & g2 & y & gt & l & ->)|(C & _)]; [|discriminate].
    apply first_vals in E2; [|split; reflexivity]. destruct E2 as [V Ne].
    match type of E3 with loop _ _ _ ?d _ = _ => exact (loop_first d St _ _ _ _ [] V (fun p F => match F with end) E3) end.
Qed.
Theorem thm_first o r o' : runSolver orc rand o = Ok (r, o') -> started o o' -> o_storeSteps (d_options (pd o)) = true ->
  length (st_statVals (getOutputStatistics o')) = length (st_phiVals (getOutputStatistics o')) /\
  (r = SUCCESSFUL_RETURN -> st_statVals (getOutputStatistics o') <> []) /\
  forall i m phi, nth_error (st_statVals (getOutputStatistics o')) i = Some m -> nth_error (st_phiVals (getOutputStatistics o')) i = Some phi ->
  (meets_both (d_options (pd o)) m phi <-> r = SUCCESSFUL_RETURN /\ Datatypes.S i = length (st_statVals (getOutputStatistics o'))).
Proof.
  intros E S St. destruct (run_first _ _ _ _ E S St) as (l & [V1 V2] & D). change (s_stats (it o')) with (getOutputStatistics o') in V1, V2. rewrite V1, V2, !map_length. split; [reflexivity|].
  split. { intros Hr. destruct D as [[Nr _]|[_ (l0 & p & -> & _)]]; [contradiction|]. destruct l0; discriminate. }
  intros i m phi Em Ep.
  assert (En : nth_error l i = Some (m, phi)).
  { rewrite nth_error_map in Em, Ep. destruct (nth_error l i) as [[a b]|]; cbn in Em, Ep; congruence. }
  assert (NT : none (pd o) l -> ~ meets_both (d_options (pd o)) m phi) by (intros N; apply (N (m, phi)); eapply nth_error_In; exact En).
  destruct D as [[Nr N]|[-> (l0 & p & -> & N & M)]].
  - split; [intros X; destruct (NT N X)|intros [? _]; contradiction].
  - rewrite app_length. cbn [length]. destruct (Nat.lt_ge_cases i (length l0)) as [L|L].
    + rewrite nth_error_app1 in En by exact L. split; [intros X; destruct (N (m, phi) (nth_error_In _ _ En) X)|intros [_ X]; lia].
    + rewrite nth_error_app2 in En by exact L. destruct (i - length l0)%nat as [|k] eqn:K; [|destruct k; discriminate]. injection En as ->. cbn [fst snd] in M.
      split; [intros _; split; [reflexivity|lia]|intros _; exact M].
Qed.
End First.
