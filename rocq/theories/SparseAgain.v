(** * SparseAgain: a second sparse run cannot raise the penalty (proofs; no LCQPow code). *)
From Verif Require Import Base Arith Codes Utilities Options Stats FileIO Subsolver State LCQProblem Tactics Loops NoFuel Frames Control RunControl SpecRun Spec QPHistory RunStats RunFacts RunProps LoadFrames SpecLife SpecUse BoxFacts.

Section Again.
Context {T : Type} `{Arith T}.
Implicit Types (o : lcqp T) (d : pdata T) (h : history T) (s : iter T).

(** ** Column pointers *)

(** [p] starts with 0 and does not decrease up to [j].  No LCQPow code. *)
Definition mono (p : arr Z) (j : Z) : Prop :=
  rd p 0 = Ok 0 /\ forall i, 0 <= i < j -> exists a b, rd p i = Ok a /\ rd p (i + 1) = Ok b /\ a <= b.
(** A matrix whose column pointers are consistent with its values.  No LCQPow code. *)
Definition counted (nV : Z) (C : csc T) : Prop :=
  exists p x, c_p C = Some p /\ c_x C = Some x /\ mono p nV /\ rd p nV = Ok (len x).

Lemma rd_wr_same {X} (a b : arr X) i v : wr a i v = Ok b -> rd b i = Ok v.
Proof. intros E. apply wr_inv in E. destruct E as (R & ->). rewrite rd_at, len_upd. replace ((0 <=? i) && (i <? len a)) with true by lia. rewrite at_upd by lia. rewrite Z.eqb_refl. reflexivity. Qed.
Lemma rd_wr_other {X} (a b : arr X) i j v : wr a i v = Ok b -> i <> j -> rd b j = rd a j.
Proof.
  intros E N. apply wr_inv in E. destruct E as (R & ->). rewrite !rd_at, len_upd. destruct ((0 <=? j) && (j <? len a)) eqn:B; [|reflexivity].
  rewrite at_upd by lia. replace (i =? j) with false by lia. reflexivity.
Qed.
Lemma len_wr {X} (a b : arr X) i v : wr a i v = Ok b -> len b = len a.
Proof. intros E. apply wr_inv in E. destruct E as (R & ->). apply len_upd. Qed.
Lemma mono_wr p p' j k v : 0 <= j -> mono p j -> wr p k v = Ok p' -> j < k -> mono p' j.
Proof.
  intros J (M0 & M) E L. split.
  - rewrite (rd_wr_other _ _ _ _ _ E) by lia. exact M0.
  - intros i Hi. destruct (M i Hi) as (a & b & A & B & C). exists a, b. rewrite !(rd_wr_other _ _ _ _ _ E) by lia. auto.
Qed.
Lemma mono_mon p j i a b : mono p j -> 0 <= i <= j -> rd p i = Ok a -> rd p j = Ok b -> a <= b.
Proof.
  intros (_ & M) [H0 Hi] A B. remember (Z.to_nat (j - i)) as n eqn:En. revert i H0 Hi a A En. induction n; intros i H0 Hi a A En.
  - replace i with j in A by lia. rewrite A in B. injection B as ->. lia.
  - destruct (M i ltac:(lia)) as (a' & c & A' & C & L). rewrite A in A'. injection A' as <-. enough (c <= b) by lia. apply (IHn (i + 1) ltac:(lia) ltac:(lia) c C). lia.
Qed.
(** State of the column loops: columns before [j] closed, column [j] open.  No LCQPow code. *)
Definition opened (p : arr Z) (j : Z) : Prop := mono p j /\ exists a b, rd p j = Ok a /\ rd p (j + 1) = Ok b /\ a <= b.
Lemma open_col p p' j v : 0 <= j -> mono p j -> rd p j = Ok v -> wr p (j + 1) v = Ok p' -> opened p' j.
Proof.
  intros J M R W. split; [eapply mono_wr; eauto; lia|]. exists v, v. rewrite (rd_wr_other _ _ _ _ _ W) by lia. split; [exact R|]. split; [eapply rd_wr_same; eauto|lia].
Qed.
Lemma bump_col p p' j q : 0 <= j -> opened p j -> rd p (j + 1) = Ok q -> wr p (j + 1) (q + 1) = Ok p' -> opened p' j.
Proof.
  intros J (M & a & b & A & B & L) Q W. split; [eapply mono_wr; eauto; lia|]. rewrite B in Q. injection Q as <-. exists a, (b + 1). rewrite (rd_wr_other _ _ _ _ _ W) by lia.
  split; [exact A|]. split; [eapply rd_wr_same; eauto|lia].
Qed.
Lemma close_col p j : 0 <= j -> opened p j -> mono p (j + 1).
Proof. intros J ((M0 & M) & a & b & A & B & L). split; [exact M0|]. intros i Hi. destruct (Z.eq_dec i j) as [->|N]; [exists a, b; auto|apply M; lia]. Qed.

Lemma symm_counted L R C : MatrixSymmetrizationProduct_csc (T := T) L R = Ok (Some C) -> 0 <= c_n L -> counted (c_n L) C /\ exists x, c_x C = Some x /\ 0 < len x.
Proof.
  unfold MatrixSymmetrizationProduct_csc. cbv zeta. intros E N. set (n := c_n L) in *. apply bind_ok in E. destruct E as (p0 & E0 & E). apply bind_ok in E. destruct E as (p1 & E1 & E).
  apply bind_ok in E. destruct E as ([[p rows] data] & E2 & E).
  assert (M : mono p n).
  { refine ((fun G => _) (for_inv (fun j st => mono (fst (fst st)) j) _ 0 n _ _ E2 _ _)).
    - replace (Z.max 0 n) with n in G by lia. exact G.
    - cbn [fst]. split; [eapply rd_wr_same; eauto|intros; lia].
    - intros j [[pa ra] da] [[pb rb] db] Hj M E3. cbn [fst] in *. apply bind_ok in E3. destruct E3 as (pj & Rj & E3). apply bind_ok in E3. destruct E3 as (pc & Wj & E3).
      apply close_col; [lia|]. assert (O := open_col _ _ _ _ (proj1 Hj) M Rj Wj).
      refine (for_inv (fun _ st => opened (fst (fst st)) j) _ 0 n _ _ E3 O _).
      intros i [[pd' rd'] dd'] [[pe re] de] Hi O1 E4. cbn [fst] in *. apply bind_ok in E4. destruct E4 as (t1 & _ & E4). apply bind_ok in E4. destruct E4 as (t2 & _ & E4).
      destruct (isZero t2); [injection E4 as <- <- <-; exact O1|]. apply bind_ok in E4. destruct E4 as (q & Q & E4). apply bind_ok in E4. destruct E4 as (pf & W & E4). injection E4 as <- <- <-.
      eapply bump_col; eauto; lia. }
  apply bind_ok in E. destruct E as (nnz & Ez & E). destruct (nnz =? 0) eqn:Z0; [discriminate|]. apply bind_ok in E. destruct E as (ci & Ei & E). apply bind_ok in E. destruct E as (cx & Ex & E).
  apply bind_ok in E. destruct E as ([ci' cx'] & E4 & E). injection E as <-. apply alloc_inv in Ex. destruct Ex as (Rz & ->).
  assert (L' : len cx' = nnz).
  { refine (for_inv (fun _ st => len (snd st) = nnz) _ 0 nnz _ _ E4 _ _); [cbn; apply len_repeat; lia|].
    intros i [a b] [a' b'] _ Lb E5. cbn [snd] in *. apply bind_ok in E5. destruct E5 as (r & _ & E5). apply bind_ok in E5. destruct E5 as (ci2 & _ & E5).
    apply bind_ok in E5. destruct E5 as (x & _ & E5). apply bind_ok in E5. destruct E5 as (cx2 & W & E5). injection E5 as <- <-. rewrite (len_wr _ _ _ _ W). exact Lb. }
  split; [exists p, cx'; repeat split; try reflexivity; try apply M; rewrite L'; exact Ez|exists cx'; split; [reflexivity|lia]].
Qed.
Lemma dns_counted F m n C : dns_to_csc (T := T) F m n = Ok C -> 0 <= n -> counted n C.
Proof.
  unfold dns_to_csc. intros E N. apply bind_ok in E. destruct E as (p0 & E0 & E). apply bind_ok in E. destruct E as (p1 & E1 & E).
  apply bind_ok in E. destruct E as ([[p rows] data] & E2 & E).
  assert (M : mono p n).
  { refine ((fun G => _) (for_inv (fun j st => mono (fst (fst st)) j) _ 0 n _ _ E2 _ _)).
    - replace (Z.max 0 n) with n in G by lia. exact G.
    - cbn [fst]. split; [eapply rd_wr_same; eauto|intros; lia].
    - intros j [[pa ra] da] [[pb rb] db] Hj M E3. cbn [fst] in *. apply bind_ok in E3. destruct E3 as (pj & Rj & E3). apply bind_ok in E3. destruct E3 as (pc & Wj & E3).
      apply close_col; [lia|]. assert (O := open_col _ _ _ _ (proj1 Hj) M Rj Wj).
      refine (for_inv (fun _ st => opened (fst (fst st)) j) _ 0 m _ _ E3 O _).
      intros i [[pd' rd'] dd'] [[pe re] de] Hi O1 E4. cbn [fst] in *. apply bind_ok in E4. destruct E4 as (t1 & _ & E4). apply bind_ok in E4. destruct E4 as (t2 & _ & E4).
      destruct (_ || _); [|injection E4 as <- <- <-; exact O1]. apply bind_ok in E4. destruct E4 as (q & Q & E4). apply bind_ok in E4. destruct E4 as (pf & W & E4). injection E4 as <- <- <-.
      eapply bump_col; eauto; lia. }
  apply bind_ok in E. destruct E as (nnz & Ez & E). apply bind_ok in E. destruct E as (ci & Ei & E). apply bind_ok in E. destruct E as (cx & Ex & E).
  apply bind_ok in E. destruct E as ([ci' cx'] & E4 & E). injection E as <-. apply alloc_inv in Ex. destruct Ex as (Rz & ->).
  assert (L' : len cx' = nnz).
  { refine (for_inv (fun _ st => len (snd st) = nnz) _ 0 nnz _ _ E4 _ _); [cbn; apply len_repeat; lia|].
    intros i [a b] [a' b'] _ Lb E5. cbn [snd] in *. apply bind_ok in E5. destruct E5 as (r & _ & E5). apply bind_ok in E5. destruct E5 as (ci2 & _ & E5).
    apply bind_ok in E5. destruct E5 as (x & _ & E5). apply bind_ok in E5. destruct E5 as (cx2 & W & E5). injection E5 as <- <-. rewrite (len_wr _ _ _ _ W). exact Lb. }
  exists p, cx'; repeat split; try reflexivity; try apply M; rewrite L'; exact Ez.
Qed.

(** ** The index list *)
Lemma merge_count fuel (Q C : csc T) rho j pQ pC iQ iC st st' : merge_col fuel Q C rho j pQ pC iQ iC st = Ok st' -> iC <= pC ->
  len (snd st') = len (snd st) + (pC - iC).
Proof.
  revert iQ iC st st'. induction fuel as [|fuel IH]; intros iQ iC [[[data row] p] idx] st' E Hc; cbn [merge_col] in E.
  - destruct ((iQ <? pQ) || (iC <? pC)) eqn:B; [discriminate|]. injection E as <-. lia.
  - destruct ((iQ <? pQ) || (iC <? pC)) eqn:B; [|injection E as <-; lia]. apply bind_ok in E. destruct E as (cnt & _ & E). cbv zeta in E.
    assert (TQ : forall r, (let! x := csc_x Q iQ in let! r := csc_i Q iQ in let! p := wr p (j + 1) (cnt + 1) in
        merge_col fuel Q C rho j pQ pC (iQ + 1) iC (data ++ [x], row ++ [r], p, idx)) = Ok r -> len (snd r) = len idx + (pC - iC)).
    { intros r Er. do 3 (apply bind_ok in Er; destruct Er as (? & _ & Er)). apply IH in Er; [|lia]. exact Er. }
    assert (TC : forall r, iC < pC -> (let! x := csc_x C iC in let! r := csc_i C iC in let! p := wr p (j + 1) (cnt + 1) in
        merge_col fuel Q C rho j pQ pC iQ (iC + 1) (data ++ [(rho * x)%num], row ++ [r], p, idx ++ [cnt])) = Ok r -> len (snd r) = len idx + (pC - iC)).
    { intros r Hr Er. do 3 (apply bind_ok in Er; destruct Er as (? & _ & Er)). apply IH in Er; [|lia]. cbn [snd] in Er. rewrite len_app in Er. unfold len in *. simpl in Er. lia. }
    cbn [snd]. destruct ((iQ <? pQ) && (pC <=? iC)) eqn:B1; [apply TQ; exact E|]. destruct ((pQ <=? iQ) && (iC <? pC)) eqn:B2; [apply TC; [lia|exact E]|].
    apply bind_ok in E. destruct E as (rQ & _ & E). apply bind_ok in E. destruct E as (rC & _ & E). destruct (rQ <? rC); [apply TQ; exact E|]. destruct (rC <? rQ); [apply TC; [lia|exact E]|].
    do 3 (apply bind_ok in E; destruct E as (? & _ & E)). apply IH in E; [|lia]. cbn [snd] in E. rewrite len_app in E. unfold len in *. simpl in E. lia.
Qed.
Lemma setQk_count nV (Q C : csc T) rho idx0 M idx : 0 <= nV -> counted nV C -> setQk_sparse nV Q C rho idx0 = Ok (M, idx) ->
  exists x, c_x C = Some x /\ len idx = len idx0 + len x.
Proof.
  intros N (p & x & Ep & Ex & (M0 & Mm) & Mn) E. exists x. split; [exact Ex|]. unfold setQk_sparse in E. apply bind_ok in E. destruct E as (p0 & _ & E). apply bind_ok in E. destruct E as (p1 & _ & E).
  apply bind_ok in E. destruct E as ([[[data row] p2] idx'] & E2 & E). apply bind_ok in E. destruct E as (nnx & _ & E). apply bind_ok in E. destruct E as (? & _ & E). apply bind_ok in E. destruct E as (? & _ & E).
  apply bind_ok in E. destruct E as ([? ?] & _ & E). injection E as <- <-.
  assert (G : exists b, rd p nV = Ok b /\ len idx' = len idx0 + b).
  { refine ((fun G => _) (for_inv (fun j st => exists b, rd p j = Ok b /\ len (snd st) = len idx0 + b) _ 0 nV _ _ E2 _ _)).
    - replace (Z.max 0 nV) with nV in G by lia. exact G.
    - exists 0. cbn [snd]. split; [exact M0|lia].
    - intros j [[[da ra] pa] ia] [[[db rb] pb] ib] Hj (b & Rb & Lb) E3. cbn [snd] in *. do 2 (apply bind_ok in E3; destruct E3 as (? & _ & E3)).
      apply bind_ok in E3. destruct E3 as (iQ & _ & E3). apply bind_ok in E3. destruct E3 as (iC & EC & E3). apply bind_ok in E3. destruct E3 as (pQ & _ & E3). apply bind_ok in E3. destruct E3 as (pC & EC' & E3).
      unfold csc_p in EC, EC'. rewrite Ep in EC, EC'. cbn [deref bind] in EC, EC'. destruct (Mm j Hj) as (a1 & b1 & R1 & R2 & L). rewrite R1 in EC. injection EC as <-. rewrite R2 in EC'. injection EC' as <-.
      apply merge_count in E3; [|exact L]. cbn [snd] in E3. exists b1. split; [exact R2|]. rewrite Rb in R1. injection R1 as <-. lia. }
  destruct G as (b & Rb & G). rewrite Mn in Rb. injection Rb as <-. exact G.
Qed.
Lemma updateQk_count d s s' C x : d_sparseSolver d = true -> d_C_sparse d = Some C -> c_x C = Some x -> updateQk d s = Ok s' -> len (s_Qk_indices_of_C s) <= len x.
Proof.
  intros M EC Ex E. unfold updateQk in E. rewrite M, EC in E. cbv zeta in E. cbn [deref bind] in E. apply bind_ok in E. destruct E as (M1 & _ & E). apply bind_ok in E. destruct E as (x1 & _ & E).
  apply bind_ok in E. destruct E as (x2 & E2 & E). clear E. fold (len (s_Qk_indices_of_C s)) in E2. pose proof (len_nonneg (s_Qk_indices_of_C s)). pose proof (len_nonneg x).
  refine ((fun G => _) (for_inv (fun j _ => j <= len x) _ 0 _ _ _ E2 _ _)).
  - cbv beta in G. lia.
  - cbv beta. lia.
  - intros j a b Hj _ E3. apply bind_ok in E3. destruct E3 as (k & _ & E3). apply bind_ok in E3. destruct E3 as (v & _ & E3). apply bind_ok in E3. destruct E3 as (c & Ec & _).
    unfold csc_x in Ec. rewrite Ex in Ec. cbn [deref bind] in Ec. rewrite rd_at in Ec. destruct ((0 <=? j) && (j <? len x)) eqn:B; [lia|discriminate].
Qed.
Lemma penalty_count d s s' C x : d_sparseSolver d = true -> d_C_sparse d = Some C -> c_x C = Some x -> penaltyStep d s = Ok s' -> len (s_Qk_indices_of_C s) <= len x.
Proof.
  intros M EC Ex E. unfold penaltyStep in E. apply bind_ok in E. destruct E as (s1 & E & _). unfold updatePenalty in E. cbv zeta in E. apply bind_ok in E. destruct E as (s2 & E & _).
  apply (updateQk_count d _ _ C x M EC Ex) in E. destruct (0 <? _) in E; exact E.
Qed.
(** ** Runs *)
Lemma head_count d s s' C x : d_sparseSolver d = true -> d_C_sparse d = Some C -> c_x C = Some x -> len x < len (s_Qk_indices_of_C s) -> pass_head d s = Ok s' ->
  s_outerIter s' = s_outerIter s.
Proof.
  intros M EC Ex L. unfold pass_head; intros E.
  apply bind_ok in E; destruct E as (s1 & E1 & E). apply updateStep_frame in E1. destruct E1 as (x1 & ->).
  apply bind_ok in E; destruct E as (s2 & E2 & E). apply updateStationarity_frame in E2. destruct E2 as (a1 & a2 & a3 & ->).
  apply bind_ok in E; destruct E as (s3 & E3 & E). apply printIteration_frame in E3. destruct E3 as (l & ->).
  apply bind_ok in E; destruct E as (s4 & E4 & E). set (s3 := set_log l _) in *.
  assert (E4' : exists st1, s4 = set_stats st1 s3).
  { destruct (o_storeSteps _); [apply storeSteps_frame in E4; destruct E4 as (st & ->); eauto|]. injection E4 as <-. exists (s_stats s3). destruct s3; reflexivity. }
  destruct E4' as (st1 & ->). clear E4.
  apply bind_ok in E; destruct E as (s5 & E5 & E). apply updateTotalIter_frame in E5.
  apply bind_ok in E; destruct E as (n & En & E). apply chk_int_ok in En. destruct En as [-> _].
  apply bind_ok in E; destruct E as ([b s6] & E6 & E). apply leyffer_frame in E6. destruct E6 as (hs & ->).
  apply bind_ok in E; destruct E as (s7 & E7 & E). apply updateLinearization_frame in E. destruct E as (gk & ->). destruct b.
  - exfalso. apply (penalty_count d _ _ C x M EC Ex) in E7. subst s5. change (len (s_Qk_indices_of_C s) <= len x) in E7. lia.
  - injection E7 as <-. subst s5. reflexivity.
Qed.
Lemma pass_count orc rand d s s' e C x : d_sparseSolver d = true -> d_C_sparse d = Some C -> c_x C = Some x -> len x < len (s_Qk_indices_of_C s) -> pass orc rand d s = Ok (s', e) ->
  s_outerIter s' = s_outerIter s /\ s_Qk_indices_of_C s' = s_Qk_indices_of_C s.
Proof.
  intros M EC Ex L E. apply pass_inv in E. inversion E as [s1 s'' b1 Hh Hhd Hst Hcc Hfin|s1 s2 s'' e' b1 b2 Hh Hhd Hp Hb2 Ht]; subst.
  - apply finish_frame in Hfin. destruct Hfin as (y & a & l & _ & ->). apply (head_count d s s1 C x M EC Ex L) in Hhd. destruct Hh. cbn. split; assumption.
  - apply (head_count d s s1 C x M EC Ex L) in Hhd. destruct Hh. assert (S2 : s2 = s1).
    { destruct b2; [|tauto]. exfalso. destruct Hb2 as (_ & _ & P). apply (penalty_count d _ _ C x M EC Ex) in P. rewrite he_idx in P. lia. }
    subst s2. assert (G : s_outerIter s' = s_outerIter s1 /\ s_Qk_indices_of_C s' = s_Qk_indices_of_C s1); [|destruct G as (-> & ->); split; assumption].
    apply pass_tail_inv in Ht. inversion Ht as [| |s4 s5 r' Hm Hr E3 E4 Er|s4 s5 s6 s7 Hm Hr E3 E4 E5 E6]; subst; [split; reflexivity..| |].
    + apply updateLinearization_frame in E3. destruct E3 as (v & ->). apply solveQPSubproblem_effect in E4. destruct E4. cbn. split; assumption.
    + apply updateLinearization_frame in E3. destruct E3 as (v & ->). apply solveQPSubproblem_effect in E4. destruct E4. cbn in *.
      apply getOptimalStepLength_frame in E6. destruct E6 as (al & lk & ->). cbn.
      destruct (o_perturbStep _); [apply perturbStep_frame in E5; destruct E5 as (a & b & ->)|subst s6]; cbn; split; assumption.
Qed.
Lemma loop_count fuel orc rand d s r s' C x : d_sparseSolver d = true -> d_C_sparse d = Some C -> c_x C = Some x -> len x < len (s_Qk_indices_of_C s) -> loop fuel orc rand d s = Ok (r, s') ->
  s_outerIter s' = s_outerIter s.
Proof.
  intros M EC Ex. revert s. induction fuel as [|fuel IH]; intros s L E; [discriminate|]. cbn [loop] in E. apply bind_ok in E. destruct E as ([s1 e] & E1 & E).
  destruct (pass_count _ _ _ _ _ _ _ _ M EC Ex L E1) as (P1 & P2). destruct e; [injection E as <- <-; exact P1|]. rewrite <- P1. apply IH; [rewrite P2; exact L|exact E].
Qed.
Lemma pass_idx orc rand d s s' e : pass orc rand d s = Ok (s', e) -> s_Qk_indices_of_C s' = s_Qk_indices_of_C s.
Proof.
  intros E. apply pass_inv in E. inversion E as [s1 s'' b1 Hh Hhd Hst Hcc Hfin|s1 s2 s'' e' b1 b2 Hh Hhd Hp Hb2 Ht]; subst.
  - apply finish_frame in Hfin. destruct Hfin as (y & a & l & _ & ->). destruct Hh. exact he_idx.
  - destruct Hh. rewrite <- he_idx. assert (S2 : s_Qk_indices_of_C s2 = s_Qk_indices_of_C s1).
    { destruct b2; [|destruct Hb2 as (_ & ->); reflexivity]. destruct Hb2 as (_ & _ & P). apply penaltyStep_frame in P. destruct P as (q & qs & gt & ->). reflexivity. }
    rewrite <- S2. apply pass_tail_inv in Ht. inversion Ht as [| |s4 s5 r' Hm Hr E3 E4 Er|s4 s5 s6 s7 Hm Hr E3 E4 E5 E6]; subst; [reflexivity..| |].
    + apply updateLinearization_frame in E3. destruct E3 as (v & ->). apply solveQPSubproblem_effect in E4. destruct E4. assumption.
    + apply updateLinearization_frame in E3. destruct E3 as (v & ->). apply solveQPSubproblem_effect in E4. destruct E4. cbn in *.
      apply getOptimalStepLength_frame in E6. destruct E6 as (al & lk & ->). cbn.
      destruct (o_perturbStep _); [apply perturbStep_frame in E5; destruct E5 as (a & b & ->)|subst s6]; cbn; assumption.
Qed.
Lemma loop_idx fuel orc rand d s r s' : loop fuel orc rand d s = Ok (r, s') -> s_Qk_indices_of_C s' = s_Qk_indices_of_C s.
Proof.
  revert s. induction fuel as [|fuel IH]; intros s E; [discriminate|]. cbn [loop] in E. apply bind_ok in E. destruct E as ([s1 e] & E1 & E).
  rewrite <- (pass_idx _ _ _ _ _ _ E1). destruct e; [injection E as <- <-; reflexivity|]. apply IH. exact E.
Qed.

(** What a run does to the index list.  No LCQPow code. *)
Lemma run_count orc rand nV o r o' : runSolver orc rand o = Ok (r, o') -> 0 <= nV -> d_nV (pd o) = None \/ d_nV (pd o) = Some nV ->
  (forall C, d_C_sparse (pd o) = Some C -> counted nV C) ->
  len (s_Qk_indices_of_C (it o)) <= len (s_Qk_indices_of_C (it o')) /\
  (d_sparseSolver (pd o) = true -> started o o' -> 1 <= st_iterTotal (getOutputStatistics o') -> exists C x, d_C_sparse (pd o) = Some C /\ c_x C = Some x /\
     len (s_Qk_indices_of_C (it o')) = len (s_Qk_indices_of_C (it o)) + len x) /\
  (d_sparseSolver (pd o) = true -> started o o' -> s_Qk_indices_of_C (it o) <> [] -> st_iterOuter (getOutputStatistics o') = 0).
Proof.
  intros E N Hn HC. assert (RP : started o o' -> exists o1, pd o' = pd o1 /\ ctl_post (pd o1) (s_calls (it o)) r (it o')).
  { intros St. destruct (run_post _ _ _ _ _ _ E St) as (o1 & _ & Epd & _ & CP & _). eauto. }
  apply run_inv in E. inversion E as [r1 o1 E1 F1|r1 o1 s1 E1 E2|r1 o1 s1 s2 E1 E2 E3]; subst; clear E.
  - assert (K : s_Qk_indices_of_C (it (logL (EvMessage r) o1)) = s_Qk_indices_of_C (it o) /\ s_calls (it (logL (EvMessage r) o1)) = s_calls (it o)).
    { apply initializeSolver_ok in E1. destruct E1 as [(C & _)|(_ & a & b & c & e & f & y & ->)]; [congruence|]. split; reflexivity. }
    destruct K as (-> & K). split; [lia|]. split; intros _ St; exfalso; apply St; exact K.
  - apply initializeSolver_ok in E1. destruct E1 as [(_ & _ & a & b & c & e & f & g1 & g2 & y & gt & l & ->)|(C & _)]; [|discriminate]. cbn [pd it] in *.
    apply first_solve_inv in E2. inversion E2 as [g s2 r2 Eq Fq|]; subst. apply solveQPSubproblem_effect in Eq. destruct Eq. cbn in qe_idx, qe_total, qe_outer.
    cbn [it logI set_log s_Qk_indices_of_C]. split; [rewrite qe_idx; lia|]. split.
    + intros _ St T1. exfalso. destruct (RP St) as (o2 & _ & CP). destruct CP. cbn in cp_total. change (1 <= st_iterTotal (s_stats s2)) in T1. lia.
    + intros _ St _. destruct (RP St) as (o2 & _ & CP). destruct CP. cbn in cp_outer. change (st_iterOuter (s_stats s2) = 0). lia.
  - apply initializeSolver_ok in E1. destruct E1 as [(_ & _ & a & b & c & e & f & g1 & g2 & y & gt & l & ->)|(C & _)]; [|discriminate]. cbn [pd it] in *.
    match type of E2 with first_solve orc ?D _ = _ => set (dd := D) in * end. assert (D1 : d_sparseSolver dd = d_sparseSolver (pd o)) by reflexivity. assert (D2 : d_C_sparse dd = d_C_sparse (pd o)) by reflexivity.
    assert (D3 : d_nV dd = d_nV (pd o)) by reflexivity. clearbody dd.
    apply first_solve_inv in E2. inversion E2 as [|g s3 s4 Eq Es]; subst. apply solveQPSubproblem_effect in Eq. destruct Eq. cbn in qe_idx, qe_outer. rewrite (loop_idx _ _ _ _ _ _ _ E3). cbn [set_stats s_Qk_indices_of_C] in *.
    unfold setQk in Es. apply bind_ok in Es. destruct Es as (n & En & Es). rewrite D3 in En. destruct Hn as [Hn|Hn]; rewrite Hn in En; [discriminate|]. injection En as <-. rewrite D1 in Es.
    destruct (d_sparseSolver (pd o)) eqn:M.
    + rewrite D2 in Es. apply bind_ok in Es. destruct Es as (Q & _ & Es). destruct (d_C_sparse (pd o)) as [C|] eqn:EC; [|discriminate]. cbn [deref bind] in Es.
      apply bind_ok in Es. destruct Es as ([Mk idx] & Ek & Es). injection Es as <-. cbn [set_Qk_indices_of_C set_Qk_sparse s_Qk_indices_of_C] in *.
      destruct (setQk_count _ _ _ _ _ _ _ N (HC C eq_refl) Ek) as (x & Ex & Lx). rewrite qe_idx in Lx. pose proof (len_nonneg x). split; [lia|]. split; [intros _ _ _; exists C, x; auto|].
      intros _ St Ne. destruct (RP St) as (o2 & _ & CP). destruct CP. change (st_iterOuter (s_stats s2) = 0). cbn in cp_outer. rewrite cp_outer.
      assert (0 < len (s_Qk_indices_of_C (it o))) by (destruct (s_Qk_indices_of_C (it o)); [congruence|rewrite len_cons; pose proof (len_nonneg l0); lia]).
      apply (loop_count _ _ _ _ _ _ _ C x D1 D2 Ex) in E3; [rewrite E3; exact qe_outer|]. cbn [set_stats s_Qk_indices_of_C set_Qk_indices_of_C]. lia.
    + do 4 (apply bind_ok in Es; destruct Es as (? & _ & Es)). injection Es as <-. cbn [set_Qk s_Qk_indices_of_C]. rewrite qe_idx. split; [lia|]. split; discriminate.
Qed.

(** ** Calls *)
(** The dimension and the sparse C of an object; with [nz] that C stores at least one value.  No LCQPow code. *)
Definition stored (nV : Z) (nz : bool) o : Prop :=
  (d_nV (pd o) = None \/ d_nV (pd o) = Some nV) /\
  forall C, d_C_sparse (pd o) = Some C -> counted nV C /\ (nz = true -> exists x, c_x C = Some x /\ 0 < len x).
(** Every object [m] may lead to is of that kind.  No LCQPow code. *)
Definition leads nV nz (m : res (ReturnValue * lcqp T)) : Prop := forall r o', m = Ok (r, o') -> stored nV nz o'.
Lemma stored_same nV nz o o' : d_nV (pd o') = d_nV (pd o) -> d_C_sparse (pd o') = d_C_sparse (pd o) -> stored nV nz o -> stored nV nz o'.
Proof. intros E1 E2 [S1 S2]. split; [rewrite E1; exact S1|rewrite E2; exact S2]. Qed.
Lemma leads_same nV nz o m : (forall r o', m = Ok (r, o') -> d_nV (pd o') = d_nV (pd o) /\ d_C_sparse (pd o') = d_C_sparse (pd o)) -> stored nV nz o -> leads nV nz m.
Proof. intros K S r o' E. destruct (K _ _ E). eapply stored_same; eauto. Qed.
Lemma leads_then nV nz m k : leads nV nz m -> (forall o, stored nV nz o -> leads nV nz (k o)) -> leads nV nz (and_then m k).
Proof.
  intros M K r o' E. unfold and_then in E. apply bind_ok in E. destruct E as ([r1 o1] & E1 & E). apply M in E1. destruct (is_success r1); [eapply K; eauto|].
  unfold fail_msg in E. injection E as <- <-. exact E1.
Qed.
Lemma leads_fail nV nz r o : stored nV nz o -> leads nV nz (fail_msg r o).
Proof. intros S r' o' E. unfold fail_msg in E. injection E as <- <-. exact S. Qed.
Lemma leads_bind nV nz {X} (m : res X) k : (forall x, m = Ok x -> leads nV nz (k x)) -> leads nV nz (bind m k).
Proof. intros K r o' E. apply bind_ok in E. destruct E as (x & E1 & E). eapply K; eauto. Qed.
Ltac kept := intros ? ? ?; inv_ok; split; first [reflexivity|assumption|symmetry; assumption].
Lemma copy_box_stored nV nz lb ub o o' : copy_box lb ub o = Ok o' -> stored nV nz o -> stored nV nz o'.
Proof. unfold copy_box. intros E S. inv_ok; exact S. Qed.
Lemma leads_dense nV nz Q g L R lbL ubL lbR ubR A lbA ubA lb ub x0 y0 o : stored nV nz o ->
  leads nV nz (and_then (setQ Q o) (fun o => and_then (setG g o) (fun o => let! o := copy_box lb ub o in and_then (setConstraints L R A lbA ubA o) (fun o =>
   and_then (setComplementarityBounds lbL ubL lbR ubR o) (fun o => and_then (setInitialGuess x0 y0 o) (fun o =>
   Ok (SUCCESSFUL_RETURN, mkLcqp (set_d_sparseSolver false (pd o)) (it o)))))))).
Proof.
  intros S. apply leads_then; [apply leads_same with o; [unfold setQ; kept|exact S]|]. clear o S. intros o S.
  apply leads_then; [apply leads_same with o; [unfold setG; kept|exact S]|]. clear o S. intros o S.
  apply leads_bind. intros o1 E1. apply copy_box_stored with (2 := S) in E1.
  apply leads_then; [apply leads_same with o1; [unfold setConstraints; cbv zeta; kept|exact E1]|]. clear o S o1 E1. intros o S.
  apply leads_then; [apply leads_same with o; [unfold setComplementarityBounds; cbv zeta; kept|exact S]|]. clear o S. intros o S.
  apply leads_then; [apply leads_same with o; [unfold setInitialGuess; kept|exact S]|]. clear o S. intros o S.
  intros r o' E. injection E as <- <-. exact S.
Qed.
Lemma leads_read nV nz n f o k : stored nV nz o -> (forall a, leads nV nz (k a)) -> leads nV nz (read_file n f o k).
Proof.
  intros S K r o' E. unfold read_file in E. apply bind_ok in E. destruct E as (a & _ & E). apply bind_ok in E. destruct E as ([r1 b] & _ & E).
  destruct (is_success r1); [eapply K; exact E|]. unfold fail_msg in E. injection E as <- <-. exact S.
Qed.
Lemma leads_opt nV nz n f o k : stored nV nz o -> (forall a, leads nV nz (k a)) -> leads nV nz (read_opt_file n f o k).
Proof. intros S K. destruct f; cbn [read_opt_file]; [apply leads_read; assumption|apply K]. Qed.
Lemma copyCSC_cols (M : option (csc T)) N : copyCSC M = Ok N -> exists M0, M = Some M0 /\ c_n N = c_n M0.
Proof. unfold copyCSC. destruct M as [M|]; cbn [deref bind]; [|discriminate]. intros E. exists M. split; [reflexivity|]. do 6 (apply bind_ok in E; destruct E as (? & _ & E)). injection E as <-. reflexivity. Qed.
Lemma leads_constraints_csc nV nz L R A lbA ubA o : 0 <= nV -> (forall L0, L = Some L0 -> c_n L0 = nV) -> stored nV nz o -> leads nV nz (setConstraints_csc L R A lbA ubA o).
Proof.
  intros N F S r o' E. unfold setConstraints_csc in E. apply bind_ok in E. destruct E as (L1 & E1 & E). apply copyCSC_cols in E1. destruct E1 as (L0 & EL & E1). rewrite (F L0 EL) in E1.
  do 12 (apply bind_ok in E; destruct E as (? & _ & E)). apply bind_ok in E; destruct E as ([[[? ?] ?] ?] & _ & E). do 2 (apply bind_ok in E; destruct E as (? & _ & E)).
  apply bind_ok in E. destruct E as (C & EC & E). cbv zeta in E. injection E as _ <-. destruct S as [S1 S2]. split; [exact S1|]. cbn [pd set_d_C_sparse d_C_sparse].
  intros C0 ->. apply symm_counted in EC; [|lia]. rewrite E1 in EC. destruct EC as (A1 & A2). auto.
Qed.
Lemma stored_call orc rand nV nz c o r o' : 0 <= nV -> stored nV nz o -> fits nV c -> (nz = true -> c <> KToSparse) -> perform orc rand c o = Ok (r, o') -> stored nV nz o'.
Proof.
  intros N S F Z E. revert r o' E. change (leads nV nz (perform orc rand c o)). destruct c; cbn [perform].
  - intros r o' E. injection E as <- <-. exact S.
  - unfold loadLCQP. apply leads_bind. intros n _. destruct (n <=? 0); [apply leads_fail; exact S|]. apply leads_bind. intros k _. destruct (k <=? 0); [apply leads_fail; exact S|]. apply leads_dense; exact S.
  - unfold loadLCQP_csc. apply leads_then; [apply leads_same with o; [unfold setQ_csc; kept|exact S]|]. clear o S. intros o S.
    apply leads_then; [apply leads_same with o; [unfold setG; kept|exact S]|]. clear o S. intros o S.
    apply leads_then; [apply leads_constraints_csc; [exact N| |exact S]|]. { intros L0 ->. exact F. } clear o S. intros o S.
    apply leads_then; [apply leads_same with o; [unfold setComplementarityBounds; cbv zeta; kept|exact S]|]. clear o S. intros o S.
    apply leads_then; [apply leads_same with o; [unfold setInitialGuess; kept|exact S]|]. clear o S. intros o S.
    apply leads_bind. intros o1 E1. apply copy_box_stored with (2 := S) in E1. intros r o' E. injection E as <- <-. exact E1.
  - unfold loadLCQP_files. do 3 (apply leads_bind; intros ? _). do 4 (apply leads_read; [exact S|intros ?]). do 11 (apply leads_opt; [exact S|intros ?]). apply leads_dense; exact S.
  - intros r o' E. unfold switchToSparseMode in E. cbv zeta in E. destruct (d_sparseSolver (pd o)); [injection E as <- <-; exact S|].
    apply bind_ok in E; destruct E as (n & En & E). do 6 (apply bind_ok in E; destruct E as (? & _ & E)). apply bind_ok in E; destruct E as (C & EC & E). injection E as <- <-.
    destruct S as [S1 S2]. split; [exact S1|]. cbn [pd set_d_C_sparse d_C_sparse set_d_C set_d_R set_d_L set_d_A set_d_Q set_d_sparseSolver]. intros C0 E0. injection E0 as <-.
    split; [|intros Z1; exfalso; exact (Z Z1 eq_refl)]. destruct S1 as [S1|S1]; rewrite S1 in En; [discriminate|]. injection En as <-. eapply dns_counted; eauto.
  - intros r o' E. unfold switchToDenseMode in E. cbv zeta in E. destruct (d_sparseSolver (pd o)); cbn [negb] in E; [|injection E as <- <-; exact S].
    do 5 (apply bind_ok in E; destruct E as (? & _ & E)). destruct (_ || _) in E; injection E as <- <-; [exact S|]. destruct S as [S1 S2]. split; [exact S1|discriminate].
  - intros r o' E. apply run_inv in E. inversion E as [r1 o1 E1 F1|r1 o1 s1 E1 E2|r1 o1 s1 s2 E1 E2 E3]; subst; clear E; apply initializeSolver_ok in E1.
    + destruct E1 as [(C & _)|(_ & a & b & c & e & f & y & ->)]; [congruence|]. exact S.
    + destruct E1 as [(_ & _ & a & b & c & e & f & g1 & g2 & y & gt & l & ->)|(C & _)]; [|discriminate]. exact S.
    + destruct E1 as [(_ & _ & a & b & c & e & f & g1 & g2 & y & gt & l & ->)|(C & _)]; [|discriminate]. exact S.
Qed.
Lemma idx_call orc rand nV nz c o r o' : 0 <= nV -> stored nV nz o -> perform orc rand c o = Ok (r, o') -> len (s_Qk_indices_of_C (it o)) <= len (s_Qk_indices_of_C (it o')).
Proof.
  intros N S E. assert (RP : forall m, reports o m -> m = Ok (r, o') -> s_Qk_indices_of_C (it o') = s_Qk_indices_of_C (it o)).
  { intros m R E'. destruct (R r o' E') as (s & (x & y & ->) & ->). destruct (is_success r); reflexivity. }
  destruct c; cbn [perform] in E.
  - injection E as <- <-. cbn. lia.
  - apply RP in E; [rewrite E; lia|apply load_reports].
  - apply RP in E; [rewrite E; lia|apply load_csc_reports].
  - apply RP in E; [rewrite E; lia|apply load_files_reports].
  - apply to_sparse_it in E. rewrite E. lia.
  - apply to_dense_it in E. rewrite E. lia.
  - destruct S as [S1 S2]. apply (run_count _ _ nV) in E; [apply E|exact N|exact S1|]. intros C EC. apply S2. exact EC.
Qed.
Lemma stored_used orc rand nV nz h o o' : 0 <= nV -> used orc rand h o o' -> stored nV nz o -> (forall c r, In (c, r) h -> fits nV c) -> (nz = true -> forall c r, In (c, r) h -> c <> KToSparse) ->
  stored nV nz o' /\ len (s_Qk_indices_of_C (it o)) <= len (s_Qk_indices_of_C (it o')).
Proof.
  intros N. revert o'. induction h as [|[c r] h IH] using rev_ind; intros o' U S F Z.
  - apply used_nil in U. subst. split; [exact S|lia].
  - apply used_snoc in U. destruct U as (o1 & U & P). destruct (IH o1 U S) as (S1 & L1).
    { intros c1 r1 I1. apply (F c1 r1), in_or_app. auto. } { intros Z1 c1 r1 I1. apply (Z Z1 c1 r1), in_or_app. auto. }
    split; [|pose proof (idx_call _ _ _ _ _ _ _ _ N S1 P); lia].
    eapply stored_call; [exact N|exact S1|apply (F c r)|intros Z1; apply (Z Z1 c r)|exact P]; apply in_or_app; right; left; reflexivity.
Qed.
Lemma used_mode orc rand h o o' : used orc rand h o o' -> d_sparseSolver (pd o') = fold_left store h (d_sparseSolver (pd o)).
Proof.
  revert o'. induction h as [|[c r] h IH] using rev_ind; intros o' U; [apply used_nil in U; subst; reflexivity|].
  apply used_snoc in U. destruct U as (o1 & U & P). apply call_box in P. destruct P as (_ & P & _). rewrite fold_left_app. cbn [fold_left]. rewrite <- (IH _ U). exact P.
Qed.

Lemma p_C27_again orc rand nV nC nComp h1 h2 (o oa ob oc od : lcqp T) r1 r2 : 0 < nV -> LCQProblem_ctor nV nC nComp = Ok o ->
  (forall c r, In (c, r) (h1 ++ h2) -> fits nV c) -> (forall c r, In (c, r) h1 -> c <> KToSparse) ->
  used orc rand h1 o oa -> sparsely h1 = true -> runSolver orc rand oa = Ok (r1, ob) -> 1 <= st_iterTotal (getOutputStatistics ob) -> started oa ob ->
  used orc rand h2 ob oc -> sparsely (h1 ++ (KRun, r1) :: h2) = true -> runSolver orc rand oc = Ok (r2, od) -> started oc od ->
  st_iterOuter (getOutputStatistics od) = 0.
Proof.
  intros N C F Z U1 M1 R1 T1 St1 U2 M2 R2 St2. assert (N0 : 0 <= nV) by lia.
  assert (S0 : forall nz, stored nV nz o).
  { intros nz. unfold LCQProblem_ctor in C. assert (K : (d_nV (pd o) = None \/ d_nV (pd o) = Some nV) /\ d_C_sparse (pd o) = None) by (inv_ok; split; auto). destruct K as (K1 & K2).
    split; [exact K1|]. rewrite K2. discriminate. }
  destruct (stored_used _ _ _ true _ _ _ N0 U1 (S0 true)) as (Sa & La); [intros c r I; apply (F c r), in_or_app; auto|intros _; exact Z|].
  pose proof (used_mode _ _ _ _ _ U1) as Ma. assert (M0 : d_sparseSolver (pd o) = false) by (clear - C; unfold LCQProblem_ctor in C; inv_ok; reflexivity).
  rewrite M0 in Ma. change (fold_left store h1 false) with (sparsely h1) in Ma. rewrite M1 in Ma.
  assert (Sb : stored nV false ob).
  { eapply stored_call with (c := KRun); [exact N0| |exact I|discriminate|exact R1]. destruct Sa as [A1 A2]. split; [exact A1|]. intros C0 E0. split; [apply A2; exact E0|discriminate]. }
  assert (Lb : 0 < len (s_Qk_indices_of_C (it ob))).
  { pose proof (run_count _ _ nV _ _ _ R1 N0) as P. destruct Sa as [A1 A2]. specialize (P A1). destruct P as (_ & P & _); [intros C0 E0; apply A2; exact E0|].
    destruct (P Ma St1 T1) as (C0 & x & E0 & Ex & L). destruct (A2 _ E0) as (_ & A3). destruct (A3 eq_refl) as (x' & Ex' & L'). rewrite Ex in Ex'. injection Ex' as <-.
    pose proof (len_nonneg (s_Qk_indices_of_C (it oa))). lia. }
  destruct (stored_used _ _ _ false _ _ _ N0 U2 Sb) as (Sc & Lc); [intros c r I; apply (F c r), in_or_app; auto|discriminate|].
  pose proof (used_mode _ _ _ _ _ U2) as Mc. assert (Mb : d_sparseSolver (pd ob) = true) by (apply run_box in R1; destruct R1 as (_ & R1 & _); congruence).
  unfold sparsely in M1, M2. rewrite fold_left_app in M2. cbn [fold_left store] in M2. rewrite M1 in M2. rewrite Mb, M2 in Mc.
  pose proof (run_count _ _ nV _ _ _ R2 N0) as P. destruct Sc as [A1 A2]. specialize (P A1). destruct P as (_ & _ & P); [intros C0 E0; apply A2; exact E0|].
  apply P; [exact Mc|exact St2|]. destruct (s_Qk_indices_of_C (it oc)); [cbn in Lc; lia|discriminate].
Qed.

End Again.
