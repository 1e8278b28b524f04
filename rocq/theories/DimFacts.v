(** * DimFacts: dimensions and solution vectors over any history of calls (proofs; no LCQPow code). *)
From Verif Require Import Base Arith Codes Utilities Options Stats FileIO Subsolver State LCQProblem Tactics Loops Frames Control RunControl LoadFrames SpecLife SpecUse SpecDim BoxFacts SparseAgain.

(** ** Copying into the caller's array *)
Lemma for_stop {S} (P : Z -> S -> Prop) (f : Z -> S -> res S) lo hi k s u : lo <= k < hi -> P lo s ->
  (forall i s, lo <= i < k -> P i s -> exists s', f i s = Ok s' /\ P (i + 1) s') -> (forall s, P k s -> f k s = UB u) -> for_ lo hi f s = UB u.
Proof.
  intros [H1 H2] H3 H4 H5. remember (Z.to_nat (k - lo)) as m eqn:Em. revert lo s H1 H3 H4 Em. induction m; intros lo s H1 H3 H4 Em.
  - assert (lo = k) by lia. subst lo. rewrite for_cons by lia. rewrite (H5 s H3). reflexivity.
  - rewrite for_cons by lia. destruct (H4 lo s ltac:(lia) H3) as (s' & -> & P'). cbn [bind]. apply IHm; [lia|exact P'| |lia]. intros i t Hi. apply H4. lia.
Qed.
Lemma lift_or {X} (a : arr X) : (exists l, a = lift l) \/ exists i, 0 <= i < len a /\ at_ None a i = None /\ forall j, 0 <= j < i -> at_ None a j <> None.
Proof.
  induction a as [|[v|] a [(l & ->)|(i & Hi & N & B)]].
  - left. exists []. reflexivity.
  - left. exists (v :: l). reflexivity.
  - right. exists (i + 1). rewrite len_cons. split; [lia|]. split.
    + unfold at_ in *. replace (Z.to_nat (i + 1)) with (Datatypes.S (Z.to_nat i)) by lia. exact N.
    + intros j Hj. destruct (Z.eq_dec j 0) as [->|J]; [discriminate|]. specialize (B (j - 1) ltac:(lia)). unfold at_ in *.
      replace (Z.to_nat j) with (Datatypes.S (Z.to_nat (j - 1))) by lia. exact B.
  - right. exists 0. rewrite len_cons. pose proof (len_nonneg (lift l)). split; [lia|]. split; [reflexivity|intros; lia].
  - right. exists 0. rewrite len_cons. pose proof (len_nonneg a). split; [lia|]. split; [reflexivity|intros; lia].
Qed.

Section Dim.
Context {T : Type} `{Arith T}.
Implicit Types (o : lcqp T) (d : pdata T) (h : history T) (s : iter T).

Lemma copy_cases (x : arr T) n : 0 <= n <= len x ->
  (exists l, len l = n /\ forall b : arr T, for_ 0 n (fun i out => let! v := rd x i in wr out i v) b =
     if n <=? len b then Ok (lift l ++ skipn (Z.to_nat n) b) else UB OutOfBounds) \/
  (forall b : arr T, n <= len b -> for_ 0 n (fun i out => let! v := rd x i in wr out i v) b = UB Uninit).
Proof.
  intros Hn. destruct (lift_or (take n x)) as [(l & E)|(i & Hi & N & B)].
  - left. assert (L : len l = n) by (rewrite <- (len_lift l), <- E, len_take; lia). exists l. split; [exact L|]. intros b.
    assert (R : forall i, 0 <= i < n -> rd x i = Ok (at_ a_zero l i)).
    { intros i Hi. rewrite rd_at. replace ((0 <=? i) && (i <? len x)) with true by lia. rewrite <- (at_take None x n i Hi), E, (at_lift a_zero) by lia. reflexivity. }
    destruct (Z.leb_spec n (len b)) as [Hb|Hb].
    + rewrite (for_fill (at_ a_zero l)); [|lia|intros i Hi; rewrite R by lia; reflexivity].
      rewrite <- L, tab_at. reflexivity.
    + pose proof (len_nonneg b). apply (for_stop (fun _ b' => len b' = len b)) with (k := len b); [lia|reflexivity| |].
      * intros i a Hi Ha. rewrite R by lia. cbn [bind]. rewrite wr_ok by lia. eexists. split; [reflexivity|]. rewrite len_upd. exact Ha.
      * intros a Ha. rewrite R by lia. cbn [bind]. unfold wr. fold (len a). replace ((len b <? 0) || (len a <=? len b)) with true by lia. reflexivity.
  - right. intros b Hb. rewrite len_take in Hi by lia. apply (for_stop (fun _ b' => len b' = len b)) with (k := i); [lia|reflexivity| |].
    + intros j a Hj Ha. rewrite rd_at. replace ((0 <=? j) && (j <? len x)) with true by lia. rewrite <- (at_take None x n j) by lia.
      specialize (B j Hj). destruct (at_ None (take n x) j); [|congruence]. cbn [bind]. rewrite wr_ok by lia. eexists. split; [reflexivity|]. rewrite len_upd. exact Ha.
    + intros a Ha. rewrite rd_at. replace ((0 <=? i) && (i <? len x)) with true by lia. rewrite <- (at_take None x n i) by lia. rewrite N. reflexivity.
Qed.

(** ** Lengths *)
(** The primal vector has [n] entries, the dual vector at least [K], if they exist.  No LCQPow code. *)
Definition lens (n K : Z) s : Prop := (forall x, s_xk s = Some x -> len x = n) /\ (forall y, s_yk s = Some y -> K <= len y).
Lemma lens_same n K s s' : s_xk s' = s_xk s -> s_yk s' = s_yk s -> lens n K s -> lens n K s'.
Proof. intros E1 E2 [L1 L2]. split; [rewrite E1; exact L1|rewrite E2; exact L2]. Qed.
Lemma for_len {X} (f : Z -> arr X -> res (arr X)) lo hi a b : (forall i a b, f i a = Ok b -> len b = len a) -> for_ lo hi f a = Ok b -> len b = len a.
Proof. intros F E. refine (for_inv (fun _ c => len c = len a) _ lo hi _ _ E _ _); [reflexivity|]. intros i c c' _ L E'. rewrite (F _ _ _ E'). exact L. Qed.
Lemma wva_len al (a : src T) be (b : src T) (c c' : arr T) m : WeightedVectorAdd al a be b c m = Ok c' -> len c' = len c.
Proof.
  unfold WeightedVectorAdd, WeightedMatrixAdd. apply for_len. intros i c1 c2. apply for_len. intros j c3 c4 E.
  do 2 (apply bind_ok in E; destruct E as (? & _ & E)). eapply len_wr; eauto.
Qed.
Lemma updateStep_lens n K d s s' : updateStep d s = Ok s' -> lens n K s -> lens n K s'.
Proof.
  unfold updateStep. intros E [L1 L2]. apply bind_ok in E. destruct E as (m & _ & E). apply bind_ok in E. destruct E as (p & _ & E). apply bind_ok in E. destruct E as (x & Ex & E).
  apply bind_ok in E. destruct E as (x' & Ex' & E). injection E as <-. apply wva_len in Ex'. split; [|exact L2]. cbn. intros x0 E0. injection E0 as <-. rewrite Ex'. apply L1.
  destruct (s_xk s); [|discriminate]. injection Ex as ->. reflexivity.
Qed.
Lemma perturb_lens n K rand d s s' : perturbStep rand d s = Ok s' -> lens n K s -> lens n K s'.
Proof.
  unfold perturbStep. intros E [L1 L2]. apply bind_ok in E. destruct E as (m & _ & E). apply bind_ok in E. destruct E as (x & Ex & E). apply bind_ok in E. destruct E as ([x' pos] & Ex' & E).
  injection E as <-. split; [|exact L2]. cbn. intros x0 E0. injection E0 as <-.
  assert (L : len x' = len x).
  { refine (for_inv (fun _ st => len (fst st) = len x) _ 0 m _ _ Ex' eq_refl _). intros i [a p] [b q] _ La E'. cbn [fst] in *.
    apply bind_ok in E'. destruct E' as (v & _ & E'). apply bind_ok in E'. destruct E' as (c & W & E'). injection E' as <- <-. rewrite (len_wr _ _ _ _ W). exact La. }
  rewrite L. apply L1. destruct (s_xk s); [|discriminate]. injection Ex as ->. reflexivity.
Qed.
Lemma part_lens n K d M Ms off tmp s tmp' s' : transform_part d M Ms off tmp s = Ok (tmp', s') -> lens n K s -> lens n K s'.
Proof.
  unfold transform_part. intros E [L1 L2]. do 4 (apply bind_ok in E; destruct E as (? & _ & E)). apply bind_ok in E. destruct E as (y & Ey & E). apply bind_ok in E. destruct E as (y' & Ey' & E).
  injection E as <- <-. split; [exact L1|]. cbn. intros y0 E0. injection E0 as <-.
  apply for_len in Ey'; [|intros i a b E'; do 2 (apply bind_ok in E'; destruct E' as (? & _ & E')); eapply len_wr; eauto].
  rewrite Ey'. apply L2. destruct (s_yk s); [|discriminate]. injection Ey as ->. reflexivity.
Qed.
Lemma duals_lens n K d s s' : transformDuals d s = Ok s' -> lens n K s -> lens n K s'.
Proof.
  unfold transformDuals. intros E L. do 4 (apply bind_ok in E; destruct E as (? & _ & E)). apply bind_ok in E. destruct E as ([t1 s1] & E1 & E). apply bind_ok in E. destruct E as ([t2 s2] & E2 & E).
  injection E as <-. eapply part_lens; [exact E2|]. eapply part_lens; [exact E1|exact L].
Qed.
Lemma finish_lens n K d s s' : finish d s = Ok s' -> lens n K s -> lens n K s'.
Proof.
  unfold finish. intros E L. apply bind_ok in E. destruct E as (s1 & E1 & E). apply duals_lens with (2 := L) in E1. apply bind_ok in E. destruct E as (s2 & E2 & E).
  assert (L2 : lens n K s2).
  { unfold determineStationarityType in E2. do 5 (apply bind_ok in E2; destruct E2 as (? & _ & E2)). injection E2 as <-. exact E1. }
  apply bind_ok in E. destruct E as (a & _ & E). cbv zeta in E. injection E as <-. destruct (o_printLevel _); exact L2.
Qed.
Lemma getSolution_lens sub raw x y x' y' : sub_getSolution sub raw x y = Ok (x', y') -> exists y0 y1 : arr T, y = Some y0 /\ y' = Some y1 /\ len y1 = len y0.
Proof.
  assert (W : forall g (a b : arr T) lo hi, for_ lo hi (fun i y => wr y i (g i)) a = Ok b -> len b = len a).
  { intros g a b lo hi. apply for_len. intros i c e E. eapply len_wr; eauto. }
  unfold sub_getSolution. intros E. destruct (sub_qpSolver sub); do 2 (apply bind_ok in E; destruct E as (? & _ & E)); apply bind_ok in E; destruct E as (y0 & Ey & E);
    apply bind_ok in E; destruct E as (y1 & Ey1 & E); injection E as <- <-; (destruct y as [y|]; [|discriminate]); injection Ey as ->; exists y0, y1; (split; [reflexivity|split; [reflexivity|]]).
  1,2: exact (W _ _ _ _ _ Ey1).
  exact (W (fun i => (- q_y raw i)%num) _ _ _ _ Ey1).
Qed.
Lemma qp_lens orc n K d b s r s' : d_nV d = Some n -> (forall q, d_nDuals d = Some q -> K <= q) -> 0 <= n -> solveQPSubproblem orc d b s = Ok (r, s') -> lens n K s -> lens n K s'.
Proof.
  intros D1 D2 N1 E L. unfold solveQPSubproblem in E. rewrite D1 in E. apply bind_ok in E. destruct E as (sub & _ & E). apply bind_ok in E. destruct E as (rs & _ & E). cbv zeta in E.
  assert (L0 : lens n K (sqp_record rs s)). { revert L. apply lens_same; unfold sqp_record; destruct (sr_iter rs), (sr_flag rs); reflexivity. }
  clear L. set (s0 := sqp_record rs s) in *. clearbody s0. clear s.
  apply bind_ok in E. destruct E as (k & _ & E). apply bind_ok in E. destruct E as ([ok st] & _ & E). apply bind_ok in E. destruct E as (f & _ & E). cbn [get bind] in E. apply bind_ok in E. destruct E as (nD & En & E).
  match type of E with context [match s_xk ?t with _ => _ end] => set (s1 := t) in * end. assert (L1 : lens n K s1) by exact L0. clearbody s1. clear s0 L0.
  apply bind_ok in E. destruct E as (s2 & E2 & E).
  assert (L2 : lens n K s2).
  { destruct (s_xk s1) eqn:X; [injection E2 as <-; exact L1|]. apply bind_ok in E2. destruct E2 as (a & Ea & E2). injection E2 as <-. apply alloc_inv in Ea. destruct Ea as (_ & ->).
    split; [|apply L1]. cbn. intros x E0. injection E0 as <-. apply len_repeat. exact N1. }
  clear E2 L1. clearbody s2 || idtac. apply bind_ok in E. destruct E as (s3 & E3 & E).
  assert (L3 : lens n K s3).
  { destruct (s_yk s2) eqn:X; [injection E3 as <-; exact L2|]. apply bind_ok in E3. destruct E3 as (a & Ea & E3). injection E3 as <-. apply alloc_inv in Ea. destruct Ea as (R & ->).
    split; [apply L2|]. cbn. intros x E0. injection E0 as <-. rewrite len_repeat by lia. apply D2. destruct (d_nDuals d); [injection En as ->; reflexivity|discriminate]. }
  clear E3 L2. destruct (negb _); [injection E as <- <-; exact L3|].
  apply bind_ok in E. destruct E as (raw & _ & E). apply bind_ok in E. destruct E as ([xn yk] & Eg & E). apply getSolution_lens in Eg. destruct Eg as (y0 & y1 & Ey & -> & Ly).
  do 10 (apply bind_ok in E; destruct E as (? & _ & E)). injection E as <- <-. destruct L3 as [L3 L4]. split; [exact L3|]. cbn. intros y E0. injection E0 as <-. rewrite Ly. auto.
Qed.
Lemma head_lens n K d s s' : pass_head d s = Ok s' -> lens n K s -> lens n K s'.
Proof.
  unfold pass_head; intros E L.
  apply bind_ok in E; destruct E as (s1 & E1 & E). apply updateStep_lens with (2 := L) in E1. clear L s.
  apply bind_ok in E; destruct E as (s2 & E2 & E). apply updateStationarity_frame in E2. destruct E2 as (a1 & a2 & a3 & ->).
  apply bind_ok in E; destruct E as (s3 & E3 & E). apply printIteration_frame in E3. destruct E3 as (l & ->).
  apply bind_ok in E; destruct E as (s4 & E4 & E). set (s3 := set_log l _) in *. assert (L3 : lens n K s3) by exact E1. clearbody s3. clear s1 E1.
  assert (E4' : exists st1, s4 = set_stats st1 s3).
  { destruct (o_storeSteps _); [apply storeSteps_frame in E4; destruct E4 as (st & ->); eauto|]. injection E4 as <-. exists (s_stats s3). destruct s3; reflexivity. }
  destruct E4' as (st1 & ->). clear E4.
  apply bind_ok in E; destruct E as (s5 & E5 & E). apply updateTotalIter_frame in E5.
  apply bind_ok in E; destruct E as (m & _ & E).
  apply bind_ok in E; destruct E as ([b s6] & E6 & E). apply leyffer_frame in E6. destruct E6 as (hs & ->).
  apply bind_ok in E; destruct E as (s7 & E7 & E). apply updateLinearization_frame in E. destruct E as (gk & ->). destruct b.
  - apply penaltyStep_frame in E7. destruct E7 as (q & qs & gt & ->). subst s5. exact L3.
  - injection E7 as <-. subst s5. exact L3.
Qed.
Lemma pass_lens orc rand n K d s s' e : d_nV d = Some n -> (forall q, d_nDuals d = Some q -> K <= q) -> 0 <= n -> pass orc rand d s = Ok (s', e) -> lens n K s -> lens n K s'.
Proof.
  intros D1 D2 N1 E L. apply pass_inv in E. inversion E as [s1 s'' b1 Hh Hhd Hst Hcc Hfin|s1 s2 s'' e' b1 b2 Hh Hhd Hp Hb2 Ht]; subst; clear E; apply head_lens with (2 := L) in Hhd.
  - eapply finish_lens; eauto.
  - assert (L2 : lens n K s2).
    { destruct b2; [|destruct Hb2 as (_ & ->); exact Hhd]. destruct Hb2 as (_ & _ & P). apply penaltyStep_frame in P. destruct P as (q & qs & gt & ->). exact Hhd. }
    apply pass_tail_inv in Ht. inversion Ht as [| |s4 s5 r' Hm Hr E3 E4 Er|s4 s5 s6 s7 Hm Hr E3 E4 E5 E6]; subst; [exact L2..| |].
    + apply updateLinearization_frame in E3. destruct E3 as (v & ->). eapply qp_lens in E4; eauto.
    + apply updateLinearization_frame in E3. destruct E3 as (v & ->). eapply qp_lens in E4; eauto.
      apply getOptimalStepLength_frame in E6. destruct E6 as (al & lk & ->).
      destruct (o_perturbStep _); [eapply perturb_lens in E5; eauto|subst s6; exact E4].
Qed.
Lemma loop_lens fuel orc rand n K d s r s' : d_nV d = Some n -> (forall q, d_nDuals d = Some q -> K <= q) -> 0 <= n -> loop fuel orc rand d s = Ok (r, s') -> lens n K s -> lens n K s'.
Proof.
  intros D1 D2 N1. revert s. induction fuel as [|fuel IH]; intros s E L; [discriminate|]. cbn [loop] in E. apply bind_ok in E. destruct E as ([s1 e] & E1 & E).
  eapply pass_lens in E1; eauto. destruct e; [injection E as <- <-; exact E1|]. eapply IH; eauto.
Qed.

Lemma memcpy_all_len {X} (a b c : arr X) q : memcpy_all a b q = Ok c -> len c = len a.
Proof.
  unfold memcpy_all. destruct (q <? 0) eqn:N; [discriminate|]. fold (len b). fold (len a). destruct (_ || _) eqn:B; [discriminate|]. intros E. injection E as <-.
  fold (take q b). fold (drop q a). rewrite len_app, len_take, len_drop by lia. lia.
Qed.
Lemma memcpy_len {X} (a c : arr X) p q : memcpy_ptr a p q = Ok c -> len c = len a.
Proof. unfold memcpy_ptr. destruct (q =? 0); [intros E; injection E as <-; reflexivity|]. intros E. apply bind_ok in E. destruct E as (b & _ & E). eapply memcpy_all_len; eauto. Qed.

(** ** Calls *)
(** The dimensions, the number of duals and the box members.  No LCQPow code. *)
Definition sizes d := (d_nV d, d_nC d, d_nComp d, d_nDuals d, d_lb d, d_ub d).
(** What a call other than a run does.  No LCQPow code. *)
Record step (n m k : Z) o o' : Prop := {
  sp_sizes : sizes (pd o') = sizes (pd o);
  sp_x : s_xk (it o') = s_xk (it o) \/ exists x, s_xk (it o') = Some x /\ len x = n;
  sp_y : s_yk (it o') = s_yk (it o) \/ s_yk (it o') = None \/ exists y, s_yk (it o') = Some y /\ len y = n + m + 2 * k }.
Lemma step_refl n m k o : step n m k o o.
Proof. split; auto. Qed.
Lemma step_trans n m k o1 o2 o3 : step n m k o1 o2 -> step n m k o2 o3 -> step n m k o1 o3.
Proof.
  intros [A1 A2 A3] [B1 B2 B3]. split; [congruence|destruct B2 as [->|B2]; auto|destruct B3 as [->|B3]; auto].
Qed.
(** Every object [q] may lead to is such a step away.  No LCQPow code. *)
Definition steps n m k o (q : res (ReturnValue * lcqp T)) : Prop := forall r o', q = Ok (r, o') -> step n m k o o'.
(** The dimensions of the constructor.  No LCQPow code. *)
Definition dimd n m k o : Prop := d_nV (pd o) = Some n /\ d_nC (pd o) = Some m /\ d_nComp (pd o) = Some k.
Lemma dimd_sizes n m k o o' : sizes (pd o') = sizes (pd o) -> dimd n m k o -> dimd n m k o'.
Proof.
  intros E (D1 & D2 & D3). unfold sizes in E. unfold dimd. rewrite <- D1, <- D2, <- D3.
  split; [exact (f_equal (fun x => fst (fst (fst (fst (fst x))))) E)|split; [exact (f_equal (fun x => snd (fst (fst (fst (fst x))))) E)|exact (f_equal (fun x => snd (fst (fst (fst x)))) E)]].
Qed.
Lemma step_dimd n m k o o' : step n m k o o' -> dimd n m k o -> dimd n m k o'.
Proof. intros [E _ _]. apply dimd_sizes. exact E. Qed.
Lemma steps_then n m k o q f : dimd n m k o -> steps n m k o q -> (forall o1, dimd n m k o1 -> steps n m k o1 (f o1)) -> steps n m k o (and_then q f).
Proof.
  intros D Q F r o' E. unfold and_then in E. apply bind_ok in E. destruct E as ([r1 o1] & E1 & E). apply Q in E1. destruct (is_success r1).
  - eapply step_trans; [exact E1|]. eapply F; [eapply step_dimd; eauto|exact E].
  - unfold fail_msg in E. injection E as <- <-. destruct E1. split; assumption.
Qed.
Lemma steps_bind {X} n m k o (q : res X) f : (forall x, q = Ok x -> steps n m k o (f x)) -> steps n m k o (bind q f).
Proof. intros F r o' E. apply bind_ok in E. destruct E as (x & E1 & E). eapply F; eauto. Qed.
Lemma steps_fail n m k r o : steps n m k o (fail_msg r o).
Proof. intros r' o' E. unfold fail_msg in E. injection E as <- <-. split; auto. Qed.
Ltac stay := intros ? ? ?; inv_ok; first [apply step_refl|split; auto].
Lemma steps_guess n m k x y o : dimd n m k o -> steps n m k o (setInitialGuess x y o).
Proof.
  intros (D1 & D2 & D3) r o' E. unfold setInitialGuess in E. rewrite D1, D2, D3 in E. cbn [get bind] in E. destruct (_ || _); [injection E as <- <-; apply step_refl|].
  apply bind_ok in E. destruct E as (a & Ea & E). apply bind_ok in E. destruct E as (a' & Ea' & E). apply bind_ok in E. destruct E as (b & Eb & E). injection E as <- <-.
  split; [reflexivity| |]; cbn [it set_yk set_xk s_xk s_yk].
  - right. exists a'. split; [reflexivity|]. unfold alloc_init in Ea. destruct (n <? 0) eqn:N; [discriminate|]. destruct (in_int n); [|discriminate]. injection Ea as <-.
    assert (L : len (repeat (Some (@a_zero T H)) (Z.to_nat n)) = n) by (apply len_repeat; lia).
    destruct (notNull x); [|injection Ea' as <-; exact L]. apply memcpy_len in Ea'. congruence.
  - destruct (notNull y); [|injection Eb as <-; auto]. apply bind_ok in Eb. destruct Eb as (c & Ec & Eb). apply bind_ok in Eb. destruct Eb as (c' & Ec' & Eb). injection Eb as <-.
    right; right. exists c'. split; [reflexivity|]. apply alloc_inv in Ec. destruct Ec as (R & ->). rewrite <- (len_repeat (X := option T) None (n + m + 2 * k)) by lia.
    revert Ec'. unfold copy_loop. apply for_len. intros i a1 a2 E1. repeat (apply bind_ok in E1; destruct E1 as (? & _ & E1)). eapply len_wr; eauto.
Qed.
Lemma steps_box {n m k o lb ub o1} : copy_box lb ub o = Ok o1 -> step n m k o o1.
Proof. unfold copy_box. intros E. inv_ok; apply step_refl || (split; auto). Qed.
Lemma steps_dense n m k Q g L R lbL ubL lbR ubR A lbA ubA lb ub x0 y0 o : dimd n m k o ->
  steps n m k o (and_then (setQ Q o) (fun o => and_then (setG g o) (fun o => let! o := copy_box lb ub o in and_then (setConstraints L R A lbA ubA o) (fun o =>
   and_then (setComplementarityBounds lbL ubL lbR ubR o) (fun o => and_then (setInitialGuess x0 y0 o) (fun o =>
   Ok (SUCCESSFUL_RETURN, mkLcqp (set_d_sparseSolver false (pd o)) (it o)))))))).
Proof.
  intros D. apply steps_then; [exact D|unfold setQ; stay|]. clear o D. intros o D.
  apply steps_then; [exact D|unfold setG; stay|]. clear o D. intros o D.
  apply steps_bind. intros o1 E1. assert (S1 := steps_box (n := n) (m := m) (k := k) E1). intros r o' E. eapply step_trans; [exact S1|]. revert r o' E. eapply step_dimd in D; [|exact S1].
  change (steps n m k o1 (and_then (setConstraints L R A lbA ubA o1) (fun o =>
   and_then (setComplementarityBounds lbL ubL lbR ubR o) (fun o => and_then (setInitialGuess x0 y0 o) (fun o =>
   Ok (SUCCESSFUL_RETURN, mkLcqp (set_d_sparseSolver false (pd o)) (it o))))))). clear o S1 E1. rename o1 into o.
  apply steps_then; [exact D|unfold setConstraints; cbv zeta; stay|]. clear o D. intros o D.
  apply steps_then; [exact D|unfold setComplementarityBounds; cbv zeta; stay|]. clear o D. intros o D.
  apply steps_then; [exact D|apply steps_guess; exact D|]. clear o D. intros o D. stay.
Qed.
Lemma steps_read n m k q f o g : (forall a, steps n m k o (g a)) -> steps n m k o (read_file q f o g).
Proof.
  intros K r o' E. unfold read_file in E. apply bind_ok in E. destruct E as (a & _ & E). apply bind_ok in E. destruct E as ([r1 b] & _ & E).
  destruct (is_success r1); [eapply K; exact E|]. eapply steps_fail; exact E.
Qed.
Lemma steps_opt n m k q f o g : (forall a, steps n m k o (g a)) -> steps n m k o (read_opt_file q f o g).
Proof. intros K. destruct f; cbn [read_opt_file]; [apply steps_read; assumption|apply K]. Qed.
Lemma steps_call orc rand n m k c o : dimd n m k o -> c <> KRun -> steps n m k o (perform orc rand c o).
Proof.
  intros D N. destruct c; cbn [perform]; [| | | | | |congruence].
  - intros r o' E. injection E as <- <-. split; auto.
  - unfold loadLCQP. apply steps_bind. intros a _. destruct (a <=? 0); [apply steps_fail|]. apply steps_bind. intros b _. destruct (b <=? 0); [apply steps_fail|]. apply steps_dense; exact D.
  - unfold loadLCQP_csc. apply steps_then; [exact D|unfold setQ_csc; stay|]. clear o D. intros o D.
    apply steps_then; [exact D|unfold setG; stay|]. clear o D. intros o D.
    apply steps_then; [exact D|unfold setConstraints_csc; cbv zeta; stay|]. clear o D. intros o D.
    apply steps_then; [exact D|unfold setComplementarityBounds; cbv zeta; stay|]. clear o D. intros o D.
    apply steps_then; [exact D|apply steps_guess; exact D|]. clear o D. intros o D.
    apply steps_bind. intros o1 E1 r o' E. assert (S1 := steps_box (n := n) (m := m) (k := k) E1). injection E as <- <-. eapply step_trans; [exact S1|]. split; auto.
  - unfold loadLCQP_files. do 3 (apply steps_bind; intros ? _). do 4 (apply steps_read; intros ?). do 11 (apply steps_opt; intros ?). apply steps_dense; exact D.
  - intros r o' E. unfold switchToSparseMode in E. cbv zeta in E. destruct (d_sparseSolver (pd o)); [injection E as <- <-; apply step_refl|].
    do 8 (apply bind_ok in E; destruct E as (? & _ & E)). injection E as <- <-. split; auto.
  - intros r o' E. unfold switchToDenseMode in E. cbv zeta in E. destruct (d_sparseSolver (pd o)); cbn [negb] in E; [|injection E as <- <-; apply step_refl].
    do 5 (apply bind_ok in E; destruct E as (? & _ & E)). destruct (_ || _) in E; injection E as <- <-; split; auto.
Qed.

(** ** Runs *)
(** What preparing the QP solver, respectively a whole run, does.  No LCQPow code. *)
Record ran (n m k : Z) o (r : ReturnValue) o' : Prop := {
  rn_dims : dimd n m k o';
  rn_x : lens n 0 (it o) -> lens n 0 (it o');
  rn_qp : o_qpSolver (d_options (pd o)) <> OSQP_SPARSE -> d_nDuals (pd o') = Some (n + m + 2 * k) /\
    (lens n (n + m + 2 * k) (it o) -> lens n (n + m + 2 * k) (it o')) /\ (d_lb (pd o) <> None -> d_lb (pd o') <> None) /\
    (r <> DENSE_SPARSE_MISSMATCH -> r <> LCQPOBJECT_NOT_SETUP -> d_lb (pd o') <> None);
  rn_osqp : o_qpSolver (d_options (pd o)) = OSQP_SPARSE -> d_lb (pd o') = d_lb (pd o) /\ d_ub (pd o') = d_ub (pd o) /\
    ((d_lb (pd o) = None /\ d_ub (pd o) = None /\ d_nDuals (pd o') = Some (m + 2 * k) /\ (lens n (m + 2 * k) (it o) -> lens n (m + 2 * k) (it o'))) \/
     ((d_lb (pd o) <> None \/ d_ub (pd o) <> None) /\ r = INVALID_OSQP_BOX_CONSTRAINTS /\ d_nDuals (pd o') = d_nDuals (pd o) /\
      s_xk (it o') = s_xk (it o) /\ s_yk (it o') = s_yk (it o))) }.
Lemma ran_qp n m k o r o' q (f : lcqp T -> res (subsolver T)) : dimd n m k o -> o_qpSolver (d_options (pd o)) <> OSQP_SPARSE ->
  and_then_quiet (setLB (d_lb_tmp (pd o)) (mkLcqp (set_d_boxDualOffset q (set_d_nDuals (Some (n + m + 2 * k)) (pd o))) (it o))) (fun o =>
    and_then_quiet (setUB (d_ub_tmp (pd o)) o) (fun o => let! sub := f o in Ok (SUCCESSFUL_RETURN, mkLcqp (set_d_subsolver (Some sub) (pd o)) (it o)))) = Ok (r, o') -> ran n m k o r o'.
Proof.
  intros D N E. apply quiet_ok in E. destruct E as (r1 & o1 & E1 & E). apply setLB_ok in E1. destruct E1 as [(-> & ->)|(-> & v & ->)]; cbn [is_success] in E.
  { destruct E as (-> & ->). split; [exact D|auto| |congruence]. intros _. split; [reflexivity|]. split; [auto|]. split; [auto|]. intros X Y. congruence. }
  apply quiet_ok in E. destruct E as (r2 & o2 & E2 & E). apply setUB_ok in E2. destruct E2 as [(-> & ->)|(-> & w & ->)]; cbn [is_success] in E.
  { destruct E as (-> & ->). split; [exact D|auto| |congruence]. intros _. split; [reflexivity|]. split; [auto|]. split; discriminate. }
  apply bind_ok in E. destruct E as (sub & _ & E). injection E as <- <-. split; [exact D|auto| |congruence]. intros _. split; [reflexivity|]. split; [auto|]. split; discriminate.
Qed.
Lemma null_or {X} (p q : option X) : notNull p || notNull q = false -> p = None /\ q = None.
Proof. destruct p, q; cbn; auto; discriminate. Qed.
Lemma some_or {X} (p q : option X) : notNull p || notNull q = true -> p <> None \/ q <> None.
Proof. destruct p, q; cbn; try discriminate; intros _; first [left; discriminate|right; discriminate]. Qed.
Lemma init_sub_ran n m k o r o' : dimd n m k o -> 0 <= m + 2 * k -> init_subsolver o = Ok (r, o') -> ran n m k o r o'.
Proof.
  intros D N. pose proof D as (D1 & D2 & D3). unfold init_subsolver. cbv zeta. rewrite D1, D2, D3. cbn [get bind]. intros E. destruct (o_qpSolver (d_options (pd o))) eqn:ES.
  - match type of E with (if ?b then _ else _) = _ => set (bb := b) in E end. clearbody bb. destruct bb.
    + injection E as <- <-. split; [exact D|auto| |congruence]. intros _. split; [reflexivity|]. split; [auto|]. split; [auto|]. intros X Y. congruence.
    + refine (ran_qp _ _ _ _ _ _ _ (fun o => Subsolver_dense n (m + 2 * k) (d_Q (pd o)) (d_A (pd o))) D _ E). congruence.
  - match type of E with (if ?b then _ else _) = _ => set (bb := b) in E end. clearbody bb. destruct bb.
    + injection E as <- <-. split; [exact D|auto| |congruence]. intros _. split; [reflexivity|]. split; [auto|]. split; [auto|]. intros X Y. congruence.
    + refine (ran_qp _ _ _ _ _ _ _ (fun o => Subsolver_sparse n (m + 2 * k) (d_Q_sparse (pd o)) (d_A_sparse (pd o)) QPOASES_SPARSE) D _ E). congruence.
  - destruct (notNull (d_lb (pd o)) || notNull (d_ub (pd o))) eqn:B1.
    { injection E as <- <-. split; [exact D|auto|congruence|]. intros _. split; [reflexivity|]. split; [reflexivity|]. right. split; [apply some_or; exact B1|auto]. }
    apply null_or in B1. destruct B1 as (B1 & B2). apply bind_ok in E. destruct E as (yk & Ey & E).
    assert (LY : lens n (m + 2 * k) (it o) -> lens n (m + 2 * k) (set_yk yk (it o))).
    { intros [L1 L2]. split; [exact L1|]. cbn. intros y E0. subst yk. destruct (s_yk (it o)) as [y0|]; [|discriminate].
      apply bind_ok in Ey. destruct Ey as (t & Et & Ey). apply bind_ok in Ey. destruct Ey as (t' & _ & Ey). apply bind_ok in Ey. destruct Ey as (a & Ea & Ey). apply bind_ok in Ey. destruct Ey as (a' & Ea' & Ey).
      injection Ey as <-. apply alloc_inv in Ea. destruct Ea as (_ & ->). apply memcpy_all_len in Ea'. rewrite Ea'. rewrite len_repeat by exact N. apply Z.le_refl. }
    assert (G : exists sub, o' = mkLcqp (set_d_subsolver sub (set_d_boxDualOffset (Some 0) (set_d_nDuals (Some (m + 2 * k)) (pd o)))) (set_yk yk (it o))).
    { destruct (negb _); [injection E as <- <-; exists (d_subsolver (pd o)); destruct (pd o); reflexivity|].
      destruct (notNull _ || notNull _); [injection E as <- <-; exists (d_subsolver (pd o)); destruct (pd o); reflexivity|].
      apply bind_ok in E. destruct E as (sub & _ & E). injection E as <- <-. eexists. reflexivity. }
    destruct G as (sub & ->). split; [exact D|intros [L1 L2]; split; [exact L1|intros; apply len_nonneg]|congruence|]. intros _. split; [reflexivity|]. split; [reflexivity|]. left. auto.
Qed.
Lemma lens_first orc n K d s s' e : d_nV d = Some n -> (forall q, d_nDuals d = Some q -> K <= q) -> 0 <= n -> first_solve orc d s = Ok (s', e) -> lens n K s -> lens n K s'.
Proof.
  intros D1 D2 N1 E L. apply first_solve_inv in E. inversion E as [g s2 r2 Eq Fq|g s2 s3 Eq Es]; subst.
  - eapply qp_lens in Eq; eauto.
  - eapply qp_lens in Eq; eauto. apply setQk_frame in Es. destruct Es as (q & qs & ix & ->). exact Eq.
Qed.
Lemma run_ran orc rand n m k o r o' : dimd n m k o -> 0 <= n -> 0 <= m + 2 * k -> runSolver orc rand o = Ok (r, o') -> ran n m k o r o'.
Proof.
  intros D N0 N1 E. unfold runSolver, runSolver_fuel in E. apply bind_ok in E. destruct E as ([r1 o1] & E1 & E).
  unfold initializeSolver in E1. apply quiet_ok in E1. destruct E1 as (r0 & o0 & E0 & E1).
  assert (Q0 : o_qpSolver (d_options (pd o)) <> OSQP_SPARSE -> r0 = DENSE_SPARSE_MISSMATCH \/ r0 = LCQPOBJECT_NOT_SETUP \/ (r0 = SUCCESSFUL_RETURN /\ d_lb (pd o0) <> None)) by (apply init_subsolver_prep in E0; intros Q; apply (pr_qpoases _ _ _ E0 Q)).
  apply (init_sub_ran n m k) in E0; [|assumption..].
  destruct (is_success r0) eqn:S0.
  - apply is_success_true in S0. subst r0. do 4 (apply bind_ok in E1; destruct E1 as (? & _ & E1)). apply bind_ok in E1; destruct E1 as (d & Ed & E1). apply init_phi_frame in Ed. destruct Ed as (g1 & g2 & ->).
    cbv zeta in E1. injection E1 as <- <-. cbn [is_success negb] in E. cbv iota in E.
    match type of E with context [first_solve orc (pd (mkLcqp ?d ?s)) _] => set (dd := d) in E; set (ss := s) in E end. cbn [pd it] in E.
    assert (KS : sizes dd = sizes (pd o0)) by reflexivity. assert (KX : s_xk ss = s_xk (it o0) /\ s_yk ss = s_yk (it o0)).
    { subst ss. cbv zeta. destruct (o_printLevel _); split; reflexivity. }
    clearbody dd ss. destruct KX as (KX & KY).
    assert (G : pd o' = dd /\ forall K, (forall q, d_nDuals dd = Some q -> K <= q) -> lens n K ss -> lens n K (it o')).
    { assert (DN : d_nV dd = Some n). { rewrite <- (proj1 (rn_dims _ _ _ _ _ _ E0)). exact (f_equal (fun x => fst (fst (fst (fst (fst x))))) KS). }
      apply bind_ok in E. destruct E as ([s1 e] & E2 & E). destruct e as [r1|].
      - injection E as <- <-. split; [reflexivity|]. intros K HK L. eapply lens_first in E2; eauto.
      - apply bind_ok in E. destruct E as ([r1 s2] & E3 & E). injection E as <- <-. split; [reflexivity|]. intros K HK L. eapply lens_first in E2; eauto. eapply loop_lens in E3; eauto. }
    destruct G as (GP & GL). assert (KD : d_nDuals dd = d_nDuals (pd o0)) by exact (f_equal (fun x => snd (fst (fst x))) KS).
    assert (KL : d_lb dd = d_lb (pd o0)) by exact (f_equal (fun x => snd (fst x)) KS). assert (KU : d_ub dd = d_ub (pd o0)) by exact (f_equal snd KS).
    destruct E0 as [R1 R0 R2 R3]. split.
    + apply (dimd_sizes n m k o0); [rewrite GP; exact KS|exact R1].
    + intros L. apply GL.
      * intros q Eq. rewrite KD in Eq. destruct (o_qpSolver (d_options (pd o))) eqn:Q; [destruct (R2 ltac:(discriminate)) as (A & _); assert (q = n + m + 2 * k) by congruence; lia..|].
        destruct (R3 eq_refl) as (_ & _ & [(_ & _ & A & _)|(_ & C & _)]); [assert (q = m + 2 * k) by congruence; lia|discriminate].
      * eapply lens_same; [exact KX|exact KY|]. apply R0. exact L.
    + intros Q. destruct (R2 Q) as (A1 & A2 & A3 & A4). rewrite GP, KD, KL. split; [exact A1|]. split; [|split; [exact A3|intros _ _; apply A4; discriminate]].
      intros L. apply GL; [intros q Eq; assert (q = n + m + 2 * k) by congruence; lia|]. eapply lens_same; [exact KX|exact KY|]. apply A2. exact L.
    + intros Q. destruct (R3 Q) as (A1 & A2 & A3). rewrite GP, KD, KL, KU. split; [exact A1|]. split; [exact A2|]. destruct A3 as [(B1 & B2 & B3 & B4)|(_ & C & _)]; [|discriminate].
      left. split; [exact B1|]. split; [exact B2|]. split; [exact B3|]. intros L. apply GL; [intros q Eq; assert (q = m + 2 * k) by congruence; lia|]. eapply lens_same; [exact KX|exact KY|]. apply B4. exact L.
  - destruct E1 as (-> & ->). rewrite S0 in E. cbn [negb] in E. unfold fail_msg in E. injection E as <- <-. destruct E0 as [R1 R0 R2 R3]. split; [exact R1|exact R0|exact R2|exact R3].
Qed.

(** ** Histories *)
Lemma ctor_dimd n m k o : 0 < n -> 0 <= m -> 0 < k -> LCQProblem_ctor n m k = Ok o ->
  dimd n m k o /\ d_nDuals (pd o) = None /\ d_lb (pd o) = None /\ d_ub (pd o) = None /\ s_xk (it o) = None /\ s_yk (it o) = None.
Proof.
  intros N1 N2 N3 E. unfold LCQProblem_ctor in E. replace (n <=? 0) with false in E by lia. replace (k <=? 0) with false in E by lia. replace (m <? 0) with false in E by lia.
  cbv zeta in E. repeat (apply bind_ok in E; destruct E as (? & _ & E)). injection E as <-. split; [split; [reflexivity|split; reflexivity]|auto 6].
Qed.
Lemma is_run (c : call T) : c = KRun \/ c <> KRun.
Proof. destruct c; [right; discriminate..|left; reflexivity]. Qed.
Lemma step_parts n m k o o' : step n m k o o' -> d_nDuals (pd o') = d_nDuals (pd o) /\ d_lb (pd o') = d_lb (pd o) /\ d_ub (pd o') = d_ub (pd o).
Proof.
  intros [E _ _]. unfold sizes in E.
  split; [exact (f_equal (fun x => snd (fst (fst x))) E)|split; [exact (f_equal (fun x => snd (fst x)) E)|exact (f_equal snd E)]].
Qed.
Lemma step_lens n m k K o o' : K <= n + m + 2 * k -> step n m k o o' -> lens n K (it o) -> lens n K (it o').
Proof.
  intros HK [_ X Y] [L1 L2]. split.
  - intros x E. destruct X as [X|(x' & X & L)]; [apply L1; congruence|congruence].
  - intros y E. destruct Y as [Y|[Y|(y' & Y & L)]]; [apply L2; congruence|congruence|]. rewrite E in Y. injection Y as ->. rewrite L. exact HK.
Qed.
Lemma used_app orc rand h1 h2 o o' : used orc rand (h1 ++ h2) o o' -> exists o1, used orc rand h1 o o1 /\ used orc rand h2 o1 o'.
Proof.
  revert o'. induction h2 as [|[c r] h2 IH] using rev_ind; intros o' U.
  - rewrite app_nil_r in U. exists o'. split; [exact U|reflexivity].
  - rewrite app_assoc in U. apply used_snoc in U. destruct U as (o2 & U & P). destruct (IH o2 U) as (o1 & U1 & U2). exists o1. split; [exact U1|].
    clear - U2 P. unfold used in *. revert o1 U2. induction h2 as [|[c1 r1] h2 IH]; intros o1; cbn [map app fst snd perform_all].
    + intros E. injection E as ->. rewrite P. reflexivity.
    + intros E. apply bind_ok in E. destruct E as ([r' o3] & E1 & E). apply bind_ok in E. destruct E as ([rs o4] & E3 & E). injection E as -> -> ->.
      rewrite E1. cbn [bind]. rewrite (IH o3 E3). reflexivity.
Qed.
Lemma used_dimd orc rand n m k h o o' : 0 < n -> 0 <= m -> 0 < k -> used orc rand h o o' -> dimd n m k o -> dimd n m k o'.
Proof.
  intros N1 N2 N3. revert o'. induction h as [|[c r] h IH] using rev_ind; intros o' U D; [apply used_nil in U; subst; exact D|].
  apply used_snoc in U. destruct U as (o1 & U & P). specialize (IH o1 U D). destruct (is_run c) as [->|C].
  - cbn [perform] in P. apply (run_ran _ _ n m k) in P; [|first [assumption|lia]..]. apply (rn_dims _ _ _ _ _ _ P).
  - apply (steps_call _ _ n m k) in P; [|assumption..]. eapply step_dimd; eauto.
Qed.
Lemma used_quiet orc rand n m k h o o' : used orc rand h o o' -> no_run h -> dimd n m k o -> step n m k o o'.
Proof.
  revert o'. induction h as [|[c r] h IH] using rev_ind; intros o' U NR D; [apply used_nil in U; subst; apply step_refl|].
  apply used_snoc in U. destruct U as (o1 & U & P). assert (S1 : step n m k o o1) by (apply IH; [exact U| |exact D]; intros c1 r1 I1; apply (NR c1 r1), in_or_app; auto).
  eapply step_trans; [exact S1|]. apply (steps_call _ _ n m k) in P; [exact P|eapply step_dimd; eauto|]. apply (NR c r), in_or_app. right; left; reflexivity.
Qed.
Lemma used_boxes orc rand n m k h o o' : 0 < n -> 0 <= m -> 0 < k -> LCQProblem_ctor n m k = Ok o -> used orc rand h o o' ->
  (started_qpoases h -> d_lb (pd o') <> None) /\ (~ ran_qpoases h -> d_lb (pd o') = None /\ d_ub (pd o') = None).
Proof.
  intros N1 N2 N3 C. destruct (ctor_dimd _ _ _ _ N1 N2 N3 C) as (D & _ & C1 & C2 & _). revert o'. induction h as [|[c r] h IH] using rev_ind; intros o' U.
  - apply used_nil in U. subst o'. split; [intros (h1 & r & h2 & E & _); destruct h1; discriminate|auto].
  - apply used_snoc in U. destruct U as (o1 & U & P). destruct (IH o1 U) as (I1 & I2). assert (D1 := used_dimd _ _ _ _ _ _ _ _ N1 N2 N3 U D).
    destruct (used_state _ _ _ _ _ _ _ _ C U) as (SQ & _).
    assert (NR : ~ ran_qpoases (h ++ [(c, r)]) -> ~ ran_qpoases h).
    { intros N (h1 & r1 & h2 & -> & Q). apply N. exists h1, r1, (h2 ++ [(c, r)]). split; [rewrite <- app_assoc; reflexivity|exact Q]. }
    assert (PR : started_qpoases (h ++ [(c, r)]) -> started_qpoases h \/ (c = KRun /\ selected h <> OSQP_SPARSE /\ r <> DENSE_SPARSE_MISSMATCH /\ r <> LCQPOBJECT_NOT_SETUP)).
    { intros (h1 & r1 & h2 & E & Q). destruct h2 as [|e h2 _] using rev_ind.
      - apply app_inj_tail in E. destruct E as (-> & E). injection E as -> ->. right. tauto.
      - rewrite app_comm_cons, app_assoc in E. apply app_inj_tail in E. destruct E as (-> & _). left. exists h1, r1, h2. auto. }
    destruct (is_run c) as [->|K].
    + cbn [perform] in P. apply (run_ran _ _ n m k) in P; [|first [assumption|lia]..]. destruct P as [_ _ P2 P3]. rewrite SQ in P2, P3. split.
      * intros St. apply PR in St. destruct (selected h) eqn:Q; [destruct (P2 ltac:(discriminate)) as (_ & _ & A & B); destruct St as [St|(_ & _ & E1 & E2)]; auto..|].
        destruct (P3 eq_refl) as (-> & _). destruct St as [St|(_ & St & _)]; [auto|congruence].
      * intros N. destruct (selected h) eqn:Q; [exfalso; apply N; exists h, r, []; split; [reflexivity|rewrite Q; discriminate]..|].
        destruct (P3 eq_refl) as (-> & -> & _). auto.
    + apply (steps_call _ _ n m k) in P; [|assumption..]. apply step_parts in P. destruct P as (_ & -> & ->). split; [|auto]. intros St. apply PR in St. destruct St as [St|(St & _)]; [auto|congruence].
Qed.

Lemma p_C70_primals orc rand n m k h o o' : 0 < n -> 0 <= m -> 0 < k -> LCQProblem_ctor n m k = Ok o -> used orc rand h o o' -> getNumberOfPrimals o' = Ok n.
Proof.
  intros N1 N2 N3 C U. destruct (ctor_dimd _ _ _ _ N1 N2 N3 C) as (D & _). destruct (used_dimd _ _ _ _ _ _ _ _ N1 N2 N3 U D) as (E & _). unfold getNumberOfPrimals. rewrite E. reflexivity.
Qed.
Lemma p_C70_no_run orc rand n m k h o o' : 0 < n -> 0 <= m -> 0 < k -> LCQProblem_ctor n m k = Ok o -> used orc rand h o o' -> no_run h -> getNumberOfDuals o' = UB Uninit.
Proof.
  intros N1 N2 N3 C U NR. destruct (ctor_dimd _ _ _ _ N1 N2 N3 C) as (D & ND & _). apply (used_quiet _ _ n m k) in U; [|assumption..]. apply step_parts in U. destruct U as (U & _).
  unfold getNumberOfDuals. rewrite U, ND. reflexivity.
Qed.
Lemma last_run orc rand n m k h1 r h2 o o' : 0 < n -> 0 <= m -> 0 < k -> LCQProblem_ctor n m k = Ok o -> used orc rand (h1 ++ (KRun, r) :: h2) o o' -> no_run h2 ->
  exists o1 o2, used orc rand h1 o o1 /\ dimd n m k o1 /\ o_qpSolver (d_options (pd o1)) = selected h1 /\ ran n m k o1 r o2 /\ step n m k o2 o'.
Proof.
  intros N1 N2 N3 C U NR. destruct (ctor_dimd _ _ _ _ N1 N2 N3 C) as (D & _). change ((KRun, r) :: h2) with ([(KRun, r)] ++ h2) in U. rewrite app_assoc in U. apply used_app in U. destruct U as (o2 & U & U2).
  apply used_snoc in U. destruct U as (o1 & U & P). exists o1, o2. split; [exact U|]. assert (D1 := used_dimd _ _ _ _ _ _ _ _ N1 N2 N3 U D). split; [exact D1|].
  split; [apply (used_state _ _ _ _ _ _ _ _ C U)|]. cbn [perform] in P. apply (run_ran _ _ n m k) in P; [|first [assumption|lia]..]. split; [exact P|].
  eapply used_quiet; eauto. apply P.
Qed.
Lemma p_C70_duals orc rand n m k h1 r h2 o o' : 0 < n -> 0 <= m -> 0 < k -> LCQProblem_ctor n m k = Ok o -> used orc rand (h1 ++ (KRun, r) :: h2) o o' -> no_run h2 ->
  (selected h1 <> OSQP_SPARSE -> getNumberOfDuals o' = Ok (n + m + 2 * k)) /\
  (selected h1 = OSQP_SPARSE -> r <> INVALID_OSQP_BOX_CONSTRAINTS \/ ~ ran_qpoases h1 -> getNumberOfDuals o' = Ok (m + 2 * k)) /\
  (selected h1 = OSQP_SPARSE -> started_qpoases h1 -> exists o1, used orc rand h1 o o1 /\ getNumberOfDuals o' = getNumberOfDuals o1).
Proof.
  intros N1 N2 N3 C U NR. destruct (last_run _ _ _ _ _ _ _ _ _ _ N1 N2 N3 C U NR) as (o1 & o2 & U1 & D1 & S & [R1 _ R2 R3] & St). rewrite S in R2, R3. apply step_parts in St. destruct St as (St & _).
  destruct (used_boxes _ _ _ _ _ _ _ _ N1 N2 N3 C U1) as (B1 & B2). unfold getNumberOfDuals. rewrite St. split; [|split].
  - intros Q. destruct (R2 Q) as (-> & _). reflexivity.
  - intros Q X. destruct (R3 Q) as (_ & _ & [(_ & _ & -> & _)|(Y & Z & _)]); [reflexivity|]. exfalso. destruct X as [X|X]; [exact (X Z)|]. destruct (B2 X). destruct Y; congruence.
  - intros Q X. exists o1. split; [exact U1|]. destruct (R3 Q) as (_ & _ & [(Y & _)|(_ & _ & -> & _)]); [|reflexivity]. exfalso. exact (B1 X Y).
Qed.

(** ** Getters *)
Lemma primal_delivers n m k o K : 0 <= n -> dimd n m k o -> lens n K (it o) -> delivers (fun b => getPrimalSolution (Some b) o) n.
Proof.
  intros N (D & _) [L _]. unfold delivers, getPrimalSolution. rewrite D. cbn [get bind]. destruct (s_xk (it o)) as [x|] eqn:X; cbn [bind].
  - specialize (L x eq_refl). destruct (copy_cases x n ltac:(lia)) as [(l & Ll & E)|E].
    + destruct (s_algoStat (it o)) as [a|]; cbn [get].
      * right; left. exists a, l. split; [exact Ll|]. intros b. rewrite E. fold (len b). destruct (n <=? len b); reflexivity.
      * right; right. intros b Hb. rewrite E. fold (len b) in Hb. replace (n <=? len b) with true by lia. reflexivity.
    + right; right. intros b Hb. rewrite E by exact Hb. reflexivity.
  - destruct (s_algoStat (it o)) as [a|]; cbn [get bind]; [left; exists a; reflexivity|right; right; reflexivity].
Qed.
Lemma dual_delivers n K o : 0 <= K -> (d_nDuals (pd o) = None \/ d_nDuals (pd o) = Some K) -> lens n K (it o) -> delivers (fun b => getDualSolution (Some b) o) K.
Proof.
  intros N D [_ L]. unfold delivers, getDualSolution. destruct (s_yk (it o)) as [x|] eqn:X; cbn [bind].
  - destruct D as [->| ->]; cbn [get bind]; [right; right; reflexivity|]. specialize (L x eq_refl). destruct (copy_cases x K ltac:(lia)) as [(l & Ll & E)|E].
    + destruct (s_algoStat (it o)) as [a|]; cbn [get].
      * right; left. exists a, l. split; [exact Ll|]. intros b. rewrite E. fold (len b). destruct (K <=? len b); reflexivity.
      * right; right. intros b Hb. rewrite E. fold (len b) in Hb. replace (K <=? len b) with true by lia. reflexivity.
    + right; right. intros b Hb. rewrite E by exact Hb. reflexivity.
  - destruct (s_algoStat (it o)) as [a|]; cbn [get bind]; [left; exists a; reflexivity|right; right; reflexivity].
Qed.
Lemma runs_with_snoc b h e : runs_with b (h ++ [e]) -> runs_with b h.
Proof. intros R h1 r h2 ->. apply (R h1 r (h2 ++ [e])). rewrite <- app_assoc. reflexivity. Qed.
Lemma used_lens orc rand n m k (b : bool) h o o' : 0 < n -> 0 <= m -> 0 < k -> LCQProblem_ctor n m k = Ok o -> used orc rand h o o' -> runs_with b h ->
  let K := if b then m + 2 * k else n + m + 2 * k in (d_nDuals (pd o') = None \/ d_nDuals (pd o') = Some K) /\ lens n K (it o').
Proof.
  intros N1 N2 N3 C. cbv zeta. set (K := if b then _ else _). assert (HK : K <= n + m + 2 * k) by (unfold K; destruct b; lia).
  destruct (ctor_dimd _ _ _ _ N1 N2 N3 C) as (D & ND & _ & _ & C1 & C2). revert o'. induction h as [|[c r] h IH] using rev_ind; intros o' U RW.
  - apply used_nil in U. subst o'. split; [auto|]. split; congruence.
  - apply used_snoc in U. destruct U as (o1 & U & P). destruct (IH o1 U (runs_with_snoc _ _ _ RW)) as (I1 & I2). assert (D1 := used_dimd _ _ _ _ _ _ _ _ N1 N2 N3 U D).
    destruct (used_state _ _ _ _ _ _ _ _ C U) as (SQ & _). destruct (is_run c) as [->|X].
    + cbn [perform] in P. apply (run_ran _ _ n m k) in P; [|first [assumption|lia]..]. destruct P as [_ _ P2 P3]. rewrite SQ in P2, P3. specialize (RW h r [] eq_refl). unfold K in *. destruct b.
      * destruct (P3 (proj2 RW eq_refl)) as (_ & _ & [(_ & _ & A & B)|(_ & _ & A & B1 & B2)]); [auto|]. rewrite A. split; [exact I1|]. eapply lens_same; eauto.
      * destruct (P2 ltac:(intros Q; apply RW in Q; discriminate)) as (A & B & _). auto.
    + apply (steps_call _ _ n m k) in P; [|assumption..]. destruct (step_parts _ _ _ _ _ P) as (-> & _). split; [exact I1|]. eapply step_lens; eauto.
Qed.
Lemma used_len_x orc rand n m k h o o' : 0 < n -> 0 <= m -> 0 < k -> LCQProblem_ctor n m k = Ok o -> used orc rand h o o' -> lens n 0 (it o').
Proof.
  intros N1 N2 N3 C. destruct (ctor_dimd _ _ _ _ N1 N2 N3 C) as (D & ND & _ & _ & C1 & C2).
  revert o'. induction h as [|[c r] h IH] using rev_ind; intros o' U.
  - apply used_nil in U. subst o'. split; congruence.
  - apply used_snoc in U. destruct U as (o1 & U & P). specialize (IH o1 U). assert (D1 := used_dimd _ _ _ _ _ _ _ _ N1 N2 N3 U D). destruct (is_run c) as [->|X].
    + cbn [perform] in P. apply (run_ran _ _ n m k) in P; [|first [assumption|lia]..]. apply P. exact IH.
    + apply (steps_call _ _ n m k) in P; [|assumption..]. eapply step_lens; eauto; lia.
Qed.
Lemma p_C70_primal orc rand n m k h o o' : 0 < n -> 0 <= m -> 0 < k -> LCQProblem_ctor n m k = Ok o -> used orc rand h o o' -> delivers (fun b => getPrimalSolution (Some b) o') n.
Proof.
  intros N1 N2 N3 C U. destruct (ctor_dimd _ _ _ _ N1 N2 N3 C) as (D & _). eapply primal_delivers; [lia|eapply used_dimd; eauto|eapply used_len_x; eauto].
Qed.
Lemma p_C70_dual orc rand n m k (b : bool) h o o' : 0 < n -> 0 <= m -> 0 < k -> LCQProblem_ctor n m k = Ok o -> used orc rand h o o' -> runs_with b h ->
  delivers (fun y => getDualSolution (Some y) o') (if b then m + 2 * k else n + m + 2 * k).
Proof.
  intros N1 N2 N3 C U R. destruct (used_lens _ _ _ _ _ _ _ _ _ N1 N2 N3 C U R) as (A & B). eapply dual_delivers; [destruct b; lia|exact A|exact B].
Qed.
End Dim.
