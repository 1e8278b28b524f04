(** * RefusedFacts: proofs about refused loads (no LCQPow code). *)
From Verif Require Import Base Arith Codes Utilities Options Stats FileIO Subsolver State LCQProblem Tactics Loops SpecSparse SpecLoad SpecFiles LoadDense LoadSparse SpecRefused.

Section RefusedFacts.
Context {T : Type} `{Arith T}.
Implicit Types o : lcqp T.

(** The members no step of a load changes before the initial guess. *)
Record calm (o o' : lcqp T) : Prop := mkCalm {
  cm_it : it o' = it o;
  cm_opt : d_options (pd o') = d_options (pd o);
  cm_nV : d_nV (pd o') = d_nV (pd o);
  cm_nC : d_nC (pd o') = d_nC (pd o);
  cm_nComp : d_nComp (pd o') = d_nComp (pd o);
  cm_nDuals : d_nDuals (pd o') = d_nDuals (pd o);
  cm_off : d_boxDualOffset (pd o') = d_boxDualOffset (pd o);
  cm_lb : d_lb (pd o') = d_lb (pd o);
  cm_ub : d_ub (pd o') = d_ub (pd o);
  cm_gphi : d_g_phi (pd o') = d_g_phi (pd o);
  cm_phi : d_phi_const (pd o') = d_phi_const (pd o);
  cm_sparse : d_sparseSolver (pd o') = d_sparseSolver (pd o);
  cm_sub : d_subsolver (pd o') = d_subsolver (pd o) }.
(** The bounds [p] of the call are in force afterwards only if given. *)
Definition held (old new p : ptr T) : Prop := p = None -> new = old.
(** The vectors a load keeps if the call does not give them, and the matrices of the other kind. *)
Record holdsV (lbL ubL lbR ubR lb ub : ptr T) (o o' : lcqp T) : Prop := mkHoldsV {
  hv_calm : calm o o';
  hv_lbL : held (d_lbL (pd o)) (d_lbL (pd o')) lbL;
  hv_ubL : held (d_ubL (pd o)) (d_ubL (pd o')) ubL;
  hv_lbR : held (d_lbR (pd o)) (d_lbR (pd o')) lbR;
  hv_ubR : held (d_ubR (pd o)) (d_ubR (pd o')) ubR;
  hv_lb : held (d_lb_tmp (pd o)) (d_lb_tmp (pd o')) lb;
  hv_ub : held (d_ub_tmp (pd o)) (d_ub_tmp (pd o')) ub }.
(** The matrices of sparse data are untouched. *)
Record noS (o o' : lcqp T) : Prop := mkNoS {
  ns_Q : d_Q_sparse (pd o') = d_Q_sparse (pd o);
  ns_A : d_A_sparse (pd o') = d_A_sparse (pd o);
  ns_L : d_L_sparse (pd o') = d_L_sparse (pd o);
  ns_R : d_R_sparse (pd o') = d_R_sparse (pd o);
  ns_C : d_C_sparse (pd o') = d_C_sparse (pd o) }.
(** The matrices of dense data are untouched. *)
Record noD (o o' : lcqp T) : Prop := mkNoD {
  nd_Q : d_Q (pd o') = d_Q (pd o);
  nd_A : d_A (pd o') = d_A (pd o);
  nd_L : d_L (pd o') = d_L (pd o);
  nd_R : d_R (pd o') = d_R (pd o);
  nd_C : d_C (pd o') = d_C (pd o) }.

Definition KD lbL ubL lbR ubR lb ub o o' : Prop := holdsV lbL ubL lbR ubR lb ub o o' /\ noS o o'.
Definition KS lbL ubL lbR ubR lb ub o o' : Prop := holdsV lbL ubL lbR ubR lb ub o o' /\ noD o o'.

Lemma calm_trans a b c : calm a b -> calm b c -> calm a c.
Proof. intros [] []. constructor; congruence. Qed.
Lemma held_trans (a b c p : ptr T) : held a b p -> held b c p -> held a c p.
Proof. unfold held. intros E F G. rewrite (F G). auto. Qed.
Lemma holdsV_trans lbL ubL lbR ubR lb ub a b c : holdsV lbL ubL lbR ubR lb ub a b -> holdsV lbL ubL lbR ubR lb ub b c -> holdsV lbL ubL lbR ubR lb ub a c.
Proof. intros [] []. constructor; [eapply calm_trans; eassumption|eapply held_trans; eassumption..]. Qed.
Lemma KD_trans lbL ubL lbR ubR lb ub a b c : KD lbL ubL lbR ubR lb ub a b -> KD lbL ubL lbR ubR lb ub b c -> KD lbL ubL lbR ubR lb ub a c.
Proof. intros [A []] [B []]. split; [eapply holdsV_trans; eassumption|constructor; congruence]. Qed.
Lemma KS_trans lbL ubL lbR ubR lb ub a b c : KS lbL ubL lbR ubR lb ub a b -> KS lbL ubL lbR ubR lb ub b c -> KS lbL ubL lbR ubR lb ub a c.
Proof. intros [A []] [B []]. split; [eapply holdsV_trans; eassumption|constructor; congruence]. Qed.

Ltac triv := split; [constructor; [constructor; reflexivity|intros ?; reflexivity..]|constructor; reflexivity].

Section Fixed.
Variables lbL ubL lbR ubR lb ub : ptr T.
Notation D := (KD lbL ubL lbR ubR lb ub).
Notation S := (KS lbL ubL lbR ubR lb ub).

Lemma D_refl o : D o o. Proof. triv. Qed.
Lemma S_refl o : S o o. Proof. triv. Qed.

Lemma k_setQ Q o r o' : setQ Q o = Ok (r, o') -> D o o'.
Proof. unfold setQ. intros E. inv_ok; triv. Qed.
Lemma k_setQ_csc Q o r o' : setQ_csc Q o = Ok (r, o') -> S o o'.
Proof. unfold setQ_csc. intros E. inv_ok; triv. Qed.
Lemma k_setG g o r o' : setG g o = Ok (r, o') -> D o o' /\ S o o'.
Proof. unfold setG. intros E. inv_ok; split; triv. Qed.
Lemma k_box o o' : copy_box lb ub o = Ok o' -> D o o' /\ S o o'.
Proof.
  unfold copy_box. intros E. destruct lb as [l|] eqn:El, ub as [u|] eqn:Eu; cbn [notNull] in E; inv_ok;
  (split; (split; [constructor; [constructor; reflexivity|try (intros ?; reflexivity)..]; try (intros ?; discriminate)|constructor; reflexivity])).
Qed.
Lemma k_constraints L R A lbA ubA o r o' : setConstraints L R A lbA ubA o = Ok (r, o') -> D o o'.
Proof. unfold setConstraints. intros E. inv_ok; triv. Qed.
Lemma k_constraints_csc L R A lbA ubA o r o' : setConstraints_csc L R A lbA ubA o = Ok (r, o') -> S o o'.
Proof. unfold setConstraints_csc. intros E. inv_ok; triv. Qed.
End Fixed.
Lemma forb_pre {X Y} (f : Z -> X -> res (X + Y)) (P : X -> Prop) (Q : Y -> Prop) lo hi x r :
  (forall i x, P x -> match f i x with Ok (inl x') => P x' | Ok (inr y) => Q y | UB _ => True end) ->
  P x -> forb lo hi f x = Ok r -> match r with inl x' => P x' | inr y => Q y end.
Proof.
  intros F. unfold forb. generalize (Z.to_nat (hi - lo)). intros n. revert lo x.
  induction n as [|n IH]; intros lo x Px E; cbn [forb_nat] in E; [injection E as <-; exact Px|].
  specialize (F lo x Px). destruct (f lo x) as [[x'|y]|]; cbn [bind] in E; [exact (IH _ _ F E)|injection E as <-; exact F|discriminate].
Qed.

(** What one loop over complementarity bounds keeps. *)
Definition keeps2 (lb0 ub0 lb_new ub_new : ptr T) (st : ptr T * ptr T * ptr T * ptr T) : Prop :=
  let '(lbX, ubX, _, _) := st in held lb0 lbX lb_new /\ held ub0 ubX ub_new.
Lemma k_loop off nComp lb_new ub_new lb0 ub0 st r : keeps2 lb0 ub0 lb_new ub_new st ->
  compl_bound_loop off nComp lb_new ub_new st = Ok r -> match r with inl s => keeps2 lb0 ub0 lb_new ub_new s | inr s => keeps2 lb0 ub0 lb_new ub_new s end.
Proof.
  intros K. apply forb_pre; [|exact K]. clear. intros i [[[lbX ubX] lbA] ubA] [K1 K2].
  assert (N : forall (x y : ptr T) z, held x y (Some z)) by (intros x y z C; discriminate C).
  destruct lb_new as [l|], ub_new as [u|]; cbn [bind];
    repeat (match goal with
    | |- context [bind (rd ?a ?b)] => destruct (rd a b); cbn [bind]; [|exact I]
    | |- context [bind (wr ?a ?b ?c)] => destruct (wr a b c); cbn [bind]; [|exact I]
    | |- context [bind (deref ?a)] => destruct (deref a); cbn [bind]; [|exact I]
    | |- context [if ?c then _ else _] => destruct c; cbn [bind]
    end); (split; solve [apply N|exact K1|exact K2]).
Qed.

Lemma k_bounds lbL ubL lbR ubR lb ub o r o' : setComplementarityBounds lbL ubL lbR ubR o = Ok (r, o') ->
  KD lbL ubL lbR ubR lb ub o o' /\ KS lbL ubL lbR ubR lb ub o o'.
Proof.
  unfold setComplementarityBounds. intros E.
  assert (N : forall (b : ptr T) k old a, (if notNull b then let! a := alloc k in Ok (Some a) else Ok old) = Ok a -> held old a b).
  { intros b k old a F. destruct b; cbn [notNull] in F; [intros C; discriminate C|injection F as <-; intros ?; reflexivity]. }
  destruct (get (d_nC (pd o))) as [nC|]; cbn [bind] in E; [|discriminate]. destruct (get (d_nComp (pd o))) as [nK|]; cbn [bind] in E; [|discriminate].
  cbv zeta in E.
  destruct (if notNull lbL then _ else _) as [a1|] eqn:E1; cbn [bind] in E; [|discriminate].
  destruct (if notNull ubL then _ else _) as [a2|] eqn:E2; cbn [bind] in E; [|discriminate].
  destruct (if notNull lbR then _ else _) as [a3|] eqn:E3; cbn [bind] in E; [|discriminate].
  destruct (if notNull ubR then _ else _) as [a4|] eqn:E4; cbn [bind] in E; [|discriminate].
  apply N in E1. apply N in E2. apply N in E3. apply N in E4.
  destruct (compl_bound_loop nC nK lbL ubL _) as [r1|] eqn:L1; cbn [bind] in E; [|discriminate].
  apply (k_loop _ _ _ _ (d_lbL (pd o)) (d_ubL (pd o))) in L1; [|split; assumption].
  assert (G : forall b1 b2 b3 b4 b5 b6, held (d_lbL (pd o)) b1 lbL -> held (d_ubL (pd o)) b2 ubL -> held (d_lbR (pd o)) b3 lbR -> held (d_ubR (pd o)) b4 ubR ->
    let o' := mkLcqp (set_d_ubA b6 (set_d_lbA b5 (set_d_ubR b4 (set_d_lbR b3 (set_d_ubL b2 (set_d_lbL b1 (pd o))))))) (it o) in
    KD lbL ubL lbR ubR lb ub o o' /\ KS lbL ubL lbR ubR lb ub o o').
  { intros. split; (split; [constructor; [constructor; reflexivity|assumption..|intros ?; reflexivity|intros ?; reflexivity]|constructor; reflexivity]). }
  destruct r1 as [[[[b1 b2] b5] b6]|[[[b1 b2] b5] b6]]; destruct L1 as [L1 L2].
  - destruct (compl_bound_loop (nC + nK) nK lbR ubR _) as [r2|] eqn:L3; cbn [bind] in E; [|discriminate].
    apply (k_loop _ _ _ _ (d_lbR (pd o)) (d_ubR (pd o))) in L3; [|split; assumption].
    destruct r2 as [[[[b3 b4] c5] c6]|[[[b3 b4] c5] c6]]; destruct L3 as [L3 L4]; injection E as <- <-; apply G; assumption.
  - injection E as <- <-. apply G; assumption.
Qed.

Lemma k_guess x0 y0 o r o' : setInitialGuess x0 y0 o = Ok (r, o') -> r <> SUCCESSFUL_RETURN -> o' = o.
Proof. unfold setInitialGuess. intros E NR. inv_ok; congruence. Qed.

(** The object after a refused load is [o1] with the message. *)
Lemma chain (K : lcqp T -> lcqp T -> Prop) (tr : forall a b c, K a b -> K b c -> K a c) r (a : res (ReturnValue * lcqp T)) k o rr o' :
  (forall r o1, a = Ok (r, o1) -> K o o1) ->
  (forall o1, K o o1 -> k o1 = Ok (rr, o') -> rr <> SUCCESSFUL_RETURN -> exists o2, K o o2 /\ o' = logL (EvMessage rr) o2) ->
  r = rr -> and_then a k = Ok (r, o') -> r <> SUCCESSFUL_RETURN -> exists o2, K o o2 /\ o' = logL (EvMessage rr) o2.
Proof.
  intros Ha Hk -> E NR. unfold and_then in E. destruct a as [[ra oa]|]; cbn [bind] in E; [|discriminate].
  specialize (Ha _ _ eq_refl). destruct (is_success ra); [apply (Hk oa); auto|].
  unfold fail_msg in E. injection E as <- <-. exists oa. auto.
Qed.

Lemma refused_tail (K : lcqp T -> lcqp T -> Prop) x0 y0 b o o1 r o' : K o o1 ->
  and_then (setInitialGuess x0 y0 o1) b = Ok (r, o') -> r <> SUCCESSFUL_RETURN -> (forall o2 r o3, b o2 = Ok (r, o3) -> r = SUCCESSFUL_RETURN) ->
  exists o2, K o o2 /\ o' = logL (EvMessage r) o2.
Proof.
  intros K1 E NR B. unfold and_then in E. destruct (setInitialGuess x0 y0 o1) as [[ra oa]|] eqn:EG; cbn [bind] in E; [|discriminate].
  destruct (is_success ra) eqn:Es; [apply B in E; contradiction|].
  unfold fail_msg in E. injection E as <- <-. apply k_guess in EG; [|exact NR]. subst oa. exists o1. auto.
Qed.

(** The common part of the dense loads. *)
Lemma refused_dense_steps Q g L R lbL ubL lbR ubR A lbA ubA lb ub x0 y0 o r o' :
  and_then (setQ Q o) (fun o => and_then (setG g o) (fun o => let! o := copy_box lb ub o in
    and_then (setConstraints L R A lbA ubA o) (fun o => and_then (setComplementarityBounds lbL ubL lbR ubR o) (fun o =>
    and_then (setInitialGuess x0 y0 o) (fun o => Ok (SUCCESSFUL_RETURN, mkLcqp (set_d_sparseSolver false (pd o)) (it o))))))) = Ok (r, o') ->
  r <> SUCCESSFUL_RETURN -> exists o1, KD lbL ubL lbR ubR lb ub o o1 /\ o' = logL (EvMessage r) o1.
Proof.
  pose proof (KD_trans lbL ubL lbR ubR lb ub) as TR.
  apply (chain _ TR r); [intros r1 o1 E; eapply k_setQ; eassumption| |reflexivity]. intros o1 K1.
  apply (chain _ TR r); [intros r2 o2 E; eapply TR; [exact K1|]; eapply k_setG; eassumption| |reflexivity]. clear o1 K1. intros o2 K2.
  destruct (copy_box lb ub o2) as [o3|] eqn:EB; cbn [bind]; [|discriminate]. apply (k_box lbL ubL lbR ubR) in EB. destruct EB as [EB _].
  apply (chain _ TR r); [intros r4 o4 E; eapply TR; [exact K2|]; eapply TR; [exact EB|]; eapply k_constraints; eassumption| |reflexivity].
  clear o2 K2 o3 EB. intros o4 K4.
  apply (chain _ TR r); [intros r5 o5 E; eapply TR; [exact K4|]; eapply k_bounds; eassumption| |reflexivity]. clear o4 K4. intros o5 K5 E NR.
  eapply refused_tail; [exact K5|exact E|exact NR|]. intros o6 r6 o7 E6. injection E6; auto.
Qed.
Lemma refused_dense Q g L R lbL ubL lbR ubR A lbA ubA lb ub x0 y0 o r o' :
  loadLCQP Q g L R lbL ubL lbR ubR A lbA ubA lb ub x0 y0 o = Ok (r, o') ->
  r <> SUCCESSFUL_RETURN -> exists o1, KD lbL ubL lbR ubR lb ub o o1 /\ o' = logL (EvMessage r) o1.
Proof.
  unfold loadLCQP, fail_msg. intros E. assert (Z0 := D_refl lbL ubL lbR ubR lb ub o).
  destruct (get (d_nV (pd o))) as [nV|]; cbn [bind] in E; [|discriminate]. destruct (nV <=? 0); [injection E as <- <-; eauto|].
  destruct (get (d_nComp (pd o))) as [nK|]; cbn [bind] in E; [|discriminate]. destruct (nK <=? 0); [injection E as <- <-; eauto|].
  revert E. apply refused_dense_steps.
Qed.
Lemma refused_sparse Q g L R lbL ubL lbR ubR A lbA ubA lb ub x0 y0 o r o' :
  loadLCQP_csc Q g L R lbL ubL lbR ubR A lbA ubA lb ub x0 y0 o = Ok (r, o') ->
  r <> SUCCESSFUL_RETURN -> exists o1, KS lbL ubL lbR ubR lb ub o o1 /\ o' = logL (EvMessage r) o1.
Proof.
  unfold loadLCQP_csc. pose proof (KS_trans lbL ubL lbR ubR lb ub) as TR.
  apply (chain _ TR r); [intros r1 o1 E; eapply k_setQ_csc; eassumption| |reflexivity]. intros o1 K1.
  apply (chain _ TR r); [intros r2 o2 E; eapply TR; [exact K1|]; eapply k_setG; eassumption| |reflexivity]. clear o1 K1. intros o2 K2.
  apply (chain _ TR r); [intros r4 o4 E; eapply TR; [exact K2|]; eapply k_constraints_csc; eassumption| |reflexivity]. clear o2 K2. intros o4 K4.
  apply (chain _ TR r); [intros r5 o5 E; eapply TR; [exact K4|]; eapply k_bounds; eassumption| |reflexivity]. clear o4 K4. intros o5 K5 E NR.
  eapply refused_tail; [exact K5|exact E|exact NR|]. intros o6 r6 o7 E6. cbv beta in E6. inv_ok. reflexivity.
Qed.

Lemma calm_answers o o1 e : calm o o1 -> same_answers o (logL e o1).
Proof.
  intros C. destruct o1 as [d1 s1], o as [d s]. destruct C; cbn [pd it logL] in *. subst s1.
  unfold same_answers, getPrimalSolution, getDualSolution, getNumberOfPrimals, getNumberOfDuals, getOutputStatistics, logL, logI. cbn [pd it].
  rewrite ?cm_nV0, ?cm_nDuals0. repeat split; assumption.
Qed.

Lemma p_C72_dense Q g L R lbL ubL lbR ubR A lbA ubA lb ub x0 y0 o r o' :
  loadLCQP Q g L R lbL ubL lbR ubR A lbA ubA lb ub x0 y0 o = Ok (r, o') -> r <> SUCCESSFUL_RETURN -> same_answers o o' /\ reported r o o'.
Proof.
  intros E NR. destruct (refused_dense _ _ _ _ _ _ _ _ _ _ _ _ _ _ _ _ _ _ E NR) as (o1 & [[C _ _ _ _ _ _] _] & ->).
  split; [apply calm_answers; exact C|]. unfold reported. rewrite <- (cm_it _ _ C). reflexivity.
Qed.
Lemma p_C72_sparse Q g L R lbL ubL lbR ubR A lbA ubA lb ub x0 y0 o r o' :
  loadLCQP_csc Q g L R lbL ubL lbR ubR A lbA ubA lb ub x0 y0 o = Ok (r, o') -> r <> SUCCESSFUL_RETURN -> same_answers o o' /\ reported r o o'.
Proof.
  intros E NR. destruct (refused_sparse _ _ _ _ _ _ _ _ _ _ _ _ _ _ _ _ _ _ E NR) as (o1 & [[C _ _ _ _ _ _] _] & ->).
  split; [apply calm_answers; exact C|]. unfold reported. rewrite <- (cm_it _ _ C). reflexivity.
Qed.

(** Files: either nothing was stored, or it is a refused dense load. *)
Definition quiet (r : ReturnValue) (o : lcqp T) (m : res (ReturnValue * lcqp T)) : Prop :=
  forall o', m = Ok (r, o') -> r <> SUCCESSFUL_RETURN -> exists o1, calm o o1 /\ o' = logL (EvMessage r) o1.
Lemma quiet_file r n (f : @file T) o k : (forall a, quiet r o (k a)) -> quiet r o (read_file n f o k).
Proof.
  intros Q o' E NR. unfold read_file in E. destruct (alloc n) as [a|]; cbn [bind] in E; [|discriminate].
  destruct (readFromFile a n f) as [[ra b]|]; cbn [bind] in E; [|discriminate]. destruct (is_success ra); [exact (Q _ _ E NR)|].
  unfold fail_msg in E. injection E as <- <-. exists o. split; [constructor; reflexivity|reflexivity].
Qed.
Lemma quiet_opt r n (f : option (@file T)) o k : (forall a, quiet r o (k a)) -> quiet r o (read_opt_file n f o k).
Proof. intros Q. destruct f; [apply quiet_file; exact Q|exact (Q None)]. Qed.
Lemma p_C72_files (F : ufiles T) o r o' : load_files F o = Ok (r, o') -> r <> SUCCESSFUL_RETURN -> same_answers o o' /\ reported r o o'.
Proof.
  intros E NR. assert (G : exists o1, calm o o1 /\ o' = logL (EvMessage r) o1).
  { revert E NR. unfold load_files, loadLCQP_files. destruct (get (d_nV (pd o))); cbn [bind]; [|discriminate].
    destruct (get (d_nC (pd o))); cbn [bind]; [|discriminate]. destruct (get (d_nComp (pd o))); cbn [bind]; [|discriminate].
    revert o'. change (quiet r o ?m) with (quiet r o m).
    do 4 (apply quiet_file; intros ?). do 11 (apply quiet_opt; intros ?).
    intros o' E NR. destruct (refused_dense_steps _ _ _ _ _ _ _ _ _ _ _ _ _ _ _ _ _ _ E NR) as (o1 & [[C _ _ _ _ _ _] _] & ->). eauto. }
  destruct G as (o1 & C & ->). split; [apply calm_answers; exact C|]. unfold reported. rewrite <- (cm_it _ _ C). reflexivity.
Qed.

(** ** A valid load afterwards *)
Lemma keep_held (f : uvec T -> option (list T)) v p old new : replaced f v p -> held old new p -> keep (f v) new = keep (f v) old.
Proof. intros [N|N] K; unfold keep; [destruct (f v); [reflexivity|congruence]|destruct (f v); auto]. Qed.

Lemma pdata_ext (d d' : pdata T) : d_options d = d_options d' -> d_nV d = d_nV d' -> d_nC d = d_nC d' -> d_nComp d = d_nComp d' -> d_nDuals d = d_nDuals d' -> d_boxDualOffset d = d_boxDualOffset d' -> d_Q d = d_Q d' -> d_g d = d_g d' -> d_lb d = d_lb d' -> d_ub d = d_ub d' -> d_lb_tmp d = d_lb_tmp d' -> d_ub_tmp d = d_ub_tmp d' -> d_A d = d_A d' -> d_lbA d = d_lbA d' -> d_ubA d = d_ubA d' -> d_L d = d_L d' -> d_R d = d_R d' -> d_C d = d_C d' -> d_lbL d = d_lbL d' -> d_ubL d = d_ubL d' -> d_lbR d = d_lbR d' -> d_ubR d = d_ubR d' -> d_g_phi d = d_g_phi d' -> d_phi_const d = d_phi_const d' -> d_sparseSolver d = d_sparseSolver d' -> d_Q_sparse d = d_Q_sparse d' -> d_A_sparse d = d_A_sparse d' -> d_L_sparse d = d_L_sparse d' -> d_R_sparse d = d_R_sparse d' -> d_C_sparse d = d_C_sparse d' -> d_subsolver d = d_subsolver d' -> d = d'.
Proof.
  destruct d, d'. cbn. intros. subst. reflexivity.
Qed.
Lemma p_C72_recover Q g L R lbL ubL lbR ubR A lbA ubA lb ub x0 y0 o r o1 (u : udense T) :
  loadLCQP Q g L R lbL ubL lbR ubR A lbA ubA lb ub x0 y0 o = Ok (r, o1) -> r <> SUCCESSFUL_RETURN ->
  wf_dense u -> built_for (ud_v u) o -> fin_lower (ud_v u) ->
  replaced u_lbL (ud_v u) lbL -> replaced u_ubL (ud_v u) ubL -> replaced u_lbR (ud_v u) lbR -> replaced u_ubR (ud_v u) ubR ->
  replaced u_lb (ud_v u) lb -> replaced u_ub (ud_v u) ub ->
  exists p, load_dense u o = Ok (SUCCESSFUL_RETURN, p) /\ load_dense u o1 = Ok (SUCCESSFUL_RETURN, logL (EvMessage r) p).
Proof.
  intros E NR W B F R1 R2 R3 R4 R5 R6. destruct (refused_dense _ _ _ _ _ _ _ _ _ _ _ _ _ _ _ _ _ _ E NR) as (o2 & [[C] [N1 N2 N3 N4 N5]] & ->).
  assert (B2 : dims (ud_v u) (pd (logL (EvMessage r) o2))).
  { destruct B as (B1 & B2 & B3). destruct C. unfold dims, logL. cbn [pd]. rewrite cm_nV0, cm_nC0, cm_nComp0. auto. }
  exists (loaded_dense u o). split; [apply load_dense_ok; assumption|]. rewrite (load_dense_ok u _ W B2 F). do 2 f_equal.
  unfold loaded_dense. destruct o as [d s], o2 as [d2 s2]. destruct C. unfold logL in *. cbn [pd it] in *. subst s2.
  assert (K1 := keep_held u_lbL _ _ _ _ R1 hv_lbL0). assert (K2 := keep_held u_ubL _ _ _ _ R2 hv_ubL0). assert (K3 := keep_held u_lbR _ _ _ _ R3 hv_lbR0).
  assert (K4 := keep_held u_ubR _ _ _ _ R4 hv_ubR0). assert (K5 := keep_held u_lb _ _ _ _ R5 hv_lb0). assert (K6 := keep_held u_ub _ _ _ _ R6 hv_ub0).
  f_equal. apply pdata_ext;
    first [exact cm_opt0|exact cm_nV0|exact cm_nC0|exact cm_nComp0|exact cm_nDuals0|exact cm_off0|exact cm_lb0|exact cm_ub0|exact cm_gphi0|exact cm_phi0|exact cm_sub0
      |exact N1|exact N2|exact N3|exact N4|exact N5|exact K1|exact K2|exact K3|exact K4|exact K5|exact K6|reflexivity].
Qed.
Lemma p_C72_recover_sparse Q g L R lbL ubL lbR ubR A lbA ubA lb ub x0 y0 o r o1 (u : usparse T) :
  loadLCQP_csc Q g L R lbL ubL lbR ubR A lbA ubA lb ub x0 y0 o = Ok (r, o1) -> r <> SUCCESSFUL_RETURN ->
  wf_sparse u -> built_for (us_v u) o -> fin_lower (us_v u) -> concat (us_C u) <> [] ->
  replaced u_lbL (us_v u) lbL -> replaced u_ubL (us_v u) ubL -> replaced u_lbR (us_v u) lbR -> replaced u_ubR (us_v u) ubR ->
  replaced u_lb (us_v u) lb -> replaced u_ub (us_v u) ub ->
  exists p, load_sparse u o = Ok (SUCCESSFUL_RETURN, p) /\ load_sparse u o1 = Ok (SUCCESSFUL_RETURN, logL (EvMessage r) p).
Proof.
  intros E NR W B F NZ R1 R2 R3 R4 R5 R6. destruct (refused_sparse _ _ _ _ _ _ _ _ _ _ _ _ _ _ _ _ _ _ E NR) as (o2 & [[C] [N1 N2 N3 N4 N5]] & ->).
  assert (B2 : dims (us_v u) (pd (logL (EvMessage r) o2))).
  { destruct B as (B1 & B2 & B3). destruct C. unfold dims, logL. cbn [pd]. rewrite cm_nV0, cm_nC0, cm_nComp0. auto. }
  exists (loaded_sparse u o). split; [apply load_sparse_ok; assumption|]. rewrite (load_sparse_ok u _ W B2 F NZ). do 2 f_equal.
  unfold loaded_sparse. destruct o as [d s], o2 as [d2 s2]. destruct C. unfold logL in *. cbn [pd it] in *. subst s2.
  assert (K1 := keep_held u_lbL _ _ _ _ R1 hv_lbL0). assert (K2 := keep_held u_ubL _ _ _ _ R2 hv_ubL0). assert (K3 := keep_held u_lbR _ _ _ _ R3 hv_lbR0).
  assert (K4 := keep_held u_ubR _ _ _ _ R4 hv_ubR0). assert (K5 := keep_held u_lb _ _ _ _ R5 hv_lb0). assert (K6 := keep_held u_ub _ _ _ _ R6 hv_ub0).
  f_equal. apply pdata_ext;
    first [exact cm_opt0|exact cm_nV0|exact cm_nC0|exact cm_nComp0|exact cm_nDuals0|exact cm_off0|exact cm_lb0|exact cm_ub0|exact cm_gphi0|exact cm_phi0|exact cm_sub0
      |exact N1|exact N2|exact N3|exact N4|exact N5|exact K1|exact K2|exact K3|exact K4|exact K5|exact K6|reflexivity].
Qed.

End RefusedFacts.
