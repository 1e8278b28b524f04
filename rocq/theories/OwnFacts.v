(** * OwnFacts: proofs about histories of Options objects (no LCQPow code). *)
From Verif Require Import Base Arith Codes Options SpecOptions OwnOptions SpecOwn Tactics.

Section OwnFacts.
Context {T S Q : Type} `{Arith T}.
Variables (dfltS : S) (dfltQ : Q).
Notation pstate := (pstate T S Q).
Notation oobj := (oobj T Q).

Lemma upd_len {X} i (x : X) l : length (upd i x l) = length l.
Proof. revert i. induction l; intros [|i]; cbn; auto. Qed.
Lemma upd_same {X} i (x : X) l : (i < length l)%nat -> nth_error (upd i x l) i = Some x.
Proof. revert i. induction l; intros [|i] Hi; cbn in *; try lia; auto. apply IHl. lia. Qed.
Lemma upd_other {X} i j (x : X) l : i <> j -> nth_error (upd i x l) j = nth_error l j.
Proof. revert i j. induction l; intros [|i] [|j] Hi; cbn in *; auto; try congruence. Qed.
Lemma hput_same a c (h : heap S) : (a < length h)%nat -> nth_error (h_put a c h) a = Some c.
Proof. revert a. induction h; intros [|i] Hi; cbn in *; try lia; auto. apply IHh. lia. Qed.
Lemma hput_other a b c (h : heap S) : a <> b -> nth_error (h_put a c h) b = nth_error h b.
Proof. revert a b. induction h; intros [|i] [|j] Hi; cbn in *; auto; try congruence. Qed.
Lemma hput_len a c (h : heap S) : length (h_put a c h) = length h.
Proof. revert a. induction h; intros [|i]; cbn; auto. Qed.
Lemma nth_lt {X} (l : list X) a x : nth_error l a = Some x -> (a < length l)%nat.
Proof. intros E. apply nth_error_Some. congruence. Qed.
Lemma nth_last {X} (l : list X) x : nth_error (l ++ [x]) (length l) = Some x.
Proof. rewrite nth_error_app2, Nat.sub_diag by lia. reflexivity. Qed.

(** Invariant.  No LCQPow code. *)
Definition inv (st : pstate) : Prop :=
  (forall i ob a, obj_at st i = Some ob -> ob_osqp ob = Some a -> exists v, nth_error (p_heap st) a = Some (Some v)) /\
  (forall i j ob ob' a, obj_at st i = Some ob -> obj_at st j = Some ob' -> ob_osqp ob = Some a -> ob_osqp ob' = Some a -> i = j) /\
  no_leak st.
Lemma obj_len (st : pstate) i ob : obj_at st i = Some ob -> (i < length (p_objs st))%nat.
Proof. unfold obj_at. destruct (nth_error _ _) eqn:E; [|discriminate]. intros _. eapply nth_lt; eauto. Qed.
Lemma obj_upd (st : pstate) h i j x : (i < length (p_objs st))%nat -> obj_at (mkPs h (upd i x (p_objs st)) : pstate) j = if Nat.eqb i j then x else obj_at st j.
Proof.
  intros Hi. unfold obj_at. cbn [p_objs]. destruct (Nat.eqb_spec i j) as [<-|Hn]; [rewrite upd_same by exact Hi; reflexivity|]. rewrite upd_other by exact Hn. reflexivity.
Qed.

(** Replacing object [i] (by nothing if it is destroyed) keeps the invariant and the other objects' views. *)
Lemma replace_inv (st : pstate) i ob nob h' : inv st -> obj_at st i = Some ob ->
  let np := match nob with Some o => ob_osqp o | None => None end in
  (forall a v, nth_error (p_heap st) a = Some (Some v) -> ob_osqp ob <> Some a -> nth_error h' a = Some (Some v)) ->
  (forall a v, nth_error h' a = Some (Some v) -> np = Some a \/ (nth_error (p_heap st) a = Some (Some v) /\ ob_osqp ob <> Some a)) ->
  (forall b, np = Some b -> (exists v, nth_error h' b = Some (Some v)) /\ (ob_osqp ob = Some b \/ nth_error (p_heap st) b = None)) ->
  inv (mkPs h' (upd i nob (p_objs st))) /\ forall j, j <> i -> view (mkPs h' (upd i nob (p_objs st))) j = view st j.
Proof.
  intros (I1 & I2 & I3) Hi np H1 H2 H3. pose proof (obj_len _ _ _ Hi) as Li.
  assert (V : forall j ob' a, j <> i -> obj_at st j = Some ob' -> ob_osqp ob' = Some a -> exists v, nth_error (p_heap st) a = Some (Some v) /\ nth_error h' a = Some (Some v)).
  { intros j ob' a Hj Oj Pa. destruct (I1 _ _ _ Oj Pa) as (v & Ev). exists v. split; [exact Ev|]. apply H1; [exact Ev|]. intros C. apply Hj. eapply I2; eauto. }
  split; [split; [|split]|].
  - intros j ob' a. rewrite obj_upd by exact Li. destruct (Nat.eqb_spec i j) as [<-|Hn].
    + intros En Pa. apply H3. unfold np. rewrite En. exact Pa.
    + intros Oj Pa. destruct (V j ob' a) as (v & _ & Ev); auto. exists v. exact Ev.
  - intros j k ob1 ob2 a. rewrite !obj_upd by exact Li. destruct (Nat.eqb_spec i j) as [<-|Hj], (Nat.eqb_spec i k) as [<-|Hk]; auto; intros O1 O2 P1 P2.
    + exfalso. destruct (H3 a) as (_ & [C|C]); [unfold np; rewrite O1; exact P1| |].
      * apply Hk. eapply I2; eauto.
      * destruct (I1 _ _ _ O2 P2) as (v & Ev). congruence.
    + exfalso. destruct (H3 a) as (_ & [C|C]); [unfold np; rewrite O2; exact P2| |].
      * apply Hj. eapply I2; eauto.
      * destruct (I1 _ _ _ O1 P1) as (v & Ev). congruence.
    + eapply I2; eauto.
  - intros a v Ea. cbn [p_heap] in Ea. destruct (H2 a v Ea) as [C|(C1 & C2)].
    + unfold np in C. destruct nob as [o|] eqn:En; [|discriminate]. exists i, o. split; [|exact C]. rewrite obj_upd, Nat.eqb_refl by exact Li. reflexivity.
    + destruct (I3 a v C1) as (k & ob' & Ok' & Pk). exists k, ob'. split; [|exact Pk]. rewrite obj_upd by exact Li. destruct (Nat.eqb_spec i k) as [<-|]; [|exact Ok'].
      exfalso. apply C2. congruence.
  - intros j Hj. unfold view. rewrite obj_upd by exact Li. destruct (Nat.eqb_spec i j) as [<-|Hn]; [congruence|]. destruct (obj_at st j) as [ob'|] eqn:Oj; [|reflexivity].
    destruct (ob_osqp ob') as [a|] eqn:Pa; [|reflexivity]. destruct (V j ob' a Hj Oj Pa) as (v & -> & E2). cbn [p_heap]. rewrite E2. reflexivity.
Qed.
(** Appending an object. *)
Lemma append_inv (st : pstate) nob h' : inv st ->
  (forall a v, nth_error (p_heap st) a = Some (Some v) -> nth_error h' a = Some (Some v)) ->
  (forall a v, nth_error h' a = Some (Some v) -> ob_osqp nob = Some a \/ nth_error (p_heap st) a = Some (Some v)) ->
  (forall b, ob_osqp nob = Some b -> (exists v, nth_error h' b = Some (Some v)) /\ nth_error (p_heap st) b = None) ->
  inv (mkPs h' (p_objs st ++ [Some nob])) /\ forall j, j <> length (p_objs st) -> view (mkPs h' (p_objs st ++ [Some nob])) j = view st j.
Proof.
  intros (I1 & I2 & I3) H1 H2 H3. set (n := length (p_objs st)).
  assert (O : forall j, obj_at (mkPs h' (p_objs st ++ [Some nob]) : pstate) j = if Nat.eqb j n then Some nob else obj_at st j).
  { intros j. unfold obj_at. cbn [p_objs]. destruct (Nat.eqb_spec j n) as [->|Hj]; [unfold n; rewrite nth_last; reflexivity|].
    destruct (Nat.lt_ge_cases j n) as [L|L]; [rewrite nth_error_app1 by exact L; reflexivity|].
    rewrite (proj2 (nth_error_None (p_objs st ++ [Some nob]) j)) by (rewrite app_length; cbn; fold n; lia). rewrite (proj2 (nth_error_None (p_objs st) j)) by exact L. reflexivity. }
  split; [split; [|split]|].
  - intros j ob' a. rewrite O. destruct (Nat.eqb_spec j n) as [->|Hn].
    + intros E Pa. injection E as <-. apply H3. exact Pa.
    + intros Oj Pa. destruct (I1 _ _ _ Oj Pa) as (v & Ev). exists v. apply H1. exact Ev.
  - intros j k ob1 ob2 a. rewrite !O. destruct (Nat.eqb_spec j n) as [->|Hj], (Nat.eqb_spec k n) as [->|Hk]; auto; intros O1 O2 P1 P2.
    + exfalso. injection O1 as <-. destruct (H3 a P1) as (_ & C). destruct (I1 _ _ _ O2 P2) as (v & Ev). congruence.
    + exfalso. injection O2 as <-. destruct (H3 a P2) as (_ & C). destruct (I1 _ _ _ O1 P1) as (v & Ev). congruence.
    + eapply I2; eauto.
  - intros a v Ea. cbn [p_heap] in Ea. destruct (H2 a v Ea) as [C|C].
    + exists n, nob. split; [|exact C]. rewrite O, Nat.eqb_refl. reflexivity.
    + destruct (I3 a v C) as (k & ob' & Ok' & Pk). exists k, ob'. split; [|exact Pk]. rewrite O. destruct (Nat.eqb_spec k n) as [->|]; [|exact Ok'].
      apply obj_len in Ok'. fold n in Ok'. lia.
  - intros j Hj. unfold view. rewrite O. destruct (Nat.eqb_spec j n); [contradiction|]. destruct (obj_at st j) as [ob'|] eqn:Oj; [|reflexivity].
    destruct (ob_osqp ob') as [a|] eqn:Pa; [|reflexivity]. destruct (I1 _ _ _ Oj Pa) as (v & Ev). cbn [p_heap]. rewrite Ev, (H1 _ _ Ev). reflexivity.
Qed.

(** Effect of the primitives on a heap in which the object's own block is live. *)
Definition own_ok (p : option nat) (h : heap S) : Prop := forall a, p = Some a -> exists v, nth_error h a = Some (Some v).
Lemma free_own (p : option nat) (h : heap S) : own_ok p h -> exists h1,
  match p with Some a => h_free a h | None => Ok h end = Ok h1 /\ length h1 = length h /\
  (forall a v, nth_error h a = Some (Some v) -> p <> Some a -> nth_error h1 a = Some (Some v)) /\
  (forall a v, nth_error h1 a = Some (Some v) -> nth_error h a = Some (Some v) /\ p <> Some a).
Proof.
  intros O. destruct p as [a|].
  - destruct (O a eq_refl) as (v & Ev). unfold h_free, h_read. rewrite Ev. cbn [bind]. eexists. split; [reflexivity|]. split; [apply hput_len|]. split; intros b w Eb.
    + intros Hn. rewrite hput_other by congruence. exact Eb.
    + destruct (Nat.eq_dec a b) as [<-|Hn]; [rewrite hput_same in Eb by (eapply nth_lt; eauto); discriminate|]. rewrite hput_other in Eb by exact Hn. split; [exact Eb|congruence].
  - exists h. split; [reflexivity|]. split; [reflexivity|]. split; intros; [auto|split; [auto|discriminate]].
Qed.
Lemma setOSQP_ok (p : option nat) (ob : oobj) (h : heap S) : own_ok (ob_osqp ob) h -> own_ok p h -> (forall a, p = Some a -> ob_osqp ob <> Some a) -> exists ob' h',
  setOSQPOptions p ob h = Ok (ob', h') /\ ob_num ob' = ob_num ob /\ ob_qpoases ob' = ob_qpoases ob /\ (length h <= length h')%nat /\
  (forall a v, nth_error h a = Some (Some v) -> ob_osqp ob <> Some a -> nth_error h' a = Some (Some v)) /\
  (forall a v, nth_error h' a = Some (Some v) -> ob_osqp ob' = Some a \/ (nth_error h a = Some (Some v) /\ ob_osqp ob <> Some a)) /\
  match p with
  | Some a => exists v b, nth_error h a = Some (Some v) /\ ob_osqp ob' = Some b /\ nth_error h' b = Some (Some v) /\ nth_error h b = None
  | None => ob_osqp ob' = None
  end.
Proof.
  intros O1 O2 D. destruct (free_own _ _ O1) as (h1 & E1 & Hl & F1 & F2). unfold setOSQPOptions.
  set (ob1 := mkOobj (ob_num ob) (ob_qpoases ob) None).
  match goal with |- context [bind ?m _] => assert (E : m = Ok (ob1, h1)) end.
  { destruct (ob_osqp ob) eqn:Po; [rewrite E1; reflexivity|]. injection E1 as <-. unfold ob1. destruct ob; cbn in *. subst. reflexivity. }
  rewrite E. cbn [bind]. destruct p as [a|].
  - destruct (O2 a eq_refl) as (v & Ev). specialize (D a eq_refl). unfold h_read. rewrite (F1 _ _ Ev D). cbn [bind h_new].
    eexists _, _. split; [reflexivity|]. cbn [ob_num ob_qpoases ob_osqp ob1]. split; [reflexivity|]. split; [reflexivity|]. split; [rewrite app_length; lia|]. split; [|split].
    + intros b w Eb Hb. rewrite nth_error_app1; [apply F1; auto|]. rewrite Hl. eapply nth_lt; eauto.
    + intros b w Eb. destruct (Nat.lt_ge_cases b (length h1)) as [L|L]; [right; rewrite nth_error_app1 in Eb by exact L; auto|]. left. f_equal.
      apply nth_lt in Eb. rewrite app_length in Eb. cbn in Eb. lia.
    + exists v, (length h1). split; [exact Ev|]. split; [reflexivity|]. split; [apply nth_last|]. apply nth_error_None. lia.
  - eexists _, _. split; [reflexivity|]. cbn [ob_num ob_qpoases ob_osqp ob1]. split; [reflexivity|]. split; [reflexivity|]. split; [lia|]. split; [exact F1|]. split; [|reflexivity].
    intros b w Eb. right. apply F2. exact Eb.
Qed.
Lemma default_ok (ob : oobj) (h : heap S) : own_ok (ob_osqp ob) h -> exists h' b,
  own_setToDefault dfltS dfltQ ob h = Ok (mkOobj setToDefault dfltQ (Some b), h') /\ nth_error h' b = Some (Some dfltS) /\ nth_error h b = None /\
  (forall a v, nth_error h a = Some (Some v) -> ob_osqp ob <> Some a -> nth_error h' a = Some (Some v)) /\
  (forall a v, nth_error h' a = Some (Some v) -> Some b = Some a \/ (nth_error h a = Some (Some v) /\ ob_osqp ob <> Some a)).
Proof.
  intros O1. destruct (free_own _ _ O1) as (h1 & E1 & Hl & F1 & F2). unfold own_setToDefault. rewrite E1. cbn [bind h_new].
  exists (h1 ++ [Some dfltS]), (length h1). split; [reflexivity|]. split; [apply nth_last|]. split; [apply nth_error_None; lia|]. split.
  - intros a v Ea Ha. rewrite nth_error_app1; [auto|]. rewrite Hl. eapply nth_lt; eauto.
  - intros a v Ea. destruct (Nat.lt_ge_cases a (length h1)) as [L|L]; [right; rewrite nth_error_app1 in Ea by exact L; auto|]. left. f_equal.
    apply nth_lt in Ea. rewrite app_length in Ea. cbn in Ea. lia.
Qed.

Lemma own_of (st : pstate) i ob : inv st -> obj_at st i = Some ob -> own_ok (ob_osqp ob) (p_heap st).
Proof. intros (I1 & _) O a Pa. eauto. Qed.
Lemma live_ok (st : pstate) i ob : obj_at st i = Some ob -> live st i = Ok ob.
Proof. unfold live. intros ->. reflexivity. Qed.
Lemma not_none {X} (o : option X) : o <> None -> exists x, o = Some x.
Proof. destruct o; [eauto|congruence]. Qed.
Lemma view_of (st : pstate) i ob : obj_at st i = Some ob -> view st i = Some (ob_num ob, ob_qpoases ob,
  match ob_osqp ob with Some a => Some (match nth_error (p_heap st) a with Some c => c | None => None end) | None => None end).
Proof. unfold view. intros ->. reflexivity. Qed.

Lemma copy_num (o : options T) : copyOptions o = o.
Proof. reflexivity. Qed.

Lemma step_ok (o : op T S Q) (st : pstate) : inv st -> sensible o st -> exists st', step dfltS dfltQ o st = Ok st' /\ inv st' /\
  expected dfltS dfltQ o st (view st' (affected o st)) /\ forall j, j <> affected o st -> view st' j = view st j.
Proof.
  intros I Hs. destruct o as [|j|i j|i s|i q|i p|i v|i|i]; cbn [step sensible affected acts_on] in *.
  - destruct (default_ok (mkOobj setToDefault dfltQ None) (p_heap st)) as (h' & b & E & B1 & B2 & F1 & F2); [intros a C; discriminate|].
    rewrite E. cbn [push bind]. eexists. split; [reflexivity|].
    destruct (append_inv st (mkOobj setToDefault dfltQ (Some b)) h' I) as (A1 & A2).
    + intros a v Ea. apply F1; [exact Ea|discriminate].
    + intros a v Ea. destruct (F2 a v Ea) as [C|(C & _)]; [left; exact C|right; exact C].
    + intros b' Eb. injection Eb as <-. split; [exists dfltS; exact B1|exact B2].
    + split; [exact A1|]. split; [|exact A2]. unfold view, obj_at. cbn [p_objs p_heap]. rewrite nth_last. cbn. rewrite B1. reflexivity.
  - destruct (not_none _ Hs) as (src & Ej). rewrite (live_ok _ _ _ Ej). cbn [bind]. unfold own_copy.
    destruct (setOSQP_ok (ob_osqp src) (mkOobj (copyOptions (ob_num src)) (ob_qpoases src) None) (p_heap st)) as (ob' & h' & E & N1 & N2 & _ & F1 & F2 & F3);
      [intros a C; discriminate|eapply own_of; eauto|discriminate|]. cbn [ob_osqp] in *. rewrite E. cbn [push bind]. eexists. split; [reflexivity|].
    destruct (append_inv st ob' h' I) as (A1 & A2).
    + intros a v Ea. apply F1; [exact Ea|discriminate].
    + intros a v Ea. destruct (F2 a v Ea) as [C|(C & _)]; auto.
    + intros b Eb. destruct (ob_osqp src); [|congruence]. destruct F3 as (v & b' & G1 & G2 & G3 & G4). assert (b' = b) by congruence. subst. eauto.
    + split; [exact A1|]. split; [|exact A2]. cbn [expected]. rewrite (view_of _ _ _ Ej). unfold view, obj_at. cbn [p_objs p_heap]. rewrite nth_last, N1, N2. cbn [ob_num ob_qpoases].
      rewrite copy_num. destruct (ob_osqp src) as [a|]; [|rewrite F3; reflexivity]. destruct F3 as (v & b & G1 & G2 & G3 & G4). rewrite G2, G3, G1. reflexivity.
  - destruct Hs as (Hi & Hj). destruct (not_none _ Hi) as (ob & Ei). destruct (not_none _ Hj) as (src & Ej). rewrite (live_ok _ _ _ Ei), (live_ok _ _ _ Ej). cbn [bind].
    destruct (Nat.eqb_spec i j) as [<-|Hn]; [exists st; split; [reflexivity|]; split; [exact I|]; split; [reflexivity|auto]|].
    unfold own_copy.
    destruct (setOSQP_ok (ob_osqp src) (mkOobj (copyOptions (ob_num src)) (ob_qpoases src) (ob_osqp ob)) (p_heap st)) as (ob' & h' & E & N1 & N2 & _ & F1 & F2 & F3);
      [exact (own_of st i ob I Ei)|exact (own_of st j src I Ej)|intros a Ha C; apply Hn; exact (proj1 (proj2 I) _ _ _ _ _ Ei Ej C Ha)|]. cbn [ob_osqp ob_num ob_qpoases] in *. rewrite E. cbn [put bind]. eexists. split; [reflexivity|].
    destruct (replace_inv st i ob (Some ob') h' I Ei F1 F2) as (A1 & A2).
    + intros b Eb. destruct (ob_osqp src); [|congruence]. destruct F3 as (v & b' & G1 & G2 & G3 & G4). assert (b' = b) by congruence. subst. eauto.
    + split; [exact A1|]. split; [|exact A2]. cbn [expected]. rewrite (view_of _ _ _ Ej). erewrite view_of by (rewrite obj_upd by (eapply obj_len; eauto); rewrite Nat.eqb_refl; reflexivity).
      rewrite N1, N2, copy_num. cbn [p_heap]. destruct (ob_osqp src) as [a|]; [|rewrite F3; reflexivity]. destruct F3 as (v & b & G1 & G2 & G3 & G4). rewrite G2, G3, G1. reflexivity.
  - destruct (not_none _ Hs) as (ob & Ei). rewrite (live_ok _ _ _ Ei). cbn [bind put]. eexists. split; [reflexivity|].
    destruct (replace_inv st i ob (Some (mkOobj (snd (call s (ob_num ob))) (ob_qpoases ob) (ob_osqp ob))) (p_heap st) I Ei) as (A1 & A2); cbn [ob_osqp]; auto.
    + intros a v Ea. destruct (ob_osqp ob) as [b|]; [destruct (Nat.eq_dec b a); [subst; auto|right; split; [auto|congruence]]|right; split; [auto|discriminate]].
    + intros b Eb. split; [eapply (proj1 I); eauto|auto].
    + split; [exact A1|]. split; [|exact A2]. cbn [expected]. rewrite (view_of _ _ _ Ei). erewrite view_of by (rewrite obj_upd by (eapply obj_len; eauto); rewrite Nat.eqb_refl; reflexivity).
      eexists _, _, _. split; reflexivity.
  - destruct (not_none _ Hs) as (ob & Ei). rewrite (live_ok _ _ _ Ei). cbn [bind put]. eexists. split; [reflexivity|].
    destruct (replace_inv st i ob (Some (mkOobj (ob_num ob) q (ob_osqp ob))) (p_heap st) I Ei) as (A1 & A2); cbn [ob_osqp]; auto.
    + intros a v Ea. destruct (ob_osqp ob) as [b|]; [destruct (Nat.eq_dec b a); [subst; auto|right; split; [auto|congruence]]|right; split; [auto|discriminate]].
    + intros b Eb. split; [eapply (proj1 I); eauto|auto].
    + split; [exact A1|]. split; [|exact A2]. cbn [expected]. rewrite (view_of _ _ _ Ei). erewrite view_of by (rewrite obj_upd by (eapply obj_len; eauto); rewrite Nat.eqb_refl; reflexivity).
      eexists _, _, _. split; reflexivity.
  - destruct p as [|v|j].
    + destruct (not_none _ Hs) as (ob & Ei). rewrite (live_ok _ _ _ Ei). cbn [bind].
      destruct (setOSQP_ok None ob (p_heap st)) as (ob' & h' & E & N1 & N2 & _ & F1 & F2 & F3); [eapply (own_of st i); eauto|discriminate|discriminate|].
      rewrite E. cbn [put bind]. eexists. split; [reflexivity|]. destruct (replace_inv st i ob (Some ob') h' I Ei F1 F2) as (A1 & A2); [congruence|].
      split; [exact A1|]. split; [|exact A2]. cbn [expected]. rewrite (view_of _ _ _ Ei). erewrite view_of by (rewrite obj_upd by (eapply obj_len; eauto); rewrite Nat.eqb_refl; reflexivity).
      rewrite N1, N2, F3. eexists _, _, _. split; reflexivity.
    + destruct (not_none _ Hs) as (ob & Ei). rewrite (live_ok _ _ _ Ei). cbn [bind h_new]. set (h := p_heap st) in *. pose proof (own_of _ _ _ I Ei) as O. fold h in O.
      assert (Hd : forall a, ob_osqp ob = Some a -> (a < length h)%nat) by (intros a Ha; destruct (O a Ha) as (w & Ew); eapply nth_lt; eauto).
      destruct (setOSQP_ok (Some (length h)) ob (h ++ [Some v])) as (ob' & h' & E & N1 & N2 & _ & F1 & F2 & F3).
      * intros a Ha. destruct (O a Ha) as (w & Ew). exists w. rewrite nth_error_app1 by (eapply nth_lt; eauto). exact Ew.
      * intros a Ha. injection Ha as <-. exists v. apply nth_last.
      * intros a Ha C. injection Ha as <-. specialize (Hd _ C). lia.
      * rewrite E. cbn [bind]. destruct F3 as (w & b & G1 & G2 & G3 & G4). rewrite nth_last in G1. injection G1 as <-.
        assert (E3 : nth_error h' (length h) = Some (Some v)) by (apply F1; [apply nth_last|intros C; specialize (Hd _ C); lia]).
        assert (Hb : (length h < b)%nat) by (apply nth_error_None in G4; rewrite app_length in G4; cbn in G4; lia).
        unfold h_free, h_read. rewrite E3. cbn [bind put]. eexists. split; [reflexivity|].
        destruct (replace_inv st i ob (Some ob') (h_put (length h) None h') I Ei) as (A1 & A2).
        -- intros a x Ea Ha. fold h in Ea. pose proof (nth_lt _ _ _ Ea). rewrite hput_other by lia. apply F1; [rewrite nth_error_app1 by lia; exact Ea|exact Ha].
        -- intros a x Ea. destruct (Nat.eq_dec (length h) a) as [<-|Hn]; [rewrite hput_same in Ea by (eapply nth_lt; eauto); discriminate|]. rewrite hput_other in Ea by exact Hn.
           destruct (F2 a x Ea) as [C|(C1 & C2)]; [left; exact C|right]. split; [|exact C2]. fold h. pose proof (nth_lt _ _ _ C1) as L. rewrite app_length in L. cbn in L. rewrite nth_error_app1 in C1 by lia. exact C1.
        -- intros b' Eb. assert (b' = b) by congruence. subst b'. split; [exists v; rewrite hput_other by lia; exact G3|]. right. fold h. apply nth_error_None. lia.
        -- split; [exact A1|]. split; [|exact A2]. cbn [expected]. rewrite (view_of _ _ _ Ei). erewrite view_of by (rewrite obj_upd by (eapply obj_len; eauto); rewrite Nat.eqb_refl; reflexivity).
           rewrite N1, N2, G2. cbn [p_heap]. rewrite hput_other by lia. rewrite G3. eexists _, _, _. split; reflexivity.
    + destruct Hs as (Hi & Hj & Hd). destruct (not_none _ Hi) as (ob & Ei). destruct (not_none _ Hj) as (src & Ej). rewrite (live_ok _ _ _ Ei), (live_ok _ _ _ Ej). cbn [bind].
      destruct (setOSQP_ok (ob_osqp src) ob (p_heap st)) as (ob' & h' & E & N1 & N2 & _ & F1 & F2 & F3); [eapply (own_of st i); eauto|eapply own_of; eauto| |].
      { intros a Ha C. assert (i = j) by (eapply (proj1 (proj2 I)); eauto). subst j. rewrite (Hd eq_refl ob Ei) in C. discriminate. }
      rewrite E. cbn [put bind]. eexists. split; [reflexivity|]. destruct (replace_inv st i ob (Some ob') h' I Ei F1 F2) as (A1 & A2).
      { intros b Eb. destruct (ob_osqp src); [|congruence]. destruct F3 as (v & b' & G1 & G2 & G3 & G4). assert (b' = b) by congruence. subst. eauto. }
      split; [exact A1|]. split; [|exact A2]. cbn [expected]. rewrite (view_of _ _ _ Ei), (view_of _ _ _ Ej). erewrite view_of by (rewrite obj_upd by (eapply obj_len; eauto); rewrite Nat.eqb_refl; reflexivity).
      rewrite N1, N2. cbn [p_heap]. eexists _, _, _, _, _, _. split; [reflexivity|]. split; [reflexivity|].
      destruct (ob_osqp src) as [a|]; [|rewrite F3; reflexivity]. destruct F3 as (v & b & G1 & G2 & G3 & G4). rewrite G2, G3, G1. reflexivity.
  - destruct Hs as (ob & a & Ei & Pa). rewrite (live_ok _ _ _ Ei). cbn [bind]. rewrite Pa. cbn [deref bind]. destruct (proj1 I _ _ _ Ei Pa) as (w & Ew). unfold h_write, h_read. rewrite Ew. cbn [bind].
    eexists. split; [reflexivity|]. pose proof (nth_lt _ _ _ Ew) as La. destruct I as (I1 & I2 & I3).
    assert (O : forall j, obj_at (mkPs (h_put a (Some v) (p_heap st)) (p_objs st) : pstate) j = obj_at st j) by reflexivity.
    split; [split; [|split]|split].
    + intros j ob' b. rewrite O. intros Oj Pb. cbn [p_heap]. destruct (Nat.eq_dec a b) as [<-|Hn]; [exists v; apply hput_same; exact La|]. rewrite hput_other by exact Hn. eauto.
    + intros j k ob1 ob2 b. rewrite !O. eauto.
    + intros b x. cbn [p_heap]. destruct (Nat.eq_dec a b) as [<-|Hn]; [intros _; exists i, ob; auto|]. rewrite hput_other by exact Hn. intros Eb. exact (I3 _ _ Eb).
    + cbn [expected]. rewrite (view_of _ _ _ Ei). erewrite view_of by exact Ei. rewrite Pa. cbn [p_heap]. rewrite hput_same by exact La. eexists _, _, _. split; reflexivity.
    + intros j Hj. unfold view. rewrite O. destruct (obj_at st j) as [ob'|] eqn:Oj; [|reflexivity]. destruct (ob_osqp ob') as [b|] eqn:Pb; [|reflexivity]. cbn [p_heap].
      rewrite hput_other; [reflexivity|]. intros C. subst b. apply Hj. eapply I2; eauto.
  - destruct (not_none _ Hs) as (ob & Ei). rewrite (live_ok _ _ _ Ei). cbn [bind].
    destruct (default_ok ob (p_heap st)) as (h' & b & E & B1 & B2 & F1 & F2); [eapply own_of; eauto|]. rewrite E. cbn [put bind]. eexists. split; [reflexivity|].
    destruct (replace_inv st i ob (Some (mkOobj setToDefault dfltQ (Some b))) h' I Ei F1 F2) as (A1 & A2).
    + intros b' Eb. injection Eb as <-. split; [exists dfltS; exact B1|right; exact B2].
    + split; [exact A1|]. split; [|exact A2]. cbn [expected]. erewrite view_of by (rewrite obj_upd by (eapply obj_len; eauto); rewrite Nat.eqb_refl; reflexivity). cbn. rewrite B1. reflexivity.
  - destruct (not_none _ Hs) as (ob & Ei). rewrite (live_ok _ _ _ Ei). cbn [bind]. unfold own_dtor.
    destruct (free_own (ob_osqp ob) (p_heap st)) as (h' & E & _ & F1 & F2); [eapply own_of; eauto|]. rewrite E. cbn [bind]. eexists. split; [reflexivity|].
    destruct (replace_inv st i ob None h' I Ei F1) as (A1 & A2); [intros a v Ea; right; apply F2; exact Ea|discriminate|].
    split; [exact A1|]. split; [|exact A2]. cbn [expected]. unfold view. rewrite obj_upd, Nat.eqb_refl by (eapply obj_len; eauto). reflexivity.
Qed.

Lemma start_inv : inv pstart.
Proof.
  split; [|split].
  - intros i ob a E. unfold obj_at in E. destruct i; discriminate.
  - intros i j ob ob' a E. unfold obj_at in E. destruct i; discriminate.
  - intros a v E. destruct a; discriminate.
Qed.
Lemma run_ok l : forall st : pstate, inv st -> sensible_run dfltS dfltQ l st -> exists st', run dfltS dfltQ l st = Ok st' /\ inv st'.
Proof.
  induction l as [|o l IH]; intros st I Hs; [exists st; split; [reflexivity|exact I]|]. destruct Hs as (H1 & H2).
  destruct (step_ok o st I H1) as (st1 & E & I1 & _). cbn [run]. rewrite E. cbn [bind]. apply IH; auto.
Qed.
End OwnFacts.
