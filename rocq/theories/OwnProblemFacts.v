(** * OwnProblemFacts: memory safety of all histories, freedom from leaks of single use, and leaks.  Proof layer, no LCQPow code. *)
From Coq Require Import List Bool Arith Lia.
From Verif Require Import Base OwnProblem SpecMemory OwnCheck.
Import ListNotations.
Local Open Scope nat_scope.

(** ** Checked commands *)
Definition ck (leak : bool) (c : cmd) (x y z : aval) : bool :=
  match ana leak c x with Some (a, b) => ale a y && ale b z | None => false end.
Lemma ck_sound : forall leak c x y z s, ck leak c x y z = true -> gam leak x s ->
  exists ok s', exec c s = Ok (ok, s') /\ gam leak (if ok then y else z) s'.
Proof.
  unfold ck. intros leak c x y z s E G. destruct (ana leak c x) as [[a b]|] eqn:AN; [|discriminate].
  apply andb_true_iff in E. destruct E as [EA EB]. destruct (ana_sound _ _ _ _ _ AN G) as (ok & s' & EX & GG).
  exists ok, s'. split; [exact EX|]. destruct ok; cbn [fst snd] in GG; eapply gam_ale; eassumption.
Qed.

(** ** Commands with the same effect *)
Definition ceq (c c' : cmd) : Prop := forall s, exec c s = exec c' s.
Lemma ceq_refl : forall c, ceq c c.
Proof. intros c s. reflexivity. Qed.
Lemma ceq_true : forall a a' b, ceq a a' -> ceq (Choice true a b) a'.
Proof. intros a a' b H s. cbn. apply H. Qed.
Lemma ceq_false : forall a b b', ceq b b' -> ceq (Choice false a b) b'.
Proof. intros a b b' H s. cbn. apply H. Qed.
Lemma ceq_choice : forall x a a' b b', ceq a a' -> ceq b b' -> ceq (Choice x a b) (Choice x a' b').
Proof. intros x a a' b b' H K s. cbn. destruct x; [apply H|apply K]. Qed.
Lemma ceq_seq : forall a a' b b', ceq a a' -> ceq b b' -> ceq (Seq a b) (Seq a' b').
Proof. intros a a' b b' H K s. cbn. rewrite H. destruct (exec a' s) as [[[] s']|]; cbn; [apply K|reflexivity|reflexivity]. Qed.
Lemma ceq_fin : forall a a' b b', ceq a a' -> ceq b b' -> ceq (Fin a b) (Fin a' b').
Proof. intros a a' b b' H K s. cbn. rewrite H. destruct (exec a' s) as [[ok s']|]; cbn; [rewrite K|]; reflexivity. Qed.
Lemma ceq_ifsp : forall a a' b b', ceq a a' -> ceq b b' -> ceq (IfSp a b) (IfSp a' b').
Proof. intros a a' b b' H K s. cbn. destruct (sp s); [apply H|apply K]. Qed.
Lemma ceq_ifnull : forall k a a' b b', ceq a a' -> ceq b b' -> ceq (IfNull k a b) (IfNull k a' b').
Proof. intros k a a' b b' H K s. cbn. destruct (mem s k); [apply K|apply H]. Qed.
Lemma ck_ceq : forall leak c c' x y z s, ceq c c' -> ck leak c' x y z = true -> gam leak x s ->
  exists ok s', exec c s = Ok (ok, s') /\ gam leak (if ok then y else z) s'.
Proof. intros. rewrite H. eapply ck_sound; eassumption. Qed.

Ltac resid :=
  lazymatch goal with
  | |- ceq (Choice true _ _) _ => refine (ceq_true _ _ _ _); resid
  | |- ceq (Choice false _ _) _ => refine (ceq_false _ _ _ _); resid
  | |- ceq (Choice _ _ _) _ => refine (ceq_choice _ _ _ _ _ _ _); [resid|resid]
  | |- ceq (Seq _ _) _ => refine (ceq_seq _ _ _ _ _ _); [resid|resid]
  | |- ceq (Fin _ _) _ => refine (ceq_fin _ _ _ _ _ _); [resid|resid]
  | |- ceq (IfSp _ _) _ => refine (ceq_ifsp _ _ _ _ _ _); [resid|resid]
  | |- ceq (IfNull _ _ _) _ => refine (ceq_ifnull _ _ _ _ _ _ _); [resid|resid]
  | |- ceq _ _ => exact (ceq_refl _)
  end.

(** ** Single use *)
Definition pks (l : list fld) : list key := map (fun f => (Prob, f)) l.
(** Keys of members of the subsolver. No LCQPow code. *)
Definition sks (l : list fld) : list key := map (fun f => (Sub, f)) l.
(** Members that may be set after a load. No LCQPow code. *)
Definition base_flds : list fld :=
  ctor_flds ++ [fg; flb_tmp; fub_tmp; flbA; fubA; flbL; fubL; flbR; fubR; fxk; fyk].
(** Members that may be set after a run in addition. No LCQPow code. *)
Definition run_flds : list fld := [flb; fub; fg_tilde; fg_phi; fQk_sparse].
(** Members of the subsolver that may be set after a run. No LCQPow code. *)
Definition run_subs : list fld := [qQ; qA; owork; odata; oQ; oA; osettings].
(** Abstract value after construction. No LCQPow code. *)
Definition vC : aval := (Some (pks ctor_flds, []), None).
(** Abstract value after a failed load. No LCQPow code. *)
Definition vF : aval := (Some (pks (base_flds ++ map fst mode_flds), []), None).
(** Abstract value after a load. No LCQPow code. *)
Definition v0 (m : bool) : aval :=
  if m then (None, Some (pks (base_flds ++ map snd mode_flds), [])) else (Some (pks (base_flds ++ map fst mode_flds), []), None).
(** Abstract value after a run. No LCQPow code. *)
Definition v1 (m : bool) : aval :=
  if m then (None, Some (pks (base_flds ++ run_flds ++ map snd mode_flds) ++ sks run_subs, []))
  else (Some (pks (base_flds ++ run_flds ++ map fst mode_flds) ++ sks run_subs, []), None).

Lemma gam0 : forall leak, gam leak (Some ([], []), None) mst0.
Proof.
  intros. unfold gam. cbn. split; [|split]; cbn; try discriminate. intros _ a E. unfold live in E. destruct a; discriminate.
Qed.
Lemma ctor_ok : forall d, exists ok s, exec (c_ctor d) mst0 = Ok (ok, s) /\ gam true vC s.
Proof.
  intros. destruct (ck_sound true (c_ctor d) (Some ([], []), None) vC vC mst0) as (ok & s & E & G).
  - vm_compute. reflexivity.
  - apply gam0.
  - exists ok, s. split; [exact E|]. destruct ok; exact G.
Qed.

Lemma load_dense_any : forall d a s, gam true vC s -> exists ok s', exec (c_load_dense d a) s = Ok (ok, s') /\ gam true vF s'.
Proof.
  intros d a s G. destruct (ck_sound true (c_load_dense d a) vC vF vF s) as (ok & s' & E & GG); [vm_compute; reflexivity|exact G|].
  exists ok, s'. split; [exact E|]. destruct ok; exact GG.
Qed.

Lemma load_good : forall d o m s, load_ok d o m -> gam true vC s ->
  exists s', exec (op_cmd d o) s = Ok (true, s') /\ gam true (v0 m) s'.
Proof.
  intros d o m s [D H] G.
  assert (X : exists ok s', exec (op_cmd d o) s = Ok (ok, s') /\ gam true (if ok then v0 m else abot) s').
  { destruct o as [a|a|f|r| |ok]; cbn [op_cmd] in *; try contradiction.
    - destruct H as (-> & Hg & Hb & HA).
      assert (HA' : orb (la_A a) (negb (d_cons d)) = true) by (destruct HA as [-> | ->]; [reflexivity|apply orb_true_r]).
      unfold c_load_dense, c_setQ, c_setG, c_setConstraints, c_setComplementarityBounds, c_setInitialGuess, guard, when.
      rewrite D, Hg, Hb, HA'. cbn [negb].
      eapply (ck_ceq true _ _ vC (v0 false) abot); [resid | vm_compute; reflexivity | exact G].
    - destruct H as (-> & Hg & Hb & HC).
      unfold c_load_sparse, c_setConstraints_sparse, c_setG, c_setComplementarityBounds, c_setInitialGuess, guard, when.
      rewrite D, Hg, Hb, HC. cbn [negb].
      eapply (ck_ceq true _ _ vC (v0 true) abot); [resid | vm_compute; reflexivity | exact G].
    - destruct H as (-> & Hb & HA & HF).
      assert (HA' : orb (la_A (fa_args f)) (negb (d_cons d)) = true) by (destruct HA as [-> | ->]; [reflexivity|apply orb_true_r]).
      unfold c_load_files, files, seqs. cbn [map fold_right fst snd]. unfold c_read, c_setQ, c_setG, c_setConstraints, c_setComplementarityBounds, c_setInitialGuess, guard, when. cbv zeta.
      rewrite D, Hb, HA', !HF. cbn [negb].
      eapply (ck_ceq true _ _ vC (v0 false) abot); [resid | vm_compute; reflexivity | exact G]. }
  destruct X as (ok & s' & E & GG). destruct ok; [exists s'; auto|]. unfold gam in GG. destruct (sp s'); contradiction.
Qed.

(** Valid indices: all conversions to dense succeed *)
Lemma toDense_ok : forall ok x y s, (forall f, ok f = true) ->
  ck true (IfSp (seqs (map (fun p => Seq (Use (Prob, snd p)) (New (Prob, fst p))) mode_flds) ;;
           each Del Prob [fC_sparse; fA_sparse; fQ_sparse; fL_sparse; fR_sparse] ;; SetSp false)%cmd Skip) x y abot = true ->
  gam true x s -> exists s', exec (c_switchToDense ok) s = Ok (true, s') /\ gam true y s'.
Proof.
  intros ok x y s OK CK G. destruct (ck_sound _ _ _ _ _ _ CK G) as (b & s' & E & GG).
  destruct b; [|unfold gam in GG; destruct (sp s'); contradiction]. exists s'. split; [|exact GG]. rewrite <- E. clear CK GG.
  assert (J : inj s).
  { unfold gam in G. destruct (sp s); [destruct (snd x) as [m|] | destruct (fst x) as [m|]]; cbn in G; try contradiction;
      destruct G as (A & B & _); split; [intros k a Z; apply (A _ _ Z) | exact B | intros k a Z; apply (A _ _ Z) | exact B]. }
  unfold c_switchToDense. cbn [exec] in *. destruct (sp s); [|reflexivity].
  assert (Q : exec (seqs (map (c_toDense ok) mode_flds)) s =
              exec (seqs (map (fun p => Seq (Use (Prob, snd p)) (New (Prob, fst p))) mode_flds)) s).
  { unfold seqs, c_toDense, mode_flds. cbn [map fold_right fst snd]. rewrite !OK. revert s E G J.
    assert (CE : forall c c', ceq c c' -> forall s, exec c s = exec c' s) by (intros; auto).
    intros s _ _ _. apply CE. resid. }
  rewrite Q. destruct (exec (seqs (map (fun p => Seq (Use (Prob, snd p)) (New (Prob, fst p))) mode_flds)) s) as [[b1 s1]|] eqn:EX;
    [cbn [bind]|reflexivity].
  destruct b1; [|reflexivity].
  assert (AL : forall f, must (Prob, f) (seqs (map (fun p => Seq (Use (Prob, snd p)) (New (Prob, fst p))) mode_flds)) = true ->
                     nodrop (Prob, f) (seqs (map (fun p => Seq (Use (Prob, snd p)) (New (Prob, fst p))) mode_flds)) = true ->
                     exists a, mem s1 (Prob, f) = Some a).
  { intros f M N. destruct (must_alive _ _ _ _ N M J EX) as [a [Z _]]. exists a. exact Z. }
  assert (CHK : exec (seqs (map (fun p => IfNull (Prob, fst p) Fail Skip) mode_flds)) s1 = Ok (true, s1)).
  { unfold seqs, mode_flds. cbn [map fold_right fst snd exec].
    destruct (AL fQ) as [? ->]; [reflexivity..|]. cbn [bind]. destruct (AL fA) as [? ->]; [reflexivity..|]. cbn [bind].
    destruct (AL fL) as [? ->]; [reflexivity..|]. cbn [bind]. destruct (AL fR) as [? ->]; [reflexivity..|]. cbn [bind].
    destruct (AL fC) as [? ->]; [reflexivity..|]. reflexivity. }
  rewrite CHK. cbn [bind]. reflexivity.
Qed.

Lemma idle_step : forall d o l m m' (v : bool -> aval) s, (v = v0 \/ v = v1) -> idle m (o :: l) m' -> gam true (v m) s ->
  exists ok s' m1, exec (op_cmd d o) s = Ok (ok, s') /\ gam true (v m1) s' /\ idle m1 l m'.
Proof.
  intros d o l m m' v s V I G. inversion I; subst; cbn [op_cmd].
  - destruct (ck_sound true c_switchToSparse (v m) (v true) abot s) as (ok & s' & E & GG); [|exact G|].
    { destruct V as [-> | ->]; destruct m; vm_compute; reflexivity. }
    destruct ok; [|unfold gam in GG; destruct (sp s'); contradiction]. exists true, s', true. auto.
  - destruct (toDense_ok ok (v m) (v false) s) as (s' & E & GG); [assumption| |exact G|].
    { destruct V as [-> | ->]; destruct m; vm_compute; reflexivity. }
    exists true, s', false. auto.
  - destruct (ck_sound true (c_run d r) (v m) (v m) (v m) s) as (ok & s' & E & GG); [|exact G|].
    { match goal with H : refused _ _ |- _ => unfold refused in H end. destruct r as [sv st su x y fi n co fa]. cbn [rp_solver] in *.
      destruct sv; subst; destruct su; destruct V as [-> | ->]; try destruct m; vm_compute; reflexivity. }
    exists ok, s', m. split; [exact E|]. split; [destruct ok; exact GG|assumption].
Qed.
Lemma idle_calls : forall d l m m' (v : bool -> aval) s, (v = v0 \/ v = v1) -> idle m l m' -> gam true (v m) s ->
  exists oks s', calls d l s = Ok (oks, s') /\ gam true (v m') s'.
Proof.
  intros d l. induction l; intros m m' v s V I G.
  - inversion I; subst. exists [], s. auto.
  - destruct (idle_step d _ _ _ _ _ _ V I G) as (ok & s1 & m1 & E & G1 & I1). destruct (IHl _ _ _ _ V I1 G1) as (oks & s2 & E2 & G2).
    exists (ok :: oks), s2. split; [|exact G2]. cbn [calls]. rewrite E. cbn [bind]. rewrite E2. reflexivity.
Qed.
Lemma run_good : forall d r m s, rp_solver r <> QpSparse -> gam true (v0 m) s ->
  exists ok s', exec (c_run d r) s = Ok (ok, s') /\ gam true (v1 m) s'.
Proof.
  intros d r m s N G. destruct (ck_sound true (c_run d r) (v0 m) (v1 m) (v1 m) s) as (ok & s' & E & GG); [|exact G|].
  { destruct r as [sv st su x y fi n co fa]. cbn [rp_solver] in *. destruct sv; try contradiction;
      destruct su; destruct m; vm_compute; reflexivity. }
  exists ok, s'. split; [exact E|]. destruct ok; exact GG.
Qed.
Lemma calls_app : forall d l1 l2 s oks1 s1, calls d l1 s = Ok (oks1, s1) ->
  calls d (l1 ++ l2) s = (let! '(oks2, s2) := calls d l2 s1 in Ok (oks1 ++ oks2, s2)).
Proof.
  intros d l1. induction l1; intros l2 s oks1 s1 E; cbn [calls app] in *.
  - inversion E; subst. destruct (calls d l2 s1) as [[? ?]|]; reflexivity.
  - destruct (exec (op_cmd d a) s) as [[ok s0]|]; [cbn [bind] in *|discriminate].
    destruct (calls d l1 s0) as [[oks s2]|] eqn:E1; [cbn [bind] in *|discriminate]. inversion E; subst.
    rewrite (IHl1 _ _ _ _ E1). destruct (calls d l2 s1) as [[? ?]|]; reflexivity.
Qed.

(** Nothing is held. No LCQPow code. *)
Definition vend : aval := (Some ([], []), Some ([], [])).
Lemma end_freed : forall s, gam true vend s -> forall a, live s a = false.
Proof.
  intros s G a. unfold gam in G. assert (S : shape true ([], []) s) by (destruct (sp s); exact G). destruct S as (A & _ & C).
  destruct (live s a) eqn:L; [|reflexivity]. destruct (C eq_refl a L) as [k E]. destruct (A _ _ E) as (_ & [[_ []]|[_ []]]).
Qed.
Lemma dtor_good : forall v s, (v = vC \/ v = vF \/ (exists m, v = v0 m) \/ (exists m, v = v1 m)) -> gam true v s ->
  exists ok s', exec c_dtor s = Ok (ok, s') /\ forall a, live s' a = false.
Proof.
  intros v s V G. destruct (ck_sound true c_dtor v vend vend s) as (ok & s' & E & GG); [|exact G|].
  { destruct V as [-> | [-> | [[m ->] | [m ->]]]]; try destruct m; vm_compute; reflexivity. }
  exists ok, s'. split; [exact E|]. apply end_freed. destruct ok; exact GG.
Qed.

Lemma p_single : forall d l, single_use d l -> all_freed (lifetime d l).
Proof.
  intros d l S. unfold lifetime. destruct (ctor_ok d) as (ok & s & E & G). rewrite E. cbn [bind]. clear E.
  inversion S; subst.
  - cbn [calls bind]. destruct (dtor_good vC s (or_introl eq_refl) G) as (b & s' & E & F). rewrite E. cbn [bind].
    exists [], s'. split; [reflexivity|exact F].
  - cbn [calls op_cmd]. destruct (load_dense_any d a s G) as (b & s1 & E & G1). rewrite E. cbn [bind].
    destruct (dtor_good vF s1 (or_intror (or_introl eq_refl)) G1) as (b' & s' & E' & F). rewrite E'. cbn [bind].
    exists [b], s'. split; [reflexivity|exact F].
  - destruct (load_good d o m s H G) as (s1 & E & G1). destruct (idle_calls d l0 m m' v0 s1 (or_introl eq_refl) H0 G1) as (oks & s2 & E2 & G2).
    cbn [calls]. rewrite E. cbn [bind]. rewrite E2. cbn [bind].
    destruct (dtor_good (v0 m') s2) as (b' & s' & E' & F); [eauto|exact G2|]. rewrite E'. cbn [bind].
    eexists _, s'. split; [reflexivity|exact F].
  - destruct (load_good d o m s H G) as (s1 & E & G1). destruct (idle_calls d l1 m m1 v0 s1 (or_introl eq_refl) H0 G1) as (oks & s2 & E2 & G2).
    destruct (run_good d r m1 s2 H1 G2) as (b3 & s3 & E3 & G3).
    destruct (idle_calls d l2 m1 m2 v1 s3 (or_intror eq_refl) H2 G3) as (oks4 & s4 & E4 & G4).
    cbn [calls]. rewrite E. cbn [bind]. rewrite (calls_app _ _ _ _ _ _ E2). cbn [calls op_cmd]. rewrite E3. cbn [bind]. rewrite E4. cbn [bind].
    destruct (dtor_good (v1 m2) s4) as (b' & s' & E' & F); [eauto|exact G4|]. rewrite E'. cbn [bind].
    eexists _, s'. split; [reflexivity|exact F].
Qed.

(** ** All histories *)
Definition wA : aval :=
  let m := pks (clear_flds) ++ sks (filter (fun f => if fld_eq_dec f owork then false else true) sub_flds) in (Some (m, []), Some (m, [])).
(** Anything may be held. No LCQPow code. *)
Definition wB : aval := let m := pks clear_flds ++ sks sub_flds in (Some (m, []), Some (m, [])).

Lemma op_safe_B : forall d o s, ~ osqp_rejects o -> gam false wB s -> exists ok s', exec (op_cmd d o) s = Ok (ok, s') /\ gam false wB s'.
Proof.
  intros d o s N G. destruct (ck_sound false (op_cmd d o) wB wB wB s) as (ok & s' & E & GG); [|exact G|].
  { destruct o as [a|a|f|r| |ok]; cbn [op_cmd]; [vm_compute; reflexivity..| |vm_compute; reflexivity|vm_compute; reflexivity].
    destruct r as [sv st su x y fi n co fa]. destruct sv, su; try (vm_compute; reflexivity).
    exfalso. apply N. eexists. split; [reflexivity|]. split; reflexivity. }
  exists ok, s'. split; [exact E|]. destruct ok; exact GG.
Qed.
Lemma op_safe_A : forall d o s, ~ osqp_accepts o -> gam false wA s -> exists ok s', exec (op_cmd d o) s = Ok (ok, s') /\ gam false wA s'.
Proof.
  intros d o s N G. destruct (ck_sound false (op_cmd d o) wA wA wA s) as (ok & s' & E & GG); [|exact G|].
  { destruct o as [a|a|f|r| |ok]; cbn [op_cmd]; [vm_compute; reflexivity..| |vm_compute; reflexivity|vm_compute; reflexivity].
    destruct r as [sv st su x y fi n co fa]. destruct sv, su; try (vm_compute; reflexivity).
    exfalso. apply N. eexists. split; [reflexivity|]. split; reflexivity. }
  exists ok, s'. split; [exact E|]. destruct ok; exact GG.
Qed.
Lemma A_le_B : forall s, gam false wA s -> gam false wB s.
Proof. intros s G. apply (gam_ale false wA wB); [vm_compute; reflexivity|exact G]. Qed.

Lemma calls_safe_B : forall d l s, (forall o, In o l -> ~ osqp_rejects o) -> gam false wB s ->
  exists oks s', calls d l s = Ok (oks, s') /\ gam false wB s'.
Proof.
  intros d l. induction l; intros s N G.
  - exists [], s. auto.
  - destruct (op_safe_B d a s) as (ok & s1 & E & G1); [apply N; left; reflexivity|exact G|].
    destruct (IHl s1) as (oks & s2 & E2 & G2); [intros; apply N; right; assumption|exact G1|].
    exists (ok :: oks), s2. split; [|exact G2]. cbn [calls]. rewrite E. cbn [bind]. rewrite E2. reflexivity.
Qed.
Lemma accepts_dec : forall o, osqp_accepts o \/ ~ osqp_accepts o.
Proof.
  intros o. destruct o as [a|a|f|r| |ok]; try (right; intros (r0 & X & _); discriminate).
  destruct (rp_solver r) eqn:SV; try (right; intros (r0 & X & Y & _); inversion X; subst; congruence).
  destruct (rp_setup r) eqn:ST; [left; exists r; auto | right; intros (r0 & X & Y & Z); inversion X; subst; congruence].
Qed.
Lemma calls_safe : forall d l s, no_late_reject l -> gam false wA s -> exists oks s', calls d l s = Ok (oks, s') /\ gam false wB s'.
Proof.
  intros d l. induction l; intros s N G.
  - exists [], s. split; [reflexivity|apply A_le_B; exact G].
  - destruct (accepts_dec a) as [AC|NA].
    + assert (NR : forall o, In o l -> ~ osqp_rejects o).
      { intros o I. apply in_split in I. destruct I as (l2 & l3 & ->). apply (N [] a l2 o l3); [reflexivity|exact AC]. }
      assert (N0 : ~ osqp_rejects a).
      { destruct AC as (r & -> & SV & ST). intros (r0 & X & Y & Z). inversion X; subst. congruence. }
      destruct (op_safe_B d a s N0 (A_le_B _ G)) as (ok & s1 & E & G1). destruct (calls_safe_B d l s1 NR G1) as (oks & s2 & E2 & G2).
      exists (ok :: oks), s2. split; [|exact G2]. cbn [calls]. rewrite E. cbn [bind]. rewrite E2. reflexivity.
    + destruct (op_safe_A d a s NA G) as (ok & s1 & E & G1).
      destruct (IHl s1) as (oks & s2 & E2 & G2); [|exact G1|].
      { intros l1 o1 l2 o2 l3 EQ. apply (N (a :: l1) o1 l2 o2 l3). rewrite EQ. reflexivity. }
      exists (ok :: oks), s2. split; [|exact G2]. cbn [calls]. rewrite E. cbn [bind]. rewrite E2. reflexivity.
Qed.
Lemma p_safe : forall d l, no_late_reject l -> memory_safe (lifetime d l).
Proof.
  intros d l N. unfold lifetime.
  destruct (ck_sound false (c_ctor d) (Some ([], []), None) wA wA mst0) as (ok & s & E & G); [vm_compute; reflexivity|apply gam0|].
  assert (G' : gam false wA s) by (destruct ok; exact G). rewrite E. cbn [bind].
  destruct (calls_safe d l s N G') as (oks & s1 & E1 & G1). rewrite E1. cbn [bind].
  destruct (ck_sound false c_dtor wB (Some ([], []), Some ([], [])) (Some ([], []), Some ([], [])) s1) as (b & s2 & E2 & G2);
    [vm_compute; reflexivity|exact G1|].
  rewrite E2. cbn [bind]. exists oks, s2. reflexivity.
Qed.

(** ** Leaks *)
Lemma inj0 : inj mst0.
Proof. split; cbn; discriminate. Qed.
Lemma calls_inj : forall d l s oks s', inj s -> calls d l s = Ok (oks, s') -> inj s'.
Proof.
  intros d l. induction l; intros s oks s' J E; cbn [calls] in E.
  - inversion E; subst; exact J.
  - split_bind E. destruct (calls d l s1) as [[o2 s2]|] eqn:E2; [cbn [bind] in E|discriminate]. inversion E; subst.
    eapply IHl; [|exact E2]. eapply exec_inj; eassumption.
Qed.
Lemma calls_lost : forall d l s oks s' a, lost a s -> calls d l s = Ok (oks, s') -> lost a s'.
Proof.
  intros d l. induction l; intros s oks s' b J E; cbn [calls] in E.
  - inversion E; subst; exact J.
  - split_bind E. destruct (calls d l s1) as [[o2 s2]|] eqn:E2; [cbn [bind] in E|discriminate]. inversion E; subst.
    eapply IHl; [|exact E2]. eapply lost_forever; eassumption.
Qed.
Lemma calls_nth : forall d l i o s oks s', nth_error l i = Some o -> calls d l s = Ok (oks, s') ->
  exists oks1 s1 b s2 oks2, calls d (firstn i l) s = Ok (oks1, s1) /\ exec (op_cmd d o) s1 = Ok (b, s2) /\
    calls d (skipn (S i) l) s2 = Ok (oks2, s') /\ nth_error oks i = Some b /\ forall j, nth_error oks (S i + j) = nth_error oks2 j.
Proof.
  intros d l. induction l; intros i o s oks s' N E; [destruct i; discriminate|]. cbn [calls] in E. split_bind E.
  destruct (calls d l s1) as [[o2 s2]|] eqn:E2; [cbn [bind] in E|discriminate]. inversion E; subst. destruct i.
  - inversion N; subst. exists [], s, ok, s1, o2. cbn. repeat split; assumption.
  - cbn in N. destruct (IHl _ _ _ _ _ N E2) as (oks1 & s1' & b & s2' & oks2 & F1 & F2 & F3 & F4 & F5).
    exists (ok :: oks1), s1', b, s2', oks2. cbn [firstn calls]. rewrite EX. cbn [bind]. rewrite F1. cbn [bind].
    repeat split; assumption.
Qed.
Lemma nth_skip : forall (l : list mop) i j, i < j -> nth_error l j = nth_error (skipn (S i) l) (j - S i).
Proof.
  intros l i. revert l. induction i; intros l j H.
  - destruct j; [lia|]. destruct l; cbn; [destruct j; reflexivity|]. rewrite Nat.sub_0_r. reflexivity.
  - destruct j; [lia|]. destruct l; [cbn; destruct (j - S i); reflexivity|]. cbn. apply IHi. lia.
Qed.
Lemma lifetime_inv : forall d l oks s, lifetime d l = Ok (oks, s) ->
  exists s1 s2 b, inj s1 /\ calls d l s1 = Ok (oks, s2) /\ exec c_dtor s2 = Ok (b, s).
Proof.
  unfold lifetime. intros d l oks s E. split_bind E. destruct (calls d l s1) as [[o2 s2]|] eqn:E2; [cbn [bind] in E|discriminate].
  destruct (exec c_dtor s2) as [[b s3]|] eqn:E3; [cbn [bind] in E|discriminate]. inversion E; subst.
  exists s1, s2, b. split; [eapply exec_inj; [apply inj0|exact EX]|]. auto.
Qed.

(** A call that loses a block in any state leaks *)
Lemma one_leak : forall d l i o oks s b,
  lifetime d l = Ok (oks, s) -> nth_error l i = Some o -> nth_error oks i = Some b ->
  (forall s1 s2, inj s1 -> exec (op_cmd d o) s1 = Ok (b, s2) -> exists a, lost a s2) ->
  exists a, live s a = true.
Proof.
  intros d l i o oks s b E N NB H. destruct (lifetime_inv _ _ _ _ E) as (s1 & s2 & b' & J & EC & ED).
  destruct (calls_nth _ _ _ _ _ _ _ N EC) as (oks1 & t1 & bb & t2 & oks2 & F1 & F2 & F3 & F4 & F5).
  assert (bb = b) by congruence. subst bb.
  destruct (H t1 t2) as [a LA]; [eapply calls_inj; eassumption|exact F2|].
  exists a. apply (lost_forever c_dtor s2 a b' s); [eapply calls_lost; eassumption|exact ED].
Qed.
Lemma calls_hol : forall d k l s oks s' a, (forall o, nodel k (op_cmd d o) = true) -> inj s -> hol k a s -> calls d l s = Ok (oks, s') ->
  hol k a s'.
Proof.
  intros d k l. induction l; intros s oks s' b N J H E; cbn [calls] in E.
  - inversion E; subst; exact H.
  - split_bind E. destruct (calls d l s1) as [[o2 s2]|] eqn:E2; [cbn [bind] in E|discriminate]. inversion E; subst.
    eapply IHl; [exact N| | |exact E2]; [eapply exec_inj; eassumption|eapply hol_exec; [apply N|..]; eassumption].
Qed.
(** Two calls that both assign a pointer that is never freed before destruction leak *)
Lemma two_leak : forall d k l i j o1 o2 oks s, (forall o, nodel k (op_cmd d o) = true) ->
  lifetime d l = Ok (oks, s) -> i < j -> succeeded l oks i o1 -> succeeded l oks j o2 ->
  nodrop k (op_cmd d o1) = true -> must k (op_cmd d o1) = true -> must k (op_cmd d o2) = true ->
  exists a, live s a = true.
Proof.
  intros d k l i j o1 o2 oks s ND E LT [N1 B1] [N2 B2] NP M1 M2. destruct (lifetime_inv _ _ _ _ E) as (s1 & s2 & b' & J & EC & ED).
  destruct (calls_nth _ _ _ _ _ _ _ N1 EC) as (oks1 & t1 & bb & t2 & oks2 & F1 & F2 & F3 & F4 & F5).
  assert (bb = true) by congruence. subst bb. assert (J1 : inj t1) by (eapply calls_inj; eassumption).
  destruct (must_alive k _ _ _ NP M1 J1 F2) as [a HA]. assert (J2 : inj t2) by (eapply exec_inj; eassumption).
  rewrite (nth_skip _ _ _ LT) in N2. destruct (calls_nth _ _ _ _ _ _ _ N2 F3) as (oks3 & t3 & bb & t4 & oks4 & K1 & K2 & K3 & K4 & K5).
  assert (bb = true) by (rewrite <- F5 in K4; replace (S i + (j - S i)) with j in K4 by lia; congruence). subst bb.
  assert (LA : lost a t4).
  { eapply (must_loses k a (op_cmd d o2)); [apply ND|exact M2|eapply calls_inj; eassumption| |exact K2].
    eapply calls_hol; [exact ND|exact J2|left; exact HA|exact K1]. }
  exists a. apply (lost_forever c_dtor s2 a b' s); [eapply calls_lost; eassumption|exact ED].
Qed.
Lemma g_nodrop : forall d o, nodrop (Prob, fg) (op_cmd d o) = true.
Proof.
  intros. destruct o as [a|a|f|r| |ok]; cbn [op_cmd]; [vm_compute; reflexivity..| |vm_compute; reflexivity|vm_compute; reflexivity].
  destruct r as [sv st su x y fi n co fa]. destruct sv, su; vm_compute; reflexivity.
Qed.
Lemma gt_nodrop : forall d o, nodrop (Prob, fg_tilde) (op_cmd d o) = true.
Proof.
  intros. destruct o as [a|a|f|r| |ok]; cbn [op_cmd]; [vm_compute; reflexivity..| |vm_compute; reflexivity|vm_compute; reflexivity].
  destruct r as [sv st su x y fi n co fa]. destruct sv, su; vm_compute; reflexivity.
Qed.
Lemma nodrop_nodel : forall k c, nodrop k c = true -> nodel k c = true.
Proof.
  intros k. induction c; cbn; intros E; auto; apply andb_true_iff in E; destruct E; apply andb_true_iff; auto.
Qed.
Lemma p_reload : forall d l i j o1 o2 oks s, lifetime d l = Ok (oks, s) -> i < j ->
  succeeded l oks i o1 -> succeeded l oks j o2 -> is_load o1 -> is_load o2 -> exists a, live s a = true.
Proof.
  intros d l i j o1 o2 oks s E LT S1 S2 L1 L2.
  eapply (two_leak d (Prob, fg)); try eassumption; [intros; apply nodrop_nodel, g_nodrop|apply g_nodrop| |].
  - destruct o1; try contradiction; vm_compute; reflexivity.
  - destruct o2; try contradiction; vm_compute; reflexivity.
Qed.
Lemma gt_must : forall d r, must (Prob, fg_tilde) (c_run d r) = true.
Proof.
  intros. destruct r as [sv st su x y fi n co fa]. destruct sv, su; vm_compute; reflexivity.
Qed.
Lemma p_rerun : forall d l i j r1 r2 oks s, lifetime d l = Ok (oks, s) -> i < j ->
  succeeded l oks i (MRun r1) -> succeeded l oks j (MRun r2) -> exists a, live s a = true.
Proof.
  intros d l i j r1 r2 oks s E LT S1 S2.
  eapply (two_leak d (Prob, fg_tilde)); try eassumption; [intros; apply nodrop_nodel, gt_nodrop|apply gt_nodrop|apply gt_must|apply gt_must].
Qed.

(** Sparse qpOASES *)
Lemma sub_sparse_lost : forall s s', inj s -> exec (sub_qpoases true) s = Ok (true, s') -> exists a, lost a s'.
Proof.
  intros s s' J E. unfold sub_qpoases in E. destruct (exec_seq _ _ _ _ _ E) as [(_ & s1 & E1 & E2)|(X & _)]; [|discriminate].
  destruct (must_alive (Tmp2, qA_i) (q_ctor true Tmp2) s s1) as [a HA]; [reflexivity|reflexivity|exact J|exact E1|].
  exists a. eapply (must_loses (Tmp2, qA_i) a); [| | |left; exact HA|exact E2]; [vm_compute; reflexivity|vm_compute; reflexivity|].
  eapply exec_inj; eassumption.
Qed.
Lemma p_sparse : forall d l i r oks s, lifetime d l = Ok (oks, s) -> succeeded l oks i (MRun r) -> rp_solver r = QpSparse ->
  exists a, live s a = true.
Proof.
  intros d l i r oks s E [N B] SV. eapply one_leak; try eassumption. cbn [op_cmd]. intros s1 s2 J EX.
  unfold c_run in EX. destruct (exec_seq _ _ _ _ _ EX) as [(_ & t1 & E1 & E2)|(X & _)]; [|discriminate].
  unfold c_initializeSolver in E1. rewrite SV in E1. cbn [by_solver] in E1.
  destruct (exec_seq _ _ _ _ _ E1) as [(_ & t2 & E3 & E4)|(X & _)]; [|discriminate].
  destruct (exec_seq _ _ _ _ _ E3) as [(_ & t3 & E5 & E6)|(X & _)]; [|discriminate].
  destruct (exec_seq _ _ _ _ _ E6) as [(_ & t4 & E7 & E8)|(X & _)]; [|discriminate].
  destruct (sub_sparse_lost t4 t2) as [a LA]; [|exact E8|].
  { eapply exec_inj; [eapply exec_inj; [exact J|exact E5]|exact E7]. }
  exists a. eapply lost_forever; [eapply lost_forever; [exact LA|exact E4]|exact E2].
Qed.

(** Files *)
Lemma reads_fail : forall f l s b s', (exists t, In (true, t) l /\ fa_ok f t = false) ->
  exec (seqs (map (fun p => c_read f (fst p) (snd p)) l)) s = Ok (b, s') -> b = false.
Proof.
  intros f l. induction l as [|[n t] l]; intros s b s' (t0 & I & F) E; [destruct I|].
  unfold seqs in E. cbn [map fold_right] in E. fold (seqs (map (fun p => c_read f (fst p) (snd p)) l)) in E.
  destruct (exec_seq _ _ _ _ _ E) as [(-> & s1 & E1 & E2)|(X & _)]; [|exact X].
  destruct I as [I|I]; [|eapply IHl; [exists t0; eauto|exact E2]].
  inversion I; subst. unfold c_read, when in E1. cbn [fst snd exec] in E1. rewrite F in E1. cbn [bind] in E1.
  unfold set_mem in E1. cbn [exec mem blk sp] in E1. rewrite key_eqb_refl in E1.
  destruct (free_blk _ _); cbn [bind] in E1; discriminate.
Qed.
Lemma p_files : forall d l i f oks s t, lifetime d l = Ok (oks, s) -> nth_error l i = Some (MLoadFiles f) ->
  fa_ok f tQ = true -> In (true, t) (files f) -> fa_ok f t = false -> exists a, live s a = true.
Proof.
  intros d l i f oks s t E N OQ I F. destruct (lifetime_inv _ _ _ _ E) as (s1 & s2 & b' & J & EC & ED).
  destruct (calls_nth _ _ _ _ _ _ _ N EC) as (oks1 & t1 & bb & t2 & oks2 & F1 & F2 & F3 & F4 & F5).
  assert (J1 : inj t1) by (eapply calls_inj; eassumption).
  assert (X : exists a, lost a t2).
  { cbn [op_cmd] in F2. unfold c_load_files in F2. cbn zeta in F2.
    set (rd := seqs (map (fun p => c_read f (fst p) (snd p)) (files f))) in *.
    cbn [exec] in F2. destruct (exec rd t1) as [[b3 t3]|] eqn:E3; [|discriminate].
    assert (b3 = false) by (eapply (reads_fail f (files f)); [exists t; auto|exact E3]). subst b3. cbn [bind] in F2.
    destruct (exec (each Drop Loc file_flds) t3) as [[b4 t4]|] eqn:E4; [|discriminate]. cbn [bind] in F2. inversion F2; subst.
    assert (b4 = true) by (eapply (nofail_true (each Drop Loc file_flds)); [reflexivity|exact E4]). subst b4.
    assert (J3 : inj t3) by (eapply exec_inj; eassumption).
    assert (HH : exists a, hol (Loc, tQ) a t3).
    { unfold rd, files, seqs in E3. cbn zeta in E3. cbn [map fold_right] in E3.
      destruct (exec_seq _ _ _ _ _ E3) as [(X & _)|(_ & [E5|(t5 & E5 & E6)])]; [discriminate| |].
      - exfalso. unfold c_read, when in E5. cbn [fst snd exec] in E5. rewrite OQ in E5. discriminate.
      - unfold c_read at 1 in E5. cbn [fst snd] in E5. unfold when in E5. cbn [exec] in E5. rewrite OQ in E5. cbn [bind] in E5.
        destruct (must_alive (Loc, tQ) (New (Loc, tQ)) t1 t5) as [a HA]; [reflexivity|reflexivity|exact J1|exact E5|].
        exists a. eapply hol_exec; [| |left; exact HA|exact E6]; [vm_compute; reflexivity|].
        eapply (exec_inj (New (Loc, tQ))); [exact J1|exact E5]. }
    destruct HH as [a HA]. exists a. eapply (must_loses (Loc, tQ) a (each Drop Loc file_flds)); [| |exact J3|exact HA|exact E4];
      vm_compute; reflexivity. }
  destruct X as [a LA]. exists a. apply (lost_forever c_dtor s2 a b' s); [eapply calls_lost; eassumption|exact ED].
Qed.

(** An empty complementarity product in sparse data *)
Lemma emptyC : forall a s b s', la_C a = false -> inj s -> exec (c_setConstraints_sparse a) s = Ok (b, s') -> b = false /\ exists x, lost x s'.
Proof.
  intros a s b s' HC J E. unfold c_setConstraints_sparse in E. rewrite HC in E.
  assert (NW : forall k c t b t', exec (Seq (New k) c) t = Ok (b, t') -> exists t1, exec (New k) t = Ok (true, t1) /\ exec c t1 = Ok (b, t')).
  { intros k c t b0 t' X. cbn [exec bind] in X. eexists. split; [reflexivity|exact X]. }
  apply NW in E. destruct E as (s1 & E1 & E). apply NW in E. destruct E as (s2 & E2 & E). apply NW in E. destruct E as (s3 & E3 & E).
  apply NW in E. destruct E as (s4 & E4 & E). apply NW in E. destruct E as (s5 & E5 & E).
  assert (J5 : inj s5) by (eapply (exec_inj (New (Prob, fubA))); [|exact E5]; eapply (exec_inj (New (Prob, flbA))); [|exact E4];
    eapply (exec_inj (New (Prob, fA_sparse))); [|exact E3]; eapply (exec_inj (New (Prob, fR_sparse))); [|exact E2];
    eapply (exec_inj (New (Prob, fL_sparse))); [exact J|exact E1]).
  clear E1 E2 E3 E4 E5 J s s1 s2 s3 s4.
  change (exec (Seq (New (Loc, tC_p)) (Seq (Drop (Loc, tC_p)) (Seq (Drop (Prob, fC_sparse)) Fail))) s5 = Ok (b, s')) in E.
  apply NW in E. destruct E as (s6 & E6 & E).
  destruct (must_alive (Loc, tC_p) (New (Loc, tC_p)) s5 s6) as [x HX]; [reflexivity|reflexivity|exact J5|exact E6|].
  assert (J6 : inj s6) by (eapply (exec_inj (New (Loc, tC_p))); [exact J5|exact E6]).
  split; [cbn [exec bind] in E; inversion E; reflexivity|]. exists x.
  destruct (exec_seq _ _ _ _ _ E) as [(-> & s7 & E7 & E8)|(-> & [E7|(s7 & E7 & E8)])].
  - eapply lost_forever; [|exact E8]. eapply (must_loses (Loc, tC_p) x (Drop (Loc, tC_p)) s6); [reflexivity|reflexivity|exact J6|left; exact HX|exact E7].
  - cbn in E7. discriminate.
  - eapply lost_forever; [|exact E8]. eapply (must_loses (Loc, tC_p) x (Drop (Loc, tC_p)) s6); [reflexivity|reflexivity|exact J6|left; exact HX|exact E7].
Qed.
Lemma p_empty : forall d l i a oks s, lifetime d l = Ok (oks, s) -> nth_error l i = Some (MLoadSparse a) ->
  d_ok d = true -> la_g a = true -> la_C a = false -> exists x, live s x = true.
Proof.
  intros d l i a oks s E N D HG HC.
  destruct (lifetime_inv _ _ _ _ E) as (s1 & s2 & b' & J & EC & ED).
  destruct (calls_nth _ _ _ _ _ _ _ N EC) as (oks1 & t1 & bb & t2 & oks2 & F1 & F2 & F3 & F4 & F5).
  assert (J1 : inj t1) by (eapply calls_inj; eassumption).
  assert (X : exists x, lost x t2).
  { cbn [op_cmd] in F2. unfold c_load_sparse, c_setG, guard in F2. rewrite D, HG in F2.
    set (c := c_setConstraints_sparse a) in *. cbn [exec bind] in F2.
    match type of F2 with context [exec c ?t] => set (t3 := t) in *; assert (J3 : inj t3) end.
    { subst t3. apply (exec_inj (Seq (New (Prob, fQ_sparse)) (New (Prob, fg))) t1 true); [exact J1|reflexivity]. }
    destruct (exec c t3) as [[b3 t4]|] eqn:E3; [cbn [bind] in F2|discriminate].
    destruct (emptyC a t3 b3 t4 HC J3 E3) as [-> LX]. inversion F2; subst. exact LX. }
  destruct X as [x LA]. exists x. apply (lost_forever c_dtor s2 x b' s); [eapply calls_lost; eassumption|exact ED].
Qed.

(** A failed switch to dense mode *)
Lemma toDense_step : forall ok p s b s', inj s -> exec (c_toDense ok p) s = Ok (b, s') -> b = true /\ (ok (fst p) = true \/ exists x, lost x s').
Proof.
  intros ok p s b s' J E. split; [eapply (nofail_true (c_toDense ok p)); [reflexivity|exact E]|].
  unfold c_toDense in E. destruct (ok (fst p)) eqn:O; [left; reflexivity|right].
  destruct (exec_seq _ _ _ _ _ E) as [(-> & s1 & E1 & E2)|(-> & [E1|(s1 & E1 & E2)])].
  - assert (J1 : inj s1) by (eapply exec_inj; eassumption). cbn [exec] in E2. fold (exec (Seq (New (Loc, tfull)) (Seq (Drop (Loc, tfull)) (Drop (Prob, fst p)))) s1) in E2.
    assert (E3 : exec (Seq (New (Loc, tfull)) (Seq (Drop (Loc, tfull)) (Drop (Prob, fst p)))) s1 = Ok (true, s')) by exact E2.
    destruct (exec_seq _ _ _ _ _ E3) as [(_ & s3 & E4 & E5)|(X & _)]; [|discriminate].
    destruct (must_alive (Loc, tfull) (New (Loc, tfull)) s1 s3) as [x HX]; [reflexivity|reflexivity|exact J1|exact E4|].
    exists x. eapply (must_loses (Loc, tfull) x); [| | |left; exact HX|exact E5]; [reflexivity|reflexivity|eapply exec_inj; eassumption].
  - exfalso. assert (X : false = true) by (eapply (nofail_true (Use (Prob, snd p))); [reflexivity|exact E1]). discriminate.
  - cbn in E2. discriminate.
Qed.
Lemma toDense_list : forall ok l s b s', inj s -> exec (seqs (map (c_toDense ok) l)) s = Ok (b, s') ->
  b = true /\ ((forall p, In p l -> ok (fst p) = true) \/ exists x, lost x s').
Proof.
  intros ok l. induction l as [|p l]; intros s b s' J E.
  - inversion E; subst. split; [reflexivity|]. left. intros p [].
  - unfold seqs in E. cbn [map fold_right] in E. fold (seqs (map (c_toDense ok) l)) in E.
    cbn [exec] in E. split_bind E. destruct (toDense_step _ _ _ _ _ J EX) as [-> H].
    assert (J1 : inj s1) by (eapply exec_inj; eassumption). destruct (IHl _ _ _ J1 E) as [-> K]. split; [reflexivity|].
    destruct H as [H|[x H]]; [|right; exists x; eapply lost_forever; eassumption].
    destruct K as [K|K]; [left|right; exact K]. intros q [<-|I]; [exact H|apply K; exact I].
Qed.
Lemma toDense_false : forall ok s s', inj s -> exec (c_switchToDense ok) s = Ok (false, s') -> exists x, lost x s'.
Proof.
  intros ok s s' J E. unfold c_switchToDense in E. cbn [exec] in E. destruct (sp s); [|discriminate].
  destruct (exec (seqs (map (c_toDense ok) mode_flds)) s) as [[b1 s1]|] eqn:EX; [cbn [bind] in E|discriminate].
  destruct (toDense_list _ _ _ _ _ J EX) as [-> [H|[x H]]].
  - exfalso.
    assert (Q : exec (seqs (map (fun p => Seq (Use (Prob, snd p)) (New (Prob, fst p))) mode_flds)) s = Ok (true, s1)).
    { rewrite <- EX. assert (CE : forall c c', ceq c c' -> forall s, exec c s = exec c' s) by (intros; auto). symmetry. apply CE.
      unfold seqs, c_toDense, mode_flds in *. cbn [map fold_right fst snd].
      assert (HQ := H (fQ, fQ_sparse)); assert (HA := H (fA, fA_sparse)); assert (HL := H (fL, fL_sparse));
      assert (HR := H (fR, fR_sparse)); assert (HCC := H (fC, fC_sparse)); cbn [fst] in HQ, HA, HL, HR, HCC.
      rewrite HQ, HA, HL, HR, HCC by (cbn; tauto). resid. }
    assert (AL : forall f, must (Prob, f) (seqs (map (fun p => Seq (Use (Prob, snd p)) (New (Prob, fst p))) mode_flds)) = true ->
                     nodrop (Prob, f) (seqs (map (fun p => Seq (Use (Prob, snd p)) (New (Prob, fst p))) mode_flds)) = true ->
                     exists a, mem s1 (Prob, f) = Some a).
    { intros f M N. destruct (must_alive _ _ _ _ N M J Q) as [a [Z _]]. exists a. exact Z. }
    assert (CHK : exec (seqs (map (fun p => IfNull (Prob, fst p) Fail Skip) mode_flds)) s1 = Ok (true, s1)).
    { unfold seqs, mode_flds. cbn [map fold_right fst snd exec].
      destruct (AL fQ) as [? ->]; [reflexivity..|]. cbn [bind]. destruct (AL fA) as [? ->]; [reflexivity..|]. cbn [bind].
      destruct (AL fL) as [? ->]; [reflexivity..|]. cbn [bind]. destruct (AL fR) as [? ->]; [reflexivity..|]. cbn [bind].
      destruct (AL fC) as [? ->]; [reflexivity..|]. reflexivity. }
    rewrite CHK in E. cbn [bind] in E.
    assert (X : false = true); [|discriminate].
    eapply (nofail_true (Seq (each Del Prob [fC_sparse; fA_sparse; fQ_sparse; fL_sparse; fR_sparse]) (SetSp false)) s1); [reflexivity|].
    cbn [exec]. exact E.
  - exists x. eapply (lost_forever (Seq (seqs (map (fun p => IfNull (Prob, fst p) Fail Skip) mode_flds))
      (Seq (each Del Prob [fC_sparse; fA_sparse; fQ_sparse; fL_sparse; fR_sparse]) (SetSp false))) s1); [exact H|]. cbn [exec]. exact E.
Qed.
Lemma p_toDense : forall d l i ok oks s, lifetime d l = Ok (oks, s) -> nth_error l i = Some (MToDense ok) -> nth_error oks i = Some false ->
  exists x, live s x = true.
Proof.
  intros d l i ok oks s E N NB. eapply one_leak; try eassumption. cbn [op_cmd]. intros s1 s2 J EX. eapply toDense_false; eassumption.
Qed.
