(** * OptionsFacts: proofs about option setters (no LCQPow code). *)
From Coq Require Import QArith Qcanon SpecFloat.
From Verif Require Import Base Arith Codes Options OptionsGet SpecOptions Exact.
Open Scope Z_scope.

Section G.
Context {T : Type} `{Arith T}.
Ltac setter_cases := match goal with |- context [if ?c then _ else _] => let E := fresh "C" in destruct c eqn:E end.
Lemma opt_effect (s : setter T) o :
  (fst (call s o) = SUCCESSFUL_RETURN /\ (forall f, read f (snd (call s o)) = if match target s, f with
      | FStat, FStat | FCompl, FCompl | FRho0, FRho0 | FBeta, FBeta | FZeroFirst, FZeroFirst | FPerturb, FPerturb | FMaxIter, FMaxIter | FMaxRho, FMaxRho
      | FNDyn, FNDyn | FEta, FEta | FPrint, FPrint | FStore, FStore | FSolver, FSolver => true | _, _ => false end then wanted s else read f o)) \/
  (fst (call s o) = error_of (target s) /\ error_of (target s) <> SUCCESSFUL_RETURN /\ snd (call s o) = o).
Proof.
  destruct s; cbn [call]; unfold setStationarityTolerance, setComplementarityTolerance, setInitialPenaltyParameter, setPenaltyUpdateFactor, setSolveZeroPenaltyFirst, setPerturbStep,
    setMaxIterations, setMaxPenaltyParameter, setNDynamicPenalty, setEtaDynamicPenalty, setPrintLevel, setPrintLevel_enum, setStoreSteps, setQPSolver, setQPSolver_enum;
    try setter_cases; try (right; split; [reflexivity|]; split; [discriminate|reflexivity]); left; (split; [reflexivity|]); intros f; destruct f; try reflexivity; cbn.
  - unfold pl_of_code. cbn in C. destruct (Z.eqb_spec v 0); [subst; reflexivity|]. destruct (Z.eqb_spec v 1); [subst; reflexivity|]. cbn. f_equal. lia.
  - unfold qs_of_code. cbn in C. destruct (Z.eqb_spec v 0); [subst; reflexivity|]. destruct (Z.eqb_spec v 1); [subst; reflexivity|]. cbn. f_equal. lia.
Qed.

Hypothesis tot : forall v w : T, is_number v -> is_number w -> a_le v w = negb (a_lt w v).
Hypothesis eps_num : is_number (@EPS T _).
Hypothesis zero_num : is_number (@ZERO T _).
Hypothesis n0_num : is_number (@a_zero T _).
Hypothesis n1_num : is_number (@a_one T _).
Lemma opt_accept (s : setter T) o : number_arg s -> (fst (call s o) = SUCCESSFUL_RETURN <-> allowed (target s) (wanted s)).
Proof.
  destruct s; cbn [call number_arg wanted]; intros N; unfold number_arg in N; cbn [wanted] in N;
  unfold setStationarityTolerance, setComplementarityTolerance, setInitialPenaltyParameter, setPenaltyUpdateFactor, setSolveZeroPenaltyFirst, setPerturbStep,
    setMaxIterations, setMaxPenaltyParameter, setNDynamicPenalty, setEtaDynamicPenalty, setPrintLevel, setPrintLevel_enum, setStoreSteps, setQPSolver, setQPSolver_enum;
  cbn [target allowed]; rewrite ?(tot v) by auto; rewrite ?(tot a_one v) by auto.
  1-4,8: destruct (a_lt _ _); cbn; split; intros; auto; discriminate.
  1,2: cbn; tauto.
  1: destruct (Z.leb_spec v 0); cbn; split; intros; auto; try discriminate; lia.
  1: cbn; tauto.
  1: destruct (a_lt EPS v), (a_lt v a_one); cbn; intuition discriminate.
  1: cbn; destruct (Z.ltb_spec v 0), (Z.ltb_spec 2 v); cbn; split; intros; auto; try discriminate; lia.
  1: destruct v; cbn; split; auto; lia.
  1: cbn; tauto.
  1: cbn; destruct (Z.ltb_spec v 0), (Z.ltb_spec 2 v); cbn; split; intros; auto; try discriminate; lia.
  destruct v; cbn; split; auto; lia.
Qed.
Lemma opt_domain1 (s : setter T) o : number_arg s -> in_domain o -> in_domain (snd (call s o)).
Proof.
  intros N D f. destruct (opt_effect s o) as [(E & R)|(_ & _ & ->)]; [|apply D]. rewrite R. apply opt_accept in E; [|exact N].
  destruct (target s), f; try apply D; exact E.
Qed.
Lemma opt_domain l : forall o : options T, Forall number_arg l -> in_domain o -> in_domain (after l o).
Proof. induction l as [|s l IH]; intros o F D; [exact D|]. cbn. apply IH; [exact (Forall_inv_tail F)|]. apply opt_domain1; auto. exact (Forall_inv F). Qed.
End G.

Lemma xq_tot (v w : xq) : is_number v -> is_number w -> a_le v w = negb (a_lt w v).
Proof.
  destruct v, w; cbn; try discriminate; auto. intros _ _. unfold Qc_leb, Qc_ltb.
  assert (Qccompare q0 q = CompOpp (Qccompare q q0)) as ->; [unfold Qccompare; symmetry; apply Qcompare_antisym|].
  destruct (Qccompare q q0); reflexivity.
Qed.
Lemma f64_tot (v w : f64) : is_number v -> is_number w -> a_le v w = negb (a_lt w v).
Proof.
  unfold is_number. cbn. unfold SFleb, SFltb, SFcompare.
  destruct v as [sv|sv| |sv mv ev], w as [sw|sw| |sw mw ew]; try discriminate; intros _ _; try destruct sv; try destruct sw; try reflexivity;
    rewrite (Z.compare_antisym ev ew); destruct (ev ?= ew)%Z; cbn; try reflexivity;
    change (Pos.compare_cont Eq mv mw) with (Pos.compare mv mw); change (Pos.compare_cont Eq mw mv) with (Pos.compare mw mv);
    rewrite (Pos.compare_antisym mv mw); destruct (Pos.compare mv mw); reflexivity.
Qed.

Lemma p_C42_effect {T} `{Arith T} (s : setter T) o r o' : call s o = (r, o') ->
  (r = SUCCESSFUL_RETURN -> read (target s) o' = wanted s /\ forall f, f <> target s -> read f o' = read f o) /\
  (r <> SUCCESSFUL_RETURN -> o' = o /\ r = error_of (target s)).
Proof.
  intros E. destruct (opt_effect s o) as [(E1 & R)|(E1 & N & E2)]; rewrite E in *; cbn [fst snd] in *.
  - split; [|contradiction]. intros _. split; [rewrite R; destruct (target s); reflexivity|]. intros f Hf. rewrite R. destruct (target s), f; try reflexivity; congruence.
  - split; [congruence|]. auto.
Qed.
Lemma def_xq : in_domain (@setToDefault xq _).
Proof. intros f. destruct f; vm_compute; auto; try discriminate; split; try reflexivity; discriminate. Qed.
Lemma def_f64 : in_domain (@setToDefault f64 _).
Proof. intros f. destruct f; vm_compute; auto; try discriminate; split; try reflexivity; discriminate. Qed.
Lemma p_C42_xq (l : list (setter xq)) : Forall number_arg l -> in_domain (after l setToDefault).
Proof. intros F. exact (opt_domain xq_tot eq_refl eq_refl eq_refl eq_refl l _ F def_xq). Qed.
Lemma p_C42_f64 (l : list (setter f64)) : Forall number_arg l -> in_domain (after l setToDefault).
Proof. intros F. refine (opt_domain f64_tot _ _ _ _ l _ F def_f64); vm_compute; reflexivity. Qed.
Lemma p_C42_accept_xq (s : setter xq) o : number_arg s -> (fst (call s o) = SUCCESSFUL_RETURN <-> allowed (target s) (wanted s)).
Proof. exact (opt_accept xq_tot eq_refl eq_refl eq_refl eq_refl s o). Qed.
Lemma p_C42_accept_f64 (s : setter f64) o : number_arg s -> (fst (call s o) = SUCCESSFUL_RETURN <-> allowed (target s) (wanted s)).
Proof. refine (opt_accept f64_tot _ _ _ _ s o); vm_compute; reflexivity. Qed.
Lemma p_C42_nan : exists s : setter f64, fst (call s setToDefault) = SUCCESSFUL_RETURN /\ ~ in_domain (after [s] setToDefault).
Proof.
  exists (SStat S754_nan). split; [vm_compute; reflexivity|]. intros D. specialize (D FStat). vm_compute in D. discriminate D.
Qed.

(** ** Defaults *)
Lemma def_accept {T} `{Arith T} (s : setter T) : (forall f, allowed f (read f (setToDefault : options T))) ->
  (number_arg s -> (fst (call s setToDefault) = SUCCESSFUL_RETURN <-> allowed (target s) (wanted s))) ->
  (forall f, match read f (setToDefault : options T) with VNum v => is_number v | _ => True end) ->
  wanted s = read (target s) setToDefault -> call s setToDefault = (SUCCESSFUL_RETURN, setToDefault).
Proof.
  intros D A N W.
  assert (Na : number_arg s) by (unfold number_arg; destruct (wanted s) eqn:E; try exact I; specialize (N (target s)); rewrite <- W in N; exact N).
  assert (E : fst (call s setToDefault) = SUCCESSFUL_RETURN) by (apply A; [exact Na|rewrite W; apply D]).
  rewrite (surjective_pairing (call s setToDefault)), E. f_equal.
  clear D A N Na. destruct s; cbn [wanted target read] in W; cbn [call] in E |- *; revert E;
    unfold setStationarityTolerance, setComplementarityTolerance, setInitialPenaltyParameter, setPenaltyUpdateFactor, setSolveZeroPenaltyFirst, setPerturbStep, setMaxIterations,
      setMaxPenaltyParameter, setNDynamicPenalty, setEtaDynamicPenalty, setPrintLevel, setPrintLevel_enum, setStoreSteps, setQPSolver, setQPSolver_enum;
    repeat match goal with |- context [if ?c then _ else _] => destruct c end; cbn [fst snd]; intros E; try discriminate E; injection W as W; subst; try reflexivity.
  - destruct v; try discriminate W. reflexivity.
  - destruct v; try discriminate W. reflexivity.
Qed.
Lemma p_C42_defaults_xq (s : setter xq) : wanted s = read (target s) setToDefault -> call s setToDefault = (SUCCESSFUL_RETURN, setToDefault).
Proof. apply def_accept; [exact def_xq|apply p_C42_accept_xq|]. intros f. destruct f; vm_compute; (exact I || reflexivity). Qed.
Lemma p_C42_defaults_f64 (s : setter f64) : wanted s = read (target s) setToDefault -> call s setToDefault = (SUCCESSFUL_RETURN, setToDefault).
Proof. apply def_accept; [exact def_f64|apply p_C42_accept_f64|]. intros f. destruct f; vm_compute; (exact I || reflexivity). Qed.
Lemma p_C42_rho : a_lt (getInitialPenaltyParameter (setToDefault : options xq)) (getMaxPenaltyParameter setToDefault) = true /\
  a_lt (getInitialPenaltyParameter (setToDefault : options f64)) (getMaxPenaltyParameter setToDefault) = true.
Proof. split; vm_compute; reflexivity. Qed.
