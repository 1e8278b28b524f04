(** * StatsFacts: proofs about OutputStatistics objects. *)
From Coq Require Import String Lia.
From Verif Require Import Base Arith Codes Stats StatGetters Loops Tactics Frames Spec RunStats SpecStats.
Open Scope Z_scope.

Lemma vals_of_ok {X} (l : list X) : len l <= INT_MAX -> delivers (vals_of l) l l.
Proof.
  intros L. split; [reflexivity|]. split; [intros ->; reflexivity|]. intros N. unfold vals_of. change (Z.of_nat (length l)) with (len l).
  destruct l as [|x r] eqn:El; [congruence|]. rewrite <- El in *. assert (0 < len l) by (rewrite El, len_cons; unfold len; lia).
  replace (len l =? 0) with false by lia. rewrite alloc_ok by lia. cbn [bind].
  rewrite (for_fill (at_ x l)).
  - cbn [bind]. rewrite drop_all; [|unfold len; rewrite repeat_length; lia]. rewrite app_nil_r. rewrite tab_at. reflexivity.
  - unfold len at 3. rewrite repeat_length. lia.
  - intros i Hi. rewrite (vrd_ok x) by lia. reflexivity.
Qed.

Section Facts.
Context {T : Type} `{Arith T}.
Implicit Types (s : stats T) (l h : list (scall T)) (c : scall T).

Record raw s l : Prop := {
  rw_total : st_iterTotal s = added (fun c => match c with CTotal d => Z.max 0 d | _ => 0 end) l;
  rw_outer : st_iterOuter s = added (fun c => match c with COuter d => Z.max 0 d | _ => 0 end) l;
  rw_sub : st_subproblemIter s = added (fun c => match c with CSub d => Z.max 0 d | _ => 0 end) l;
  rw_rho : st_rhoOpt s = given_last (fun c => match c with CRho r => if a_le r a_zero then None else Some r | _ => None end) a_zero l;
  rw_status : st_status s = given_last (fun c => match c with CStatus a => Some a | _ => None end) PROBLEM_NOT_SOLVED l;
  rw_flag : st_exit_flag s = given_last (fun c => match c with CFlag f => Some f | _ => None end) 0 l;
  rw_x : st_xSteps s = map si_x (steps l);
  rw_inners : st_innerIters s = map si_inner (steps l);
  rw_subs : st_subproblemIters s = map si_sub (steps l);
  rw_accu : st_accuSubproblemIters s = prefix_sums 0 (map si_sub (steps l));
  rw_lengths : st_stepLength s = map si_length (steps l);
  rw_sizes : st_stepSize s = map si_size (steps l);
  rw_stats : st_statVals s = map si_stat (steps l);
  rw_objs : st_objVals s = map si_obj (steps l);
  rw_phis : st_phiVals s = map si_phi (steps l);
  rw_merits : st_meritVals s = map si_merit (steps l) }.

Lemma added_snoc f l c : added f (l ++ [c]) = added f l + f c.
Proof. unfold added. induction l as [|a l IH]; cbn [app fold_right]; [lia|]. rewrite IH. lia. Qed.
Lemma given_last_snoc {X} (f : scall T -> option X) d l c : given_last f d (l ++ [c]) = match f c with Some x => x | None => given_last f d l end.
Proof. unfold given_last. rewrite rev_app_distr. cbn [rev app List.filter]. destruct (f c) eqn:E; [rewrite E|]; reflexivity. Qed.
Lemma steps_snoc l c : steps (l ++ [c]) = steps l ++ match c with CStep i => [i] | _ => [] end.
Proof. unfold steps. rewrite map_app, concat_app. cbn [map concat]. rewrite app_nil_r. reflexivity. Qed.
Definition is_reset c := match c with CReset => true | _ => false end.
Lemma since_snoc h c : since_reset (h ++ [c]) = if is_reset c then [] else since_reset h ++ [c].
Proof.
  induction h as [|a h IH]; [destruct c; reflexivity|]. cbn [app since_reset]. rewrite IH, existsb_app. cbn [existsb]. rewrite orb_false_r.
  change (match c with CReset => true | _ => false end) with (is_reset c). destruct (is_reset c) eqn:E; [rewrite orb_true_r; reflexivity|].
  rewrite orb_false_r. destruct (existsb _ h); [reflexivity|]. destruct a; reflexivity.
Qed.

Lemma raw_reset : raw stats_reset [].
Proof. constructor; reflexivity. Qed.

Lemma step_x (x : list T) : for_ 0 (len x) (fun i xs => let! a := deref (Some (lift x)) in let! v := rd a i in Ok (xs ++ [v])) [] = Ok x.
Proof.
  rewrite (for_seq _ (fun i => tab i (at_ a_zero x)) 0 (len x)); [f_equal; apply tab_at|unfold len; lia|].
  intros i Hi. cbn [deref bind]. rewrite (rd_lift a_zero) by lia. cbn [bind]. rewrite tab_succ by lia. reflexivity.
Qed.

Definition next l c := if is_reset c then [] else l ++ [c].
Ltac fin := match goal with R : raw _ _ |- _ => destruct R end; constructor; unfold updateSolutionStatus, updateQPSolverExitFlag;
  rewrite ?added_snoc, ?given_last_snoc, ?steps_snoc, ?app_nil_r, ?map_app; cbn [st_iterTotal st_iterOuter st_subproblemIter st_rhoOpt st_status st_exit_flag st_xSteps st_innerIters
    st_subproblemIters st_accuSubproblemIters st_stepLength st_stepSize st_statVals st_objVals st_phiVals st_meritVals map]; try assumption; try lia; try congruence; try reflexivity.

Lemma raw_call s l c r s' : raw s l -> do_call c s = Ok (r, s') -> r = code_of c /\ raw s' (next l c).
Proof.
  intros R E. unfold next. destruct c as [|d|d|d|x|a|f|i]; cbn [do_call is_reset code_of] in *.
  - injection E as <- <-. split; [reflexivity|apply raw_reset].
  - unfold updateIterTotal in E. destruct (d <? 0) eqn:D; [injection E as <- <-; split; [reflexivity|]; fin|].
    apply bind_ok in E. destruct E as (v & Ev & E). injection E as <- <-. split; [reflexivity|].
    apply chk_int_ok in Ev; destruct Ev as [-> _]; fin.
  - unfold updateIterOuter in E. destruct (d <? 0) eqn:D; [injection E as <- <-; split; [reflexivity|]; fin|].
    apply bind_ok in E. destruct E as (v & Ev & E). injection E as <- <-. split; [reflexivity|].
    apply chk_int_ok in Ev; destruct Ev as [-> _]; fin.
  - unfold updateSubproblemIter in E. destruct (d <? 0) eqn:D; [injection E as <- <-; split; [reflexivity|]; fin|].
    apply bind_ok in E. destruct E as (v & Ev & E). injection E as <- <-. split; [reflexivity|].
    apply chk_int_ok in Ev; destruct Ev as [-> _]; fin.
  - unfold updateRhoOpt in E. destruct (a_le x a_zero) eqn:D; injection E as <- <-; (split; [reflexivity|]; fin; rewrite D; try assumption; reflexivity).
  - injection E as <- <-. split; [reflexivity|]. fin.
  - injection E as <- <-. split; [reflexivity|]. fin.
  - apply bind_ok in E. destruct E as (s1 & E1 & E). injection E as <- <-. split; [reflexivity|].
    unfold updateTrackingVectors in E1. rewrite step_x in E1. cbn [bind] in E1. apply bind_ok in E1. destruct E1 as (ac & Ea & E1). injection E1 as <-.
    assert (A : ac = last (st_accuSubproblemIters s) 0 + si_sub i).
    { destruct (st_accuSubproblemIters s) eqn:Es; [injection Ea as <-; reflexivity|]. apply chk_int_ok in Ea. destruct Ea as [-> _]. reflexivity. }
    fin. rewrite prefix_sums_snoc, <- rw_accu0, A. reflexivity.
Qed.

Lemma do_calls_snoc h c : forall s r s', do_calls (h ++ [c]) s = Ok (r, s') ->
  exists rs s1 rc, do_calls h s = Ok (rs, s1) /\ do_call c s1 = Ok (rc, s') /\ r = rs ++ [rc].
Proof.
  induction h as [|a h IH]; intros s r s' E; cbn [app do_calls] in E |- *.
  - apply bind_ok in E. destruct E as ([rc s1] & E1 & E). cbn [do_calls bind fst snd] in E. injection E as <- <-. exists [], s, rc. auto.
  - apply bind_ok in E. destruct E as ([rc s1] & E1 & E). cbn [fst snd] in E. apply bind_ok in E. destruct E as ([rs s2] & E2 & E). injection E as <- <-.
    apply IH in E2. destruct E2 as (rs' & s3 & rc' & E3 & E4 & ->). exists (rc :: rs'), s3, rc'. rewrite E1. cbn [bind fst snd]. rewrite E3. auto.
Qed.

Lemma raw_calls h : forall rs s, do_calls h stats_reset = Ok (rs, s) -> rs = map code_of h /\ raw s (since_reset h).
Proof.
  induction h as [|c h IH] using rev_ind; intros rs s E.
  - injection E as <- <-. split; [reflexivity|apply raw_reset].
  - apply do_calls_snoc in E. destruct E as (rs' & s1 & rc & E1 & E2 & ->). apply IH in E1. destruct E1 as [-> R].
    apply (raw_call _ _ _ _ _ R) in E2. destruct E2 as [-> R']. rewrite map_app, since_snoc. split; [reflexivity|exact R'].
Qed.

Lemma steps_le l : len (steps l) <= len l.
Proof.
  unfold steps. induction l as [|c l IH]; cbn [map concat]; [reflexivity|]. rewrite len_app, len_cons. destruct c; rewrite ?len_cons, len_nil; lia.
Qed.
Lemma since_le h : len (since_reset h) <= len h.
Proof.
  induction h as [|c h IH]; cbn [since_reset]; [reflexivity|]. rewrite len_cons. destruct (existsb _ _); [lia|]. destruct c; rewrite ?len_cons; lia.
Qed.
Lemma len_prefix_sums k : forall a, len (prefix_sums a k) = len k.
Proof. induction k as [|x k IH]; intros a; cbn [prefix_sums]; [reflexivity|]. rewrite !len_cons, IH. reflexivity. Qed.
Lemma len_map_ {A B} (f : A -> B) k : len (map f k) = len k.
Proof. unfold len. rewrite map_length. reflexivity. Qed.

Lemma raw_shows s l : len l <= INT_MAX -> raw s l -> shows s l.
Proof.
  intros L []. assert (D : forall X (k k' : list X), k = k' -> len k' <= len (steps l) -> delivers (vals_of k) k k').
  { intros X k k' -> Hk. apply vals_of_ok. pose proof (steps_le l). lia. }
  constructor; try assumption; apply D; auto; rewrite ?len_prefix_sums, ?len_map_; lia.
Qed.

Lemma p_C77_history h rs s : len h <= INT_MAX -> do_calls h stats_reset = Ok (rs, s) -> rs = map code_of h /\ shows s (since_reset h).
Proof.
  intros L E. apply raw_calls in E. destruct E as [E R]. split; [exact E|]. apply raw_shows; [|exact R]. pose proof (since_le h). lia.
Qed.

(** No overflow *)
Definition small s n : Prop := 0 <= n <= INT_MAX /\ Z.abs (st_iterTotal s) <= n /\ Z.abs (st_iterOuter s) <= n /\ Z.abs (st_subproblemIter s) <= n /\ Z.abs (last (st_accuSubproblemIters s) 0) <= n.
Lemma weight_pos c : 0 <= weight c.
Proof. destruct c; cbn [weight]; lia. Qed.
Lemma added_pos h : 0 <= added weight h.
Proof. unfold added. induction h as [|c h IH]; cbn [fold_right]; [lia|]. pose proof (weight_pos c). lia. Qed.
Lemma chk_small z : Z.abs z <= INT_MAX -> chk_int z = Ok z.
Proof. intros. unfold chk_int, in_int, INT_MIN, INT_MAX in *. replace ((-2147483648 <=? z) && (z <=? 2147483647)) with true by lia. reflexivity. Qed.
Lemma last_snoc_ (k : list Z) x d : last (k ++ [x]) d = x.
Proof. apply last_last. Qed.
Lemma small_call s n c : small s n -> n + weight c <= INT_MAX -> exists r s', do_call c s = Ok (r, s') /\ small s' (n + weight c).
Proof.
  intros (N & A & B & C & D) W. pose proof (weight_pos c). destruct c as [|d|d|d|x|a|f|i]; cbn [do_call weight] in *.
  - do 2 eexists. split; [reflexivity|]. unfold small; cbn; lia.
  - unfold updateIterTotal. destruct (d <? 0); [|rewrite chk_small by lia; cbn [bind]]; do 2 eexists; (split; [reflexivity|]); unfold small; cbn [st_iterTotal st_iterOuter st_subproblemIter st_accuSubproblemIters]; lia.
  - unfold updateIterOuter. destruct (d <? 0); [|rewrite chk_small by lia; cbn [bind]]; do 2 eexists; (split; [reflexivity|]); unfold small; cbn [st_iterTotal st_iterOuter st_subproblemIter st_accuSubproblemIters]; lia.
  - unfold updateSubproblemIter. destruct (d <? 0); [|rewrite chk_small by lia; cbn [bind]]; do 2 eexists; (split; [reflexivity|]); unfold small; cbn [st_iterTotal st_iterOuter st_subproblemIter st_accuSubproblemIters]; lia.
  - unfold updateRhoOpt. destruct (a_le x a_zero); do 2 eexists; (split; [reflexivity|]); unfold small; cbn [st_iterTotal st_iterOuter st_subproblemIter st_accuSubproblemIters]; lia.
  - do 2 eexists. split; [reflexivity|]. unfold small; cbn [updateSolutionStatus st_iterTotal st_iterOuter st_subproblemIter st_accuSubproblemIters]; lia.
  - do 2 eexists. split; [reflexivity|]. unfold small; cbn [updateQPSolverExitFlag st_iterTotal st_iterOuter st_subproblemIter st_accuSubproblemIters]; lia.
  - unfold updateTrackingVectors. rewrite step_x. cbn [bind].
    assert (E : exists ac, match st_accuSubproblemIters s with [] => Ok (si_sub i) | k => chk_int (last k 0 + si_sub i) end = Ok ac /\ Z.abs ac <= n + Z.abs (si_sub i)).
    { destruct (st_accuSubproblemIters s) eqn:Es; [exists (si_sub i); split; [reflexivity|lia]|]. eexists. split; [apply chk_small; lia|lia]. }
    destruct E as (ac & E & Hac). rewrite E. cbn [bind]. do 2 eexists. split; [reflexivity|]. unfold small. cbn [st_iterTotal st_iterOuter st_subproblemIter st_accuSubproblemIters].
    rewrite last_snoc_. lia.
Qed.
Lemma small_calls h : forall s n, small s n -> n + added weight h <= INT_MAX -> exists r, do_calls h s = Ok r.
Proof.
  induction h as [|c h IH]; intros s n S0 W; cbn [do_calls]; [eexists; reflexivity|]. cbn [added fold_right] in W. change (fold_right _ 0 h) with (added weight h) in W.
  pose proof (added_pos h). destruct (small_call s n c S0) as (r & s' & E & S1); [lia|]. rewrite E. cbn [bind fst snd].
  destruct (IH s' _ S1) as (q & E2); [lia|]. rewrite E2. eexists. reflexivity.
Qed.
Lemma p_C77_defined h : added weight h <= INT_MAX -> exists r, do_calls h (@stats_reset T _) = Ok r.
Proof. intros W. apply (small_calls h _ 0); [|lia]. unfold small, INT_MAX; cbn; lia. Qed.

Lemma p_C77_refused c s r s' : do_call c s = Ok (r, s') -> r <> SUCCESSFUL_RETURN -> s' = s.
Proof.
  intros E N. destruct c as [|d|d|d|x|a|f|i]; cbn [do_call] in E.
  - congruence.
  - unfold updateIterTotal in E. destruct (d <? 0); [congruence|]. apply bind_ok in E. destruct E as (v & _ & E). congruence.
  - unfold updateIterOuter in E. destruct (d <? 0); [congruence|]. apply bind_ok in E. destruct E as (v & _ & E). congruence.
  - unfold updateSubproblemIter in E. destruct (d <? 0); [congruence|]. apply bind_ok in E. destruct E as (v & _ & E). congruence.
  - unfold updateRhoOpt in E. destruct (a_le x a_zero); congruence.
  - congruence.
  - congruence.
  - apply bind_ok in E. destruct E as (v & _ & E). congruence.
Qed.

Lemma p_C77_assign s l : shows s l -> shows (stats_assign s) l.
Proof. intros R. exact R. Qed.

Lemma p_C77_python s l : shows s l ->
  py_get "getIterTotal" s = Some (PyInt (added (fun c => match c with CTotal d => Z.max 0 d | _ => 0 end) l)) /\
  py_get "getIterOuter" s = Some (PyInt (added (fun c => match c with COuter d => Z.max 0 d | _ => 0 end) l)) /\
  py_get "getSubproblemIter" s = Some (PyInt (added (fun c => match c with CSub d => Z.max 0 d | _ => 0 end) l)) /\
  py_get "getRhoOpt" s = Some (PyFloat (given_last (fun c => match c with CRho r => if a_le r a_zero then None else Some r | _ => None end) a_zero l)) /\
  py_get "getSolutionStatus" s = Some (PyStatus (given_last (fun c => match c with CStatus a => Some a | _ => None end) PROBLEM_NOT_SOLVED l)) /\
  py_get "getQPSolverExitFlag" s = Some (PyInt (given_last (fun c => match c with CFlag f => Some f | _ => None end) 0 l)) /\
  py_get "getInnerIters" s = Some (PyInts (map si_inner (steps l))) /\
  py_get "getSubproblemIters" s = Some (PyInts (map si_sub (steps l))) /\
  py_get "getAccuSubproblemIters" s = Some (PyInts (prefix_sums 0 (map si_sub (steps l)))) /\
  py_get "getStepLength" s = Some (PyFloats (map si_length (steps l))) /\
  py_get "getStepSize" s = Some (PyFloats (map si_size (steps l))) /\
  py_get "getStatVals" s = Some (PyFloats (map si_stat (steps l))) /\
  py_get "getObjVals" s = Some (PyFloats (map si_obj (steps l))) /\
  py_get "getPhiVals" s = Some (PyFloats (map si_phi (steps l))) /\
  py_get "getMeritVals" s = Some (PyFloats (map si_merit (steps l))) /\
  py_get "getxSteps" s = None.
Proof.
  intros []. unfold delivers in *.
  repeat match goal with D : _ /\ _ |- _ => destruct D as [D _] end.
  repeat match goal with |- _ /\ _ => split end; unfold py_get; cbn -[added given_last getIterTotal getIterOuter getSubproblemIter getRhoOpt getSolutionStatus getQPSolverExitFlag
    getInnerItersStdVec getSubproblemItersStdVec getAccuSubproblemItersStdVec getStepLengthStdVec getStepSizeStdVec getStatValsStdVec getObjValsStdVec getPhiValsStdVec getMeritValsStdVec];
    try reflexivity; congruence.
Qed.
End Facts.

Lemma p_C77_forms T (A : Arith T) (s : stats T) :
  (len (getInnerItersStdVec s) <= INT_MAX -> delivers (getInnerIters s) (getInnerItersStdVec s) (getInnerItersStdVec s)) /\
  (len (getSubproblemItersStdVec s) <= INT_MAX -> delivers (getSubproblemIters s) (getSubproblemItersStdVec s) (getSubproblemItersStdVec s)) /\
  (len (getAccuSubproblemItersStdVec s) <= INT_MAX -> delivers (getAccuSubproblemIters s) (getAccuSubproblemItersStdVec s) (getAccuSubproblemItersStdVec s)) /\
  (len (getStepLengthStdVec s) <= INT_MAX -> delivers (getStepLength s) (getStepLengthStdVec s) (getStepLengthStdVec s)) /\
  (len (getStepSizeStdVec s) <= INT_MAX -> delivers (getStepSize s) (getStepSizeStdVec s) (getStepSizeStdVec s)) /\
  (len (getStatValsStdVec s) <= INT_MAX -> delivers (getStatVals s) (getStatValsStdVec s) (getStatValsStdVec s)) /\
  (len (getObjValsStdVec s) <= INT_MAX -> delivers (getObjVals s) (getObjValsStdVec s) (getObjValsStdVec s)) /\
  (len (getPhiValsStdVec s) <= INT_MAX -> delivers (getPhiVals s) (getPhiValsStdVec s) (getPhiValsStdVec s)) /\
  (len (getMeritValsStdVec s) <= INT_MAX -> delivers (getMeritVals s) (getMeritValsStdVec s) (getMeritValsStdVec s)).
Proof. repeat match goal with |- _ /\ _ => split end; apply vals_of_ok. Qed.
