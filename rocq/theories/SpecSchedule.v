(** * SpecSchedule: when the penalty parameter is raised, from the values a run records (no LCQPow code).

    A pass is described by its complementarity value and its stationarity value (entries of phiVals and statVals). *)
From Verif Require Import Base Arith Codes Options Stats Loops Spec.
Local Open Scope Z_scope.

Section Schedule.
Context {T : Type} `{Arith T}.

(** Where a run stands between two passes: penalty updates so far, passes since the last one, their complementarity values (oldest
    first).  No LCQPow code. *)
Record phase : Type := mkPhase { ph_updates : nat; ph_inner : nat; ph_values : list T }.
(** A pass at a complementary point.  No LCQPow code. *)
Definition complementary (opt : options T) (phi : T) : bool := a_lt phi (o_complementarityTolerance opt).
(** A pass at a stationary point.  No LCQPow code. *)
Definition stationary (opt : options T) (stat : T) : bool := a_lt stat (o_stationarityTolerance opt).
(** The dynamic rule: the strategy is on, there are nDynamicPenalty values since the last update, the current point is not complementary
    and its value is not below eta times any of the last nDynamicPenalty values.  No LCQPow code. *)
Definition dynamic_update (opt : options T) (w : phase) (phi : T) : bool :=
  let n := o_nDynamicPenalty opt in
  (0 <? n) && (n <=? len (ph_values w)) && negb (complementary opt phi) &&
  forallb (fun v => negb (a_lt phi (o_etaDynamicPenalty opt * v)%num)) (last_n n (ph_values w)).
(** The penalty is raised by the dynamic rule, and at a stationary point that is not complementary.  No LCQPow code. *)
Definition after_pass (opt : options T) (w : phase) (v : T * T) : phase :=
  let '(phi, stat) := v in
  let w := if dynamic_update opt w phi then mkPhase (S (ph_updates w)) 0 []
           else mkPhase (ph_updates w) (S (ph_inner w)) (ph_values w ++ [phi]) in
  if stationary opt stat && negb (complementary opt phi) then mkPhase (S (ph_updates w)) 0 [] else w.
(** After a list of passes, when [h] are the values kept from an earlier run of the object.  No LCQPow code. *)
Definition phase_from (opt : options T) (h : list T) (l : list (T * T)) : phase := fold_left (after_pass opt) l (mkPhase 0 0 h).
(** A pass that passes both tests.  No LCQPow code. *)
Definition converged (opt : options T) (v : T * T) : bool := complementary opt (fst v) && stationary opt (snd v).
(** The recorded passes of a run.  No LCQPow code. *)
Definition passes (st : stats T) : list (T * T) := combine (st_phiVals st) (st_statVals st).
(** The number of penalty updates a first run makes in its first [j] passes.  No LCQPow code. *)
Definition updates_after (opt : options T) (st : stats T) (j : nat) : nat := ph_updates (phase_from opt [] (firstn j (passes st))).
(** The recorded inner iteration counts and the number of penalty updates are those of the rule, the run succeeds exactly when its last pass
    passes both tests, and no earlier pass does.  No LCQPow code. *)
Definition follows_rule (opt : options T) (h : list T) (r : ReturnValue) (st : stats T) : Prop :=
  let l := passes st in
  len l = st_iterTotal st /\
  st_iterOuter st = Z.of_nat (ph_updates (phase_from opt h l)) /\
  st_innerIters st = map (fun j => Z.of_nat (ph_inner (phase_from opt h (firstn j l)))) (seq 0 (length l)) /\
  (r = SUCCESSFUL_RETURN <-> exists before v, l = before ++ [v] /\ converged opt v = true) /\
  (forall before v after, l = before ++ v :: after -> after <> [] -> converged opt v = false).

End Schedule.
Arguments phase T : clear implicits.
