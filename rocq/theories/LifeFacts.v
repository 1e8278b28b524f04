(** * LifeFacts: output options do not influence results (proofs; no LCQPow code). *)
From Verif Require Import Base Arith Codes Utilities Options Stats FileIO Subsolver State LCQProblem Tactics SpecLife.

Section Erase.
Context {T : Type} `{Arith T}.

(** [ro P a b]: if [a] is defined, then so is [b], with a related value.  No LCQPow code. *)
Definition ro {A B} (P : A -> B -> Prop) (a : res A) (b : res B) : Prop :=
  match a with Ok x => match b with Ok y => P x y | UB _ => False end | UB _ => True end.

Lemma ro_bind {A B A' B'} (P : A -> B -> Prop) (P' : A' -> B' -> Prop) a b k k' :
  ro P a b -> (forall x y, P x y -> ro P' (k x) (k' y)) -> ro P' (bind a k) (bind b k').
Proof. destruct a, b; simpl; intros; auto; contradiction. Qed.
Lemma ro_eq {A} (a : res A) : ro eq a a.
Proof. destruct a; simpl; auto. Qed.

(** Statistics without recorded steps.  No LCQPow code. *)
Definition erS (st : stats T) : stats T :=
  mkStats (st_iterTotal st) (st_iterOuter st) (st_subproblemIter st) (st_rhoOpt st) (st_status st) (st_exit_flag st) [] [] [] [] [] [] [] [] [] [].
(** Iteration data without recorded steps and with other printed text.  No LCQPow code. *)
Definition erI (lg : list (print_event T)) (s : iter T) : iter T := set_log lg (set_stats (erS (s_stats s)) s).
(** Problem data with output switched off.  No LCQPow code. *)
Definition erD (d : pdata T) : pdata T := set_d_options (silent (d_options d)) d.
(** The object without recorded steps, with other printed text and with output switched off.  No LCQPow code. *)
Definition er (lg : list (print_event T)) (o : lcqp T) : lcqp T := mkLcqp (erD (pd o)) (erI lg (it o)).

(** Relations between an execution and the same execution without output.  No LCQPow code. *)
Definition eI (s s' : iter T) : Prop := s' = erI (s_log s') s.
(** The same for a pair with a result.  No LCQPow code. *)
Definition eP {X} (a b : X * iter T) : Prop := fst b = fst a /\ eI (snd a) (snd b).
(** The same for a pair with an exit code.  No LCQPow code. *)
Definition eX {X} (a b : iter T * X) : Prop := snd b = snd a /\ eI (fst a) (fst b).
(** The same for problem data.  No LCQPow code. *)
Definition eD (a b : pdata T) : Prop := b = erD a.
(** The same for an object.  No LCQPow code. *)
Definition eO (a b : lcqp T) : Prop := b = er (s_log (it b)) a.
(** The same for whole objects.  No LCQPow code. *)
Definition eR (a b : ReturnValue * lcqp T) : Prop := fst b = fst a /\ eO (snd a) (snd b).

Lemma eI_inv s s' : eI s s' -> exists lg, s' = erI lg s.
Proof. eexists; eassumption. Qed.
Lemma eO_inv o o' : eO o o' -> exists lg, o' = er lg o.
Proof. eexists; eassumption. Qed.
End Erase.

Create HintDb life discriminated.
Ltac life_hint := solve [ eauto with nocore life ].
Ltac life_split1 :=
  match goal with
  | H : eI _ ?b |- _ => apply eI_inv in H; destruct H as [? ->]
  | H : eO _ ?b |- _ => apply eO_inv in H; destruct H as [? ->]
  | H : eD _ ?b |- _ => red in H; subst b
  | H : eP ?a ?b |- _ => destruct a, b; destruct H as [? ?]; cbn [fst snd] in *
  | H : eX ?a ?b |- _ => destruct a, b; destruct H as [? ?]; cbn [fst snd] in *
  | H : eR ?a ?b |- _ => destruct a, b; destruct H as [? ?]; cbn [fst snd] in *
  end.
Ltac life_split := repeat life_split1; subst.
Ltac life_step :=
  match goal with
  | |- ro _ (bind _ _) (bind _ _) =>
      first [ eapply ro_bind; [ life_hint | intros; life_split; cbv beta zeta ]
            | eapply ro_bind; [ apply ro_eq | intros; life_split; cbv beta zeta ] ]
  | |- ro _ (Ok _) (Ok _) => simpl; repeat split; reflexivity
  | |- ro _ (UB _) _ => exact I
  | |- ro _ (match ?b with _ => _ end) (match ?b' with _ => _ end) => first [ change b' with b; destruct b | destruct b ]
  end.

Section Facts.
Context {T : Type} `{Arith T}.
Variables (orc : oracle T) (rand : nat -> Z).


Lemma l_lin lg d (s : iter T) : ro eI (updateLinearization d s) (updateLinearization (erD d) (erI lg s)).
Proof. unfold updateLinearization. repeat life_step. Qed.
Lemma l_upd_sub k (st : stats T) : ro (fun a b => fst b = fst a /\ snd b = erS (snd a)) (updateSubproblemIter k st) (updateSubproblemIter k (erS st)).
Proof. unfold updateSubproblemIter. repeat life_step. Qed.
Lemma l_upd_outer k (st : stats T) : ro (fun a b => fst b = fst a /\ snd b = erS (snd a)) (updateIterOuter k st) (updateIterOuter k (erS st)).
Proof. unfold updateIterOuter. repeat life_step. Qed.
Lemma l_upd_total k (st : stats T) : ro (fun a b => fst b = fst a /\ snd b = erS (snd a)) (updateIterTotal k st) (updateIterTotal k (erS st)).
Proof. unfold updateIterTotal. repeat life_step. Qed.
Lemma l_rho x (st : stats T) : snd (updateRhoOpt x (erS st)) = erS (snd (updateRhoOpt x st)).
Proof. unfold updateRhoOpt. destruct (a_le x a_zero); reflexivity. Qed.
Lemma l_rec lg r (s : iter T) : sqp_record r (erI lg s) = erI lg (sqp_record r s).
Proof. unfold sqp_record. destruct (sr_iter r), (sr_flag r); reflexivity. Qed.

Lemma l_solve lg d ini (s : iter T) : ro eP (solveQPSubproblem orc d ini s) (solveQPSubproblem orc (erD d) ini (erI lg s)).
Proof.
  unfold solveQPSubproblem.
  eapply ro_bind; [apply ro_eq | intros sub ? <-].
  eapply ro_bind; [apply ro_eq | intros r ? <-]. cbv zeta.
  rewrite l_rec. set (s1 := sqp_record r s). clearbody s1. clear s.
  eapply ro_bind; [apply ro_eq | intros k ? <-].
  eapply ro_bind; [apply l_upd_sub | intros [? st] [? st'] [e1 e2]; cbn [fst snd] in *; subst; life_split].
  eapply ro_bind; [apply ro_eq | intros f ? <-].
  set (s2 := set_stats (updateQPSolverExitFlag f st) s1).
  change (set_stats (updateQPSolverExitFlag f (erS st)) (erI ?lg s1)) with (erI lg s2).
  clearbody s2. clear s1 st.
  eapply ro_bind; [apply ro_eq | intros nV ? <-].
  eapply ro_bind; [apply ro_eq | intros nD ? <-].
  eapply ro_bind with (P := eI). { change (s_xk (erI ?lg s2)) with (s_xk s2). destruct (s_xk s2); repeat life_step. }
  intros s3 ? ?; life_split.
  eapply ro_bind with (P := eI). { change (s_yk (erI ?lg s3)) with (s_yk s3). destruct (s_yk s3); repeat life_step. }
  intros s4 ? ?; life_split. clear s2 s3.
  repeat life_step.
Qed.

Lemma l_stat lg d (s : iter T) : ro eq (stationarityCheck d s) (stationarityCheck (erD d) (erI lg s)).
Proof. apply ro_eq. Qed.
Lemma l_phi lg d (s : iter T) : ro eq (getPhi d s) (getPhi (erD d) (erI lg s)).
Proof. apply ro_eq. Qed.
Lemma l_compl lg d (s : iter T) : ro eq (complementarityCheck d s) (complementarityCheck (erD d) (erI lg s)).
Proof. apply ro_eq. Qed.
Lemma l_setQk lg d (s : iter T) : ro eI (setQk d s) (setQk (erD d) (erI lg s)).
Proof. unfold setQk. repeat life_step. Qed.
Lemma l_updQk lg d (s : iter T) : ro eI (updateQk d s) (updateQk (erD d) (erI lg s)).
Proof. unfold updateQk. repeat life_step. Qed.

Lemma l_penalty lg d (s : iter T) : ro eI (updatePenalty d s) (updatePenalty (erD d) (erI lg s)).
Proof.
  unfold updatePenalty. cbv zeta.
  set (s1 := if 0 <? o_nDynamicPenalty (d_options d) then set_complHistory [] s else s).
  replace (if 0 <? o_nDynamicPenalty (d_options (erD d)) then set_complHistory [] (erI lg s) else erI lg s) with (erI lg s1)
    by (unfold s1; change (o_nDynamicPenalty (d_options (erD d))) with (o_nDynamicPenalty (d_options d)); destruct (0 <? _); reflexivity).
  clearbody s1. clear s.
  set (s2 := set_rho (s_rho s1 * o_penaltyUpdateFactor (d_options d))%num s1).
  change (set_rho (s_rho (erI ?lg s1) * o_penaltyUpdateFactor (d_options (erD d)))%num (erI ?lg s1)) with (erI lg s2).
  clearbody s2. clear s1.
  change (s_rho (erI ?lg s2)) with (s_rho s2). change (s_stats (erI ?lg s2)) with (erS (s_stats s2)). rewrite l_rho.
  set (s3 := set_stats (snd (updateRhoOpt (s_rho s2) (s_stats s2))) s2).
  change (set_stats (erS (snd (updateRhoOpt (s_rho s2) (s_stats s2)))) (erI ?lg s2)) with (erI lg s3).
  clearbody s3. clear s2.
  eapply ro_bind; [apply l_updQk | intros s4 ? ?; life_split].
  change (d_g_phi (erD d)) with (d_g_phi d). destruct (d_g_phi d); repeat life_step.
Qed.
Lemma l_steplen lg d (s : iter T) : ro eI (getOptimalStepLength d s) (getOptimalStepLength (erD d) (erI lg s)).
Proof. unfold getOptimalStepLength. repeat life_step. Qed.
Lemma l_updStep lg d (s : iter T) : ro eI (updateStep d s) (updateStep (erD d) (erI lg s)).
Proof. unfold updateStep. repeat life_step. Qed.
Lemma l_updStat lg d (s : iter T) : ro eI (updateStationarity d s) (updateStationarity (erD d) (erI lg s)).
Proof.
  unfold updateStationarity. repeat life_step.
Qed.
Lemma l_leyffer lg d (s : iter T) : ro eP (leyfferCheckPositive d s) (leyfferCheckPositive (erD d) (erI lg s)).
Proof. unfold leyfferCheckPositive. repeat life_step. Qed.

Lemma l_outer lg (s : iter T) : ro eI (updateOuterIter s) (updateOuterIter (erI lg s)).
Proof.
  unfold updateOuterIter. eapply ro_bind; [apply ro_eq | intros n ? <-].
  eapply ro_bind; [apply l_upd_outer | intros [? st] [? st'] [e1 e2]; cbn [fst snd] in *; subst; life_split]. reflexivity.
Qed.
Lemma l_total lg (s : iter T) : ro eI (updateTotalIter s) (updateTotalIter (erI lg s)).
Proof.
  unfold updateTotalIter. eapply ro_bind; [apply ro_eq | intros n ? <-].
  eapply ro_bind; [apply l_upd_total | intros [? st] [? st'] [e1 e2]; cbn [fst snd] in *; subst; life_split]. reflexivity.
Qed.
Lemma l_perturb lg d (s : iter T) : ro eI (perturbStep rand d s) (perturbStep rand (erD d) (erI lg s)).
Proof. unfold perturbStep. repeat life_step. Qed.
Lemma l_part lg d M Ms off tmp (s : iter T) : ro eP (transform_part d M Ms off tmp s) (transform_part (erD d) M Ms off tmp (erI lg s)).
Proof. unfold transform_part. repeat life_step. Qed.
Lemma l_duals lg d (s : iter T) : ro eI (transformDuals d s) (transformDuals (erD d) (erI lg s)).
Proof.
  unfold transformDuals. do 4 life_step.
  eapply ro_bind; [apply l_part | intros [? s1] [? ?] [e1 e2]; cbn [fst snd] in *; subst; life_split].
  eapply ro_bind; [apply l_part | intros [? s2] [? ?] [e1 e2]; cbn [fst snd] in *; subst; life_split]. reflexivity.
Qed.
Lemma l_type lg d (s : iter T) : ro eI (determineStationarityType d s) (determineStationarityType (erD d) (erI lg s)).
Proof. unfold determineStationarityType. repeat life_step. Qed.

(** Printing and storing leave the rest alone *)
Lemma l_print d (s s' : iter T) : printIteration d s = Ok s' -> forall lg, erI lg s' = erI lg s.
Proof.
  unfold printIteration. destruct (o_printLevel (d_options d)); [intros [= <-] lg; reflexivity| |]; cbv zeta.
  all: match goal with |- context [if ?c then Ok _ else _] => destruct c; [intros [= <-] lg; reflexivity|] | _ => idtac end.
  all: match goal with |- context [if ?c then logI EvHeader _ else _] => destruct c end.
  all: intros E; inv_ok; reflexivity.
Qed.
Lemma l_store d (s s' : iter T) : storeSteps d s = Ok s' -> forall lg, erI lg s' = erI lg s.
Proof.
  unfold storeSteps. intros E.
  repeat match goal with H : bind _ _ = Ok _ |- _ => apply bind_ok in H; let v := fresh "v" in let F := fresh "F" in destruct H as (v & F & H); cbv beta in H end.
  injection E as <-. match goal with F : updateTrackingVectors _ _ _ _ _ _ _ _ _ _ _ = Ok _ |- _ => unfold updateTrackingVectors in F; inv_ok end; reflexivity.
Qed.
Lemma l_pen lg d (s : iter T) : ro eI (penaltyStep d s) (penaltyStep (erD d) (erI lg s)).
Proof.
  unfold penaltyStep. eapply ro_bind; [apply l_penalty | intros s1 ? ?; life_split].
  eapply ro_bind; [apply l_outer | intros s2 ? ?; life_split]. reflexivity.
Qed.
Lemma l_head lg d (s : iter T) : ro eI (pass_head d s) (pass_head (erD d) (erI lg s)).
Proof.
  unfold pass_head. eapply ro_bind; [apply l_updStep | intros s1 ? ?; life_split].
  eapply ro_bind; [apply l_updStat | intros s2 ? ?; life_split]. clear s s1.
  eapply ro_bind with (P := eI).
  { change (printIteration (erD d) (erI ?lg s2)) with (Ok (erI lg s2)). destruct (printIteration d s2) eqn:E; simpl; auto. red. rewrite (l_print _ _ _ E). reflexivity. }
  intros s3 ? ?; life_split. clear s2. change (o_storeSteps (d_options (erD d))) with false.
  eapply ro_bind with (P := eI).
  { destruct (o_storeSteps (d_options d)); [|reflexivity]. destruct (storeSteps d s3) eqn:E; simpl; auto. red. rewrite (l_store _ _ _ E). reflexivity. }
  intros s4 ? ?; life_split. clear s3.
  eapply ro_bind; [apply l_total | intros s5 ? ?; life_split]. clear s4.
  eapply ro_bind; [apply ro_eq | intros n ? <-]. set (s6 := set_innerIter n s5). change (set_innerIter n (erI ?lg s5)) with (erI lg s6). clearbody s6.
  eapply ro_bind; [apply l_leyffer | intros [b s7] [? ?] [e1 e2]; cbn [fst snd] in *; subst; life_split].
  eapply ro_bind with (P := eI). { destruct b; [apply l_pen | reflexivity]. }
  intros s8 ? ?; life_split. apply l_lin.
Qed.
Lemma l_finish lg d (s : iter T) : ro eI (finish d s) (finish (erD d) (erI lg s)).
Proof.
  unfold finish. eapply ro_bind; [apply l_duals | intros s1 ? ?; life_split].
  eapply ro_bind; [apply l_type | intros s2 ? ?; life_split]. life_step.
  destruct (o_printLevel (d_options d)); reflexivity.
Qed.
Lemma l_tail lg d (s : iter T) : ro eX (pass_tail orc rand d s) (pass_tail orc rand (erD d) (erI lg s)).
Proof.
  unfold pass_tail. cbv zeta. life_step; [life_step|]. life_step; [life_step|].
  eapply ro_bind; [apply l_lin | intros s1 ? ?; life_split].
  eapply ro_bind; [apply l_solve | intros [r s2] [? ?] [e1 e2]; cbn [fst snd] in *; subst; life_split].
  life_step; [life_step|].
  eapply ro_bind with (P := eI).
  { change (o_perturbStep (d_options (erD d))) with (o_perturbStep (d_options d)). destruct (o_perturbStep (d_options d)); [apply l_perturb | reflexivity]. }
  intros s3 ? ?; life_split. eapply ro_bind; [apply l_steplen | intros s4 ? ?; life_split]. split; reflexivity.
Qed.
Lemma l_pass lg d (s : iter T) : ro eX (pass orc rand d s) (pass orc rand (erD d) (erI lg s)).
Proof.
  unfold pass. eapply ro_bind; [apply l_head | intros s1 ? ?; life_split].
  life_step. life_step; [|apply l_tail]. life_step. life_step.
  - eapply ro_bind; [apply l_finish | intros s2 ? ?; life_split]. split; reflexivity.
  - eapply ro_bind; [apply l_pen | intros s2 ? ?; life_split]. apply l_tail.
Qed.
Lemma l_loop d fuel : forall lg (s : iter T), ro eP (loop fuel orc rand d s) (loop fuel orc rand (erD d) (erI lg s)).
Proof.
  induction fuel as [|fuel IH]; intros lg s; cbn [loop]; [exact I|].
  eapply ro_bind; [apply l_pass | intros [s1 e] [? ?] [e1 e2]; cbn [fst snd] in *; subst; life_split].
  destruct e; [split; reflexivity | apply IH].
Qed.
Lemma l_first lg d (s : iter T) : ro eX (first_solve orc d s) (first_solve orc (erD d) (erI lg s)).
Proof.
  unfold first_solve. eapply ro_bind with (P := eI).
  { life_step; [repeat life_step | apply l_lin]. }
  intros s1 ? ?; life_split. eapply ro_bind; [apply l_solve | intros [r s2] [? ?] [e1 e2]; cbn [fst snd] in *; subst; life_split].
  life_step; [life_step|]. eapply ro_bind; [apply l_setQk | intros s3 ? ?; life_split].
  change (s_rho (erI ?lg s3)) with (s_rho s3). change (s_stats (erI ?lg s3)) with (erS (s_stats s3)). rewrite l_rho. split; reflexivity.
Qed.

(** ** Initialisation and loading *)
Lemma l_quiet m m' k k' : ro eR m m' -> (forall lg (o : lcqp T), ro eR (k o) (k' (er lg o))) -> ro eR (and_then_quiet m k) (and_then_quiet m' k').
Proof.
  intros E K. unfold and_then_quiet. eapply ro_bind; [exact E | intros [r o] [? ?] [e1 e2]; cbn [fst snd] in *; subst; life_split].
  life_step; [apply K | split; reflexivity].
Qed.
Lemma l_then m m' k k' : ro eR m m' -> (forall lg (o : lcqp T), ro eR (k o) (k' (er lg o))) -> ro eR (and_then m k) (and_then m' k').
Proof.
  intros E K. unfold and_then. eapply ro_bind; [exact E | intros [r o] [? ?] [e1 e2]; cbn [fst snd] in *; subst; life_split].
  life_step; [apply K | split; reflexivity].
Qed.
Lemma l_setLB lg b (o : lcqp T) : ro eR (setLB b o) (setLB b (er lg o)).
Proof. unfold setLB. repeat life_step. Qed.
Lemma l_setUB lg b (o : lcqp T) : ro eR (setUB b o) (setUB b (er lg o)).
Proof. unfold setUB. repeat life_step. Qed.
Lemma l_initsub lg (o : lcqp T) : ro eR (init_subsolver o) (init_subsolver (er lg o)).
Proof.
  unfold init_subsolver. cbv zeta. change (o_qpSolver (d_options (pd (er ?lg o)))) with (o_qpSolver (d_options (pd o))).
  destruct (o_qpSolver (d_options (pd o))).
  1, 2: do 3 life_step; life_step; [repeat life_step|];
    (eapply l_quiet; [match goal with |- ro _ (setLB ?b ?x) _ => exact (l_setLB lg b x) end | intros lg1 o1]); (eapply l_quiet; [match goal with |- ro _ (setUB ?b ?x) _ => exact (l_setUB lg1 b x) end | intros lg2 o2]); repeat life_step.
  repeat life_step.
Qed.
Lemma l_phi_init nV nComp (d : pdata T) : ro eD (init_phi nV nComp d) (init_phi nV nComp (erD d)).
Proof. unfold init_phi. repeat life_step. Qed.
Lemma l_init lg (o : lcqp T) : ro eR (initializeSolver o) (initializeSolver (er lg o)).
Proof.
  unfold initializeSolver. apply l_quiet; [apply l_initsub | intros lg1 o1]. cbv zeta. do 4 life_step.
  eapply ro_bind; [apply l_phi_init | intros d ? ?; life_split].
  change (o_printLevel (d_options (erD d))) with PL_NONE. destruct (o_printLevel (d_options d)); split; reflexivity.
Qed.
Lemma l_fuel lg fuel (o : lcqp T) : ro eR (runSolver_fuel fuel orc rand o) (runSolver_fuel fuel orc rand (er lg o)).
Proof.
  unfold runSolver_fuel. eapply ro_bind; [apply l_init | intros [r o1] [? ?] [e1 e2]; cbn [fst snd] in *; subst; life_split].
  life_step; [split; reflexivity|].
  eapply ro_bind; [apply l_first | intros [s e] [? ?] [e1 e2]; cbn [fst snd] in *; subst; life_split].
  destruct e; [split; reflexivity|].
  eapply ro_bind; [apply l_loop | intros [r' s'] [? ?] [e1 e2]; cbn [fst snd] in *; subst; life_split]. split; reflexivity.
Qed.
Lemma l_run lg (o : lcqp T) : ro eR (runSolver orc rand o) (runSolver orc rand (er lg o)).
Proof. apply l_fuel. Qed.

Lemma l_fail lg r (o : lcqp T) : ro eR (fail_msg r o) (fail_msg r (er lg o)).
Proof. split; reflexivity. Qed.
Lemma l_setQ lg b (o : lcqp T) : ro eR (setQ b o) (setQ b (er lg o)).
Proof. unfold setQ. repeat life_step. Qed.
Lemma l_setQ_csc lg b (o : lcqp T) : ro eR (setQ_csc b o) (setQ_csc b (er lg o)).
Proof. unfold setQ_csc. repeat life_step. Qed.
Lemma l_setG lg b (o : lcqp T) : ro eR (setG b o) (setG b (er lg o)).
Proof. unfold setG. repeat life_step. Qed.
Lemma l_box lg lb ub (o : lcqp T) : ro eO (copy_box lb ub o) (copy_box lb ub (er lg o)).
Proof.
  unfold copy_box. life_step. eapply ro_bind with (P := eO); [repeat life_step | intros o1 ? ?; life_split]. repeat life_step.
Qed.
Lemma l_cons lg L R A lbA ubA (o : lcqp T) : ro eR (setConstraints L R A lbA ubA o) (setConstraints L R A lbA ubA (er lg o)).
Proof. unfold setConstraints. cbv zeta. repeat life_step. Qed.
Lemma l_cons_csc lg L R A lbA ubA (o : lcqp T) : ro eR (setConstraints_csc L R A lbA ubA o) (setConstraints_csc L R A lbA ubA (er lg o)).
Proof. unfold setConstraints_csc. cbv zeta. repeat life_step. Qed.
Lemma l_cb lg a b c d (o : lcqp T) : ro eR (setComplementarityBounds a b c d o) (setComplementarityBounds a b c d (er lg o)).
Proof. unfold setComplementarityBounds. cbv zeta. repeat life_step. Qed.
Lemma l_guess lg a b (o : lcqp T) : ro eR (setInitialGuess a b o) (setInitialGuess a b (er lg o)).
Proof. unfold setInitialGuess. repeat life_step. Qed.

Lemma l_load lg Q g L R lbL ubL lbR ubR A lbA ubA lb ub x0 y0 (o : lcqp T) :
  ro eR (loadLCQP Q g L R lbL ubL lbR ubR A lbA ubA lb ub x0 y0 o) (loadLCQP Q g L R lbL ubL lbR ubR A lbA ubA lb ub x0 y0 (er lg o)).
Proof.
  unfold loadLCQP. life_step. life_step; [apply l_fail|]. life_step. life_step; [apply l_fail|].
  apply l_then; [apply l_setQ | intros lg1 o1]. apply l_then; [apply l_setG | intros lg2 o2].
  eapply ro_bind; [apply l_box | intros o3 ? ?; life_split].
  apply l_then; [apply l_cons | intros lg4 o4]. apply l_then; [apply l_cb | intros lg5 o5]. apply l_then; [apply l_guess | intros lg6 o6]. split; reflexivity.
Qed.
Lemma l_load_csc lg Q g L R lbL ubL lbR ubR A lbA ubA lb ub x0 y0 (o : lcqp T) :
  ro eR (loadLCQP_csc Q g L R lbL ubL lbR ubR A lbA ubA lb ub x0 y0 o) (loadLCQP_csc Q g L R lbL ubL lbR ubR A lbA ubA lb ub x0 y0 (er lg o)).
Proof.
  unfold loadLCQP_csc.
  apply l_then; [apply l_setQ_csc | intros lg1 o1]. apply l_then; [apply l_setG | intros lg2 o2].
  apply l_then; [apply l_cons_csc | intros lg4 o4]. apply l_then; [apply l_cb | intros lg5 o5]. apply l_then; [apply l_guess | intros lg6 o6].
  eapply ro_bind; [apply l_box | intros o3 ? ?; life_split]. split; reflexivity.
Qed.
Lemma l_read lg n f (o : lcqp T) k k' : (forall p, ro eR (k p) (k' p)) -> ro eR (read_file n f o k) (read_file n f (er lg o) k').
Proof.
  intros K. unfold read_file. life_step. life_step. life_step. life_step; [apply K | apply l_fail].
Qed.
Lemma l_ropt lg n f (o : lcqp T) k k' : (forall p, ro eR (k p) (k' p)) -> ro eR (read_opt_file n f o k) (read_opt_file n f (er lg o) k').
Proof. intros K. unfold read_opt_file. destruct f; [apply l_read|]; auto. Qed.
Lemma l_load_files lg Q g L R lbL ubL lbR ubR A lbA ubA lb ub x0 y0 (o : lcqp T) :
  ro eR (loadLCQP_files Q g L R lbL ubL lbR ubR A lbA ubA lb ub x0 y0 o) (loadLCQP_files Q g L R lbL ubL lbR ubR A lbA ubA lb ub x0 y0 (er lg o)).
Proof.
  unfold loadLCQP_files. do 3 life_step.
  do 4 (apply l_read; intros ?). do 11 (apply l_ropt; intros ?).
  apply l_then; [apply l_setQ | intros lg1 o1]. apply l_then; [apply l_setG | intros lg2 o2].
  eapply ro_bind; [apply l_box | intros o3 ? ?; life_split].
  apply l_then; [apply l_cons | intros lg4 o4]. apply l_then; [apply l_cb | intros lg5 o5]. apply l_then; [apply l_guess | intros lg6 o6]. split; reflexivity.
Qed.
Lemma l_to_sparse lg (o : lcqp T) : ro eR (switchToSparseMode o) (switchToSparseMode (er lg o)).
Proof. unfold switchToSparseMode. cbv zeta. repeat life_step. Qed.
Lemma l_to_dense lg (o : lcqp T) : ro eR (switchToDenseMode o) (switchToDenseMode (er lg o)).
Proof. unfold switchToDenseMode. cbv zeta. repeat life_step. Qed.

(** ** Sequences of calls *)
Lemma l_perform lg c (o : lcqp T) : ro eR (perform orc rand c o) (perform orc rand (silent_call c) (er lg o)).
Proof.
  destruct c; cbn [perform silent_call]; [split; reflexivity | apply l_load | apply l_load_csc | apply l_load_files | apply l_to_sparse | apply l_to_dense | apply l_run].
Qed.
Lemma l_all l : forall lg (o : lcqp T),
  ro (fun a b => fst b = fst a /\ eO (snd a) (snd b)) (perform_all orc rand l o) (perform_all orc rand (map silent_call l) (er lg o)).
Proof.
  induction l as [|c l IH]; intros lg o; cbn [perform_all map]; [split; reflexivity|].
  eapply ro_bind; [apply l_perform | intros [r o1] [? ?] [e1 e2]; cbn [fst snd] in *; subst; life_split].
  eapply ro_bind; [apply IH | intros [rs o2] [? ?] [e1 e2]; cbn [fst snd] in *; subst; life_split]. split; reflexivity.
Qed.

Lemma silent_same a b : same_work a b -> silent a = silent (T := T) b.
Proof.
  unfold same_work, silent. intros (-> & -> & -> & -> & -> & -> & -> & -> & -> & -> & ->). reflexivity.
Qed.
Lemma silent_calls l l' : Forall2 same_call l l' -> map silent_call l = map (silent_call (T := T)) l'.
Proof.
  induction 1 as [|a b l l' C _ IH]; [reflexivity|]. cbn [map]. rewrite IH. f_equal.
  destruct a, b; try discriminate C; try exact (f_equal _ C). cbn [silent_call]. f_equal. apply silent_same, C.
Qed.
Lemma er_results lg lg' (a b : lcqp T) : er lg a = er lg' b -> same_results a b.
Proof.
  intros E.
  assert (EI : erI lg (it a) = erI lg' (it b)) by exact (f_equal (@it T) E).
  assert (ED : erD (pd a) = erD (pd b)) by exact (f_equal (@pd T) E).
  assert (Ex : s_xk (it a) = s_xk (it b)) by exact (f_equal (@s_xk T) EI).
  assert (Ey : s_yk (it a) = s_yk (it b)) by exact (f_equal (@s_yk T) EI).
  assert (Ea : s_algoStat (it a) = s_algoStat (it b)) by exact (f_equal (@s_algoStat T) EI).
  assert (En : d_nV (pd a) = d_nV (pd b)) by exact (f_equal (@d_nV T) ED).
  assert (Ed : d_nDuals (pd a) = d_nDuals (pd b)) by exact (f_equal (@d_nDuals T) ED).
  split; [|split; [|split; [|split; [|split]]]].
  - intros buf. unfold getPrimalSolution. rewrite Ex, Ea, En. reflexivity.
  - intros buf. unfold getDualSolution. rewrite Ey, Ea, Ed. reflexivity.
  - unfold getNumberOfPrimals. rewrite En. reflexivity.
  - unfold getNumberOfDuals. rewrite Ed. reflexivity.
  - exact (f_equal (fun s => summary (s_stats s)) EI).
  - exact (f_equal (@s_calls T) EI).
Qed.

Lemma p_C66 l l' (o a b : lcqp T) rs rs' : Forall2 same_call l l' ->
  perform_all orc rand l o = Ok (rs, a) -> perform_all orc rand l' o = Ok (rs', b) -> rs = rs' /\ same_results a b.
Proof.
  intros C E E'. pose proof (l_all l [] o) as P. pose proof (l_all l' [] o) as P'. rewrite <- (silent_calls _ _ C) in P'.
  rewrite E in P. rewrite E' in P'. simpl in P, P'. destruct (perform_all orc rand (map silent_call l) (er [] o)) as [[rs0 o0]|]; [|contradiction].
  cbn [fst snd] in P, P'. destruct P as [P1 P2], P' as [Q1 Q2]. split; [congruence|].
  red in P2, Q2. eapply er_results. rewrite <- P2. exact Q2.
Qed.

(** Switching off output never hurts *)
Lemma p_C66_silent nV nC nComp l (o a : lcqp T) rs : LCQProblem_ctor nV nC nComp = Ok o -> perform_all orc rand l o = Ok (rs, a) ->
  exists b, perform_all orc rand (KOptions (silent setToDefault) :: map silent_call l) o = Ok (SUCCESSFUL_RETURN :: rs, b) /\ same_results a b.
Proof.
  intros C E.
  assert (S : setOptions (silent setToDefault) o = er (s_log (it o)) o).
  { unfold LCQProblem_ctor in C. inv_ok; reflexivity. }
  cbn [perform_all perform bind]. rewrite S. pose proof (l_all l (s_log (it o)) o) as P. rewrite E in P. simpl in P.
  destruct (perform_all orc rand (map silent_call l) (er (s_log (it o)) o)) as [[rs0 o0]|]; [|contradiction].
  cbn [fst snd bind] in *. destruct P as [-> P]. exists o0. split; [reflexivity|]. red in P.
  destruct (eO_inv _ _ P) as [lg ->].
  split; [|split; [|split; [|split; [|split]]]]; reflexivity.
Qed.
End Facts.
