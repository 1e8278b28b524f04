(** * ReuseFacts: an invariant of all dense call histories, and its consequences (no LCQPow code). *)
From Verif Require Import Base Arith Codes Utilities Options Stats FileIO Subsolver State LCQProblem Tactics Loops Kernels PureFacts SpecSparse CscKernels CscBuild SpecLoad LoadLoops LoadDense LoadSparse Pure PureShift Refine StartDense Safety SpecReuse Frames Control RunControl RunProps SpecApi ApiFacts SparseAgain Reuse.

Section ReuseFacts.
Context {T : Type} `{Arith T}.

(** With the dynamic check switched off the history is not touched *)
Lemma run_hist {K} (p : ops T K) fuel orc rand y0 v r v' : p_solver p <> OSQP_SPARSE -> o_nDynamicPenalty (p_opt p) = 0 ->
  v_run p fuel orc rand y0 v = Ok (r, v') -> v_hist v' = v_hist v.
Proof.
  intros Hs Hn E. set (h := v_hist v).
  assert (Hk : Some h <> None -> o_nDynamicPenalty (p_opt p) = 0) by auto.
  set (S := @sh T K [] O (v_work v) (Some h)).
  assert (ES : forall a, v_hist a = h -> v_work a = v_work v -> a = S a).
  { intros a E1 E2. unfold S, sh. destruct a. cbn in *. subst. unfold w_hist, w_work, w_rnd, w_calls. cbn. rewrite app_nil_r, Nat.add_0_r. reflexivity. }
  assert (EH : forall a, v_hist (S a) = h) by reflexivity. assert (EW : forall a, v_work (S a) = v_work v) by reflexivity.
  unfold v_run, v_first in E. apply bind_ok in E. destruct E as ([v1 e] & E1 & E). apply bind_ok in E1. destruct E1 as ([r2 v2] & E2 & E1).
  match type of E2 with v_solve _ _ _ _ ?z = _ => set (v0 := z) in E2; assert (E0 : v0 = S v0) by (apply ES; unfold v0; destruct (o_solveZeroPenaltyFirst _); reflexivity) end.
  rewrite E0 in E2. unfold S in E2. rewrite (sh_solve p orc [] 0 (v_work v) (Some h) Hk Hs) in E2. fold S in E2.
  destruct (v_solve p (orc1 orc []) true y0 v0) as [[r3 v3]|]; [|discriminate]. injection E2 as -> <-. clear E0 v0.
  destruct (negb (is_success r2)).
  - injection E1 as <- <-. injection E as _ <-. apply EH.
  - injection E1 as <- <-.
    match type of E with v_loop _ _ _ _ ?z = _ => assert (E0 : z = S z) by (apply ES; reflexivity); rewrite E0 in E end.
    unfold S in E at 1. rewrite (sh_loop p orc rand [] 0 (v_work v) (Some h) Hk Hs) in E. fold S in E.
    match type of E with mapr _ ?z = _ => destruct z as [[r4 v4]|]; [|discriminate] end. injection E as _ <-. apply EH.
Qed.

(** The QPs of a run differ in the linear term and the guess only *)
Lemma run_new_calls {K} (p : ops T K) fuel orc rand y0 v r v' : v_run p fuel orc rand y0 v = Ok (r, v') ->
  exists l, l <> [] /\ v_calls v' = l ++ v_calls v /\ forall c, In c l -> exists b x y g, c = v_call p b x y g.
Proof.
  set (P := fun u : vst T K => exists l, l <> [] /\ v_calls u = l ++ v_calls v /\ forall c, In c l -> exists b x y g, c = v_call p b x y g).
  assert (F0 : forall w e, v_first p orc y0 v = Ok (w, e) -> P w).
  { intros w e E. unfold v_first in E. apply bind_ok in E. destruct E as ([r1 w1] & E1 & E). apply solve_calls in E1.
    assert (P1 : P w1).
    { destruct (o_solveZeroPenaltyFirst _); (eexists [_]; split; [discriminate|]; split; [rewrite E1; reflexivity|]; intros c [<-|[]]; do 4 eexists; reflexivity). }
    destruct (negb _); injection E as <- _; exact P1. }
  assert (F1 : forall w w' e, P w -> v_pass p orc rand w = Ok (w', e) -> P w').
  { intros w w' e (l & L1 & L2 & L3) E. apply pass_calls in E. destruct E as [E|(x & g & E)].
    - exists l. rewrite E. auto.
    - eexists (_ :: l). split; [discriminate|]. rewrite E, L2. split; [reflexivity|]. intros c [<-|Hc]; [do 4 eexists; reflexivity|auto]. }
  intros E. apply (PureFacts.run_inv p orc rand y0 v P (fun _ => P)) in E; eauto.
Qed.

(** Invariant of an object built for the sizes of [v].  No LCQPow code. *)
Record inv (v : uvec T) (h : list (use T)) (o : lcqp T) : Prop := mkInv {
  i_dims : dims v (pd o);
  i_sp : d_sparseSolver (pd o) = sparse_now h;
  i_sized : sized (u_nV v) (u_nA v) (it o);
  i_y : yroom (u_nV v + u_nA v) (it o);
  i_x : last_load h <> None -> exists x, vec (u_nV v) (s_xk (it o)) x;
  i_Q : last_load h = None -> sparse_now h = false -> d_Q (pd o) = None;
  i_idx : s_Qk_indices_of_C (it o) = [];
  i_bounds : exists lL lR lb ub,
    (fits (u_nComp v) lL /\ fits (u_nComp v) lR /\ fits (u_nV v) lb /\ fits (u_nV v) ub) /\
    (d_lbL (pd o) = ptr_of lL /\ d_lbR (pd o) = ptr_of lR /\ d_lb_tmp (pd o) = ptr_of lb /\ d_ub_tmp (pd o) = ptr_of ub) /\
    (lL = None -> lR = None -> d_g_phi (pd o) = None /\ d_phi_const (pd o) = a_zero) /\
    (forall u, last_load h = Some u -> wf_dense u /\ u_nV (ud_v u) = u_nV v /\ u_nC (ud_v u) = u_nC v /\ u_nComp (ud_v u) = u_nComp v /\
      (u_lbL (ud_v u) <> None -> lL = u_lbL (ud_v u)) /\ (u_lbR (ud_v u) <> None -> lR = u_lbR (ud_v u)) /\ kept u lL lR lb ub (pd o)) /\
    ((forall c, In c h -> given u_lbL c = None) -> lL = None) /\
    ((forall c, In c h -> given u_lbR c = None) -> lR = None) /\
    lb = latest u_lb (since_run h) /\ ub = latest u_ub (since_run h);
  i_hist : (forall opt, In (URun opt) h -> o_nDynamicPenalty opt = 0) -> s_complHistory (it o) = [] }.

(** The newer of two optional vectors.  No LCQPow code. *)
Definition newer (a b : option (list T)) : option (list T) := match a with Some l => Some l | None => b end.
Lemma keep_newer a b : keep a (ptr_of b) = ptr_of (newer a b).
Proof. destruct a; reflexivity. Qed.
Lemma fits_newer n a b : fits n a -> fits n b -> fits n (newer a b).
Proof. destruct a; auto. Qed.

Lemma sized_guessed nV nA v s : sized nV nA s -> sized nV nA (guessed v s).
Proof. intros []. constructor; assumption. Qed.

Lemma load_kept u lL lR lb ub (o : lcqp T) : dims (ud_v u) (pd o) -> d_lbL (pd o) = ptr_of lL -> d_lbR (pd o) = ptr_of lR ->
  d_lb_tmp (pd o) = ptr_of lb -> d_ub_tmp (pd o) = ptr_of ub -> (lL = None -> lR = None -> d_g_phi (pd o) = None /\ d_phi_const (pd o) = a_zero) ->
  kept u (newer (u_lbL (ud_v u)) lL) (newer (u_lbR (ud_v u)) lR) (newer (u_lb (ud_v u)) lb) (newer (u_ub (ud_v u)) ub) (pd (loaded_dense u o)).
Proof.
  intros D E1 E2 E3 E4 E5. constructor; try reflexivity.
  - exact D.
  - change (keep (u_lbL (ud_v u)) (d_lbL (pd o)) = ptr_of (newer (u_lbL (ud_v u)) lL)). rewrite E1. apply keep_newer.
  - change (keep (u_lbR (ud_v u)) (d_lbR (pd o)) = ptr_of (newer (u_lbR (ud_v u)) lR)). rewrite E2. apply keep_newer.
  - change (keep (u_lb (ud_v u)) (d_lb_tmp (pd o)) = ptr_of (newer (u_lb (ud_v u)) lb)). rewrite E3. apply keep_newer.
  - change (keep (u_ub (ud_v u)) (d_ub_tmp (pd o)) = ptr_of (newer (u_ub (ud_v u)) ub)). rewrite E4. apply keep_newer.
  - change (newer (u_lbL (ud_v u)) lL = None -> newer (u_lbR (ud_v u)) lR = None -> d_g_phi (pd o) = None /\ d_phi_const (pd o) = a_zero).
    destruct (u_lbL (ud_v u)); [discriminate|]. destruct (u_lbR (ud_v u)); [discriminate|]. exact E5.
Qed.

Lemma inv_new v o : wf_vec v -> LCQProblem_ctor (u_nV v) (u_nC v) (u_nComp v) = Ok o -> inv v [] o.
Proof.
  intros V E. pose proof (new_object_ok v (d_options (pd o)) V) as N. unfold new_object in N. rewrite E in N. cbn [bind] in N.
  assert (Eo : setOptions (d_options (pd o)) o = o) by (destruct o as [[] ?]; reflexivity).
  rewrite Eo in N. injection N as N. rewrite N. generalize (d_options (pd o)) as opt. clear E Eo N o. intros opt.
  pose proof (wv_nV _ V). pose proof (wv_nC _ V). pose proof (wv_nComp _ V).
  assert (Lz : forall n, 0 <= n -> len (tab n (fun _ => @a_zero T _)) = n) by (intros; apply len_tab; auto).
  constructor.
  - apply fresh_dims.
  - reflexivity.
  - constructor; try (eexists; split; [reflexivity|rewrite ?len_lift; apply Lz; unfold u_nA; nia]).
  - exact Logic.I.
  - intros C. destruct C. reflexivity.
  - reflexivity.
  - reflexivity.
  - exists None, None, None, None. split; [repeat split|]. split; [repeat split|]. split; [repeat split|]. split; [discriminate|]. repeat split.
  - reflexivity.
Qed.

Lemma inv_options v h o opt : inv v h o -> inv v (UOptions opt :: h) (setOptions opt o).
Proof.
  intros [D S Z Y X Q IX (lL & lR & lb & ub & F & B & P & L & C1 & C2 & C3 & C4) I]. constructor; try assumption.
  - exists lL, lR, lb, ub. split; [exact F|]. split; [exact B|]. split; [exact P|]. split.
    + intros u E. destruct (L u E) as (W & N1 & N2 & N3 & G1 & G2 & K). split; [exact W|]. repeat (split; [assumption|]). destruct K. constructor; assumption.
    + split; [intros A; apply C1; intros w Hw; apply A; right; exact Hw|].
      split; [intros A; apply C2; intros w Hw; apply A; right; exact Hw|].
      split; [exact C3|exact C4].
  - intros A. apply I. intros o' Ho. apply A. right. exact Ho.
Qed.

Lemma dims_eq (v v' : uvec T) d : u_nV v' = u_nV v -> u_nC v' = u_nC v -> u_nComp v' = u_nComp v -> dims v d -> dims v' d.
Proof. unfold dims. intros -> -> ->. auto. Qed.

Lemma inv_load v h o u o' : inv v h o -> wf_dense u -> u_nV (ud_v u) = u_nV v -> u_nC (ud_v u) = u_nC v -> u_nComp (ud_v u) = u_nComp v ->
  load_dense u o = Ok (SUCCESSFUL_RETURN, o') -> inv v (ULoad u :: h) o' /\ o' = loaded_dense u o.
Proof.
  intros [D S Z Y X Q IX (lL & lR & lb & ub & F & B & P & L & C1 & C2 & C3 & C4) I] W N1 N2 N3 E.
  assert (D' : dims (ud_v u) (pd o)) by (eapply dims_eq; eauto).
  destruct (fin_lower_dec (ud_v u)) as [Fi|Fi]; [|destruct (load_dense_bad u o W D' Fi) as (o2 & E2); rewrite E2 in E; discriminate].
  rewrite load_dense_ok in E by auto. injection E as <-. split; [|reflexivity].
  destruct F as (F1 & F2 & F3 & F4), B as (B1 & B2 & B3 & B4).
  pose proof (load_kept u lL lR lb ub o D' B1 B2 B3 B4 P) as K. pose proof (wu_v _ W) as V.
  constructor.
  - exact D.
  - reflexivity.
  - apply sized_guessed. exact Z.
  - unfold yroom. change (s_yk (it (loaded_dense u o))) with (ptr_of (u_y0 (ud_v u))). pose proof (wv_y0 _ V) as Fy.
    destruct (u_y0 (ud_v u)); cbn [ptr_of fits] in *; [|exact Logic.I]. rewrite len_lift, Fy. unfold u_nA. rewrite N1, N2, N3. lia.
  - intros _. eexists. split; [reflexivity|]. rewrite <- N1. apply len_bnd; [pose proof (wv_nV _ V); lia|apply V].
  - discriminate.
  - exact IX.
  - exists (newer (u_lbL (ud_v u)) lL), (newer (u_lbR (ud_v u)) lR), (newer (u_lb (ud_v u)) lb), (newer (u_ub (ud_v u)) ub). split; [|split; [|split; [|split; [intros u' Eu; injection Eu as <-; split; [exact W|]; do 3 (split; [assumption|]); (split; [|split; [|exact K]])|]]]].
    + split; [|split; [|split]]; apply fits_newer; auto; rewrite <- ?N1, <- ?N3; apply V.
    + split; [exact (k_lbL _ _ _ _ _ _ K)|]. split; [exact (k_lbR _ _ _ _ _ _ K)|]. split; [exact (k_lbt _ _ _ _ _ _ K)|exact (k_ubt _ _ _ _ _ _ K)].
    + exact (k_phi _ _ _ _ _ _ K).
    + destruct (u_lbL (ud_v u)); cbn [newer]; congruence.
    + destruct (u_lbR (ud_v u)); cbn [newer]; congruence.
    + assert (A : forall f x (h' : list (use T)), ((forall c, In c h' -> given f c = None) -> x = None) ->
         (forall c, In c (ULoad u :: h') -> given f c = None) -> newer (f (ud_v u)) x = None).
      { intros f x h' A1 A2. change (f (ud_v u)) with (given f (ULoad u)). rewrite (A2 (ULoad u)) by (left; reflexivity). apply A1. intros w Hw. apply A2. right. exact Hw. }
      split; [apply (A u_lbL _ h C1)|]. split; [apply (A u_lbR _ h C2)|]. subst lb ub. split; reflexivity.
  - intros A. apply I. intros o' Ho. apply A. right. exact Ho.
Qed.

Lemma inv_sparse v h o u o' : inv v h o -> wf_sparse u -> u_nV (us_v u) = u_nV v -> u_nC (us_v u) = u_nC v -> u_nComp (us_v u) = u_nComp v ->
  load_sparse u o = Ok (SUCCESSFUL_RETURN, o') -> inv v (USparse u :: h) o' /\ o' = loaded_sparse u o /\ fin_lower (us_v u) /\ concat (us_C u) <> [].
Proof.
  intros [D S Z Y X Q IX (lL & lR & lb & ub & F & B & P & L & C1 & C2 & C3 & C4) I] W N1 N2 N3 E.
  assert (D' : dims (us_v u) (pd o)) by (eapply dims_eq; eauto).
  assert (NZ : concat (us_C u) <> []) by (intros C; destruct (load_sparse_zero u o W D' C) as (o2 & E2); rewrite E2 in E; discriminate).
  destruct (fin_lower_dec (us_v u)) as [Fi|Fi]; [|destruct (load_sparse_bad u o W D' Fi NZ) as (o2 & E2); rewrite E2 in E; discriminate].
  rewrite load_sparse_ok in E by auto. injection E as <-. split; [|split; [reflexivity|split; assumption]].
  destruct F as (F1 & F2 & F3 & F4), B as (B1 & B2 & B3 & B4). pose proof (ws_v _ W) as V.
  constructor.
  - exact D.
  - reflexivity.
  - apply sized_guessed. exact Z.
  - unfold yroom. change (s_yk (it (loaded_sparse u o))) with (ptr_of (u_y0 (us_v u))). pose proof (wv_y0 _ V) as Fy.
    destruct (u_y0 (us_v u)); cbn [ptr_of fits] in *; [|exact Logic.I]. rewrite len_lift, Fy. unfold u_nA. rewrite N1, N2, N3. lia.
  - intros C. destruct C. reflexivity.
  - discriminate.
  - exact IX.
  - exists (newer (u_lbL (us_v u)) lL), (newer (u_lbR (us_v u)) lR), (newer (u_lb (us_v u)) lb), (newer (u_ub (us_v u)) ub). split; [|split; [|split; [|split; [discriminate|]]]].
    + split; [|split; [|split]]; apply fits_newer; auto; rewrite <- ?N1, <- ?N3; apply V.
    + split; [|split; [|split]].
      * change (keep (u_lbL (us_v u)) (d_lbL (pd o)) = ptr_of (newer (u_lbL (us_v u)) lL)). rewrite B1. apply keep_newer.
      * change (keep (u_lbR (us_v u)) (d_lbR (pd o)) = ptr_of (newer (u_lbR (us_v u)) lR)). rewrite B2. apply keep_newer.
      * change (keep (u_lb (us_v u)) (d_lb_tmp (pd o)) = ptr_of (newer (u_lb (us_v u)) lb)). rewrite B3. apply keep_newer.
      * change (keep (u_ub (us_v u)) (d_ub_tmp (pd o)) = ptr_of (newer (u_ub (us_v u)) ub)). rewrite B4. apply keep_newer.
    + change (newer (u_lbL (us_v u)) lL = None -> newer (u_lbR (us_v u)) lR = None -> d_g_phi (pd o) = None /\ d_phi_const (pd o) = a_zero).
      destruct (u_lbL (us_v u)); [discriminate|]. destruct (u_lbR (us_v u)); [discriminate|]. exact P.
    + assert (A : forall f x (h' : list (use T)), ((forall c, In c h' -> given f c = None) -> x = None) ->
         (forall c, In c (USparse u :: h') -> given f c = None) -> newer (f (us_v u)) x = None).
      { intros f x h' A1 A2. change (f (us_v u)) with (given f (USparse u)). rewrite (A2 (USparse u)) by (left; reflexivity). apply A1. intros w Hw. apply A2. right. exact Hw. }
      split; [apply (A u_lbL _ h C1)|]. split; [apply (A u_lbR _ h C2)|]. subst lb ub. split; reflexivity.
  - intros A. apply I. intros o' Ho. apply A. right. exact Ho.
Qed.

Lemma start_unloaded v (d : pdata T) s lb ub : wf_vec v -> dims v d -> d_sparseSolver d = false -> d_Q d = None ->
  d_lb_tmp d = ptr_of lb -> d_ub_tmp d = ptr_of ub -> fits (u_nV v) lb -> fits (u_nV v) ub ->
  o_qpSolver (d_options d) = QPOASES_DENSE -> exists x, initializeSolver (mkLcqp d s) = UB x.
Proof.
  intros V (E1 & E2 & E3) Sp EQ El Eu Fl Fu Hq. pose proof (wv_nV _ V). pose proof (wv_nC _ V). pose proof (wv_nComp _ V). pose proof (wv_int _ V).
  pose proof (wv_sq _ V). pose proof (wv_rect _ V) as HR. unfold u_nA in HR.
  unfold initializeSolver, and_then_quiet at 1. unfold init_subsolver. cbn [pd it]. rewrite Hq, E1, E2, E3. cbn [get bind].
  match goal with |- context [d_sparseSolver ?z] => replace (d_sparseSolver z) with false by (symmetry; exact Sp) end. cbn match.
  unfold and_then_quiet at 1. unfold setLB. cbn [pd].
  match goal with |- context [d_nV ?z] => replace (d_nV z) with (Some (u_nV v)) by (symmetry; exact E1) end. cbn [get bind]. replace (u_nV v =? 0) with false by lia.
  match goal with |- context [d_lb_tmp ?z] => replace (d_lb_tmp z) with (ptr_of lb) by (symmetry; exact El) end.
  rewrite box_vec_ok by (auto; lia). cbn [bind is_success].
  unfold and_then_quiet. unfold setUB. cbn [pd].
  match goal with |- context [d_nV ?z] => replace (d_nV z) with (Some (u_nV v)) by (symmetry; exact E1) end. cbn [get bind]. replace (u_nV v =? 0) with false by lia.
  match goal with |- context [d_ub_tmp ?z] => replace (d_ub_tmp z) with (ptr_of ub) by (symmetry; exact Eu) end.
  rewrite box_vec_ok by (auto; lia). cbn [bind is_success].
  match goal with |- context [Subsolver_dense _ _ ?q ?a] => replace q with (@None (arr T)) by (symmetry; exact EQ) end.
  unfold Subsolver_dense. rewrite alloc_ok by nia. cbn [bind]. destruct (alloc _); cbn [bind]; [|eexists; reflexivity].
  unfold memcpy_ptr. destruct (Z.eqb_spec (u_nV v * u_nV v) 0); [nia|]. cbn [deref bind]. eexists. reflexivity.
Qed.

Lemma relB_sized {K} (p : ops T K) s x nV nA : relB p s x -> p_nV p = nV -> p_nA p = nA -> room (nV * nV) (s_Qk s) -> sized nV nA s.
Proof. intros [] <- <- R. constructor; eauto. Qed.


(** A run of an object whose invariant holds: with the dense solver it is a run of [Pure], otherwise it is refused *)
Lemma run_idx orc rand (o : lcqp T) r o' : runSolver orc rand o = Ok (r, o') -> d_sparseSolver (pd o) = false -> s_Qk_indices_of_C (it o') = s_Qk_indices_of_C (it o).
Proof.
  intros E M. apply RunControl.run_inv in E. inversion E as [r1 o1 E1 F1|r1 o1 s1 E1 E2|r1 o1 s1 s2 E1 E2 E3]; subst; clear E.
  - apply initializeSolver_ok in E1. destruct E1 as [(C & _)|(_ & a & b & c & e & f & y & ->)]; [congruence|]. reflexivity.
  - apply initializeSolver_ok in E1. destruct E1 as [(_ & _ & a & b & c & e & f & g1 & g2 & y & gt & l & ->)|(C & _)]; [|discriminate]. cbn [pd it] in *.
    apply first_solve_inv in E2. inversion E2 as [g s2 r2 Eq Fq|]; subst. apply solveQPSubproblem_effect in Eq. destruct Eq. cbn in qe_idx. exact qe_idx.
  - apply initializeSolver_ok in E1. destruct E1 as [(_ & _ & a & b & c & e & f & g1 & g2 & y & gt & l & ->)|(C & _)]; [|discriminate]. cbn [pd it] in *.
    match type of E2 with first_solve orc ?D _ = _ => set (dd := D) in * end. assert (D1 : d_sparseSolver dd = d_sparseSolver (pd o)) by reflexivity. clearbody dd.
    apply first_solve_inv in E2. inversion E2 as [|g s3 s4 Eq Es]; subst. apply solveQPSubproblem_effect in Eq. destruct Eq. cbn in qe_idx. rewrite (loop_idx _ _ _ _ _ _ _ E3). cbn [set_stats s_Qk_indices_of_C] in *.
    unfold setQk in Es. apply bind_ok in Es. destruct Es as (n & En & Es). rewrite D1, M in Es.
    do 4 (apply bind_ok in Es; destruct Es as (? & _ & Es)). injection Es as <-. cbn [set_Qk s_Qk_indices_of_C]. exact qe_idx.
Qed.

Lemma inv_run v h o orc rand r o' : wf_vec v -> inv v h o -> sparse_now h = false -> runSolver orc rand o = Ok (r, o') -> inv v (URun (d_options (pd o)) :: h) o' /\
  (r = SUCCESSFUL_RETURN -> o_qpSolver (d_options (pd o)) = QPOASES_DENSE ->
     exists x y, vec (u_nV v) (s_xk (it o')) x /\ vec (u_nV v + u_nA v) (s_yk (it o')) y /\ d_nDuals (pd o') = Some (u_nV v + u_nA v)) /\
  (o_qpSolver (d_options (pd o)) = QPOASES_DENSE -> exists u l, last_load h = Some u /\ l <> [] /\ s_calls (it o') = l ++ s_calls (it o) /\
     forall c, In c l -> qp_of u (latest u_lb (since_run h)) (latest u_ub (since_run h)) c).
Proof.
  intros V [D S Z Y X Q IX (lL & lR & lb & ub & F & B & P & L & C1 & C2 & C3 & C4) I] SN E.
  rewrite SN in S. pose proof (run_idx _ _ _ _ _ E S) as IX'. rewrite IX in IX'.
  destruct F as (F1 & F2 & F3 & F4), B as (B1 & B2 & B3 & B4). destruct o as [d s]. cbn [pd it] in *.
  destruct (o_qpSolver (d_options d)) eqn:Hq.
  - (* dense *)
    destruct (last_load h) as [u|] eqn:EL.
    2:{ exfalso. destruct (start_unloaded v d s lb ub V D S (Q eq_refl SN) B3 B4 F3 F4 Hq) as (x & Ex).
        unfold runSolver, runSolver_fuel in E. rewrite Ex in E. discriminate. }
    destruct (L u eq_refl) as (W & N1 & N2 & N3 & G1 & G2 & K). rewrite <- N3 in F1, F2. rewrite <- N1 in F3, F4.
    assert (NA : u_nA (ud_v u) = u_nA v) by (unfold u_nA; congruence).
    assert (Dec : (lL = None <-> lR = None) \/ ~ (lL = None <-> lR = None)).
    { destruct lL, lR; [left; split; discriminate|right; intros [_ X0]; discriminate (X0 eq_refl)|right; intros [X0 _]; discriminate (X0 eq_refl)|left; split; reflexivity]. }
    destruct Dec as [Pa|Pa].
    2:{ exfalso. unfold runSolver, runSolver_fuel in E. rewrite (start_unpaired u lL lR lb ub d W F1 F2 F3 F4 K s Hq Pa) in E. discriminate. }
    destruct (X ltac:(discriminate)) as (x & Ex).
    assert (Ey : exists y0, s_yk s = ptr_of y0 /\ fits (u_nV v + u_nA v) y0).
    { unfold yroom in Y. destruct (s_yk s) as [a|] eqn:Ea; [|exists None; split; [reflexivity|exact Logic.I]].
      rewrite <- N1, <- NA in Y. destruct (run_reads_yk u lL lR lb ub d W F1 F2 F3 F4 K orc rand s r o' a Hq Pa E Ea Y) as (l & -> & Ll).
      exists (Some l). split; [reflexivity|]. cbn. congruence. }
    destruct Ey as (y0 & Ey & Fy). destruct (z_gk _ _ _ Z) as (gk & Egk), (z_yA _ _ _ Z) as (yA & EyA), (z_pk _ _ _ Z) as (pk & Epk), (z_st _ _ _ Z) as (st & Est).
    rewrite <- N1 in Egk, Epk, Est, Ex, Fy, Z. rewrite <- NA in EyA, Fy, Z.
    pose proof (run_kept u lL lR lb ub d W F1 F2 F3 F4 K orc rand x y0 gk yA pk st s Hq Pa Egk EyA Epk Est Z Ex Ey Fy) as R.
    rewrite E in R. cbn [sim] in R.
    match type of R with match ?z with _ => _ end => destruct z as [[r' v']|] eqn:EV; [|contradiction] end.
    destruct R as (Ed & (_ & RB & RS) & RQ & RY). cbn [fst snd] in *.
    set (w := with_bounds (ud_v u) lL lR lb ub) in *.
    split; [constructor|split].
    + rewrite Ed. exact D.
    + rewrite Ed. cbn [sparse_now]. rewrite SN. exact S.
    + rewrite <- N1, <- NA. eapply relB_sized; [exact RB|reflexivity|reflexivity|exact RQ].
    + rewrite <- N1, <- NA. exact RY.
    + intros _. exists (v_x v'). rewrite <- N1. exact (rb_x _ _ _ RB).
    + rewrite Ed. cbn [last_load]. rewrite EL. discriminate.
    + exact IX'.
    + exists lL, lR, None, None. rewrite Ed.
      assert (P' : lL = None -> lR = None -> d_g_phi (dR u w d) = None /\ d_phi_const (dR u w d) = a_zero).
      { intros -> ->. split; reflexivity. }
      split; [rewrite <- N3; repeat split; auto|]. split; [repeat split; auto|]. split; [exact P'|]. split.
      * cbn [last_load]. rewrite EL. intros u' Eu. injection Eu as <-. split; [exact W|]. repeat (split; [assumption|]). destruct K. constructor; try assumption; try reflexivity.
      * split; [intros A; apply C1; intros w' Hw; apply A; right; exact Hw|].
        split; [intros A; apply C2; intros w' Hw; apply A; right; exact Hw|]. cbn [since_run]. rewrite Hq. split; reflexivity.
    + intros A. rewrite (rb_hist _ _ _ RB).
      assert (H0 : o_nDynamicPenalty (d_options d) = 0) by (apply A; left; reflexivity).
      rewrite (run_hist (opsR u w (d_options d)) _ _ _ _ _ _ _ ltac:(discriminate) H0 EV). cbn. apply I. intros opt Ho. apply A. right. exact Ho.
    + intros Hr _. destruct (RS Hr) as [RL _]. exists (v_x v'), (v_y v'). rewrite <- N1, <- NA. split; [exact (rb_x _ _ _ RB)|]. split; [exact (rl_y _ _ _ _ RL)|].
      rewrite Ed. unfold u_nA. rewrite Z.add_assoc. reflexivity.
    + intros _. exists u. destruct (run_new_calls _ _ _ _ _ _ _ _ EV) as (l & L1 & L2 & L3). exists l. split; [reflexivity|]. split; [exact L1|].
      split; [rewrite (rb_calls _ _ _ RB); exact L2|]. intros c Hc. destruct (L3 c Hc) as (b & x1 & y1 & g1 & ->). subst lb ub. repeat split.
  - (* refused *)
    destruct D as (E1 & E2 & E3).
    unfold runSolver, runSolver_fuel, initializeSolver, and_then_quiet at 1, init_subsolver in E. cbn [pd it] in E. rewrite Hq, E1, E2, E3 in E. cbn [get bind] in E.
    match type of E with context [d_sparseSolver ?z] => replace (d_sparseSolver z) with false in E by (symmetry; exact S) end. cbn in E.
    injection E as _ <-.
    split; [|split; [intros _ C|intros C]; congruence]. constructor; cbn [pd it logL]; try assumption; try (split; [|split]; assumption); try (cbn [sparse_now]; rewrite SN; exact S).
    + destruct Z; constructor; assumption.
    + exists lL, lR, lb, ub. split; [repeat split; assumption|]. split; [repeat split; assumption|]. split; [exact P|]. split.
      * cbn [last_load]. intros u Eu. destruct (L u Eu) as (W & N1 & N2 & N3 & G1 & G2 & K). split; [exact W|]. repeat (split; [assumption|]). destruct K. constructor; assumption.
      * split; [intros A; apply C1; intros w' Hw; apply A; right; exact Hw|].
        split; [intros A; apply C2; intros w' Hw; apply A; right; exact Hw|].
        cbn [since_run]. rewrite Hq.
        split; [exact C3|exact C4].
    + intros A. apply I. intros opt Ho. apply A. right. exact Ho.
  - (* refused *)
    assert (G : exists a b (y : ptr T) m, o' = logL m (mkLcqp (set_d_boxDualOffset a (set_d_nDuals b d)) (set_yk y s)) /\
       match y with Some z => len z <= u_nV v + u_nA v | None => True end).
    { destruct D as (E1 & E2 & E3). pose proof (wv_nV _ V). pose proof (wv_nC _ V). pose proof (wv_nComp _ V). pose proof (wv_int _ V).
      unfold runSolver, runSolver_fuel, initializeSolver, and_then_quiet at 1, init_subsolver in E. cbn [pd it] in E. rewrite Hq in E.
      destruct (notNull (d_lb d) || notNull (d_ub d)).
      - cbn in E. injection E as _ <-. exists (d_boxDualOffset d), (d_nDuals d), (s_yk s), (EvMessage INVALID_OSQP_BOX_CONSTRAINTS).
        split; [destruct d, s; reflexivity|exact Y].
      - rewrite E1, E2, E3 in E. cbn [get bind] in E.
        apply bind_ok in E. destruct E as ([r1 o1] & E & E'). apply bind_ok in E. destruct E as ([r2 o2] & E & E4). apply bind_ok in E. destruct E as (y & Ey & E).
        match type of E with context [d_sparseSolver ?z] => replace (d_sparseSolver z) with false in E by (symmetry; exact S) end. cbn [negb] in E.
        injection E as <- <-. cbn [is_success] in E4. injection E4 as <- <-. cbn [is_success negb] in E'. injection E' as _ <-.
        do 4 eexists. split; [reflexivity|]. destruct (s_yk s) as [yk|]; [|injection Ey as <-; exact Logic.I].
        apply bind_ok in Ey. destruct Ey as (t1 & A1 & Ey). apply bind_ok in Ey. destruct Ey as (t2 & A2 & Ey). apply bind_ok in Ey. destruct Ey as (t3 & A3 & Ey).
        apply bind_ok in Ey. destruct Ey as (t4 & A4 & Ey). injection Ey as <-.
        rewrite alloc_ok in A3 by lia. match type of A3 with Ok ?z = _ => assert (A3' : t3 = z) by congruence end. subst t3.
        unfold memcpy_all in A4. destruct (_ <? 0) eqn:Q0; [discriminate|]. destruct (_ || _) eqn:Q9; [discriminate|]. match type of A4 with Ok ?z = _ => assert (A4' : t4 = z) by congruence end. subst t4.
        apply orb_false_elim in Q9. destruct Q9 as [Q1 Q2]. apply Z.ltb_ge in Q1, Q2, Q0.
        unfold len. rewrite repeat_length in Q2. rewrite app_length, firstn_length, skipn_length, repeat_length. unfold u_nA. set (q := _ / 8) in *. lia. }
    destruct G as (a & b & y & m & -> & Hy). cbn [pd it logL].
    split; [|split; [intros _ C|intros C]; congruence]. constructor; cbn [pd it logL]; try assumption; try (split; [|split]; assumption); try (cbn [sparse_now]; rewrite SN; exact S).
    + destruct Z; constructor; assumption.
    + exists lL, lR, lb, ub. split; [repeat split; assumption|]. split; [repeat split; assumption|]. split; [exact P|]. split.
      * cbn [last_load]. intros u Eu. destruct (L u Eu) as (W & N1 & N2 & N3 & G1 & G2 & K). split; [exact W|]. repeat (split; [assumption|]). destruct K. constructor; assumption.
      * split; [intros A; apply C1; intros w' Hw; apply A; right; exact Hw|].
        split; [intros A; apply C2; intros w' Hw; apply A; right; exact Hw|].
        cbn [since_run]. rewrite Hq.
        split; [exact C3|exact C4].
    + intros A. apply I. intros opt Ho. apply A. right. exact Ho.
Qed.

Lemma used_inv v h o : wf_vec v -> used (u_nV v) (u_nC v) (u_nComp v) h o -> inv v h o.
Proof.
  intros V U. induction U.
  - apply inv_new; auto.
  - apply inv_options; auto.
  - eapply inv_load; eauto.
  - eapply inv_sparse; eauto.
  - eapply inv_run; eauto.
Qed.

Lemma opsR_self (u : udense T) opt : opsR u (ud_v u) opt = dense_ops u opt.
Proof. destruct u. reflexivity. Qed.
Lemma with_self (v : uvec T) : with_bounds v (u_lbL v) (u_lbR v) (u_lb v) (u_ub v) = v.
Proof. destruct v. reflexivity. Qed.

(** Two runs related to the same run of [Pure] up to a shift cannot be told apart *)
Lemma alike_of {K} (p : ops T K) KR d1 d2 c0 (a b : res (ReturnValue * lcqp T)) (A B : res (ReturnValue * vst T K)) :
  d_nV d1 = d_nV d2 -> d_nDuals d1 = d_nDuals d2 ->
  sim (fun x y => pd (snd x) = d1 /\ relT p KR (fst x, it (snd x)) y) a A -> sim (fun x y => pd (snd x) = d2 /\ relT p KR (fst x, it (snd x)) y) b B ->
  both (vlike c0) A B -> alike c0 a b.
Proof.
  intros N1 N2 Sa Sb V. destruct a as [[ra oa]|], A as [[rA vA]|]; cbn [sim] in Sa; try contradiction;
    destruct b as [[rb ob]|], B as [[rB vB]|]; cbn [sim] in Sb; try contradiction; cbn [both] in V; try contradiction; cbn [alike]; [|congruence].
  destruct Sa as (Da & Ra & RBa & Ia), Sb as (Db & Rb & RBb & Ib), V as (V1 & V2 & V3 & V4 & V5 & V6). cbn [fst snd] in *. subst rA rB. subst rb.
  split; [reflexivity|].
  assert (Ex : s_xk (it oa) = s_xk (it ob)) by (rewrite (proj1 (rb_x _ _ _ RBa)), (proj1 (rb_x _ _ _ RBb)); congruence).
  assert (Es : s_algoStat (it oa) = s_algoStat (it ob)) by (rewrite (rb_algo _ _ _ RBa), (rb_algo _ _ _ RBb); congruence).
  split; [intros buf; unfold getPrimalSolution; rewrite Ex, Es, Da, Db, N1; reflexivity|].
  split; [unfold getOutputStatistics; rewrite (rb_stats _ _ _ RBa), (rb_stats _ _ _ RBb); congruence|].
  split; [rewrite (rb_calls _ _ _ RBa), (rb_calls _ _ _ RBb); exact V5|].
  intros ->. specialize (Ia eq_refl). specialize (Ib eq_refl).
  assert (Ey : s_yk (it oa) = s_yk (it ob)) by (rewrite (proj1 (rl_y _ _ _ _ (proj1 Ia))), (proj1 (rl_y _ _ _ _ (proj1 Ib))); congruence).
  split; [unfold getNumberOfDuals; rewrite Da, Db, N2; reflexivity|]. intros buf. unfold getDualSolution. rewrite Ey, Es, Da, Db, N2. reflexivity.
Qed.

(** The start of an object with a past is a shifted fresh start *)
Lemma v_start_sh u lL lR lb ub opt x gk yA pk st (s : iter T) k : let w := with_bounds (ud_v u) lL lR lb ub in
  (k = Some (s_complHistory s) \/ k = None /\ s_complHistory s = []) ->
  v_start u lL lR lb ub opt x gk yA pk st s =
  stale gk yA pk st (p_setH (opsR u w opt) a_zero) (s_qpIterk s) (s_qpSolverExitFlag s)
    (sh (s_calls s) (s_rnd s) (s_work s) k (v_init (opsR u w opt) x)).
Proof. cbv zeta. intros [->|[-> E]]; unfold v_start, sh; [|rewrite E]; reflexivity. Qed.

(** A loaded object with the bounds of [u2] runs like a new one loaded with [u2] *)
Lemma run_like_fresh u u2 lL lR lb ub d s orc rand x y0 : wf_dense u -> wf_dense u2 -> fin_lower (ud_v u2) -> paired (ud_v u2) ->
  o_qpSolver (d_options d) = QPOASES_DENSE -> kept u lL lR lb ub d -> sized (u_nV (ud_v u)) (u_nA (ud_v u)) s ->
  opsR u (with_bounds (ud_v u) lL lR lb ub) (d_options d) = dense_ops u2 (d_options d) -> u_lbL (ud_v u2) = lL -> u_lbR (ud_v u2) = lR -> u_lb (ud_v u2) = lb -> u_ub (ud_v u2) = ub ->
  u_nV (ud_v u2) = u_nV (ud_v u) -> u_nC (ud_v u2) = u_nC (ud_v u) -> u_nComp (ud_v u2) = u_nComp (ud_v u) ->
  u_x (ud_v u2) = x -> u_y0 (ud_v u2) = y0 -> s_xk s = Some (lift x) -> s_yk s = ptr_of y0 ->
  (o_nDynamicPenalty (d_options d) = 0 \/ s_complHistory s = []) ->
  alike (s_calls s) (runSolver orc rand (mkLcqp d s))
    (solve_dense u2 (d_options d) (after_calls (s_calls s) orc) (after_draws (s_rnd s) rand)).
Proof.
  intros W W2 F2 P2 Hq K Z EO EL ER El Eu N1 N2 N3 Ex Ey Exk Eyk Hh.
  pose proof (wu_v _ W) as V. pose proof (wu_v _ W2) as V2. pose proof (wv_nV _ V) as Hn.
  assert (NA : u_nA (ud_v u2) = u_nA (ud_v u)) by (unfold u_nA; congruence).
  destruct (z_gk _ _ _ Z) as (gk & Egk), (z_yA _ _ _ Z) as (yA & EyA), (z_pk _ _ _ Z) as (pk & Epk), (z_st _ _ _ Z) as (st & Est).
  assert (FL : fits (u_nComp (ud_v u)) lL) by (rewrite <- EL, <- N3; apply V2).
  assert (FR : fits (u_nComp (ud_v u)) lR) by (rewrite <- ER, <- N3; apply V2).
  assert (Fl : fits (u_nV (ud_v u)) lb) by (rewrite <- El, <- N1; apply V2).
  assert (Fu : fits (u_nV (ud_v u)) ub) by (rewrite <- Eu, <- N1; apply V2).
  assert (Fy : fits (u_nV (ud_v u) + u_nA (ud_v u)) y0) by (rewrite <- Ey, <- N1, <- NA; apply V2).
  assert (Vx : vec (u_nV (ud_v u)) (s_xk s) x).
  { split; [exact Exk|]. rewrite <- Ex, <- N1. apply len_bnd; [lia|apply V2]. }
  assert (Pa : lL = None <-> lR = None) by (rewrite <- EL, <- ER; exact P2).
  pose proof (run_kept u lL lR lb ub d W FL FR Fl Fu K orc rand x y0 gk yA pk st s Hq Pa Egk EyA Epk Est Z Vx Eyk Fy) as R.
  pose proof (solve_dense_ref u2 (d_options d) (after_calls (s_calls s) orc) (after_draws (s_rnd s) rand) W2 P2 F2 Hq) as R2.
  set (k := if o_nDynamicPenalty (d_options d) =? 0 then Some (s_complHistory s) else None).
  assert (Hk : k = Some (s_complHistory s) \/ k = None /\ s_complHistory s = []).
  { unfold k. destruct (Z.eqb_spec (o_nDynamicPenalty (d_options d)) 0); [auto|]. right. split; [reflexivity|]. destruct Hh; [contradiction|assumption]. }
  rewrite (v_start_sh u lL lR lb ub (d_options d) x gk yA pk st s k Hk) in R. rewrite EO in R. rewrite N1 in R2. rewrite Ey, Ex in R2.
  eapply alike_of with (d1 := dR u (with_bounds (ud_v u) lL lR lb ub) d) (d2 := dense_pd u2 (d_options d)) (p := dense_ops u2 (d_options d)) (KR := dense_KR (u_nV (ud_v u)));
    [| |eapply sim_weak; [|exact R]; intros a b (A1 & A2 & _); exact (conj A1 A2)|exact R2|].
  - destruct (k_dims _ _ _ _ _ _ K) as (Q1 & _). change (d_nV d = Some (u_nV (ud_v u2))). congruence.
  - change (Some (u_nV (ud_v u) + u_nC (ud_v u) + 2 * u_nComp (ud_v u)) = Some (u_nV (ud_v u2) + u_nC (ud_v u2) + 2 * u_nComp (ud_v u2))). rewrite N1, N2, N3. reflexivity.
  - apply sh_run; [|discriminate]. unfold k. change (p_opt (dense_ops u2 (d_options d))) with (d_options d).
    destruct (Z.eqb_spec (o_nDynamicPenalty (d_options d)) 0) as [E|E]; [auto|]. intros C. destruct C. reflexivity.
Qed.

Lemma latest_none f (h : list (use T)) : (forall c, In c h -> given f c = None) -> latest f h = None.
Proof.
  induction h as [|c h IH]; cbn [latest]; intros A; auto.
  pose proof (A c (or_introl eq_refl)) as G. assert (I : latest f h = None) by (apply IH; intros; apply A; right; assumption).
  destruct c; cbn [given] in G; auto; rewrite G; exact I.
Qed.
Lemma p_C25_boxes v h o u opt orc rand : used (u_nV v) (u_nC v) (u_nComp v) h o -> v = ud_v u -> wf_dense u -> fin_lower v -> paired v ->
  o_qpSolver opt = QPOASES_DENSE -> renewed u_lbL (ud_v u) h -> renewed u_lbR (ud_v u) h ->
  (o_nDynamicPenalty opt = 0 \/ forall opt', In (URun opt') h -> o_nDynamicPenalty opt' = 0) ->
  alike (s_calls (it o)) (load_run u orc rand (setOptions opt o))
    (solve_dense (with_boxes h u) opt (after_calls (s_calls (it o)) orc) (after_draws (s_rnd (it o)) rand)).
Proof.
  intros U -> W F P Hq RL RR Hh. pose proof (wu_v _ W) as V.
  pose proof (used_inv _ _ _ V U) as [D S Z Y X Q IX (lL & lR & lb & ub & Fi & (B1 & B2 & B3 & B4) & Ph & L & C1 & C2 & C3 & C4) I].
  set (o1 := setOptions opt o).
  assert (E : load_dense u o1 = Ok (SUCCESSFUL_RETURN, loaded_dense u o1)) by (apply load_dense_ok; auto).
  unfold load_run. rewrite E. cbn [bind is_success].
  pose proof (load_kept u lL lR lb ub o1 D B1 B2 B3 B4 Ph) as K.
  assert (N : forall f x h', renewed f (ud_v u) h' -> ((forall c, In c h' -> given f c = None) -> x = None) -> newer (f (ud_v u)) x = f (ud_v u)).
  { intros f x h' [A|A] B; [destruct (f (ud_v u)); [reflexivity|congruence]|]. rewrite (B A). destruct (f (ud_v u)); reflexivity. }
  rewrite (N u_lbL lL h RL C1), (N u_lbR lR h RR C2) in K. subst lb ub.
  assert (EO : o1 = mkLcqp (pd o1) (it o1)) by reflexivity.
  change (s_calls (it o)) with (s_calls (it (loaded_dense u o1))). change (s_rnd (it o)) with (s_rnd (it (loaded_dense u o1))).
  change opt with (d_options (pd (loaded_dense u o1))).
  change (loaded_dense u o1) with (mkLcqp (pd (loaded_dense u o1)) (it (loaded_dense u o1))).
  eapply run_like_fresh with (u := u); eauto; try reflexivity.
  - destruct W as [V' ? ? ? ?]; constructor; try assumption. destruct V'. destruct Fi as (_ & _ & Fi1 & Fi2).
    constructor; try assumption; cbn; [destruct (u_lb (ud_v u))|destruct (u_ub (ud_v u))]; assumption.
  - apply sized_guessed. exact Z.
  - destruct Hh as [Hh|Hh]; [left; exact Hh|right; exact (I Hh)].
Qed.

Lemma vec_own h (v : uvec T) : renewed u_lb v (since_run h) -> renewed u_ub v (since_run h) -> boxes_of h v = v.
Proof.
  intros A B. assert (G : forall f, renewed f v (since_run h) -> match f v with Some l => Some l | None => latest f (since_run h) end = f v).
  { intros f [C|C]; [destruct (f v); congruence|]. rewrite latest_none by assumption. destruct (f v); reflexivity. }
  unfold boxes_of. rewrite !G by assumption. destruct v. reflexivity.
Qed.
Lemma boxes_own h (u : udense T) : renewed u_lb (ud_v u) (since_run h) -> renewed u_ub (ud_v u) (since_run h) -> with_boxes h u = u.
Proof. intros A B. unfold with_boxes. rewrite vec_own by assumption. destruct u. reflexivity. Qed.
Lemma boxes_own_sparse h (u : usparse T) : renewed u_lb (us_v u) (since_run h) -> renewed u_ub (us_v u) (since_run h) -> with_boxes_sparse h u = u.
Proof. intros A B. unfold with_boxes_sparse. rewrite vec_own by assumption. destruct u. reflexivity. Qed.

Lemma p_C25 v h o u opt orc rand : used (u_nV v) (u_nC v) (u_nComp v) h o -> v = ud_v u -> wf_dense u -> fin_lower v -> paired v ->
  o_qpSolver opt = QPOASES_DENSE ->
  renewed u_lbL (ud_v u) h -> renewed u_lbR (ud_v u) h -> renewed u_lb (ud_v u) (since_run h) -> renewed u_ub (ud_v u) (since_run h) ->
  (o_nDynamicPenalty opt = 0 \/ forall opt', In (URun opt') h -> o_nDynamicPenalty opt' = 0) ->
  alike (s_calls (it o)) (load_run u orc rand (setOptions opt o))
    (solve_dense u opt (after_calls (s_calls (it o)) orc) (after_draws (s_rnd (it o)) rand)).
Proof.
  intros U Ev W F P Hq RL RR Rl Ru Hh. rewrite <- (boxes_own h u Rl Ru) at 2. eapply p_C25_boxes; eauto.
Qed.

Lemma last_dense (h : list (use T)) u : last_load h = Some u -> sparse_now h = false.
Proof. induction h as [|[] h IH]; cbn; intros E; auto; discriminate. Qed.
Lemma last_in (h : list (use T)) u : last_load h = Some u -> In (ULoad u) h.
Proof. induction h as [|[] h IH]; cbn [last_load]; intros E; try discriminate; [right; auto|injection E as <-; left; reflexivity|right; auto]. Qed.

Lemma success_algo orc rand (o : lcqp T) o' : runSolver orc rand o = Ok (SUCCESSFUL_RETURN, o') -> exists a, s_algoStat (it o') = Some a.
Proof.
  intros E. destruct (QPHistory.run_qp _ _ _ _ _ _ E) as [(o2 & E1 & Er & _)|(o2 & E1 & Epd & CP & QP)]; [discriminate|].
  destruct (RunControl.cp_algo _ _ _ _ CP) as (a & A1 & _). eauto.
Qed.

(** A second run without loading: the data of the last load without its box bounds, from the solution *)
Lemma p_C26 v h o u opt orc rand r o' orc2 rand2 : used (u_nV v) (u_nC v) (u_nComp v) h o -> last_load h = Some u -> v = ud_v u ->
  renewed u_lbL (ud_v u) h -> renewed u_lbR (ud_v u) h -> paired v -> fin_lower v ->
  o_qpSolver (d_options (pd o)) = QPOASES_DENSE -> runSolver orc rand o = Ok (r, o') -> r = SUCCESSFUL_RETURN ->
  o_qpSolver opt = QPOASES_DENSE ->
  (o_nDynamicPenalty opt = 0 \/ o_nDynamicPenalty (d_options (pd o)) = 0 /\ forall opt', In (URun opt') h -> o_nDynamicPenalty opt' = 0) ->
  exists x y, len x = u_nV v /\ len y = u_nV v + u_nA v /\
    gives_primal o' (u_nV v) x /\ gives_dual o' y /\
    alike (s_calls (it o')) (runSolver orc2 rand2 (setOptions opt o'))
      (solve_dense (continued u x y) opt (after_calls (s_calls (it o')) orc2) (after_draws (s_rnd (it o')) rand2)).
Proof.
  intros U EL -> RL RR P F Hq E -> Hq2 Hh.
  assert (SN : sparse_now h = false) by (apply (last_dense h u); exact EL).
  assert (W : wf_dense u).
  { clear -U EL. induction U; cbn [last_load] in EL; try discriminate; auto. injection EL as <-. assumption. }
  pose proof (wu_v _ W) as V. pose proof (wv_nV _ V) as Hn.
  pose proof (used_inv _ _ _ V U) as I1. destruct (inv_run _ _ _ _ _ _ _ V I1 SN E) as (I2 & XY & _).
  destruct (XY eq_refl Hq) as (x & y & Vx & Vy & Nd). clear XY I1. destruct (success_algo _ _ _ _ E) as (sa & Hsa).
  destruct I2 as [D S Z Y X Q IX (lL & lR & lb & ub & Fi & (B1 & B2 & B3 & B4) & Ph & L & C1 & C2 & C3 & C4) I].
  cbn [last_load] in L. destruct (L u EL) as (_ & _ & _ & _ & G1 & G2 & K). cbn [since_run] in C3, C4. rewrite Hq in C3, C4.
  cbn in C3, C4. subst lb ub.
  assert (lL = u_lbL (ud_v u)).
  { destruct RL as [A|A]; [auto|]. rewrite C1 by (intros w [C|C]; [subst w; reflexivity|auto]). symmetry. exact (A _ (last_in h u EL)). }
  assert (lR = u_lbR (ud_v u)).
  { destruct RR as [A|A]; [auto|]. rewrite C2 by (intros w [C|C]; [subst w; reflexivity|auto]). symmetry. exact (A _ (last_in h u EL)). }
  subst lL lR. destruct Vx as [Ex Lx], Vy as [Ey Ly]. exists x, y.
  split; [exact Lx|]. split; [exact Ly|]. split; [|split].
  - eapply gives_primal_of; [apply D|split; eassumption|eassumption].
  - eapply gives_dual_of; [exact Nd|split; eassumption|eassumption].
  - set (d := set_d_options opt (pd o')).
    change (runSolver orc2 rand2 (setOptions opt o')) with (runSolver orc2 rand2 (mkLcqp d (it o'))).
    change (solve_dense (continued u x y) opt) with (solve_dense (continued u x y) (d_options d)).
    eapply run_like_fresh with (u := u) (lL := u_lbL (ud_v u)) (lR := u_lbR (ud_v u)) (lb := None) (ub := None); eauto; try reflexivity.
    + destruct W as [V' ? ? ? ?]; constructor; try assumption. destruct V'. constructor; try assumption; try exact Logic.I.
    + destruct K; constructor; assumption.
    + destruct Hh as [Hh|[H1 H2]]; [left; exact Hh|right; apply I]. intros opt' [C|C]; [injection C as <-; exact H1|auto].
Qed.

Lemma used_last n m k (h : list (use T)) o u : used n m k h o -> last_load h = Some u ->
  wf_dense u /\ u_nV (ud_v u) = n /\ u_nC (ud_v u) = m /\ u_nComp (ud_v u) = k.
Proof. intros U E. induction U; cbn [last_load] in E; try discriminate; auto. injection E as <-. auto. Qed.

Lemma p_C26_data n m k h o u orc rand r o' : used n m k h o -> last_load h = Some u ->
  o_qpSolver (d_options (pd o)) = QPOASES_DENSE -> runSolver orc rand o = Ok (r, o') ->
  exists l, l <> [] /\ s_calls (it o') = l ++ s_calls (it o) /\
    forall c, In c l -> qp_of u (latest u_lb (since_run h)) (latest u_ub (since_run h)) c.
Proof.
  intros U EL Hq E. destruct (used_last _ _ _ _ _ _ U EL) as (W & <- & <- & <-). pose proof (wu_v _ W) as V.
  destruct (inv_run _ _ _ _ _ _ _ V (used_inv _ _ _ V U) (last_dense h u EL) E) as (_ & _ & A). destruct (A Hq) as (u' & l & Eu & R). rewrite EL in Eu. injection Eu as <-. eauto.
Qed.

End ReuseFacts.
