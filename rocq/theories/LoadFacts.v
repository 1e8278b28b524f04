(** * LoadFacts: what the QP solver gets after loading (no LCQPow code). *)
From Coq Require Import SpecFloat.
From Verif Require Import Base Arith Codes Utilities Options Stats FileIO Subsolver State LCQProblem Tactics Loops SpecSparse Kernels Pure Refine
  SpecLoad LoadLoops LoadDense LoadSparse StartDense StartSparse Safety PureFacts.

Section LoadFacts.
Context {T : Type} `{Arith T}.

Lemma dense_calls (u : udense T) opt orc rand r o : wf_dense u -> o_qpSolver opt = QPOASES_DENSE -> fin_lower (ud_v u) ->
  solve_dense u opt orc rand = Ok (r, o) ->
  exists gs g0, let v := ud_v u in
    let call ini g x y := mkCall QPOASES_DENSE ini (MDense (ud_Q u)) (MDense (ud_A u ++ ud_L u ++ ud_R u)) g (u_lower v) (u_upper v)
      (Some (bnd (u_nV v) (u_lb v) a_ninf)) (Some (bnd (u_nV v) (u_ub v) a_pinf)) x y in
    s_calls (it o) = map (fun g => call false g None None) gs ++ [call true g0 (Some (bnd (u_nV v) (u_x0 v) a_zero)) (u_y0 v)].
Proof.
  intros W Hq F E. assert (P : paired (ud_v u)) by (eapply dense_success; eauto).
  pose proof (solve_dense_ref u opt orc rand W P F Hq) as R. rewrite E in R.
  match type of R with sim _ _ ?b => destruct b as [[r' v]|] eqn:Ev end; cbn [sim] in R; [|contradiction].
  destruct R as (_ & _ & R & _). apply run_calls in Ev. destruct Ev as (gs & Ev). pose proof (rb_calls _ _ _ R) as RC. cbn [fst snd] in RC. rewrite <- RC in Ev. exists gs. eexists. exact Ev.
Qed.

Lemma sparse_success u opt orc rand (o : lcqp T) : wf_sparse u -> o_qpSolver opt <> QPOASES_DENSE -> osqp_ok (us_v u) opt -> fin_lower (us_v u) -> concat (us_C u) <> [] ->
  (exists r, solve_sparse u opt orc rand = Ok (r, o)) -> paired (us_v u).
Proof.
  intros W Hq Ho F Z (r & E). destruct (paired_dec (us_v u)) as [P|P]; [auto|]. rewrite (thm_sparse_unpaired u opt orc rand W P F Z Hq Ho) in E. discriminate.
Qed.
Lemma sparse_calls (u : usparse T) opt orc rand r o : wf_sparse u -> o_qpSolver opt <> QPOASES_DENSE -> osqp_ok (us_v u) opt -> fin_lower (us_v u) ->
  concat (us_C u) <> [] -> solve_sparse u opt orc rand = Ok (r, o) ->
  exists gs g0, let v := us_v u in
    let box (l : option (list T)) d := if osqp opt then None else Some (bnd (u_nV v) l d) in
    let call ini g x y := mkCall (o_qpSolver opt) ini (csc_mat (u_nV v) (u_nV v) (sparse_H u opt))
      (csc_mat (u_nA v) (u_nV v) (stack_cols (u_nC v) (u_nComp v) (u_nV v) (us_Acols u) (us_L u) (us_R u))) g (u_lower v) (u_upper v)
      (box (u_lb v) a_ninf) (box (u_ub v) a_pinf) x y in
    s_calls (it o) = map (fun g => call false g None None) gs ++ [call true g0 (Some (bnd (u_nV v) (u_x0 v) a_zero)) (u_y0 v)].
Proof.
  intros W Hq Ho F Z E. assert (P : paired (us_v u)) by (eapply sparse_success; eauto).
  pose proof (solve_sparse_ref u opt orc rand W P F Z Hq Ho) as R. rewrite E in R.
  match type of R with sim _ _ ?b => destruct b as [[r' v]|] eqn:Ev end; cbn [sim] in R; [|contradiction].
  destruct R as (_ & _ & R & _). apply run_calls in Ev. destruct Ev as (gs & Ev). pose proof (rb_calls _ _ _ R) as RC. cbn [fst snd] in RC. rewrite <- RC in Ev. exists gs. eexists. exact Ev.
Qed.

Lemma above_below (l : option (list T)) : ~ above_ninf l <-> has_ninf l.
Proof.
  unfold has_ninf. destruct l as [l|]; cbn [above_ninf].
  - split.
    + intros N. induction l as [|a l IH]; [exfalso; apply N; intros v []|]. destruct (a_le a a_ninf) eqn:E.
      * exists (a :: l), a. repeat split; auto. left; auto.
      * destruct IH as (l' & v & [= <-] & Hv & Ev); [|exists (a :: l), v; repeat split; auto; right; auto].
        intros C. apply N. intros v [<-|Hv]; auto.
    + intros (l' & v & [= <-] & Hv & Ev) C. rewrite C in Ev; [discriminate|auto].
  - split; [intros N; exfalso; auto|intros (l' & v & E & _); discriminate].
Qed.
Lemma lower_below (u : uvec T) : ~ fin_lower u <-> has_ninf (u_lbL u) \/ has_ninf (u_lbR u).
Proof.
  rewrite <- !above_below. unfold fin_lower. destruct (above_ninf_dec (u_lbL u)); destruct (above_ninf_dec (u_lbR u)); tauto.
Qed.

Lemma dense_load_code (u : udense T) opt o r o' : wf_dense u -> new_object (ud_v u) opt = Ok o -> load_dense u o = Ok (r, o') ->
  (r = INVALID_LOWER_COMPLEMENTARITY_BOUND <-> has_ninf (u_lbL (ud_v u)) \/ has_ninf (u_lbR (ud_v u))) /\
  (r <> INVALID_LOWER_COMPLEMENTARITY_BOUND -> r = SUCCESSFUL_RETURN).
Proof.
  intros W En E. rewrite new_object_ok in En by apply (wu_v _ W). injection En as <-. rewrite <- lower_below.
  destruct (fin_lower_dec (ud_v u)) as [F|F].
  - rewrite load_dense_ok in E by auto using fresh_dims. injection E as <- <-. split; [split; [discriminate|tauto]|auto].
  - destruct (load_dense_bad u _ W (fresh_dims (ud_v u) opt) F) as (o1 & E1). rewrite E1 in E. injection E as <- <-. split; [tauto|congruence].
Qed.
Lemma sparse_load_code (u : usparse T) opt o r o' : wf_sparse u -> new_object (us_v u) opt = Ok o -> load_sparse u o = Ok (r, o') ->
  concat (us_C u) <> [] ->
  (r = INVALID_LOWER_COMPLEMENTARITY_BOUND <-> has_ninf (u_lbL (us_v u)) \/ has_ninf (u_lbR (us_v u))) /\
  (r <> INVALID_LOWER_COMPLEMENTARITY_BOUND -> r = SUCCESSFUL_RETURN).
Proof.
  intros W En E Z. rewrite new_object_ok in En by apply (ws_v _ W). injection En as <-. rewrite <- lower_below.
  destruct (fin_lower_dec (us_v u)) as [F|F].
  - rewrite load_sparse_ok in E by auto using fresh_dims. injection E as <- <-. split; [split; [discriminate|tauto]|auto].
  - destruct (load_sparse_bad u _ W (fresh_dims (us_v u) opt) F Z) as (o1 & E1). rewrite E1 in E. injection E as <- <-. split; [tauto|congruence].
Qed.
Lemma sparse_load_zero (u : usparse T) opt o : wf_sparse u -> new_object (us_v u) opt = Ok o -> concat (us_C u) = [] ->
  exists o', load_sparse u o = Ok (FAILED_SYM_COMPLEMENTARITY_MATRIX, o').
Proof.
  intros W En Z. rewrite new_object_ok in En by apply (ws_v _ W). injection En as <-. apply load_sparse_zero; auto using fresh_dims.
Qed.
Lemma stack_cols_entries nC nComp n (cA cL cR : list (list (Z * T))) j r x : 0 <= j < n ->
  In (r, x) (col (stack_cols nC nComp n cA cL cR) j) <->
  In (r, x) (col cA j) \/ In (r - nC, x) (col cL j) \/ In (r - nC - nComp, x) (col cR j).
Proof.
  intros Hj. unfold stack_cols, col at 1. rewrite at_tab by lia. rewrite !in_app_iff. unfold shift_col.
  assert (S : forall k c, In (r, x) (map (fun e : Z * T => (k + fst e, snd e)) c) <-> In (r - k, x) c).
  { intros k c. rewrite in_map_iff. split.
    - intros ([a b] & E & I). cbn in E. injection E as <- <-. replace (k + a - k) with a by lia. auto.
    - intros I. exists (r - k, x). split; [cbn; f_equal; lia|auto]. }
  rewrite !S. replace (r - (nC + nComp)) with (r - nC - nComp) by lia. reflexivity.
Qed.

Lemma dense_guess (u : udense T) opt orc rand r o : wf_dense u -> o_qpSolver opt = QPOASES_DENSE -> fin_lower (ud_v u) ->
  solve_dense u opt orc rand = Ok (r, o) ->
  exists later first, s_calls (it o) = later ++ [first] /\ qc_initial first = true /\ qc_y0 first = u_y0 (ud_v u).
Proof.
  intros W Hq F E. destruct (dense_calls u opt orc rand r o W Hq F E) as (gs & g0 & E'). cbv zeta in E'. rewrite E'.
  eexists _, _. split; [reflexivity|split; reflexivity].
Qed.
Lemma sparse_guess (u : usparse T) opt orc rand r o : wf_sparse u -> o_qpSolver opt = QPOASES_SPARSE -> fin_lower (us_v u) -> concat (us_C u) <> [] ->
  solve_sparse u opt orc rand = Ok (r, o) ->
  exists later first, s_calls (it o) = later ++ [first] /\ qc_initial first = true /\ qc_y0 first = u_y0 (us_v u).
Proof.
  intros W Hq F Z E. assert (N : o_qpSolver opt <> QPOASES_DENSE) by congruence.
  assert (O : osqp_ok (us_v u) opt) by (intros O; exfalso; revert O; unfold osqp; rewrite Hq; discriminate).
  destruct (sparse_calls u opt orc rand r o W N O F Z E) as (gs & g0 & E'). cbv zeta in E'. rewrite E'.
  eexists _, _. split; [reflexivity|split; reflexivity].
Qed.

End LoadFacts.

Lemma below_f64 (l : option (list f64)) : has_ninf l <-> exists l', l = Some l' /\ In (S754_infinity true) l'.
Proof.
  unfold has_ninf. split.
  - intros (l' & v & -> & Hv & Ev). exists l'. split; [auto|]. destruct v as [s| [|] | |s m e]; cbn in Ev; try discriminate; auto.
  - intros (l' & -> & Hv). exists l', (S754_infinity true). auto.
Qed.
