(** * LoadDense: the object after [loadLCQP] with dense data (no LCQPow code). *)
From Verif Require Import Base Arith Codes Utilities Options Stats FileIO Subsolver State LCQProblem Tactics Loops Kernels SpecSparse CscKernels CscBuild SpecLoad LoadLoops.

(** Rewriting with an equation about [compl_bound_loop] up to conversion *)
Ltac rw_cbl G :=
  match goal with |- context [compl_bound_loop ?a ?b ?c ?d ?e] =>
    match type of G with _ = ?r => let E := fresh in assert (E : compl_bound_loop a b c d e = r) by exact G; rewrite E; clear E end end.

Section LoadDense.
Context {T : Type} `{Arith T}.

(** The new value of a pointer member: replaced if data is given *)
Definition keep (new : option (list T)) (old : ptr T) : ptr T := match new with Some l => Some (lift l) | None => old end.

(** [o] has the sizes of [u] *)
Definition dims (u : uvec T) (d : pdata T) : Prop := d_nV d = Some (u_nV u) /\ d_nC d = Some (u_nC u) /\ d_nComp d = Some (u_nComp u).

Lemma setG_ok u (o : lcqp T) : wf_vec u -> dims u (pd o) ->
  setG (Some (lift (u_g u))) o = Ok (SUCCESSFUL_RETURN, mkLcqp (set_d_g (Some (lift (u_g u))) (pd o)) (it o)).
Proof.
  intros W (E & _ & _). pose proof (wv_nV _ W). pose proof (wv_nC _ W). pose proof (wv_nComp _ W). pose proof (wv_int _ W).
  unfold setG. rewrite E. cbn [get bind]. replace (u_nV u =? 0) with false by lia. cbn [isNull].
  rewrite memcpy_new_k by (rewrite ?(wv_g _ W); lia). reflexivity.
Qed.

(** Effect of setLB and setUB on the object. *)
Definition boxed (u : uvec T) (d : pdata T) : pdata T := set_d_ub_tmp (keep (u_ub u) (d_ub_tmp d)) (set_d_lb_tmp (keep (u_lb u) (d_lb_tmp d)) d).
Lemma copy_box_ok u (o : lcqp T) : wf_vec u -> dims u (pd o) ->
  copy_box (ptr_of (u_lb u)) (ptr_of (u_ub u)) o = Ok (mkLcqp (boxed u (pd o)) (it o)).
Proof.
  intros W (E & _ & _). pose proof (wv_nV _ W). pose proof (wv_nC _ W). pose proof (wv_nComp _ W). pose proof (wv_int _ W).
  pose proof (wv_lb _ W) as Fl. pose proof (wv_ub _ W) as Fu.
  unfold copy_box, boxed, keep. rewrite E. cbn [get bind].
  assert (G : forall l (f : arr T -> res (lcqp T)), len l = u_nV u ->
    (let! t := alloc (u_nV u) in let! t := memcpy_ptr t (Some (lift l)) (u_nV u) in f t) = f (lift l)).
  { intros l f Hl. rewrite memcpy_new_k by lia. reflexivity. }
  destruct (u_lb u) as [l|], (u_ub u) as [l'|]; cbn [ptr_of notNull isNull negb bind] in *; cbn [fits] in Fl, Fu;
    rewrite ?G by auto; cbn [bind]; rewrite ?G by auto; reflexivity.
Qed.

(** Effect of setInitialGuess on the object. *)
Definition guessed (u : uvec T) (s : iter T) : iter T :=
  set_yk (ptr_of (u_y0 u)) (set_xk (Some (lift (bnd (u_nV u) (u_x0 u) a_zero))) s).
Lemma setInitialGuess_ok u (o : lcqp T) : wf_vec u -> dims u (pd o) ->
  setInitialGuess (ptr_of (u_x0 u)) (ptr_of (u_y0 u)) o = Ok (SUCCESSFUL_RETURN, mkLcqp (pd o) (guessed u (it o))).
Proof.
  intros W (E1 & E2 & E3). pose proof (wv_nV _ W). pose proof (wv_nC _ W). pose proof (wv_nComp _ W). pose proof (wv_int _ W).
  pose proof (wv_x0 _ W) as Fx. pose proof (wv_y0 _ W) as Fy. unfold u_nA in Fy.
  unfold setInitialGuess. rewrite E1, E2, E3. cbn [get bind].
  replace (u_nV u =? 0) with false by lia. replace (u_nComp u =? 0) with false by lia. cbn [orb].
  rewrite alloc_init_ok by lia. cbn [bind].
  assert (X : (if notNull (ptr_of (u_x0 u)) then memcpy_ptr (lift (repeat (@a_zero T _) (Z.to_nat (u_nV u)))) (ptr_of (u_x0 u)) (u_nV u)
               else Ok (lift (repeat a_zero (Z.to_nat (u_nV u))))) = Ok (lift (bnd (u_nV u) (u_x0 u) a_zero))).
  { destruct (u_x0 u) as [l|]; cbn [ptr_of notNull isNull negb bnd].
    - cbn [fits] in Fx. apply memcpy_ptr_full; auto. rewrite len_lift, len_repeat; lia.
    - rewrite repeat_tab. reflexivity. }
  rewrite X. cbn [bind]. unfold guessed.
  destruct (u_y0 u) as [l|]; cbn [ptr_of notNull isNull negb].
  - cbn [fits] in Fy. rewrite copy_new_k by lia. reflexivity.
  - reflexivity.
Qed.

(** Complementarity bounds appended to the constraint bounds *)
Definition cbounded (u : uvec T) (d : pdata T) : pdata T :=
  set_d_ubA (Some (lift (u_upper u))) (set_d_lbA (Some (lift (u_lower u)))
    (set_d_ubR (keep (u_ubR u) (d_ubR d)) (set_d_lbR (keep (u_lbR u) (d_lbR d))
    (set_d_ubL (keep (u_ubL u) (d_ubL d)) (set_d_lbL (keep (u_lbL u) (d_lbL d)) d))))).

Lemma setComplementarityBounds_ok u (o : lcqp T) : wf_vec u -> dims u (pd o) -> fin_lower u ->
  d_lbA (pd o) = Some (lift (bnd (u_nC u) (u_lbA u) a_ninf) ++ repeat None (Z.to_nat (2 * u_nComp u))) ->
  d_ubA (pd o) = Some (lift (bnd (u_nC u) (u_ubA u) a_pinf) ++ repeat None (Z.to_nat (2 * u_nComp u))) ->
  setComplementarityBounds (ptr_of (u_lbL u)) (ptr_of (u_ubL u)) (ptr_of (u_lbR u)) (ptr_of (u_ubR u)) o =
  Ok (SUCCESSFUL_RETURN, mkLcqp (cbounded u (pd o)) (it o)).
Proof.
  intros W (E1 & E2 & E3) (FL & FR) EA EB. pose proof (wv_nV _ W). pose proof (wv_nC _ W). pose proof (wv_nComp _ W). pose proof (wv_int _ W).
  pose proof (wv_lbL _ W). pose proof (wv_ubL _ W). pose proof (wv_lbR _ W). pose proof (wv_ubR _ W). pose proof (wv_lbA _ W). pose proof (wv_ubA _ W).
  unfold setComplementarityBounds. rewrite E2, E3. cbn [get bind]. cbv beta zeta.
  rewrite !xpart_new by lia. cbn [bind].
  set (n := u_nComp u) in *. set (pl := bnd (u_nC u) (u_lbA u) a_ninf) in *. set (pu := bnd (u_nC u) (u_ubA u) a_pinf) in *.
  assert (Ll : len pl = u_nC u) by (apply len_bnd; auto). assert (Lu : len pu = u_nC u) by (apply len_bnd; auto).
  pose proof (compl_bound_loop_gen (u_nC u) n (2 * n) (u_lbL u) (u_ubL u) (d_lbL (pd o)) (d_ubL (pd o)) pl pu) as G.
  destruct G as [G _]; auto; [lia|]. unfold cbl_st in G. rewrite take_0 in G. rewrite !take_0, !app_nil_r in G. replace (2 * n - 0) with (2 * n) in G by lia.
  rewrite <- EA, <- EB in G. specialize (G ltac:(intros; eapply above_below; eauto)). rw_cbl G. cbn [bind]. clear G.
  rewrite !take_all by (rewrite len_bnd; auto; lia).
  set (pl2 := pl ++ bnd n (u_lbL u) a_zero). set (pu2 := pu ++ bnd n (u_ubL u) a_pinf).
  pose proof (compl_bound_loop_gen (u_nC u + n) n n (u_lbR u) (u_ubR u) (d_lbR (pd o)) (d_ubR (pd o)) pl2 pu2) as G.
  destruct G as [G _]; auto; [unfold pl2; rewrite len_app, len_bnd; auto; lia|unfold pu2; rewrite len_app, len_bnd; auto; lia|lia|].
  unfold cbl_st in G. rewrite take_0 in G. rewrite !take_0, !app_nil_r in G. replace (2 * n - n) with n by lia. replace (n - 0) with n in G by lia.
  specialize (G ltac:(intros; eapply above_below; eauto)). rw_cbl G. cbn [bind].
  rewrite !take_all by (rewrite len_bnd; auto; lia). rewrite !xpart_full by auto. replace (n - n) with 0 by lia. simpl repeat. rewrite !app_nil_r.
  unfold cbounded, keep, u_lower, u_upper, pl2, pu2. rewrite <- !app_assoc. reflexivity.
Qed.

(** The result if some lower complementarity bound is minus infinity *)
Lemma setComplementarityBounds_bad u (o : lcqp T) : wf_vec u -> dims u (pd o) -> ~ fin_lower u ->
  d_lbA (pd o) = Some (lift (bnd (u_nC u) (u_lbA u) a_ninf) ++ repeat None (Z.to_nat (2 * u_nComp u))) ->
  d_ubA (pd o) = Some (lift (bnd (u_nC u) (u_ubA u) a_pinf) ++ repeat None (Z.to_nat (2 * u_nComp u))) ->
  exists o', setComplementarityBounds (ptr_of (u_lbL u)) (ptr_of (u_ubL u)) (ptr_of (u_lbR u)) (ptr_of (u_ubR u)) o =
  Ok (INVALID_LOWER_COMPLEMENTARITY_BOUND, o').
Proof.
  intros W (E1 & E2 & E3) FN EA EB. pose proof (wv_nV _ W). pose proof (wv_nC _ W). pose proof (wv_nComp _ W). pose proof (wv_int _ W).
  pose proof (wv_lbL _ W). pose proof (wv_ubL _ W). pose proof (wv_lbR _ W). pose proof (wv_ubR _ W). pose proof (wv_lbA _ W). pose proof (wv_ubA _ W).
  unfold setComplementarityBounds. rewrite E2, E3. cbn [get bind]. cbv beta zeta. rewrite !xpart_new by lia. cbn [bind].
  set (n := u_nComp u) in *. set (pl := bnd (u_nC u) (u_lbA u) a_ninf) in *. set (pu := bnd (u_nC u) (u_ubA u) a_pinf) in *.
  assert (Ll : len pl = u_nC u) by (apply len_bnd; auto). assert (Lu : len pu = u_nC u) by (apply len_bnd; auto).
  pose proof (compl_bound_loop_gen (u_nC u) n (2 * n) (u_lbL u) (u_ubL u) (d_lbL (pd o)) (d_ubL (pd o)) pl pu) as G.
  destruct G as [G G']; auto; [lia|]. unfold cbl_st in G, G'. rewrite take_0 in G, G'. rewrite !take_0, !app_nil_r in G, G'.
  replace (2 * n - 0) with (2 * n) in G, G' by lia.
  rewrite <- EA, <- EB in G, G'.
  assert (D : above_ninf (u_lbL u) \/ ~ above_ninf (u_lbL u)).
  { destruct (u_lbL u) as [l|]; simpl; auto. destruct (forallb (fun v => negb (a_le v a_ninf)) l) eqn:Eb.
    - left. rewrite forallb_forall in Eb. intros v Hv. apply negb_true_iff. auto.
    - right. intros C. rewrite <- not_true_iff_false in Eb. apply Eb. apply forallb_forall. intros v Hv. rewrite C; auto. }
  destruct D as [D|D].
  2:{ destruct (below_first (u_lbL u) n) as (k & Hk & A & B); auto; [lia|]. specialize (G' k Hk A B). rw_cbl G'. cbn [bind]. eexists; reflexivity. }
  specialize (G ltac:(intros; eapply above_below; eauto)). rw_cbl G. cbn [bind]. clear G G'.
  rewrite !take_all by (rewrite len_bnd; auto; lia).
  set (pl2 := pl ++ bnd n (u_lbL u) a_zero). set (pu2 := pu ++ bnd n (u_ubL u) a_pinf).
  pose proof (compl_bound_loop_gen (u_nC u + n) n n (u_lbR u) (u_ubR u) (d_lbR (pd o)) (d_ubR (pd o)) pl2 pu2) as G.
  destruct G as [_ G]; auto; [unfold pl2; rewrite len_app, len_bnd; auto; lia|unfold pu2; rewrite len_app, len_bnd; auto; lia|lia|].
  unfold cbl_st in G. rewrite take_0 in G. rewrite !take_0, !app_nil_r in G. replace (2 * n - n) with n by lia. replace (n - 0) with n in G by lia.
  destruct (below_first (u_lbR u) n) as (k & Hk & A & B); auto; [lia|intros C; apply FN; split; auto|].
  specialize (G k Hk A B). rw_cbl G. cbn [bind]. eexists; reflexivity.
Qed.

(** Members set by the dense [setConstraints] *)
Definition constrained (u : udense T) (d : pdata T) : pdata T :=
  let v := ud_v u in
  set_d_C (Some (lift (symm (ud_L u) (ud_R u) (u_nComp v) (u_nV v)))) (set_d_R (Some (lift (ud_R u))) (set_d_L (Some (lift (ud_L u)))
   (set_d_ubA (Some (lift (bnd (u_nC v) (u_ubA v) a_pinf) ++ repeat None (Z.to_nat (2 * u_nComp v))))
   (set_d_lbA (Some (lift (bnd (u_nC v) (u_lbA v) a_ninf) ++ repeat None (Z.to_nat (2 * u_nComp v))))
   (set_d_A (Some (lift (ud_A u ++ ud_L u ++ ud_R u))) d))))).

Lemma setConstraints_ok u (o : lcqp T) : wf_dense u -> dims (ud_v u) (pd o) ->
  setConstraints (Some (lift (ud_L u))) (Some (lift (ud_R u))) (arg_A u)
    (ptr_of (u_lbA (ud_v u))) (ptr_of (u_ubA (ud_v u))) o = Ok (SUCCESSFUL_RETURN, mkLcqp (constrained u (pd o)) (it o)).
Proof.
  intros W (E1 & E2 & E3). pose proof (wu_v _ W) as V. pose proof (wv_nV _ V). pose proof (wv_nC _ V). pose proof (wv_nComp _ V). pose proof (wv_int _ V).
  pose proof (wv_sq _ V). pose proof (wv_rect _ V) as HR. unfold u_nA in HR. pose proof (wv_lbA _ V). pose proof (wv_ubA _ V).
  unfold setConstraints. rewrite E1, E2, E3. cbn [get bind].
  set (v := ud_v u) in *. set (nV := u_nV v) in *. set (nC := u_nC v) in *. set (nK := u_nComp v) in *.
  pose proof (wu_Q _ W) as LQ. pose proof (wu_L _ W) as LL. pose proof (wu_R _ W) as LR. pose proof (wu_A _ W) as LA.
  fold v nV nC nK in LQ, LL, LR, LA.
  replace (nV =? 0) with false by lia. replace (nK =? 0) with false by lia. cbn [orb].
  assert (EN : isNull (arg_A u) && (0 <? nC) = false).
  { unfold arg_A. fold v nC. destruct (Z.eqb_spec nC 0) as [->|]; reflexivity. }
  rewrite EN. rewrite alloc_ok by nia. cbn [bind].
  set (n := (nC + 2 * nK) * nV).
  assert (EA : copy_loop (repeat None (Z.to_nat n)) 0 (arg_A u) (nC * nV) = Ok (lift (ud_A u) ++ repeat None (Z.to_nat (n - nC * nV)))).
  { unfold arg_A. fold v nC. destruct (Z.eqb_spec nC 0) as [E|].
    - replace (nC * nV) with 0 by nia. rewrite copy_loop_0. destruct (ud_A u); [|exfalso; rewrite len_cons in LA; pose proof (len_nonneg l); nia].
      replace (n - 0) with n by lia. reflexivity.
    - rewrite copy_loop_start by (rewrite ?len_fresh; nia). rewrite drop_fresh by nia. reflexivity. }
  rewrite EA. cbn [bind].
  rewrite copy_loop_ok by (rewrite ?len_fresh; nia). cbn [bind]. rewrite drop_fresh by nia.
  rewrite copy_loop_ok by (rewrite ?len_app, ?len_fresh; nia). cbn [bind]. rewrite drop_fresh by nia.
  replace (n - nC * nV - nK * nV - nK * nV) with 0 by nia. simpl repeat. rewrite app_nil_r.
  rewrite !init_bounds_ok by (auto; lia). cbn [bind]. cbn [isNull orb].
  rewrite !alloc_ok by nia. cbn [bind].
  rewrite !copy_loop_start by (rewrite ?len_fresh; nia). cbn [bind]. rewrite !drop_all by (rewrite len_fresh; nia). rewrite !app_nil_r. 
  rewrite MatrixSymmetrizationProduct_ok by (rewrite ?len_fresh; nia). cbn [bind].
  unfold constrained. fold v. fold nV nC nK. replace (nC + 2 * nK - nC) with (2 * nK) by lia. rewrite <- app_assoc. reflexivity.
Qed.

(** The object after a dense load *)
Definition loaded_dense (u : udense T) (o : lcqp T) : lcqp T :=
  let v := ud_v u in
  let d := set_d_g (Some (lift (u_g v))) (set_d_Q (Some (lift (ud_Q u))) (pd o)) in
  mkLcqp (set_d_sparseSolver false (cbounded v (constrained u (boxed v d)))) (guessed v (it o)).

Lemma load_dense_ok u (o : lcqp T) : wf_dense u -> dims (ud_v u) (pd o) -> fin_lower (ud_v u) ->
  load_dense u o = Ok (SUCCESSFUL_RETURN, loaded_dense u o).
Proof.
  intros W D F. pose proof (wu_v _ W) as V. pose proof (wv_nV _ V). pose proof (wv_nComp _ V). pose proof (wv_sq _ V).
  pose proof D as (E1 & E2 & E3).
  unfold load_dense, loadLCQP. rewrite E1, E3. cbn [get bind].
  replace (u_nV (ud_v u) <=? 0) with false by lia. replace (u_nComp (ud_v u) <=? 0) with false by lia.
  unfold and_then at 1. unfold setQ. rewrite E1. cbn [get bind]. replace (u_nV (ud_v u) <=? 0) with false by lia.
  rewrite memcpy_new_k by (rewrite ?(wu_Q _ W); lia). cbn [bind is_success].
  unfold and_then at 1. rewrite (setG_ok (ud_v u)) by auto. cbn [bind is_success].
  rewrite (copy_box_ok (ud_v u)) by auto. cbn [bind].
  unfold and_then at 1. rewrite setConstraints_ok by auto. cbn [bind is_success].
  unfold and_then at 1. rewrite setComplementarityBounds_ok by auto. cbn [bind is_success].
  unfold and_then at 1. rewrite setInitialGuess_ok by auto. cbn [bind is_success].
  reflexivity.
Qed.

Lemma load_dense_bad u (o : lcqp T) : wf_dense u -> dims (ud_v u) (pd o) -> ~ fin_lower (ud_v u) ->
  exists o', load_dense u o = Ok (INVALID_LOWER_COMPLEMENTARITY_BOUND, o').
Proof.
  intros W D F. pose proof (wu_v _ W) as V. pose proof (wv_nV _ V). pose proof (wv_nComp _ V). pose proof (wv_sq _ V).
  pose proof D as (E1 & E2 & E3).
  unfold load_dense, loadLCQP. rewrite E1, E3. cbn [get bind].
  replace (u_nV (ud_v u) <=? 0) with false by lia. replace (u_nComp (ud_v u) <=? 0) with false by lia.
  unfold and_then at 1. unfold setQ. rewrite E1. cbn [get bind]. replace (u_nV (ud_v u) <=? 0) with false by lia.
  rewrite memcpy_new_k by (rewrite ?(wu_Q _ W); lia). cbn [bind is_success].
  unfold and_then at 1. rewrite (setG_ok (ud_v u)) by auto. cbn [bind is_success].
  rewrite (copy_box_ok (ud_v u)) by auto. cbn [bind].
  unfold and_then at 1. rewrite setConstraints_ok by auto. cbn [bind is_success].
  unfold and_then at 1.
  match goal with |- context [setComplementarityBounds _ _ _ _ ?o1] =>
    destruct (setComplementarityBounds_bad (ud_v u) o1) as (o' & E); auto; try reflexivity end.
  rewrite E. cbn [bind is_success]. eexists; reflexivity.
Qed.
End LoadDense.
