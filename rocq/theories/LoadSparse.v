(** * LoadSparse: the object after [loadLCQP] with sparse data (no LCQPow code). *)
From Verif Require Import Base Arith Codes Utilities Options Stats FileIO Subsolver State LCQProblem Tactics Loops Kernels SpecSparse CscKernels CscBuild SpecLoad LoadLoops LoadDense.

Section LoadSparse.
Context {T : Type} `{Arith T}.
Implicit Types (cols : list (list (Z * T))).

Lemma sorted_len (c : list (Z * T)) m : sorted c -> (forall r x, In (r, x) c -> 0 <= r < m) -> len c <= Z.max 0 m.
Proof.
  intros S R.
  assert (G : forall (c : list (Z * T)) lo, sorted c -> (forall e, In e c -> lo <= fst e < m) -> len c <= Z.max 0 (m - lo)).
  { clear. induction c as [|e c IH]; intros lo S R; [unfold len; simpl; lia|].
    rewrite len_cons. destruct S as [S1 S2]. specialize (IH (fst e + 1) S2).
    assert (R0 := R e (or_introl eq_refl)).
    assert (len c <= Z.max 0 (m - (fst e + 1))). { apply IH. intros e' He. specialize (S1 e' He). specialize (R e' (or_intror He)). lia. }
    lia. }
  specialize (G c 0 S). replace (m - 0) with m in G by lia. apply G. intros [r x] Hx. simpl. eapply R; eauto.
Qed.
Lemma len_concat_le cols k : (forall c, In c cols -> len c <= k) -> len (concat cols) <= len cols * k.
Proof.
  induction cols as [|c cols IH]; intros A; [unfold len; simpl; lia|].
  cbn [concat]. rewrite len_app, len_cons. specialize (IH (fun c' Hc => A c' (or_intror Hc))). specialize (A c (or_introl eq_refl)). lia.
Qed.
Lemma wf_cols_len m n cols : 0 <= m -> wf_cols m n cols -> len (concat cols) <= n * m.
Proof.
  intros Hm (L & R & S). rewrite <- L. apply len_concat_le. intros c Hc. replace m with (Z.max 0 m) by lia. apply sorted_len; eauto.
Qed.

Lemma repeat_cons n : 0 < n -> repeat (@None T) (Z.to_nat n) = None :: repeat None (Z.to_nat (n - 1)).
Proof. intros. replace (Z.to_nat n) with (S (Z.to_nat (n - 1))) by lia. reflexivity. Qed.

(** State of the stacking loop: [built] columns done, entries [cur] of the next one stored *)
Definition sst (n N : Z) (built : list (list (Z * T))) (cur : list (Z * T)) : arr T * arr Z * arr Z * Z :=
  let l := concat built ++ cur in
  (lift (map snd l) ++ repeat None (Z.to_nat (N - len l)), lift (map fst l) ++ repeat None (Z.to_nat (N - len l)), popen n built cur, len l).

Lemma append_col_ok M m n cols i o N built cur : repr M m n cols -> 0 <= i < n -> len built = i -> 0 <= o -> o + m <= INT_MAX ->
  len (concat built ++ cur) + len (col cols i) <= N ->
  append_col M i o (sst n N built cur) = Ok (sst n N built (cur ++ shift_col o (col cols i))).
Proof.
  intros HR Hi Hb Ho Hm HN. unfold append_col. rewrite (for_col_repr M m n cols HR) by auto.
  set (c := col cols i) in *. pose proof (len_nonneg c).
  pose (st := fun k => sst n N built (cur ++ shift_col o (take k c))).
  replace (sst n N built cur) with (st 0) by (unfold st; rewrite take_0; simpl; rewrite app_nil_r; reflexivity).
  rewrite (for_seq _ st); [unfold st; rewrite take_all by lia; reflexivity|auto|].
  intros k Hk. unfold st, sst. rewrite (csc_x_repr M m n cols HR a_zero i k) by auto. cbn [bind].
  set (e := at_ (0, a_zero) (col cols i) k).
  set (l := concat built ++ cur ++ shift_col o (take k c)).
  assert (Ll : len l = len (concat built ++ cur) + k).
  { unfold l. rewrite app_assoc, len_app. unfold shift_col. rewrite len_map, len_take by lia. reflexivity. }
  replace (Z.to_nat (N - len l)) with (S (Z.to_nat (N - len l - 1))) by lia. cbn [repeat].
  rewrite wr_app by (rewrite len_lift, len_map; reflexivity). cbn [bind].
  rewrite (csc_i_repr M m n cols HR a_zero i k) by auto. cbn [bind]. fold e.
  assert (He : 0 <= fst e < m) by (apply (row_repr M m n cols HR); auto).
  unfold chk_int. replace (in_int (o + fst e)) with true by (unfold in_int, INT_MIN, INT_MAX in *; lia). cbn [bind].
  rewrite wr_app by (rewrite len_lift, len_map; reflexivity). cbn [bind].
  rewrite <- Hb. rewrite popen_rd. cbn [bind]. rewrite (popen_push n built _ (o + fst e, snd e)). cbn [bind].
  rewrite (take_succ (0, a_zero)) by lia. change (at_ (0, a_zero) c k) with e.
  assert (E : concat built ++ cur ++ shift_col o (take k c ++ [e]) = l ++ [(o + fst e, snd e)]).
  { unfold l, shift_col. rewrite map_app. rewrite !app_assoc. reflexivity. }
  rewrite E. rewrite !map_app, !lift_app, <- !app_assoc, len_app. unfold shift_col. rewrite map_app.
  replace (N - (len l + len [(o + fst e, snd e)])) with (N - len l - 1) by (unfold len; simpl; lia).
  replace (len l + len [(o + fst e, snd e)]) with (len l + 1) by (unfold len; simpl; lia).
  rewrite <- ?app_assoc. reflexivity.
Qed.

Lemma concat_tab_le {X} (f : Z -> list X) n j : 0 <= j < n -> len (concat (tab j f)) + len (f j) <= len (concat (tab n f)).
Proof.
  intros Hj. assert (G : forall k, 0 <= k -> len (concat (tab j f)) + len (f j) <= len (concat (tab (j + 1 + k) f))).
  { intros k Hk. pattern k. apply natlike_ind; auto.
    - replace (j + 1 + 0) with (j + 1) by lia. rewrite tab_succ by lia. rewrite concat_app, len_app. simpl. rewrite app_nil_r. lia.
    - intros x Hx IH. replace (j + 1 + Z.succ x) with (j + 1 + x + 1) by lia. rewrite (tab_succ (j + 1 + x)) by lia. rewrite concat_app, len_app.
      pose proof (len_nonneg (concat [f (j + 1 + x)])). lia. }
  replace n with (j + 1 + (n - j - 1)) by lia. apply G. lia.
Qed.
Lemma len_concat3 (a b c : Z -> list (Z * T)) n : 0 <= n ->
  len (concat (tab n (fun j => a j ++ b j ++ c j))) = len (concat (tab n a)) + len (concat (tab n b)) + len (concat (tab n c)).
Proof.
  intros Hn. pattern n. apply natlike_ind; [reflexivity| |exact Hn].
  intros x Hx IH. unfold Z.succ. rewrite !(tab_succ x) by lia. rewrite !concat_app, !len_app. cbn [concat]. rewrite !app_nil_r, !len_app. lia.
Qed.
Lemma concat_shift o cols n : len (concat (tab n (fun j => shift_col o (col cols j)))) = len (concat (tab n (col cols))).
Proof.
  destruct (Z_le_gt_dec 0 n) as [Hn|]; [|rewrite !tab_neg by lia; reflexivity].
  pattern n. apply natlike_ind; [reflexivity| |exact Hn].
  intros x Hx IH. unfold Z.succ. rewrite !(tab_succ x) by lia. rewrite !concat_app, !len_app. cbn [concat]. rewrite !app_nil_r.
  unfold shift_col at 2. rewrite len_map. lia.
Qed.
Lemma tab_col cols n : len cols = n -> tab n (col cols) = cols.
Proof. intros <-. apply tab_at. Qed.

Lemma len_stack nC nK n (cA cL cR : list (list (Z * T))) : len cA = n -> len cL = n -> len cR = n ->
  len (concat (stack_cols nC nK n cA cL cR)) = len (concat cA) + len (concat cL) + len (concat cR).
Proof.
  intros LA LL LR. pose proof (len_nonneg cA). unfold stack_cols. rewrite (len_concat3 (col cA)) by lia. rewrite !concat_shift, !tab_col by auto. lia.
Qed.
Lemma stack_rows nC nK n (cA cL cR : list (list (Z * T))) : len cA = n -> len cL = n -> len cR = n -> 0 <= nC -> 0 <= nK ->
  (forall c r x, In c cA -> In (r, x) c -> 0 <= r < nC) -> (forall c r x, In c cL -> In (r, x) c -> 0 <= r < nK) ->
  (forall c r x, In c cR -> In (r, x) c -> 0 <= r < nK) ->
  forall c r x, In c (stack_cols nC nK n cA cL cR) -> In (r, x) c -> 0 <= r < nC + 2 * nK.
Proof.
  intros LA LL LR H0 H1 RA RL RR c r x Hc Hx. apply in_tab in Hc. destruct Hc as (j & Hj & ->).
  assert (S : forall k cc, In (r, x) (shift_col k cc) -> exists r', r = k + r' /\ In (r', x) cc).
  { intros k cc Hs. apply in_map_iff in Hs. destruct Hs as ([r' x'] & E & Hs). simpl in E. injection E as <- <-. eauto. }
  apply in_app_or in Hx. destruct Hx as [Hx|Hx]; [|apply in_app_or in Hx; destruct Hx as [Hx|Hx]].
  - specialize (RA (col cA j) r x (col_in cA j ltac:(lia)) Hx). lia.
  - apply S in Hx. destruct Hx as (r' & -> & Hx). specialize (RL (col cL j) r' x (col_in cL j ltac:(lia)) Hx). lia.
  - apply S in Hx. destruct Hx as (r' & -> & Hx). specialize (RR (col cR j) r' x (col_in cR j ltac:(lia)) Hx). lia.
Qed.

(** Stacked constraint matrix and complementarity matrix.  No LCQPow code. *)
Definition us_ALR (u : usparse T) : list (list (Z * T)) :=
  let v := us_v u in stack_cols (u_nC v) (u_nComp v) (u_nV v) (us_Acols u) (us_L u) (us_R u).
(** The matrix C of a sparse problem. *)
Definition us_C (u : usparse T) : list (list (Z * T)) := symm_cols (us_L u) (us_R u) (u_nV (us_v u)).

(** Effect of setConstraints on the object (sparse data). *)
Definition constrained_csc (u : usparse T) (d : pdata T) : pdata T :=
  let v := us_v u in
  let Cm := if len (concat (us_C u)) =? 0 then None else Some (csc_of (u_nV v) (u_nV v) (us_C u)) in
  set_d_C_sparse Cm
   (set_d_ubA (Some (lift (bnd (u_nC v) (u_ubA v) a_pinf) ++ repeat None (Z.to_nat (2 * u_nComp v))))
   (set_d_lbA (Some (lift (bnd (u_nC v) (u_lbA v) a_ninf) ++ repeat None (Z.to_nat (2 * u_nComp v))))
   (set_d_A_sparse (Some (csc_of (u_nA v) (u_nV v) (us_ALR u)))
   (set_d_R_sparse (Some (csc_of (u_nComp v) (u_nV v) (us_R u))) (set_d_L_sparse (Some (csc_of (u_nComp v) (u_nV v) (us_L u))) d))))).

Lemma setConstraints_csc_ok u (o : lcqp T) : wf_sparse u -> dims (us_v u) (pd o) ->
  setConstraints_csc (Some (csc_of (u_nComp (us_v u)) (u_nV (us_v u)) (us_L u))) (Some (csc_of (u_nComp (us_v u)) (u_nV (us_v u)) (us_R u)))
    (match us_A u with Some c => Some (csc_of (u_nC (us_v u)) (u_nV (us_v u)) c) | None => None end)
    (ptr_of (u_lbA (us_v u))) (ptr_of (u_ubA (us_v u))) o =
  Ok (if len (concat (us_C u)) =? 0 then FAILED_SYM_COMPLEMENTARITY_MATRIX else SUCCESSFUL_RETURN, mkLcqp (constrained_csc u (pd o)) (it o)).
Proof.
  intros W (E1 & E2 & E3). pose proof (ws_v _ W) as V. pose proof (wv_nV _ V). pose proof (wv_nC _ V). pose proof (wv_nComp _ V). pose proof (wv_int _ V).
  pose proof (wv_sq _ V). pose proof (wv_rect _ V) as HR. unfold u_nA in HR. pose proof (wv_lbA _ V). pose proof (wv_ubA _ V).
  pose proof (ws_L _ W) as WL. pose proof (ws_R _ W) as WR. pose proof (ws_A _ W) as WA.
  set (v := us_v u) in *. set (nV := u_nV v) in *. set (nC := u_nC v) in *. set (nK := u_nComp v) in *.
  pose proof (repr_csc_of _ _ _ WL) as RL. pose proof (repr_csc_of _ _ _ WR) as RR. pose proof (repr_csc_of _ _ _ WA) as RA.
  pose proof (wf_cols_len nK nV (us_L u) ltac:(lia) WL) as BL. pose proof (wf_cols_len nK nV (us_R u) ltac:(lia) WR) as BR.
  pose proof (wf_cols_len nC nV (us_Acols u) ltac:(lia) WA) as BA.
  unfold setConstraints_csc. rewrite (copyCSC_ok _ _ _ _ RL) by nia. rewrite (copyCSC_ok _ _ _ _ RR) by nia. cbn [bind].
  rewrite E1, E2, E3. cbn [get bind].
  fold nV nC nK.
  rewrite (csc_p_repr _ _ _ _ RL), (csc_p_repr _ _ _ _ RR) by lia. cbn [bind].
  pose proof (proj1 WL) as LL. pose proof (proj1 WR) as LR. pose proof (proj1 WA) as LA.
  replace (off (us_L u) nV) with (len (concat (us_L u))) by (rewrite <- LL, off_all; reflexivity).
  replace (off (us_R u) nV) with (len (concat (us_R u))) by (rewrite <- LR, off_all; reflexivity).
  assert (EpA : match match us_A u with Some c => Some (csc_of nC nV c) | None => None end with
                | Some A => match c_p A with Some _ => csc_p A nV | None => Ok 0 end | None => Ok 0 end = Ok (len (concat (us_Acols u)))).
  { unfold us_Acols in *. fold v in WA, RA, LA |- *. destruct (us_A u) as [c|].
    - change (c_p (csc_of nC nV c)) with (Some (lift (tab (nV + 1) (off c)))). cbv iota. rewrite (csc_p_repr _ _ _ _ RA) by lia.
      rewrite <- LA, off_all. reflexivity.
    - f_equal. fold nV. assert (G : forall k, 0 <= k -> concat (tab k (fun _ => @nil (Z * T))) = []).
      { intros k Hk. pattern k. apply natlike_ind; auto. intros x Hx IH. unfold Z.succ. rewrite tab_succ, concat_app, IH by lia. reflexivity. }
      rewrite G by lia. reflexivity. }
  rewrite EpA. cbn [bind].
  set (N := len (concat (us_L u)) + len (concat (us_R u)) + len (concat (us_Acols u))).
  assert (HN : 0 <= N <= INT_MAX).
  { pose proof (len_nonneg (concat (us_L u))). pose proof (len_nonneg (concat (us_R u))). pose proof (len_nonneg (concat (us_Acols u))). unfold N. nia. }
  unfold chk_int. replace (in_int N) with true by (unfold in_int, INT_MIN, INT_MAX in *; lia). cbn [bind].
  rewrite !alloc_ok by lia. cbn [bind]. rewrite (pclosed_nil (T := T)) by lia. cbn [bind].
  set (f := fun j => col (us_Acols u) j ++ shift_col nC (col (us_L u) j) ++ shift_col (nC + nK) (col (us_R u) j)).
  assert (LS : len (concat (tab nV f)) = N). { pose proof (len_stack nC nK nV _ _ _ LA LL LR) as E. unfold stack_cols in E. fold f in E. rewrite E. unfold N. lia. }
  pose (st := fun j => let l := concat (tab j f) in
     (lift (map snd l) ++ repeat None (Z.to_nat (N - len l)), lift (map fst l) ++ repeat None (Z.to_nat (N - len l)), pclosed nV (tab j f), len l)).
  match goal with |- context [for_ 0 nV ?b ?s] => assert (EL : for_ 0 nV b s = Ok (st nV)) end.
  { match goal with |- for_ 0 nV ?b ?s = _ => replace s with (st 0) end.
    2:{ unfold st. rewrite tab_0. cbn [concat map lift]. change (len (@nil (Z * T))) with 0. replace (N - 0) with N by lia. reflexivity. }
    apply for_seq; [lia|]. intros j Hj. unfold st at 1.
    assert (Lj : len (tab j f) = j) by (apply len_tab; lia).
    assert (R := pclosed_rd nV (tab j f)). rewrite Lj in R. rewrite R. cbn [bind].
    assert (Wr := pclosed_open nV (tab j f)). rewrite Lj in Wr. rewrite Wr by lia. cbn [bind].
    pose proof (concat_tab_le f nV j Hj) as Lf. rewrite LS in Lf.
    assert (Lfj : len (f j) = len (col (us_Acols u) j) + len (col (us_L u) j) + len (col (us_R u) j)).
    { unfold f, shift_col. rewrite !len_app, !len_map. lia. }
    pose proof (len_nonneg (col (us_Acols u) j)). pose proof (len_nonneg (col (us_L u) j)). pose proof (len_nonneg (col (us_R u) j)).
    assert (EA : match match us_A u with Some c => Some (csc_of nC nV c) | None => None end with
                 | Some A => append_col A j 0 (lift (map snd (concat (tab j f))) ++ repeat None (Z.to_nat (N - len (concat (tab j f)))),
                     lift (map fst (concat (tab j f))) ++ repeat None (Z.to_nat (N - len (concat (tab j f)))), popen nV (tab j f) [], len (concat (tab j f)))
                 | None => Ok (lift (map snd (concat (tab j f))) ++ repeat None (Z.to_nat (N - len (concat (tab j f)))),
                     lift (map fst (concat (tab j f))) ++ repeat None (Z.to_nat (N - len (concat (tab j f)))), popen nV (tab j f) [], len (concat (tab j f)))
                 end = Ok (sst nV N (tab j f) (col (us_Acols u) j))).
    { assert (Es : (lift (map snd (concat (tab j f))) ++ repeat None (Z.to_nat (N - len (concat (tab j f)))),
                     lift (map fst (concat (tab j f))) ++ repeat None (Z.to_nat (N - len (concat (tab j f)))), popen nV (tab j f) [], len (concat (tab j f))) = sst nV N (tab j f) []).
      { unfold sst. rewrite app_nil_r. reflexivity. }
      rewrite Es. unfold us_Acols in *. fold v in WA, RA, LA |- *. destruct (us_A u) as [c|].
      - rewrite (append_col_ok _ nC nV c) by (auto; rewrite ?app_nil_r; lia).
        assert (Sh : shift_col 0 (col c j) = col c j). { unfold shift_col. rewrite <- (map_id (col c j)) at 2. apply map_ext. intros []. reflexivity. }
        rewrite Sh. reflexivity.
      - fold nV. unfold col. rewrite at_tab by lia. reflexivity. }
    match goal with |- bind ?m _ = _ => assert (Em : m = Ok (sst nV N (tab j f) (col (us_Acols u) j))) by exact EA; rewrite Em end. cbn [bind].
    rewrite (append_col_ok _ nK nV (us_L u)) by (auto; rewrite ?len_app; lia). cbn [bind].
    rewrite (append_col_ok _ nK nV (us_R u)) by (auto; unfold shift_col; rewrite ?len_app, ?len_map; lia).
    unfold st, sst. rewrite <- app_assoc. fold (f j). rewrite tab_succ by lia. rewrite concat_app. cbn [concat]. rewrite app_nil_r.
    rewrite pclosed_app by lia. reflexivity. }
  rewrite EL. unfold st. cbn [bind]. rewrite LS. replace (N - N) with 0 by lia. simpl repeat. rewrite !app_nil_r.
  rewrite pclosed_full by (apply len_tab; lia).
  rewrite !init_bounds_ok by (auto; lia). cbn [bind].
  destruct (MatrixSymmetrizationProduct_csc_ok _ _ nK nV _ _ RL RR) as (M & EM & HM); try lia.
  rewrite EM. cbn [bind]. fold v in HM. unfold constrained_csc, us_C, us_ALR. fold v. fold nV nC nK. 
  assert (EMM : M = if len (concat (symm_cols (us_L u) (us_R u) nV)) =? 0 then None else Some (csc_of nV nV (symm_cols (us_L u) (us_R u) nV))).
  { destruct (len (concat (symm_cols (us_L u) (us_R u) nV)) =? 0); auto. destruct HM as (M' & -> & HM). f_equal. apply csc_of_repr; auto. }
  rewrite EMM. replace (nC + 2 * nK - nC) with (2 * nK) by lia.
  assert (EC : createCSC (nC + 2 * nK) nV N (lift (map snd (concat (tab nV f)))) (lift (map fst (concat (tab nV f)))) (lift (tab (nV + 1) (off (tab nV f))))
               = csc_of (u_nA v) nV (stack_cols nC nK nV (us_Acols u) (us_L u) (us_R u))).
  { unfold createCSC, csc_of, u_nA, stack_cols. fold f. rewrite LS. reflexivity. }
  rewrite EC. destruct (len (concat (symm_cols (us_L u) (us_R u) nV)) =? 0); reflexivity.
Qed.

(** The object after a sparse load.  No LCQPow code. *)
Definition loaded_sparse (u : usparse T) (o : lcqp T) : lcqp T :=
  let v := us_v u in
  let d := set_d_g (Some (lift (u_g v))) (set_d_Q_sparse (Some (csc_of (u_nV v) (u_nV v) (us_Q u))) (pd o)) in
  mkLcqp (set_d_sparseSolver true (boxed v (cbounded v (constrained_csc u d)))) (guessed v (it o)).

Lemma load_sparse_ok u (o : lcqp T) : wf_sparse u -> dims (us_v u) (pd o) -> fin_lower (us_v u) -> concat (us_C u) <> [] ->
  load_sparse u o = Ok (SUCCESSFUL_RETURN, loaded_sparse u o).
Proof.
  intros W D F NZ. pose proof (ws_v _ W) as V. pose proof (wv_nV _ V). pose proof (wv_nC _ V). pose proof (wv_nComp _ V). pose proof (wv_int _ V). pose proof (wv_sq _ V).
  pose proof D as (E1 & E2 & E3).
  unfold load_sparse, loadLCQP_csc. unfold and_then at 1. unfold setQ_csc. rewrite E1. cbn [get bind].
  replace (u_nV (us_v u) <=? 0) with false by lia.
  pose proof (ws_Q _ W) as WQ. assert (0 <= u_nV (us_v u)) by lia. pose proof (wf_cols_len (u_nV (us_v u)) _ _ ltac:(assumption) WQ).
  rewrite (copyCSC_ok _ _ _ _ (repr_csc_of _ _ _ WQ)) by lia. cbn [bind is_success].
  unfold and_then at 1. rewrite (setG_ok (us_v u)) by auto. cbn [bind is_success].
  unfold and_then at 1. rewrite setConstraints_csc_ok by auto. cbn [bind].
  replace (len (concat (us_C u)) =? 0) with false by (destruct (concat (us_C u)) eqn:E; [congruence|rewrite len_cons; pose proof (len_nonneg l); lia]).
  cbn [is_success].
  unfold and_then at 1. rewrite setComplementarityBounds_ok by auto. cbn [bind is_success].
  unfold and_then at 1. rewrite setInitialGuess_ok by auto. cbn [bind is_success].
  rewrite (copy_box_ok (us_v u)) by auto. cbn [bind].
  reflexivity.
Qed.

Lemma load_sparse_zero u (o : lcqp T) : wf_sparse u -> dims (us_v u) (pd o) -> concat (us_C u) = [] ->
  exists o', load_sparse u o = Ok (FAILED_SYM_COMPLEMENTARITY_MATRIX, o').
Proof.
  intros W D NZ. pose proof (ws_v _ W) as V. pose proof (wv_nV _ V). pose proof (wv_nC _ V). pose proof (wv_nComp _ V). pose proof (wv_int _ V). pose proof (wv_sq _ V).
  pose proof D as (E1 & E2 & E3).
  unfold load_sparse, loadLCQP_csc. unfold and_then at 1. unfold setQ_csc. rewrite E1. cbn [get bind].
  replace (u_nV (us_v u) <=? 0) with false by lia.
  pose proof (ws_Q _ W) as WQ. assert (0 <= u_nV (us_v u)) by lia. pose proof (wf_cols_len (u_nV (us_v u)) _ _ ltac:(assumption) WQ).
  rewrite (copyCSC_ok _ _ _ _ (repr_csc_of _ _ _ WQ)) by lia. cbn [bind is_success].
  unfold and_then at 1. rewrite (setG_ok (us_v u)) by auto. cbn [bind is_success].
  unfold and_then at 1. rewrite setConstraints_csc_ok by auto. cbn [bind]. rewrite NZ. cbn. eexists; reflexivity.
Qed.

Lemma load_sparse_bad u (o : lcqp T) : wf_sparse u -> dims (us_v u) (pd o) -> ~ fin_lower (us_v u) -> concat (us_C u) <> [] ->
  exists o', load_sparse u o = Ok (INVALID_LOWER_COMPLEMENTARITY_BOUND, o').
Proof.
  intros W D F NZ. pose proof (ws_v _ W) as V. pose proof (wv_nV _ V). pose proof (wv_nC _ V). pose proof (wv_nComp _ V). pose proof (wv_int _ V). pose proof (wv_sq _ V).
  pose proof D as (E1 & E2 & E3).
  unfold load_sparse, loadLCQP_csc. unfold and_then at 1. unfold setQ_csc. rewrite E1. cbn [get bind].
  replace (u_nV (us_v u) <=? 0) with false by lia.
  pose proof (ws_Q _ W) as WQ. assert (0 <= u_nV (us_v u)) by lia. pose proof (wf_cols_len (u_nV (us_v u)) _ _ ltac:(assumption) WQ).
  rewrite (copyCSC_ok _ _ _ _ (repr_csc_of _ _ _ WQ)) by lia. cbn [bind is_success].
  unfold and_then at 1. rewrite (setG_ok (us_v u)) by auto. cbn [bind is_success].
  unfold and_then at 1. rewrite setConstraints_csc_ok by auto. cbn [bind].
  replace (len (concat (us_C u)) =? 0) with false by (destruct (concat (us_C u)) eqn:E; [congruence|rewrite len_cons; pose proof (len_nonneg l); lia]).
  cbn [is_success]. unfold and_then at 1.
  match goal with |- context [setComplementarityBounds _ _ _ _ ?o1] =>
    destruct (setComplementarityBounds_bad (us_v u) o1) as (o' & E); auto; try reflexivity end.
  rewrite E. cbn [bind is_success]. eexists; reflexivity.
Qed.
End LoadSparse.
