(** * CscMerge: the sparse penalised Hessian (setQk, updateQk) in any arithmetic. *)
From Verif Require Import Base Arith Codes Utilities Options Stats FileIO Subsolver State LCQProblem
  Tactics Loops Kernels SpecSparse CscKernels CscBuild.

Section Merge.
Context {T : Type} `{Arith T}.

(** A merged entry: row, value from Q, value from C *)
Definition tag : Type := (Z * (option T * option T))%type.

(** Merge of two sorted columns, each entry tagged with its two sources. Result of setQk on one column. *)
Fixpoint mtag (q c : list (Z * T)) {struct q} : list tag :=
  (fix aux (c : list (Z * T)) : list tag :=
     match q, c with
     | [], [] => []
     | e :: q', [] => (fst e, (Some (snd e), None)) :: mtag q' []
     | [], f :: c' => (fst f, (None, Some (snd f))) :: aux c'
     | e :: q', f :: c' =>
         if fst e <? fst f then (fst e, (Some (snd e), None)) :: mtag q' c
         else if fst f <? fst e then (fst f, (None, Some (snd f))) :: aux c'
         else (fst e, (Some (snd e), Some (snd f))) :: mtag q' c'
     end) c.

Lemma mtag_eq q c : mtag q c =
  match q, c with
  | [], [] => []
  | e :: q', [] => (fst e, (Some (snd e), None)) :: mtag q' []
  | [], f :: c' => (fst f, (None, Some (snd f))) :: mtag [] c'
  | e :: q', f :: c' =>
      if fst e <? fst f then (fst e, (Some (snd e), None)) :: mtag q' c
      else if fst f <? fst e then (fst f, (None, Some (snd f))) :: mtag q c'
      else (fst e, (Some (snd e), Some (snd f))) :: mtag q' c'
  end.
Proof. destruct q, c; reflexivity. Qed.

(** Value of a merged entry *)
Definition tval (rho : T) (t : tag) : T :=
  match snd t with
  | (Some x, None) => x
  | (None, Some y) => (rho * y)%num
  | (Some x, Some y) => (x + rho * y)%num
  | (None, None) => a_zero
  end.
(** Entry of a tagged column at penalty rho. No LCQPow code. *)
Definition tent (rho : T) (t : tag) : Z * T := (fst t, tval rho t).
(** Entry with a contribution of C. No LCQPow code. *)
Definition hasC (t : tag) : bool := match snd (snd t) with Some _ => true | None => false end.
(** Positions of the entries with a C part *)
Fixpoint cpos (base : Z) (l : list tag) : list Z :=
  match l with [] => [] | t :: l => if hasC t then base :: cpos (base + 1) l else cpos (base + 1) l end.

Lemma cpos_app b l r : cpos b (l ++ r) = cpos b l ++ cpos (b + len l) r.
Proof.
  revert b. induction l as [|t l IH]; intros b; simpl; [rewrite len_nil, Z.add_0_r; reflexivity|].
  rewrite IH, len_cons. replace (b + (len l + 1)) with (b + 1 + len l) by lia. destruct (hasC t); reflexivity.
Qed.

Lemma merge_col_ok rho nV (Q C : csc T) j built : len built = j ->
  forall fuel q c iQ iC cur idx (data : list T) (row : list Z),
  (length q + length c <= fuel)%nat ->
  (forall k, 0 <= k < len q -> csc_i Q (iQ + k) = Ok (fst (at_ (0, a_zero) q k)) /\ csc_x Q (iQ + k) = Ok (snd (at_ (0, a_zero) q k))) ->
  (forall k, 0 <= k < len c -> csc_i C (iC + k) = Ok (fst (at_ (0, a_zero) c k)) /\ csc_x C (iC + k) = Ok (snd (at_ (0, a_zero) c k))) ->
  merge_col fuel Q C rho j (iQ + len q) (iC + len c) iQ iC (data, row, popen nV built cur, idx) =
  Ok (data ++ map (tval rho) (mtag q c), row ++ map fst (mtag q c), popen nV built (cur ++ map (tent rho) (mtag q c)),
      idx ++ cpos (len (concat built) + len cur) (mtag q c)).
Proof.
  intros Hb. assert (Sh : forall (e : Z * T) l k, 0 <= k -> at_ (0, a_zero) l k = at_ (0, a_zero) (e :: l) (1 + k))
      by (intros e l k Hk; unfold at_; replace (Z.to_nat (1 + k)) with (Datatypes.S (Z.to_nat k)) by lia; reflexivity).
  assert (Stop : forall fuel iQ iC st, merge_col fuel Q C rho j iQ iC iQ iC st = Ok st).
  { intros fuel iQ iC st. destruct fuel; cbn [merge_col]; rewrite !Z.ltb_irrefl; reflexivity. }
  induction fuel as [|fuel IH]; intros q c iQ iC cur idx data row Hf HQ HC.
  - destruct q, c; simpl in Hf; try lia. rewrite !len_nil, !Z.add_0_r, Stop. simpl. rewrite !app_nil_r. reflexivity.
  - destruct q as [|e q].
    + destruct c as [|f c].
      * rewrite !len_nil, !Z.add_0_r, Stop. simpl. rewrite !app_nil_r. reflexivity.
      * rewrite (mtag_eq [] (f :: c)). pose proof (len_nonneg c). rewrite len_nil, Z.add_0_r, len_cons.
        cbn [merge_col]. destruct (Z.ltb_spec iQ iQ); [lia|]. destruct (Z.ltb_spec iC (iC + (len c + 1))); [|lia].
        destruct (Z.leb_spec iQ iQ); [|lia]. cbn [orb andb]. rewrite <- Hb at 1. rewrite popen_rd. cbn [bind].
        destruct (HC 0) as [Ei Ex]; [rewrite len_cons; lia|]. rewrite Z.add_0_r in Ei, Ex. change (at_ (0, a_zero) (f :: c) 0) with f in *.
        rewrite Ex. cbn [bind]. rewrite Ei. cbn [bind]. rewrite <- Hb at 1.
        rewrite (popen_push nV built cur (fst f, (rho * snd f)%num)). cbn [bind].
        replace (iC + (len c + 1)) with (iC + 1 + len c) by lia. replace iQ with (iQ + len (@nil (Z * T))) at 1 by (rewrite len_nil; lia).
        rewrite IH; [|simpl in *; lia|intros k Hk; unfold len in Hk; cbn in Hk; lia|].
        2: { intros k Hk. replace (iC + 1 + k) with (iC + (1 + k)) by lia. rewrite (Sh f) by lia. apply HC. rewrite len_cons. lia. }
        cbn [map cpos hasC snd fst tval tent]. rewrite <- !app_assoc. unfold tent at 2, tval at 3. cbn [snd fst app].
        rewrite len_app, len_cons, len_nil. rewrite Z.add_assoc. reflexivity.
    + destruct c as [|f c].
      * rewrite (mtag_eq (e :: q) []). pose proof (len_nonneg q). rewrite len_nil, Z.add_0_r, len_cons.
        cbn [merge_col]. destruct (Z.ltb_spec iC iC); [lia|]. destruct (Z.ltb_spec iQ (iQ + (len q + 1))); [|lia].
        destruct (Z.leb_spec iC iC); [|lia]. cbn [orb andb]. rewrite <- Hb at 1. rewrite popen_rd. cbn [bind].
        destruct (HQ 0) as [Ei Ex]; [rewrite len_cons; lia|]. rewrite Z.add_0_r in Ei, Ex. change (at_ (0, a_zero) (e :: q) 0) with e in *.
        rewrite Ex. cbn [bind]. rewrite Ei. cbn [bind]. rewrite <- Hb at 1.
        rewrite (popen_push nV built cur (fst e, snd e)). cbn [bind].
        replace (iQ + (len q + 1)) with (iQ + 1 + len q) by lia. replace iC with (iC + len (@nil (Z * T))) at 1 by (rewrite len_nil; lia).
        rewrite IH; [|simpl in *; lia| |intros k Hk; unfold len in Hk; cbn in Hk; lia].
        2: { intros k Hk. replace (iQ + 1 + k) with (iQ + (1 + k)) by lia. rewrite (Sh e) by lia. apply HQ. rewrite len_cons. lia. }
        cbn [map cpos hasC snd fst tval tent]. rewrite <- !app_assoc. unfold tent at 2, tval at 3. cbn [snd fst app].
        rewrite len_app, len_cons, len_nil. rewrite Z.add_assoc. reflexivity.
      * rewrite (mtag_eq (e :: q) (f :: c)). pose proof (len_nonneg c). pose proof (len_nonneg q).
        cbn [merge_col]. rewrite (len_cons f c), (len_cons e q).
        destruct (Z.ltb_spec iQ (iQ + (len q + 1))); [|lia]. destruct (Z.ltb_spec iC (iC + (len c + 1))); [|lia].
        destruct (Z.leb_spec (iC + (len c + 1)) iC); [lia|]. destruct (Z.leb_spec (iQ + (len q + 1)) iQ); [lia|]. cbn [orb andb].
        rewrite <- Hb at 1. rewrite popen_rd. cbn [bind].
        destruct (HQ 0) as [Ei Ex]; [rewrite len_cons; lia|]. rewrite Z.add_0_r in Ei, Ex. change (at_ (0, a_zero) (e :: q) 0) with e in *.
        destruct (HC 0) as [Fi Fx]; [rewrite len_cons; lia|]. rewrite Z.add_0_r in Fi, Fx. change (at_ (0, a_zero) (f :: c) 0) with f in *.
        rewrite Ei, Fi. cbn [bind]. rewrite Ex, Fx. cbn [bind].
        assert (HQ' : forall k, 0 <= k < len q -> csc_i Q (iQ + 1 + k) = Ok (fst (at_ (0, a_zero) q k)) /\ csc_x Q (iQ + 1 + k) = Ok (snd (at_ (0, a_zero) q k))).
        { intros k Hk. replace (iQ + 1 + k) with (iQ + (1 + k)) by lia. rewrite (Sh e) by lia. apply HQ. rewrite len_cons. lia. }
        assert (HC' : forall k, 0 <= k < len c -> csc_i C (iC + 1 + k) = Ok (fst (at_ (0, a_zero) c k)) /\ csc_x C (iC + 1 + k) = Ok (snd (at_ (0, a_zero) c k))).
        { intros k Hk. replace (iC + 1 + k) with (iC + (1 + k)) by lia. rewrite (Sh f) by lia. apply HC. rewrite len_cons. lia. }
        destruct (Z.ltb_spec (fst e) (fst f)); [|destruct (Z.ltb_spec (fst f) (fst e))].
        -- rewrite <- Hb at 1. rewrite (popen_push nV built cur (fst e, snd e)). cbn [bind].
           replace (iQ + (len q + 1)) with (iQ + 1 + len q) by lia. rewrite <- (len_cons f c).
           rewrite IH; auto; [|simpl in *; lia].
           cbn [map cpos hasC snd fst tval tent]. rewrite <- !app_assoc. unfold tent at 2, tval at 3. cbn [snd fst app].
           rewrite len_app, len_cons, len_nil. rewrite Z.add_assoc. reflexivity.
        -- rewrite <- Hb at 1. rewrite (popen_push nV built cur (fst f, (rho * snd f)%num)). cbn [bind].
           replace (iC + (len c + 1)) with (iC + 1 + len c) by lia. rewrite <- (len_cons e q).
           rewrite IH; auto; [|simpl in *; lia].
           cbn [map cpos hasC snd fst tval tent]. rewrite <- !app_assoc. unfold tent at 2, tval at 3. cbn [snd fst app].
           rewrite len_app, len_cons, len_nil. rewrite Z.add_assoc. reflexivity.
        -- rewrite <- Hb at 1. rewrite (popen_push nV built cur (fst e, (snd e + rho * snd f)%num)). cbn [bind].
           replace (iQ + (len q + 1)) with (iQ + 1 + len q) by lia. replace (iC + (len c + 1)) with (iC + 1 + len c) by lia.
           rewrite IH; auto; [|simpl in *; lia].
           cbn [map cpos hasC snd fst tval tent]. rewrite <- !app_assoc. unfold tent at 2, tval at 3. cbn [snd fst app].
           rewrite len_app, len_cons, len_nil. rewrite Z.add_assoc. reflexivity.
Qed.

(** The merged columns *)
Definition mtags (cq cc : list (list (Z * T))) (n : Z) : list (list tag) := tab n (fun j => mtag (col cq j) (col cc j)).
(** Columns of Q + rho C. No LCQPow code. *)
Definition mcols (rho : T) (tg : list (list tag)) : list (list (Z * T)) := map (map (tent rho)) tg.

Lemma mtag_rows q c t : In t (mtag q c) -> exists x, In (fst t, x) q \/ In (fst t, x) c.
Proof.
  remember (length q + length c)%nat as N eqn:EN. revert q c EN. induction N as [N IH] using lt_wf_ind. intros q c EN Hi.
  rewrite mtag_eq in Hi. destruct q as [|e q], c as [|f c].
  - contradiction.
  - destruct Hi as [<-|Hi]; [exists (snd f); right; left; destruct f; reflexivity|].
    destruct (IH (length (@nil (Z * T)) + length c)%nat) with (q := @nil (Z * T)) (c := c) as (x & Hx); auto; [simpl in *; lia|].
    exists x. destruct Hx; simpl; auto.
  - destruct Hi as [<-|Hi]; [exists (snd e); left; left; destruct e; reflexivity|].
    destruct (IH (length q + length (@nil (Z * T)))%nat) with (q := q) (c := @nil (Z * T)) as (x & Hx); auto; [simpl in *; lia|].
    exists x. destruct Hx; simpl; auto.
  - destruct (fst e <? fst f); [|destruct (fst f <? fst e)].
    + destruct Hi as [<-|Hi]; [exists (snd e); left; left; destruct e; reflexivity|].
      destruct (IH (length q + length (f :: c))%nat) with (q := q) (c := f :: c) as (x & Hx); auto; [simpl in *; lia|].
      exists x. destruct Hx; simpl in *; tauto.
    + destruct Hi as [<-|Hi]; [exists (snd f); right; left; destruct f; reflexivity|].
      destruct (IH (length (e :: q) + length c)%nat) with (q := e :: q) (c := c) as (x & Hx); auto; [simpl in *; lia|].
      exists x. destruct Hx; simpl in *; tauto.
    + destruct Hi as [<-|Hi]; [exists (snd e); left; left; destruct e; reflexivity|].
      destruct (IH (length q + length c)%nat) with (q := q) (c := c) as (x & Hx); auto; [simpl in *; lia|].
      exists x. destruct Hx; simpl in *; tauto.
Qed.

Lemma mtag_len q c : len (mtag q c) <= len q + len c.
Proof.
  remember (length q + length c)%nat as N eqn:EN. revert q c EN. induction N as [N IH] using lt_wf_ind. intros q c EN.
  rewrite mtag_eq. destruct q as [|e q], c as [|f c].
  - unfold len; simpl; lia.
  - specialize (IH (length (@nil (Z * T)) + length c)%nat ltac:(simpl in *; lia) [] c eq_refl). rewrite !len_cons. lia.
  - specialize (IH (length q + length (@nil (Z * T)))%nat ltac:(simpl in *; lia) q [] eq_refl). rewrite !len_cons. lia.
  - destruct (fst e <? fst f); [|destruct (fst f <? fst e)].
    + specialize (IH (length q + length (f :: c))%nat ltac:(simpl in *; lia) q (f :: c) eq_refl). rewrite !len_cons in *. lia.
    + specialize (IH (length (e :: q) + length c)%nat ltac:(simpl in *; lia) (e :: q) c eq_refl). rewrite !len_cons in *. lia.
    + specialize (IH (length q + length c)%nat ltac:(simpl in *; lia) q c eq_refl). rewrite !len_cons in *. pose proof (len_nonneg c). lia.
Qed.

Lemma concat_mcols rho tg : concat (mcols rho tg) = map (tent rho) (concat tg).
Proof. unfold mcols. symmetry. apply concat_map. Qed.

Lemma mtags_rows cq cc n m rho : (forall c r x, In c cq -> In (r, x) c -> 0 <= r < m) -> (forall c r x, In c cc -> In (r, x) c -> 0 <= r < m) ->
  len cq = n -> len cc = n -> forall c r x, In c (mcols rho (mtags cq cc n)) -> In (r, x) c -> 0 <= r < m.
Proof.
  intros HQ HC Lq Lc c r x Hc Hr. unfold mcols in Hc. apply in_map_iff in Hc. destruct Hc as (tl & <- & Ht).
  apply in_map_iff in Hr. destruct Hr as (t & E & Hr). injection E as <- <-.
  apply in_tab in Ht. destruct Ht as (j & Hj & ->). apply mtag_rows in Hr. destruct Hr as (y & [Hy|Hy]).
  - eapply HQ; eauto. apply col_in. lia.
  - eapply HC; eauto. apply col_in. lia.
Qed.

Lemma setQk_sparse_ok nV Q C cq cc rho idx0 : repr Q nV nV cq -> repr C nV nV cc ->
  nV + 1 <= INT_MAX -> len (concat cq) + len (concat cc) <= INT_MAX ->
  exists M, setQk_sparse nV Q C rho idx0 = Ok (M, idx0 ++ cpos 0 (concat (mtags cq cc nV))) /\
    repr M nV nV (mcols rho (mtags cq cc nV)).
Proof.
  intros HQ HC Hn Hz. pose proof (repr_n Q nV nV cq HQ) as Hn0. pose proof (rp_len _ _ _ _ HQ) as LQ. pose proof (rp_len _ _ _ _ HC) as LC.
  unfold setQk_sparse. rewrite alloc_ok by lia. cbn [bind]. rewrite (pclosed_nil (T := T)) by auto. cbn [bind].
  set (tf := fun j => mtag (col cq j) (col cc j)).
  pose (st := fun j => (map (tval rho) (concat (tab j tf)), map fst (concat (tab j tf)), pclosed nV (mcols rho (tab j tf)), idx0 ++ cpos 0 (concat (tab j tf)))).
  replace ([], [], pclosed (T := T) nV [], idx0) with (st 0) by (unfold st; rewrite tab_0; simpl; rewrite app_nil_r; reflexivity).
  match goal with |- context [for_ 0 nV ?b _] => rewrite (for_seq b st 0 nV) end; auto.
  2: { intros j Hj. unfold st at 1. assert (L : len (mcols rho (tab j tf)) = j) by (unfold mcols; rewrite len_map, len_tab; lia).
       assert (R := pclosed_rd nV (mcols rho (tab j tf))). rewrite L in R. rewrite R. cbn [bind].
       assert (W := pclosed_open nV (mcols rho (tab j tf))). rewrite L in W. rewrite W by lia. cbn [bind].
       rewrite !(csc_p_repr Q nV nV cq HQ), !(csc_p_repr C nV nV cc HC) by lia. cbn [bind].
       rewrite !off_succ by lia.
       rewrite merge_col_ok; auto.
       - unfold st. rewrite tab_succ by lia. unfold mcols. rewrite map_app, !concat_app. cbn [map concat]. rewrite !app_nil_r.
         rewrite pclosed_app by (rewrite len_map, len_tab; lia). rewrite !map_app, cpos_app. change (len (@nil (Z * T))) with 0. rewrite Z.add_0_r, Z.add_0_l.
         fold (mcols rho (tab j tf)). rewrite concat_mcols, len_map, app_assoc. reflexivity.
       - pose proof (len_nonneg (col cq j)). pose proof (len_nonneg (col cc j)). unfold len in *. lia.
       - intros k Hk. split; [apply (csc_i_repr Q nV nV cq HQ)|apply (csc_x_repr Q nV nV cq HQ)]; auto.
       - intros k Hk. split; [apply (csc_i_repr C nV nV cc HC)|apply (csc_x_repr C nV nV cc HC)]; auto. }
  unfold st. cbn [bind]. set (tg := concat (tab nV tf)).
  change (Z.of_nat (length (map (tval rho) tg))) with (len (map (tval rho) tg)). rewrite len_map.
  assert (Bd : len tg <= len (concat cq) + len (concat cc)).
  { assert (G : forall k, 0 <= k <= nV -> len (concat (tab k tf)) <= off cq k + off cc k).
    { intros k [Hk0 Hk]. revert Hk. pattern k. apply natlike_ind; auto; [rewrite tab_0, !off_0; simpl; unfold len; simpl; lia|].
      intros x Hx IH Hs. unfold Z.succ in *. rewrite tab_succ, concat_app, len_app by lia. rewrite !off_succ by lia. simpl. rewrite app_nil_r.
      pose proof (mtag_len (col cq x) (col cc x)). specialize (IH ltac:(lia)). change (tf x) with (mtag (col cq x) (col cc x)). lia. }
    pose proof (off_all cq) as O1. pose proof (off_all cc) as O2. rewrite LQ in O1. rewrite LC in O2. rewrite <- O1, <- O2. apply G. lia. }
  pose proof (len_nonneg tg). unfold chk_int. replace (in_int (len tg)) with true by (unfold in_int, INT_MIN, INT_MAX in *; lia). cbn [bind].
  rewrite !alloc_ok by lia. cbn [bind]. rewrite vecs_to_arrs; [|rewrite len_map; reflexivity..| |]; [|rewrite len_repeat; lia..]. cbn [bind].
  rewrite pclosed_full by (unfold mcols; rewrite len_map, len_tab; lia).
  eexists. split; [reflexivity|].
  assert (E1 : map (tval rho) tg = map snd (concat (mcols rho (tab nV tf)))) by (rewrite concat_mcols, map_map; reflexivity).
  assert (E2 : map fst tg = map fst (concat (mcols rho (tab nV tf)))) by (rewrite concat_mcols, map_map; reflexivity).
  assert (E3 : len tg = len (concat (mcols rho (tab nV tf)))) by (rewrite concat_mcols, len_map; reflexivity).
  rewrite E1, E2, E3. apply repr_create; [unfold mcols, mtags; rewrite len_map, len_tab; lia|].
  apply (mtags_rows cq cc nV nV rho); auto; [apply (rp_rows _ _ _ _ HQ)|apply (rp_rows _ _ _ _ HC)].
Qed.

(** ** Incremental update *)

(** Columns with the structure of [tg] and values given by [v] *)
Definition vcols (v : tag -> T) (tg : list (list tag)) : list (list (Z * T)) := map (map (fun t => (fst t, v t))) tg.
(** Effect of updateQk on one entry. *)
Definition bump (factor : T) (v : tag -> T) (t : tag) : T :=
  match snd (snd t) with Some y => (v t + factor * y)%num | None => v t end.
(** Positions and values of the entries with a contribution of C (Qk_indices_of_C). *)
Fixpoint cpairs (base : Z) (l : list tag) : list (Z * T) :=
  match l with
  | [] => []
  | t :: l => match snd (snd t) with Some y => (base, y) :: cpairs (base + 1) l | None => cpairs (base + 1) l end
  end.
Lemma cpairs_fst b l : map fst (cpairs b l) = cpos b l.
Proof. revert b. induction l as [|[r [x [y|]]] l IH]; intros b; simpl; auto. rewrite IH. reflexivity. Qed.
Lemma cpairs_app b l r : cpairs b (l ++ r) = cpairs b l ++ cpairs (b + len l) r.
Proof.
  revert b. induction l as [|t l IH]; intros b; simpl; [unfold len; simpl; rewrite Z.add_0_r; reflexivity|].
  rewrite IH, len_cons. replace (b + (len l + 1)) with (b + 1 + len l) by lia. destruct (snd (snd t)); reflexivity.
Qed.
Lemma cpairs_mtag b q c : map snd (cpairs b (mtag q c)) = map snd c.
Proof.
  remember (length q + length c)%nat as N eqn:EN. revert b q c EN. induction N as [N IH] using lt_wf_ind. intros b q c EN.
  rewrite mtag_eq. destruct q as [|e q], c as [|f c]; auto.
  - cbn [cpairs snd map]. f_equal. apply (IH (length (@nil (Z * T)) + length c)%nat); simpl in *; lia.
  - cbn [cpairs snd]. rewrite (IH (length q + length (@nil (Z * T)))%nat); auto. simpl in *; lia.
  - destruct (fst e <? fst f); [|destruct (fst f <? fst e)]; cbn [cpairs snd map].
    + rewrite (IH (length q + length (f :: c))%nat); auto. simpl in *; lia.
    + f_equal. apply (IH (length (e :: q) + length c)%nat); simpl in *; lia.
    + f_equal. apply (IH (length q + length c)%nat); simpl in *; lia.
Qed.
Lemma cpairs_mtags cq cc n : len cc = n -> map snd (cpairs 0 (concat (mtags cq cc n))) = map snd (concat cc).
Proof.
  intros L. assert (0 <= n) by (rewrite <- L; apply len_nonneg).
  assert (G : forall k, 0 <= k <= n -> map snd (cpairs 0 (concat (tab k (fun j => mtag (col cq j) (col cc j))))) = map snd (concat (take k cc))).
  { intros k [Hk0 Hk]. revert Hk. pattern k. apply natlike_ind; auto. intros x Hx IH Hs. unfold Z.succ in *.
    rewrite tab_succ, concat_app, cpairs_app, map_app, IH by lia. rewrite (take_succ []), concat_app, map_app by lia. f_equal.
    cbn [concat]. rewrite !app_nil_r. apply cpairs_mtag. }
  unfold mtags. rewrite G by lia. rewrite take_all by lia. reflexivity.
Qed.
Lemma cpairs_range b l k y : In (k, y) (cpairs b l) -> b <= k < b + len l.
Proof.
  revert b. induction l as [|[r [x [z|]]] l IH]; intros b Hi; simpl in Hi; [contradiction| |]; rewrite len_cons; pose proof (len_nonneg l).
  - destruct Hi as [E|Hi]; [injection E as <- _; lia|]. apply IH in Hi. lia.
  - apply IH in Hi. lia.
Qed.

Lemma upd_mid {X} (pre suf : list X) x y k : k = len pre -> upd (pre ++ x :: suf) (Z.to_nat k) y = pre ++ y :: suf.
Proof. intros ->. unfold len. rewrite Nat2Z.id. apply upd_app. Qed.

Lemma fold_bump factor v (l : list tag) (pre : list T) :
  fold_left (fun x e => upd x (Z.to_nat (fst e)) (at_ a_zero x (fst e) + factor * snd e)%num) (cpairs (len pre) l) (pre ++ map v l)
    = pre ++ map (bump factor v) l.
Proof.
  revert pre. induction l as [|t l IH]; intros pre; [reflexivity|]. cbn [cpairs map].
  assert (A : forall w, pre ++ w :: map v l = (pre ++ [w]) ++ map v l) by (intros; rewrite <- app_assoc; reflexivity).
  assert (L : forall w, len pre + 1 = len (pre ++ [w : T])) by (intros; rewrite len_app; reflexivity).
  unfold bump at 1. destruct (snd (snd t)) as [y|].
  - cbn [fold_left fst snd]. rewrite upd_mid by reflexivity.
    replace (at_ a_zero (pre ++ v t :: map v l) (len pre)) with (v t).
    + rewrite A, (L (v t + factor * y)%num), IH. rewrite <- app_assoc. reflexivity.
    + rewrite at_app_r by lia. rewrite Z.sub_diag. reflexivity.
  - rewrite A, (L (v t)), IH. rewrite <- app_assoc. reflexivity.
Qed.

Lemma concat_vcols v tg : concat (vcols v tg) = map (fun t => (fst t, v t)) (concat tg).
Proof. unfold vcols. symmetry. apply concat_map. Qed.
Lemma off_vcols v tg j : off (vcols v tg) j = len (concat (take j tg)).
Proof.
  unfold off, vcols, take. rewrite firstn_map. rewrite <- concat_map, len_map. reflexivity.
Qed.

Lemma updateQk_sparse_loop (M C : csc T) n v tg cc factor : repr M n n (vcols v tg) -> repr C n n cc ->
  map snd (cpairs 0 (concat tg)) = map snd (concat cc) ->
  exists x', for_ 0 (Z.of_nat (length (cpos 0 (concat tg)))) (fun j x =>
        let! k := vrd (cpos 0 (concat tg)) j in
        let! v := rd x k in
        let! c := csc_x C j in
        wr x k (v + factor * c)%num) (lift (map v (concat tg))) = Ok x' /\
    x' = lift (map (bump factor v) (concat tg)) /\
    repr (mkCsc (c_m M) (c_n M) (c_p M) (c_i M) (Some x') (c_nzmax M)) n n (vcols (bump factor v) tg).
Proof.
  intros HM HC HE. exists (lift (map (bump factor v) (concat tg))). split; [|split; [reflexivity|]].
  - set (l := concat tg) in *. rewrite <- cpairs_fst. rewrite map_length. fold (len (cpairs 0 l)).
    pose (g := fun (x : arr T) (e : Z * T) => match at_ None x (fst e) with Some w => upd x (Z.to_nat (fst e)) (Some (w + factor * snd e)%num) | None => x end).
    pose (P := fun x : arr T => exists lx, x = lift lx /\ len lx = len l).
    assert (Hg : forall lx e, 0 <= fst e < len lx -> g (lift lx) e = lift (upd lx (Z.to_nat (fst e)) (at_ a_zero lx (fst e) + factor * snd e)%num)).
    { intros lx e He. unfold g. rewrite (at_lift a_zero) by lia.
      pose proof (wr_lift lx (fst e) (at_ a_zero lx (fst e) + factor * snd e)%num He) as W.
      rewrite wr_ok in W by (rewrite len_lift; lia). congruence. }
    assert (Rg : forall e, In e (cpairs 0 l) -> 0 <= fst e < len l) by (intros [k y] Hi; apply cpairs_range in Hi; simpl; lia).
    destruct (for_list (0, a_zero) (cpairs 0 l) g (fun j x =>
        let! k := vrd (map fst (cpairs 0 l)) j in
        let! v := rd x k in
        let! c := csc_x C j in
        wr x k (v + factor * c)%num) P (lift (map v l))) as [E _].
    + exists (map v l). rewrite len_map. auto.
    + intros k x Hk (lx & -> & Hl). set (e := at_ (0, a_zero) (cpairs 0 l) k).
      assert (He : 0 <= fst e < len l) by (apply Rg, in_at; lia).
      rewrite (vrd_ok (fst (0, a_zero))) by (rewrite len_map; lia). rewrite at_map. fold e. cbn [bind].
      rewrite rd_vec_ by lia. cbn [bind].
      assert (Ec : csc_x C k = Ok (snd e)).
      { unfold csc_x. rewrite (rp_x _ _ _ _ HC). cbn [deref bind]. rewrite <- HE.
        rewrite (rd_lift (snd (0, a_zero))) by (rewrite len_map; lia). rewrite at_map. reflexivity. }
      rewrite Ec. cbn [bind]. rewrite wr_lift by lia. rewrite Hg by lia. split; auto.
      eexists. split; [reflexivity|]. rewrite len_upd. auto.
    + rewrite E. f_equal.
      pose proof (fold_bump factor v l []) as FB. change (len (@nil T)) with 0 in FB. cbn [app] in FB. rewrite <- FB.
      assert (F : forall ps lx, len lx = len l -> (forall e, In e ps -> 0 <= fst e < len l) -> fold_left g ps (lift lx) =
        lift (fold_left (fun x e => upd x (Z.to_nat (fst e)) (at_ a_zero x (fst e) + factor * snd e)%num) ps lx)).
      { induction ps as [|e ps IH]; intros lx Hl Hr; [reflexivity|]. cbn [fold_left].
        rewrite Hg by (rewrite Hl; apply Hr; left; auto). apply IH; [rewrite len_upd; auto|intros; apply Hr; right; auto]. }
      apply F; [rewrite len_map; reflexivity|auto].
  - destruct HM as [Em En El Ep Ei Ex Ez Er]. constructor; cbn; auto.
    + unfold vcols in *. rewrite len_map in *. auto.
    + rewrite Ep. do 2 f_equal. apply tab_ext. intros j Hj. rewrite !off_vcols. reflexivity.
    + rewrite Ei. rewrite !concat_vcols, !map_map. reflexivity.
    + rewrite concat_vcols, map_map. reflexivity.
    + rewrite Ez. rewrite !concat_vcols, !len_map. reflexivity.
    + intros c r x Hc Hr. unfold vcols in Hc. apply in_map_iff in Hc. destruct Hc as (tl & <- & Ht).
      apply in_map_iff in Hr. destruct Hr as (t & E & Hr). injection E as <- <-.
      apply (Er (map (fun t => (fst t, v t)) tl) (fst t) (v t)).
      * unfold vcols. apply in_map. auto.
      * apply (in_map (fun t => (fst t, v t))). auto.
Qed.

End Merge.
