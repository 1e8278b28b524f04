(** * InterfaceFacts: proofs about files, messages and the interfaces to MATLAB and Python (no LCQPow code). *)
From Coq Require Import String QArith Qcanon Lqa.
From Verif Require Import Base Arith Codes Utilities Options Stats FileIO Subsolver State LCQProblem Loops Tactics SpecSparse SpecLoad Messages Matlab Python Printf SpecInterfaces.
Local Open Scope list_scope.
Local Open Scope Z_scope.

(** ** Reading files *)
Section Files.
Context {X : Type}.
Lemma read_good (data : arr X) n (vs : list X) rest : len vs = n -> n <= len data -> read_loop data n (map TNum vs ++ rest) = Ok (SUCCESSFUL_RETURN, lift vs ++ drop n data).
Proof.
  intros Hn Hd. pose proof (len_nonneg vs). unfold read_loop.
  pose (st := fun i => (lift (take i vs) ++ drop i data, map TNum (drop i vs) ++ rest)).
  assert (E : forall i, 0 <= i < n -> exists v, drop i vs = v :: drop (i + 1) vs /\ take (i + 1) vs = take i vs ++ [v]).
  { intros i Hi. destruct (drop i vs) as [|v t] eqn:Ed; [exfalso; pose proof (len_drop vs i ltac:(lia)); rewrite Ed in *; change (len (@nil X)) with 0 in *; lia|].
    pose proof (drop_cons v vs i ltac:(lia)) as Ec. rewrite Ed in Ec. injection Ec as Ev Et. exists v. split; [rewrite <- Et; reflexivity|].
    apply (list_eq v); [rewrite len_app, !len_take by lia; reflexivity|]. intros k Hk. rewrite len_take in Hk by lia. rewrite at_take by lia.
    destruct (Z.eq_dec k i) as [->|]; [rewrite at_app_r by (rewrite len_take; lia); rewrite len_take by lia; rewrite Z.sub_diag; symmetry; exact Ev|].
    rewrite at_app_l by (rewrite len_take; lia). rewrite at_take by lia. reflexivity. }
  assert (S0 : (data, map TNum vs ++ rest) = st 0) by (unfold st; rewrite !drop_0; reflexivity).
  rewrite S0. rewrite (forb_seq (R := arr X) _ st 0 n); [|lia|].
  - cbn [bind]. unfold st. rewrite take_all by lia. reflexivity.
  - intros i Hi. unfold st. destruct (E i Hi) as (v & E1 & E2). rewrite E1. cbn [map app fscanf]. destruct (drop i data) as [|x t] eqn:Ed.
    { exfalso. pose proof (len_drop data i ltac:(lia)) as L. rewrite Ed in L. change (len (@nil (option X))) with 0 in L. lia. }
    rewrite wr_app by (rewrite len_lift, len_take by lia; reflexivity). cbn [bind]. rewrite E2, lift_app, <- app_assoc.
    pose proof (drop_cons x data i ltac:(lia)) as Ec. rewrite Ed in Ec. injection Ec as _ Et. rewrite <- Et. reflexivity.
Qed.
Lemma read_bad (data : arr X) n (vs : list X) rest : len vs < n -> n <= len data -> exists data', read_loop data n (map TNum vs ++ TBad :: rest) = Ok (UNABLE_TO_READ_FILE, data').
Proof.
  intros Hn Hd. pose proof (len_nonneg vs). pose proof (read_good data (len vs) vs (TBad :: rest) eq_refl ltac:(lia)) as G. unfold read_loop in *.
  set (f := fun i '(data, f) => _) in *.
  assert (Sp : forall a b (s : arr X * list (token X)), 0 <= a <= b -> forb 0 b f s = let! o := forb 0 a f s in match o with inl s' => forb a b f s' | inr r => Ok (inr r) end).
  { intros a b s Hab. assert (Gn : forall k lo s, lo <= a -> Z.to_nat (a - lo) = k -> forb lo b f s = let! o := forb lo a f s in match o with inl s' => forb a b f s' | inr r => Ok (inr r) end).
    { induction k; intros lo s1 Hlo Hk.
      - rewrite (forb_nil lo a) by lia. cbn [bind]. replace lo with a by lia. reflexivity.
      - rewrite (forb_cons lo b), (forb_cons lo a) by lia. destruct (f lo s1) as [[s'|r]|u]; cbn [bind]; [|reflexivity|reflexivity]. apply IHk; lia. }
    apply (Gn (Z.to_nat a)); lia. }
  rewrite (Sp (len vs) n) by lia. destruct (forb 0 (len vs) f (data, map TNum vs ++ TBad :: rest)) as [[(d1, f1)|r]|u] eqn:E; cbn [bind] in *; [|injection G as G1 _; discriminate|discriminate].
  assert (F1 : f1 = TBad :: rest).
  { clear - E H. revert E. generalize data at 1. intros d0 E.
    assert (Gn : forall k lo d0 d1 f1 (vs : list X), Z.to_nat (len vs) = k -> forb lo (lo + len vs) f (d0, map TNum vs ++ TBad :: rest) = Ok (inl (d1, f1)) -> f1 = TBad :: rest).
    { clear. induction k; intros lo d0 d1 f1 vs Hk E.
      - destruct vs as [|v vs]; [|rewrite len_cons in Hk; pose proof (len_nonneg vs); lia]. rewrite forb_nil in E by (change (len (@nil X)) with 0; lia). injection E as _ <-. reflexivity.
      - destruct vs as [|v vs]; [discriminate|]. rewrite len_cons in *. pose proof (len_nonneg vs). rewrite forb_cons in E by lia. cbn [map app] in E.
        unfold f in E at 1. cbn [fscanf] in E. destruct (wr d0 lo v); [|discriminate]. cbn [bind] in E. apply (IHk (lo + 1) a d1 f1 vs); [lia|]. replace (lo + 1 + len vs) with (lo + (len vs + 1)) by lia. exact E. }
    apply (Gn (Z.to_nat (len vs)) 0 d0 d1 f1 vs eq_refl). rewrite Z.add_0_l. exact E. }
  subst f1. rewrite forb_cons by lia. unfold f at 1. cbn [fscanf bind]. eexists. reflexivity.
Qed.
(** A file that ends too early is accepted; the missing cells keep their content. *)
Lemma read_short (data : arr X) n (vs : list X) : len vs < n -> n <= len data -> read_loop data n (map TNum vs) = Ok (SUCCESSFUL_RETURN, lift vs ++ drop (len vs) data).
Proof.
  intros Hn Hd. pose proof (len_nonneg vs). pose proof (read_good data (len vs) vs [] eq_refl ltac:(lia)) as G. rewrite app_nil_r in G. unfold read_loop in *.
  set (f := fun i '(data, f) => _) in *.
  assert (Tl : forall k lo d, Z.to_nat (n - lo) = k -> forb lo n f (d, @nil (token X)) = Ok (inl (d, []))).
  { induction k; intros lo d Hk; [apply forb_nil; lia|]. rewrite forb_cons by lia. unfold f at 1. cbn [fscanf bind]. apply IHk. lia. }
  assert (Gn : forall k lo d0 (vs : list X), Z.to_nat (len vs) = k -> lo + len vs <= n -> forb lo n f (d0, map TNum vs) =
     let! o := forb lo (lo + len vs) f (d0, map TNum vs) in match o with inl (d, _) => Ok (inl (d, [])) | inr r => Ok (inr r) end).
  { clear G. induction k; intros lo d0 ws Hk Hl.
    - destruct ws as [|v ws]; [|rewrite len_cons in Hk; pose proof (len_nonneg ws); lia]. change (len (@nil X)) with 0 in *. rewrite (forb_nil lo (lo + 0)) by lia. cbn [bind map]. apply (Tl (Z.to_nat (n - lo))). reflexivity.
    - destruct ws as [|v ws]; [discriminate|]. rewrite len_cons in *. pose proof (len_nonneg ws). rewrite (forb_cons lo n), (forb_cons lo (lo + (len ws + 1))) by lia. cbn [map].
      unfold f at 1 3. cbn [fscanf]. destruct (wr d0 lo v) as [d|]; [|reflexivity]. cbn [bind]. rewrite IHk by lia. replace (lo + 1 + len ws) with (lo + (len ws + 1)) by lia. reflexivity. }
  rewrite (Gn (Z.to_nat (len vs))) by lia. rewrite Z.add_0_l. destruct (forb 0 (len vs) f (data, map TNum vs)) as [[(d, l)|r]|u]; cbn [bind] in *; [exact G|injection G as G1 _; discriminate|discriminate].
Qed.
End Files.

Lemma write_ok {T} (fmt : T -> token T) (l : list T) : writeToFile fmt true (lift l) (len l) = Ok (SUCCESSFUL_RETURN, map fmt l).
Proof.
  unfold writeToFile. pose proof (len_nonneg l).
  rewrite (for_seq _ (fun i => map fmt (take i l)) 0 (len l) ltac:(lia)); [cbn [bind]; rewrite take_all by lia; reflexivity|].
  intros i Hi. destruct l as [|x l']; [change (len (@nil T)) with 0 in *; lia|]. set (l := x :: l') in *. rewrite (rd_lift x) by lia. cbn [bind]. f_equal.
  assert (Et : take (i + 1) l = take i l ++ [at_ x l i]).
  { apply (list_eq x); [rewrite len_app, !len_take by lia; reflexivity|]. intros k Hk. rewrite len_take in Hk by lia. rewrite at_take by lia.
    destruct (Z.eq_dec k i) as [->|]; [rewrite at_app_r by (rewrite len_take; lia); rewrite len_take by lia; rewrite Z.sub_diag; reflexivity|].
    rewrite at_app_l by (rewrite len_take; lia). rewrite at_take by lia. reflexivity. }
  rewrite Et, map_app. reflexivity.
Qed.

(** ** Rounding to six decimals *)
Lemma nearest_spec n d : 0 < d -> 2 * Z.abs (n - d * nearest n d) <= d.
Proof.
  intros Hd. unfold nearest. pose proof (Z.div_mod n d ltac:(lia)) as E. pose proof (Z.mod_pos_bound n d Hd) as B.
  destruct (Z.ltb_spec (2 * (n mod d)) d); [|destruct (Z.ltb_spec d (2 * (n mod d))); [|destruct (Z.even (n / d))]]; nia.
Qed.
Lemma nearest_exact k d : 0 < d -> nearest (d * k) d = k.
Proof. intros Hd. rewrite (Z.mul_comm d k). unfold nearest. rewrite Z.div_mul, Z.mod_mul by lia. replace (2 * 0 <? d) with true by lia. reflexivity. Qed.

(** ** Matrices *)
Section Mat.
Context {T : Type} `{Arith T}.
Lemma len_rows m n (M : Z -> Z -> T) : 0 <= m -> 0 <= n -> len (row_major m n M) = m * n.
Proof. intros. apply len_tab. nia. Qed.
Lemma len_cols m n (M : Z -> Z -> T) : 0 <= m -> 0 <= n -> len (col_major m n M) = m * n.
Proof. intros. apply len_tab. nia. Qed.
Lemma at_rows d m n (M : Z -> Z -> T) i j : 0 <= i < m -> 0 <= j < n -> at_ d (row_major m n M) (i * n + j) = M i j.
Proof. intros. unfold row_major. rewrite at_tab by nia. rewrite Z.add_comm, Z.div_add, Z.mod_add, Z.div_small, Z.mod_small by lia. f_equal; lia. Qed.
Lemma at_cols d m n (M : Z -> Z -> T) i j : 0 <= i < m -> 0 <= j < n -> at_ d (col_major m n M) (j * m + i) = M i j.
Proof. intros. unfold col_major. rewrite at_tab by nia. rewrite Z.add_comm, Z.div_add, Z.mod_add, Z.div_small, Z.mod_small by lia. f_equal; lia. Qed.
Lemma cols_transp m n (M : Z -> Z -> T) : col_major n m (transp M) = row_major m n M.
Proof. unfold col_major, row_major, transp. rewrite (Z.mul_comm n m). reflexivity. Qed.
Lemma cols_sym n (M : Z -> Z -> T) : (forall i j, M i j = M j i) -> col_major n n M = row_major n n M.
Proof. intros S. unfold col_major, row_major. apply tab_ext. intros k _. apply S. Qed.

Lemma colMajor_ok m n (M : Z -> Z -> T) (row : arr T) : 0 <= m -> 0 <= n -> len row = m * n -> colMajorToRowMajor (lift (col_major m n M)) row m n = Ok (lift (row_major m n M)).
Proof.
  intros Hm Hn Hl. unfold colMajorToRowMajor. set (f := fun k => M (k / n) (k mod n)). pose (st := fun k => lift (tab k f) ++ drop k row).
  assert (S0 : row = st 0) by (unfold st; rewrite drop_0; reflexivity).
  assert (Sf : st (m * n) = lift (row_major m n M)) by (unfold st; rewrite drop_all by lia; rewrite app_nil_r; reflexivity).
  rewrite S0 at 1. rewrite <- Sf. replace (st 0) with (st (0 * n)) by reflexivity. apply (for_seq _ (fun i => st (i * n)) 0 m Hm). intros i Hi.
  replace (st (i * n)) with (st (i * n + 0)) by (f_equal; lia). replace (st ((i + 1) * n)) with (st (i * n + n)) by (f_equal; lia).
  apply (for_seq _ (fun j => st (i * n + j)) 0 n Hn). intros j Hj. rewrite (rd_lift (M 0 0)) by (rewrite len_cols by lia; nia). rewrite at_cols by lia. cbn [bind].
  unfold st. rewrite (drop_cons None row (i * n + j)) by nia. rewrite wr_app by (rewrite len_lift, len_tab by nia; reflexivity). f_equal.
  replace (i * n + (j + 1)) with (i * n + j + 1) by lia. rewrite tab_succ by nia. rewrite lift_app, <- app_assoc. cbn [lift map app]. f_equal. f_equal. f_equal.
  unfold f. rewrite Z.add_comm, Z.div_add, Z.mod_add, Z.div_small, Z.mod_small by lia. f_equal; lia.
Qed.
Lemma toRowMajor_ok m n (M : Z -> Z -> T) : 0 < m -> 0 < n -> m * n <= INT_MAX -> toRowMajor (Some (lift (col_major m n M))) m n = Ok (Some (lift (row_major m n M))).
Proof.
  intros. unfold toRowMajor. replace ((0 <? m) && (0 <? n)) with true by lia. rewrite alloc_ok by nia. cbn [bind].
  rewrite colMajor_ok by (try lia; unfold len; rewrite repeat_length; nia). reflexivity.
Qed.

(** ** Python *)
Lemma raw_vec n (l : option (list T)) : 0 < n -> fits n l -> rawVector (py_vec l) = ptr_of l.
Proof. intros Hn F. destruct l as [l|]; [|reflexivity]. destruct l; [|reflexivity]. cbn in F. change (len (@nil T)) with 0 in F. lia. Qed.
Lemma raw_nonempty (l : list T) : 0 < len l -> rawVector l = Some (lift l).
Proof. destruct l; [change (len (@nil T)) with 0; lia|reflexivity]. Qed.
Lemma py_load_ok (u : umat T) o : wf_dense (rows_of u) -> symmetric u -> cons_args (um_v u) -> py_load u o = load_dense (rows_of u) o.
Proof.
  intros W Sy Ca. pose proof (wu_v _ W) as V. cbn [rows_of ud_v] in V. set (v := um_v u) in *. unfold py_load, py_loadLCQP, load_dense, Python.data. fold v. cbn [m_data rows_of ud_v ud_Q ud_L ud_R].
  pose proof (wv_nV _ V). pose proof (wv_nC _ V). pose proof (wv_nComp _ V).
  rewrite !cols_transp, (cols_sym _ _ Sy). fold v.
  rewrite !(raw_nonempty (row_major _ _ _)) by (rewrite len_rows by lia; nia). rewrite (raw_nonempty (u_g v)) by (rewrite (wv_g _ V); lia).
  rewrite (raw_vec (u_nComp v) (u_lbL v)), (raw_vec (u_nComp v) (u_ubL v)), (raw_vec (u_nComp v) (u_lbR v)), (raw_vec (u_nComp v) (u_ubR v)) by (first [lia | destruct V; assumption]).
  rewrite (raw_vec (u_nV v) (u_lb v)), (raw_vec (u_nV v) (u_ub v)), (raw_vec (u_nV v) (u_x0 v)) by (first [lia | destruct V; assumption]).
  rewrite (raw_vec (u_nV v + u_nA v) (u_y0 v)) by (first [unfold u_nA; lia | destruct V; assumption]).
  assert (E : rawVector (py_vec (u_lbA v)) = ptr_of (u_lbA v) /\ rawVector (py_vec (u_ubA v)) = ptr_of (u_ubA v)).
  { destruct (Z.eq_dec (u_nC v) 0) as [E0|E0]; [destruct (Ca E0) as (-> & ->); split; reflexivity|]. split; apply (raw_vec (u_nC v)); first [lia | destruct V; assumption]. }
  destruct E as (-> & ->).
  assert (EA : rawMatrix (mkMatrixXd (if u_nC v =? 0 then 0 else u_nV v) (u_nC v) (row_major (u_nC v) (u_nV v) (um_A u))) = arg_A (rows_of u)).
  { unfold rawMatrix, arg_A. cbn [m_cols m_rows m_data rows_of ud_v ud_A]. fold v. destruct (Z.eqb_spec (u_nC v) 0) as [E0|E0]; [rewrite E0; reflexivity|].
    replace ((0 <? u_nC v) && (0 <? u_nV v)) with true by lia. reflexivity. }
  rewrite EA. reflexivity.
Qed.
End Mat.
