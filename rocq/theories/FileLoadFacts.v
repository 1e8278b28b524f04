(** * FileLoadFacts: facts about loading from files and the remaining Python calls (no LCQPow code). *)
From Verif Require Import Base Arith Codes Utilities Options Stats FileIO Subsolver State LCQProblem Tactics Loops Kernels SpecSparse CscKernels CscBuild SpecLoad LoadLoops LoadDense LoadSparse LoadFacts
  Pure Refine StartDense Spec RunFacts SpecApi ApiFacts ApiProps Python Matlab SpecInterfaces InterfaceFacts InterfaceProps SpecFiles.
Open Scope Z_scope.

Section FileLoadFacts.
Context {T : Type} `{Arith T}.

Lemma read_file_good n (f : file) (o : lcqp T) k l : 0 <= n <= INT_MAX -> len l = n -> holds f l -> read_file n f o k = k (Some (lift l)).
Proof.
  intros Hn Hl (rest & ->). unfold read_file. rewrite alloc_ok by lia. cbn [bind]. rewrite <- Hl.
  rewrite p_C45_good by (rewrite len_repeat; lia). reflexivity.
Qed.
Lemma read_file_bad n (f : file) (o : lcqp T) k : 0 <= n <= INT_MAX -> unreadable n f -> read_file n f o k = fail_msg UNABLE_TO_READ_FILE o.
Proof.
  intros Hn [->|(l & rest & Hl & ->)]; unfold read_file; rewrite alloc_ok by lia; cbn [bind]; [reflexivity|].
  destruct (p_C45_bad l rest (repeat None (Z.to_nat n)) n Hl) as (d & E); [rewrite len_repeat; lia|]. rewrite E. reflexivity.
Qed.
Lemma read_opt_good n f (o : lcqp T) k l : 0 <= n <= INT_MAX -> fits n l -> holds_opt f l -> read_opt_file n f o k = k (ptr_of l).
Proof. intros Hn Hl Hf. destruct f as [f|], l as [l|]; try contradiction; [|reflexivity]. apply read_file_good; auto. Qed.

(** One step: a file is complete or unreadable *)
Definition sane (n : Z) (f : option (@file T)) : Prop := forall f', f = Some f' -> complete n f' \/ unreadable n f'.
Lemma read_opt_sane n f (o : lcqp T) k r : 0 <= n <= INT_MAX -> sane n f -> fail_msg UNABLE_TO_READ_FILE o = r ->
  ((exists f', f = Some f' /\ unreadable n f') \/ forall p, k p = r) -> read_opt_file n f o k = r.
Proof.
  intros Hn Hs <- [(f' & -> & B)|Hk]; [apply read_file_bad; auto|].
  destruct f as [f|]; [|apply Hk]. destruct (Hs f eq_refl) as [(l & Hl & Hf)|B]; [|apply read_file_bad; auto]. cbn [read_opt_file].
  rewrite (read_file_good n f o k l) by auto. apply Hk.
Qed.

Ltac bads := match goal with V : wf_vec ?v |- _ =>
  pose proof (wv_nV _ V); pose proof (wv_nC _ V); pose proof (wv_nComp _ V); pose proof (wv_int _ V); pose proof (wv_sq _ V); pose proof (wv_rect _ V) as HR; unfold u_nA in HR end.

Lemma files_dense u (o : lcqp T) F : wf_dense u -> dims (ud_v u) (pd o) -> files_of u F -> u_y0 (ud_v u) = None -> uf_y0 F = None -> load_files F o = load_dense u o.
Proof.
  intros W (E1 & E2 & E3) (HQ & Hg & HL & HR' & Ha & Hb & Hc & Hd & HA & He & Hf & Hh & Hi & Hx) Hy Fy.
  pose proof (wu_v _ W) as V. bads. destruct W as [_ WQ WL WR WA].
  unfold load_files, loadLCQP_files, load_dense, loadLCQP. rewrite E1, E2, E3. cbn [get bind].
  rewrite (read_file_good _ _ _ _ (ud_Q u)) by (auto; nia). rewrite (read_file_good _ _ _ _ (u_g (ud_v u))) by (auto; first [apply V|nia]).
  rewrite (read_file_good _ _ _ _ (ud_L u)) by (auto; nia). rewrite (read_file_good _ _ _ _ (ud_R u)) by (auto; nia).
  rewrite (read_opt_good _ _ _ _ (u_lbL (ud_v u))) by (auto; first [apply V|nia]). rewrite (read_opt_good _ _ _ _ (u_ubL (ud_v u))) by (auto; first [apply V|nia]).
  rewrite (read_opt_good _ _ _ _ (u_lbR (ud_v u))) by (auto; first [apply V|nia]). rewrite (read_opt_good _ _ _ _ (u_ubR (ud_v u))) by (auto; first [apply V|nia]).
  rewrite (read_opt_good _ _ _ _ (if u_nC (ud_v u) =? 0 then None else Some (ud_A u)))
    by (auto; first [nia|destruct (u_nC (ud_v u) =? 0); cbn [fits]; auto]).
  rewrite (read_opt_good _ _ _ _ (u_lbA (ud_v u))) by (auto; first [apply V|nia]). rewrite (read_opt_good _ _ _ _ (u_ubA (ud_v u))) by (auto; first [apply V|nia]).
  rewrite (read_opt_good _ _ _ _ (u_lb (ud_v u))) by (auto; first [apply V|nia]). rewrite (read_opt_good _ _ _ _ (u_ub (ud_v u))) by (auto; first [apply V|nia]).
  rewrite (read_opt_good _ _ _ _ (u_x0 (ud_v u))) by (auto; first [apply V|nia]). rewrite Fy, Hy. cbn [read_opt_file ptr_of].
  replace (u_nV (ud_v u) <=? 0) with false by lia. replace (u_nComp (ud_v u) <=? 0) with false by lia.
  unfold arg_A. destruct (u_nC (ud_v u) =? 0); reflexivity.
Qed.

Lemma p_C61 u opt (o : lcqp T) F : wf_dense u -> new_object (ud_v u) opt = Ok o -> files_of u F -> u_y0 (ud_v u) = None -> uf_y0 F = None -> load_files F o = load_dense u o.
Proof. intros W E. apply files_dense; auto. apply (obj_dims _ _ _ (wu_v _ W) E). Qed.

Lemma p_C61_bad v opt (o : lcqp T) F : wf_vec v -> new_object v opt = Ok o ->
  (forall n f, In (n, Some f) (all_files (u_nV v) (u_nC v) (u_nComp v) F) -> complete n f \/ unreadable n f) ->
  (exists n f, In (n, Some f) (all_files (u_nV v) (u_nC v) (u_nComp v) F) /\ unreadable n f) ->
  load_files F o = Ok (UNABLE_TO_READ_FILE, logL (EvMessage UNABLE_TO_READ_FILE) o).
Proof.
  intros V E Hs (n & f & Hi & B). pose proof (obj_dims _ _ _ V E) as (E1 & E2 & E3). bads.
  unfold load_files, loadLCQP_files. rewrite E1, E2, E3. cbn [get bind].
  assert (S' : forall n f, In (n, f) (all_files (u_nV v) (u_nC v) (u_nComp v) F) -> sane n f) by (intros n' f' I' f'' ->; eauto).
  assert (HI := S'). unfold all_files in Hi, S'.
  do 4 (match goal with |- read_file ?n ?f ?o ?k = _ => change (read_opt_file n (Some f) o k = Ok (UNABLE_TO_READ_FILE, logL (EvMessage UNABLE_TO_READ_FILE) o)) end;
    apply read_opt_sane; [nia|apply S'; cbn [In]; tauto|reflexivity|];
    destruct Hi as [Hi|Hi]; [left; injection Hi as <- Hi; rewrite Hi; exists f; split; [reflexivity|exact B]|right; intros ?; cbv beta]).
  do 11 (apply read_opt_sane; [nia|apply S'; cbn [In]; tauto|reflexivity|];
    destruct Hi as [Hi|Hi]; [left; injection Hi as <- Hi; rewrite Hi; exists f; split; [reflexivity|exact B]|right; intros ?; cbv beta]).
  destruct Hi.
Qed.

(** Copying more than there is *)
Lemma copy_short (l : list T) n : forall m lo (dst : arr T), 0 <= lo -> Z.of_nat m = len l - lo -> len l < n -> n <= len dst ->
  for_ lo n (fun i dst => let! a := deref (Some (lift l)) in let! v := rd a i in wr dst (0 + i) v) dst = UB OutOfBounds.
Proof.
  induction m as [|m IH]; intros lo dst Hlo Hm Hn Hd.
  - rewrite for_cons by lia. cbn [deref bind]. rewrite rd_at, len_lift. replace ((0 <=? lo) && (lo <? len l)) with false by lia. reflexivity.
  - rewrite for_cons by lia. cbn [deref bind]. rewrite (rd_lift a_zero) by lia. cbn [bind].
    assert (W : exists d, wr dst (0 + lo) (at_ a_zero l lo) = Ok d /\ len d = len dst).
    { eexists. split; [apply wr_ok; lia|apply len_upd]. }
    destruct W as (d & -> & Ld). cbn [bind].
    apply (IH (lo + 1) d); [lia|lia|exact Hn|lia].
Qed.

Lemma p_C61_dual u opt (o : lcqp T) F f : wf_dense u -> new_object (ud_v u) opt = Ok o -> fin_lower (ud_v u) -> files_of u F ->
  uf_y0 F = Some f -> complete (u_nA (ud_v u)) f -> load_files F o = UB OutOfBounds.
Proof.
  intros W E Fl (HQ & Hg & HL & HR' & Ha & Hb & Hc & Hd & HA & He & Hf & Hh & Hi & Hx) Fy (l & Hl & Hy).
  pose proof (obj_dims _ _ _ (wu_v _ W) E) as D. pose proof D as (E1 & E2 & E3).
  pose proof (wu_v _ W) as V. bads. pose proof W as [_ WQ WL WR WA]. unfold u_nA in Hl.
  unfold load_files, loadLCQP_files. rewrite E1, E2, E3. cbn [get bind].
  rewrite (read_file_good _ _ _ _ (ud_Q u)) by (auto; nia). rewrite (read_file_good _ _ _ _ (u_g (ud_v u))) by (auto; first [apply V|nia]).
  rewrite (read_file_good _ _ _ _ (ud_L u)) by (auto; nia). rewrite (read_file_good _ _ _ _ (ud_R u)) by (auto; nia).
  rewrite (read_opt_good _ _ _ _ (u_lbL (ud_v u))) by (auto; first [apply V|nia]). rewrite (read_opt_good _ _ _ _ (u_ubL (ud_v u))) by (auto; first [apply V|nia]).
  rewrite (read_opt_good _ _ _ _ (u_lbR (ud_v u))) by (auto; first [apply V|nia]). rewrite (read_opt_good _ _ _ _ (u_ubR (ud_v u))) by (auto; first [apply V|nia]).
  rewrite (read_opt_good _ _ _ _ (if u_nC (ud_v u) =? 0 then None else Some (ud_A u)))
    by (auto; first [nia|destruct (u_nC (ud_v u) =? 0); cbn [fits]; auto]).
  rewrite (read_opt_good _ _ _ _ (u_lbA (ud_v u))) by (auto; first [apply V|nia]). rewrite (read_opt_good _ _ _ _ (u_ubA (ud_v u))) by (auto; first [apply V|nia]).
  rewrite (read_opt_good _ _ _ _ (u_lb (ud_v u))) by (auto; first [apply V|nia]). rewrite (read_opt_good _ _ _ _ (u_ub (ud_v u))) by (auto; first [apply V|nia]).
  rewrite (read_opt_good _ _ _ _ (u_x0 (ud_v u))) by (auto; first [apply V|nia]). rewrite Fy. cbn [read_opt_file].
  rewrite (read_file_good _ _ _ _ l) by (auto; nia).
  replace (ptr_of (if u_nC (ud_v u) =? 0 then None else Some (ud_A u))) with (arg_A u) by (unfold arg_A; destruct (u_nC (ud_v u) =? 0); reflexivity).
  unfold and_then at 1. unfold setQ. rewrite E1. cbn [get bind]. replace (u_nV (ud_v u) <=? 0) with false by lia.
  rewrite memcpy_new_k by (rewrite ?(wu_Q _ W); lia). cbn [bind is_success].
  unfold and_then at 1. rewrite (setG_ok (ud_v u)) by auto. cbn [bind is_success].
  rewrite (copy_box_ok (ud_v u)) by auto. cbn [bind].
  unfold and_then at 1. rewrite setConstraints_ok by auto. cbn [bind is_success].
  unfold and_then at 1. rewrite setComplementarityBounds_ok by auto. cbn [bind is_success].
  unfold and_then at 1, setInitialGuess. cbn [pd].
  match goal with |- context [get (d_nV ?d)] => change (d_nV d) with (d_nV (pd o)); change (d_nC d) with (d_nC (pd o)); change (d_nComp d) with (d_nComp (pd o)) end.
  rewrite E1, E2, E3. cbn [get bind].
  replace (u_nV (ud_v u) =? 0) with false by lia. replace (u_nComp (ud_v u) =? 0) with false by lia. cbn [orb].
  rewrite alloc_init_ok by lia. cbn [bind].
  match goal with |- context [if notNull ?x then memcpy_ptr ?a ?x ?n else Ok ?a] =>
    assert (X : exists z, (if notNull x then memcpy_ptr a x n else Ok a) = Ok z) end.
  { pose proof (wv_x0 _ V) as Fx. destruct (u_x0 (ud_v u)) as [x|]; cbn [ptr_of notNull isNull negb]; [|eauto].
    cbn [fits] in Fx. eexists. apply memcpy_ptr_full; auto. rewrite len_lift, len_repeat; lia. }
  destruct X as (z & ->). cbn [bind notNull isNull negb]. rewrite alloc_ok by lia. cbn [bind]. unfold copy_loop.
  rewrite (copy_short l _ (Z.to_nat (len l))); [reflexivity|lia|lia|lia|rewrite len_repeat; lia].
Qed.

(** ** Python *)
Lemma raw_py (l : option (list T)) : match l with Some [] => False | _ => True end -> rawVector (py_vec l) = ptr_of l.
Proof. destruct l as [[|x l]|]; [contradiction|reflexivity|reflexivity]. Qed.
Lemma fits_cons n (l : option (list T)) : 0 < n -> fits n l -> match l with Some [] => False | _ => True end.
Proof. destruct l as [[|x l]|]; auto. cbn [fits]. change (len (@nil T)) with 0. lia. Qed.
Lemma py_sparse u (o : lcqp T) : wf_sparse u -> cons_args (us_v u) -> py_load_sparse u o = load_sparse u o.
Proof.
  intros W Ca. pose proof (ws_v _ W) as V. bads.
  assert (CA : forall l, l = u_lbA (us_v u) \/ l = u_ubA (us_v u) -> rawVector (py_vec l) = ptr_of l).
  { intros l Hl. apply raw_py. destruct (Z.eq_dec (u_nC (us_v u)) 0) as [Z0|NZ].
    - destruct (Ca Z0) as (A1 & A2). destruct Hl as [->| ->]; [rewrite A1|rewrite A2]; exact I.
    - destruct Hl as [->| ->]; apply (fits_cons (u_nC (us_v u))); try lia; apply V. }
  assert (G : rawVector (u_g (us_v u)) = Some (lift (u_g (us_v u)))).
  { pose proof (wv_g _ V) as Lg. destruct (u_g (us_v u)); [change (len (@nil T)) with 0 in Lg; lia|reflexivity]. }
  unfold py_load_sparse, py_loadLCQP_csc, load_sparse. unfold Python.data. rewrite G.
  rewrite (raw_py (u_lbL _)) by (apply (fits_cons (u_nComp (us_v u))); [lia|apply V]). rewrite (raw_py (u_ubL _)) by (apply (fits_cons (u_nComp (us_v u))); [lia|apply V]).
  rewrite (raw_py (u_lbR _)) by (apply (fits_cons (u_nComp (us_v u))); [lia|apply V]). rewrite (raw_py (u_ubR _)) by (apply (fits_cons (u_nComp (us_v u))); [lia|apply V]).
  rewrite (raw_py (u_lb _)) by (apply (fits_cons (u_nV (us_v u))); [lia|apply V]). rewrite (raw_py (u_ub _)) by (apply (fits_cons (u_nV (us_v u))); [lia|apply V]).
  rewrite (raw_py (u_x0 _)) by (apply (fits_cons (u_nV (us_v u))); [lia|apply V]). rewrite (raw_py (u_y0 _)) by (apply (fits_cons (u_nV (us_v u) + u_nA (us_v u))); [unfold u_nA; lia|apply V]).
  rewrite !CA by auto. destruct (us_A u); reflexivity.
Qed.

Lemma py_primal (o : lcqp T) n x : 0 <= n <= INT_MAX -> getNumberOfPrimals o = Ok n -> gives_primal o n x -> py_getPrimalSolution o = Ok (Some (lift x)).
Proof.
  intros Hn En (Lx & a & G). unfold py_getPrimalSolution. rewrite En. cbn [bind]. unfold vzero. replace (n <? 0) with false by lia.
  rewrite alloc_init_ok by lia. cbn [bind]. rewrite G by (rewrite len_lift, len_repeat; lia). reflexivity.
Qed.
Lemma py_dual (o : lcqp T) y : len y <= INT_MAX -> gives_dual o y -> py_getDualSolution o = Ok (Some (lift y)).
Proof.
  intros Hn (En & a & G). unfold py_getDualSolution. rewrite En. cbn [bind]. pose proof (len_nonneg y). unfold vzero. replace (len y <? 0) with false by lia.
  rewrite alloc_init_ok by lia. cbn [bind]. rewrite G by (rewrite len_lift, len_repeat; lia). reflexivity.
Qed.
End FileLoadFacts.
