(** * InterfaceProps: proofs of the properties of options, files and interfaces (no LCQPow code). *)
From Coq Require Import String QArith Qcanon Qabs Lqa.
From Verif Require Import Base Arith Codes Utilities Options Stats FileIO Subsolver State LCQProblem Loops Tactics SpecSparse SpecLoad Messages SpecOptions OwnOptions SpecOwn OptionsFacts OwnFacts
  Matlab Python Printf SpecInterfaces InterfaceFacts MatlabFacts.
Local Open Scope list_scope.
Local Open Scope Z_scope.

(** ** Ownership of options *)
Section Own.
Context {T S Q : Type} `{Arith T}.
Variables (dfltS : S) (dfltQ : Q).
Lemma p_C43_run (l : list (op T S Q)) : sensible_run dfltS dfltQ l pstart -> exists st, run dfltS dfltQ l pstart = Ok st /\ no_leak st.
Proof. intros Hs. destruct (run_ok dfltS dfltQ l pstart start_inv Hs) as (st & E & I). exists st. split; [exact E|]. exact (proj2 (proj2 I)). Qed.
Lemma run_app (l1 l2 : list (op T S Q)) st : run dfltS dfltQ (l1 ++ l2) st = let! st1 := run dfltS dfltQ l1 st in run dfltS dfltQ l2 st1.
Proof. revert st. induction l1 as [|o l IH]; intros st; [reflexivity|]. cbn [run app]. destruct (step dfltS dfltQ o st); [cbn [bind]; apply IH|reflexivity]. Qed.
Lemma sensible_app (l1 l2 : list (op T S Q)) st st1 : sensible_run dfltS dfltQ (l1 ++ l2) st -> run dfltS dfltQ l1 st = Ok st1 ->
  sensible_run dfltS dfltQ l1 st /\ sensible_run dfltS dfltQ l2 st1.
Proof.
  revert st. induction l1 as [|o l IH]; intros st Hs E; [injection E as <-; split; [exact I|exact Hs]|]. cbn [run sensible_run app] in *. destruct Hs as (H1 & H2).
  destruct (step dfltS dfltQ o st) as [st2|] eqn:E2; [|discriminate]. cbn [bind] in E. destruct (IH st2 (H2 st2 eq_refl) E) as (A & B). split; [split; [exact H1|]|exact B]. intros st' E'. injection E' as <-. exact A.
Qed.
Lemma p_C43_step (l : list (op T S Q)) o st : sensible_run dfltS dfltQ (l ++ [o]) pstart -> run dfltS dfltQ l pstart = Ok st ->
  exists st', run dfltS dfltQ (l ++ [o]) pstart = Ok st' /\ expected dfltS dfltQ o st (view st' (affected o st)) /\ forall j, j <> affected o st -> view st' j = view st j.
Proof.
  intros Hs E. destruct (sensible_app _ _ _ _ Hs E) as (S1 & (S2 & _)). destruct (run_ok dfltS dfltQ l pstart start_inv S1) as (st0 & E0 & I0). rewrite E in E0. injection E0 as <-.
  destruct (step_ok dfltS dfltQ o st I0 S2) as (st' & Es & _ & X & Y). exists st'. rewrite run_app, E. cbn [bind run]. rewrite Es. cbn [bind]. auto.
Qed.
End Own.

(** ** Files *)
Lemma p_C45_good {T} (vs : list T) rest (data : arr T) : len vs = len data -> readFromFile data (len vs) (Some (map TNum vs ++ rest)) = Ok (SUCCESSFUL_RETURN, lift vs).
Proof. intros E. cbn [readFromFile]. rewrite read_good by lia. rewrite drop_all by lia. rewrite app_nil_r. reflexivity. Qed.
Lemma p_C45_bad {T} (vs : list T) rest (data : arr T) n : len vs < n -> n <= len data -> exists d, readFromFile data n (Some (map TNum vs ++ TBad :: rest)) = Ok (UNABLE_TO_READ_FILE, d).
Proof. apply read_bad. Qed.
Lemma p_C45_short {T} (vs : list T) (data : arr T) n : len vs < n -> n <= len data -> readFromFile data n (Some (map TNum vs)) = Ok (SUCCESSFUL_RETURN, lift vs ++ drop (len vs) data).
Proof. apply read_short. Qed.

Lemma half_bound (q : Qc) : (Qabs (this (round6 q) - this q) <= 1 # 2000000)%Q.
Proof.
  unfold round6, millionths, Q2Qc, this. rewrite Qred_correct. destruct q as [[n d] Hq]. cbn [Qnum Qden]. pose proof (nearest_spec (n * million) (Zpos d) ltac:(lia)) as B. set (k := nearest _ _) in *.
  unfold million in B. apply Qabs_Qle_condition. split; unfold Qle, Qminus, Qplus, Qopp; cbn [Qnum Qden]; rewrite ?Pos2Z.inj_mul; nia.
Qed.
Lemma p_C46 (l : list Qc) : exists f (l' : list Qc), writeToFile printf_f true (lift (map Fin l)) (len l) = Ok (SUCCESSFUL_RETURN, f) /\
  (forall data, len data = len l -> readFromFile data (len l) (Some f) = Ok (SUCCESSFUL_RETURN, lift (map Fin l'))) /\
  len l' = len l /\ forall i, 0 <= i < len l -> (Qabs (this (at_ 0%Qc l' i) - this (at_ 0%Qc l i)) <= 1 # 2000000)%Q.
Proof.
  exists (map printf_f (map Fin l)), (map round6 l).
  assert (Lm : forall X Y (f : X -> Y) m, len (map f m) = len m) by (intros; unfold len; rewrite map_length; reflexivity).
  split; [|split; [|split]].
  - rewrite <- (Lm _ _ Fin l). apply write_ok.
  - intros data Hd. replace (map printf_f (map Fin l)) with (map TNum (map Fin (map round6 l)) ++ []) by (rewrite app_nil_r, !map_map; apply map_ext; reflexivity).
    rewrite <- (Lm _ _ round6 l), <- (Lm _ _ Fin (map round6 l)). apply p_C45_good. rewrite !Lm. symmetry. exact Hd.
  - apply Lm.
  - intros i Hi. unfold at_. unfold len in Hi. rewrite (nth_indep (map round6 l) 0%Qc (round6 0%Qc)) by (rewrite map_length; lia). rewrite map_nth. apply half_bound.
Qed.
Lemma p_C46_exact (ks : list Z) data : len data = len ks -> exists f, writeToFile printf_f true (lift (map (fun k => Fin (millionths k)) ks)) (len ks) = Ok (SUCCESSFUL_RETURN, f) /\
  readFromFile data (len ks) (Some f) = Ok (SUCCESSFUL_RETURN, lift (map (fun k => Fin (millionths k)) ks)).
Proof.
  intros Hd. assert (Lm : forall X Y (f : X -> Y) m, len (map f m) = len m) by (intros; unfold len; rewrite map_length; reflexivity).
  exists (map printf_f (map (fun k => Fin (millionths k)) ks)). split; [rewrite <- (Lm _ _ (fun k => Fin (millionths k)) ks); apply write_ok|].
  assert (R : forall k, round6 (millionths k) = millionths k).
  { intros k. unfold round6. f_equal. assert (E : (this (millionths k) == k # 1000000)%Q) by apply Qred_correct. unfold Qeq in E. cbn [Qnum Qden] in E.
    unfold million. replace (Qnum (this (millionths k)) * 1000000) with (Zpos (Qden (this (millionths k))) * k) by lia. apply nearest_exact. lia. }
  replace (map printf_f (map (fun k => Fin (millionths k)) ks)) with (map TNum (map (fun k => Fin (millionths k)) ks) ++ []).
  2:{ rewrite app_nil_r, !map_map. apply map_ext. intros k. cbn [printf_f]. rewrite R. reflexivity. }
  rewrite <- (Lm _ _ (fun k => Fin (millionths k)) ks). apply p_C45_good. rewrite Lm. symmetry. exact Hd.
Qed.

(** ** Messages and names *)
Lemma p_C51 r t : snd (PrintMessage r t) = r /\ (message_text r = ""%string <-> r = SUCCESSFUL_RETURN) /\ fst (PrintMessage r t) = (type_text t ++ message_text r)%string.
Proof. split; [reflexivity|]. split; [|reflexivity]. split; destruct r; intros E; try reflexivity; discriminate. Qed.
(** All codes.  No LCQPow code. *)
Lemma p_C51_distinct r r' : message_text r = message_text r' -> r = r'.
Proof. destruct r; destruct r'; intros E; first [reflexivity | discriminate E]. Qed.
Lemma p_C51_solution s : snd (PrintSolution s) = s /\ forall s', fst (PrintSolution s) = fst (PrintSolution s') -> s = s'.
Proof. split; [destruct s; reflexivity|]. intros s'. destruct s, s'; intros E; first [reflexivity | discriminate E]. Qed.
(** Codes that are not exported under their name.  No LCQPow code. *)
Lemma p_C50 r : ~ In r [INVALID_NUMBER_OF_COMP_VARS; INDEX_OUT_OF_BOUNDS; UNABLE_TO_READ_FILE; INVALID_INDEX_POINTER; INVALID_INDEX_ARRAY; DENSE_SPARSE_MISSMATCH] ->
  lookup (cpp_name r) py_return_values = Some r.
Proof. intros N. destruct r; try reflexivity; exfalso; apply N; cbn; tauto. Qed.
Lemma p_C50_value name r : In (name, r) py_return_values -> exists r', lookup name py_return_values = Some r' /\ r' = r.
Proof. intros E. exists r. split; [|reflexivity]. cbn in E. repeat (destruct E as [E|E]; [injection E as <- <-; reflexivity|]). destruct E. Qed.

(** ** Matrices *)
Section Mat.
Context {T : Type} `{Arith T}.
Lemma p_C48 d m n (col : list T) (row : arr T) : 0 <= m -> 0 <= n -> len col = m * n -> len row = m * n ->
  exists r, colMajorToRowMajor (lift col) row m n = Ok (lift r) /\ len r = m * n /\ forall i j, 0 <= i < m -> 0 <= j < n -> at_ d r (i * n + j) = at_ d col (j * m + i).
Proof.
  intros Hm Hn Hc Hr. set (M := fun i j => at_ d col (j * m + i)).
  assert (E : col = col_major m n M).
  { apply (list_eq d); [rewrite len_cols by assumption; exact Hc|]. intros k Hk. unfold col_major. rewrite at_tab by lia. unfold M. f_equal. pose proof (Z.div_mod k m). nia. }
  exists (row_major m n M). rewrite E at 1. split; [apply colMajor_ok; assumption|]. split; [apply len_rows; assumption|]. intros i j Hi Hj. rewrite at_rows by lia. reflexivity.
Qed.
Lemma p_C49_general (u : umat T) o : wf_dense (rows_of u) -> cons_args (um_v u) ->
  py_load u o = load_dense (rows_of (mkUmat (um_v u) (transp (um_Q u)) (um_L u) (um_R u) (um_A u))) o.
Proof.
  intros W Ca. pose proof (wu_v _ W) as V. cbn [rows_of ud_v] in V. set (v := um_v u) in *. unfold py_load, py_loadLCQP, load_dense, Python.data. fold v. cbn [m_data rows_of ud_v ud_Q ud_L ud_R um_v um_Q um_L um_R um_A].
  pose proof (wv_nV _ V). pose proof (wv_nC _ V). pose proof (wv_nComp _ V).
  change (col_major (u_nV v) (u_nV v) (um_Q u)) with (col_major (u_nV v) (u_nV v) (transp (transp (um_Q u)))). rewrite !cols_transp. fold v.
  rewrite !(raw_nonempty (row_major _ _ _)) by (rewrite len_rows by lia; nia). rewrite (raw_nonempty (u_g v)) by (rewrite (wv_g _ V); lia).
  rewrite (raw_vec (u_nComp v) (u_lbL v)), (raw_vec (u_nComp v) (u_ubL v)), (raw_vec (u_nComp v) (u_lbR v)), (raw_vec (u_nComp v) (u_ubR v)) by (first [lia | destruct V; assumption]).
  rewrite (raw_vec (u_nV v) (u_lb v)), (raw_vec (u_nV v) (u_ub v)), (raw_vec (u_nV v) (u_x0 v)) by (first [lia | destruct V; assumption]).
  rewrite (raw_vec (u_nV v + u_nA v) (u_y0 v)) by (first [unfold u_nA; lia | destruct V; assumption]).
  assert (E : rawVector (py_vec (u_lbA v)) = ptr_of (u_lbA v) /\ rawVector (py_vec (u_ubA v)) = ptr_of (u_ubA v)).
  { destruct (Z.eq_dec (u_nC v) 0) as [E0|E0]; [destruct (Ca E0) as (-> & ->); split; reflexivity|]. split; apply (raw_vec (u_nC v)); first [lia | destruct V; assumption]. }
  destruct E as (-> & ->).
  assert (EA : rawMatrix (mkMatrixXd (if u_nC v =? 0 then 0 else u_nV v) (u_nC v) (row_major (u_nC v) (u_nV v) (um_A u))) = arg_A (rows_of u)).
  { unfold rawMatrix, arg_A. cbn [m_cols m_rows m_data rows_of ud_v ud_A]. fold v. destruct (Z.eqb_spec (u_nC v) 0) as [E0|E0]; [rewrite E0; reflexivity|].
    replace ((0 <? u_nC v) && (0 <? u_nV v)) with true by lia. reflexivity. }
  rewrite EA. reflexivity.
Qed.
End Mat.

(** ** MATLAB *)
Section Mex.
Context {T : Type} `{Arith T}.
Variables (dtoi : T -> res Z) (itod : Z -> T).
Lemma p_C58_plain (u : umat T) : wf_dense (rows_of u) -> symmetric u -> cons_args (um_v u) -> u_x0 (um_v u) = None -> u_y0 (um_v u) = None ->
  mexLoad dtoi itod (ml_args u) =
    (let! o := new_object (um_v u) setToDefault in let! '(r, o) := load_dense (rows_of u) o in
     Ok (inr (u_nV (um_v u), u_nComp (um_v u), u_nC (um_v u), setToDefault, ml_code r, o))).
Proof. intros. rewrite <- (app_nil_r (ml_args u)). apply mex_dense_ok; auto. Qed.

Lemma dims_ok (u : umat T) s : wf_dense (rows_of u) ->
  mexDims (ml_args u ++ [MxStruct s]) (Z.of_nat (length (ml_args u ++ [MxStruct s]))) = mret (u_nV (um_v u), u_nComp (um_v u), u_nC (um_v u)).
Proof.
  intros W. pose proof (wu_v _ W) as V. cbn [rows_of ud_v] in V. set (v := um_v u) in *.
  pose proof (wv_nV _ V) as HnV. pose proof (wv_nC _ V) as HnC. pose proof (wv_nComp _ V) as HnComp.
  change (Z.of_nat (length (ml_args u ++ [MxStruct s]))) with 14.
  assert (Ha : forall i a, nth_error (ml_args u) (Z.to_nat i) = Some a -> arg (ml_args u ++ [MxStruct s]) i = mret a).
  { intros i a E. unfold arg. rewrite nth_error_app1, E by (apply nth_error_Some; congruence). reflexivity. }
  unfold mexDims. rewrite (Ha 0 (ml_mat (u_nV v) (u_nV v) (um_Q u)) eq_refl), (Ha 2 (ml_mat (u_nComp v) (u_nV v) (um_L u)) eq_refl),
      (Ha 8 (if u_nC v =? 0 then MxDense 0 0 [] else ml_mat (u_nC v) (u_nV v) (um_A u)) eq_refl). cbn [mbind mret bind]. rewrite !mat_full by lia. cbn [mxIsDouble ml_mat mxGetM negb orb].
  change (11 <? 14) with true. cbn [mbind mret bind].
  destruct (Z.eqb_spec (u_nC v) 0) as [E0|E0]; [rewrite E0; reflexivity|]. change (MxDense (u_nC v) (u_nV v) (col_major (u_nC v) (u_nV v) (um_A u))) with (ml_mat (u_nC v) (u_nV v) (um_A u)).
  rewrite mat_full by lia. reflexivity.
Qed.
Lemma p_C58_params (u : umat T) s nV nComp nC opt r o : wf_dense (rows_of u) -> symmetric u -> cons_args (um_v u) -> full_fields s -> whole_max_penalty dtoi itod s ->
  lookup "x0" s = option_map (fun l => MxDense (u_nV (um_v u)) 1 l) (u_x0 (um_v u)) -> lookup "y0" s = option_map (fun l => MxDense (len l) 1 l) (u_y0 (um_v u)) ->
  mexLoad dtoi itod (ml_args u ++ [MxStruct s]) = Ok (inr (nV, nComp, nC, opt, r, o)) ->
  opt = after (param_calls dtoi s) setToDefault /\
  exists o0 rv, new_object (um_v u) opt = Ok o0 /\ load_dense (rows_of u) o0 = Ok (rv, o) /\ r = ml_code rv.
Proof.
  intros W Sy Ca F Wm X Y E. pose proof (wu_v _ W) as V. cbn [rows_of ud_v] in V.
  assert (P : exists pm, readParams dtoi itod (MxStruct s) (u_nV (um_v u)) (u_nComp (um_v u)) (u_nC (um_v u)) = Ok (inr pm)).
  { pose proof E as E'. unfold mexLoad in E'. change (Z.of_nat (length (ml_args u ++ [MxStruct s])) <? 8) with false in E'. change (14 <? Z.of_nat (length (ml_args u ++ [MxStruct s]))) with false in E'. cbn [orb] in E'.
    rewrite dims_ok in E' by exact W. cbn [mbind mret bind] in E'. apply mbind_ok in E'. destruct E' as ([] & _ & E'). apply mbind_ok in E'. destruct E' as (o1 & _ & E').
    change (structIdx (ml_args u ++ [MxStruct s]) (Z.of_nat (length (ml_args u ++ [MxStruct s])))) with (mret 13 : mex Z) in E'. cbn [mbind mret bind] in E'.
    change (13 =? -1) with false in E'. cbv iota in E'. change (arg (ml_args u ++ [MxStruct s]) 13) with (mret (MxStruct s : mxArray T)) in E'. cbn [mbind mret bind] in E'.
    apply mbind_ok in E'. destruct E' as (pm & E' & _). exists pm. exact E'. }
  destruct P as (pm & P). destruct (params_ok dtoi itod s _ _ _ pm F Wm P) as (P1 & P2 & P3). rewrite X in P2. rewrite Y in P3.
  assert (P2' : pm_x0 pm = ptr_of (u_x0 (um_v u))).
  { rewrite P2. destruct (u_x0 (um_v u)) as [l|] eqn:El; [|reflexivity]. cbn [option_map]. pose proof (wv_x0 _ V) as Hl. rewrite El in Hl. cbn in Hl. pose proof (wv_nV _ V). apply pr_some. lia. }
  assert (P3' : pm_y0 pm = ptr_of (u_y0 (um_v u))).
  { rewrite P3. destruct (u_y0 (um_v u)) as [l|] eqn:El; [|reflexivity]. cbn [option_map]. pose proof (wv_y0 _ V) as Hl. rewrite El in Hl. cbn in Hl. unfold u_nA in Hl.
    pose proof (wv_nV _ V). pose proof (wv_nC _ V). pose proof (wv_nComp _ V). apply pr_some. lia. }
  clear P2 P3. destruct pm as [po px py]. cbn [pm_options pm_x0 pm_y0] in *. subst px py.
  rewrite (mex_dense_ok dtoi itod u [MxStruct s] po W Sy Ca) in E by (right; exists s; split; [reflexivity|exact P]).
  apply bind_ok in E. destruct E as (o0 & E0 & E). apply bind_ok in E. destruct E as ([rv o1] & E1 & E).
  apply (f_equal (fun e => match e with Ok (inr (_, a, b, c)) => Some (a, b, c) | _ => None end)) in E. injection E as Ea Eb Ec. subst. split; [reflexivity|]. exists o0, rv. auto.
Qed.

Lemma p_C47 orc rand elapsed nlhs prhs x y s o : mexFunction dtoi itod orc rand elapsed nlhs prhs = Ok (inr (Output x y (Some s) o)) ->
  exists nV nComp nC opt l o0 ret, mexLoad dtoi itod prhs = Ok (inr (nV, nComp, nC, opt, l, o0)) /\ runSolver orc rand o0 = Ok (ret, o) /\
    (o_storeSteps opt = false \/ st_iterTotal (getOutputStatistics o) <= 0 ->
     forall name v, lookup name (stat_meaning ret elapsed (getOutputStatistics o)) = Some v -> lookup name s = Some v).
Proof.
  intros E. unfold mexFunction in E. destruct ((nlhs <? 1) || (3 <? nlhs)); [discriminate|].
  apply mbind_ok in E. destruct E as ([[[[[nV nComp] nC] opt] l] o0] & E0 & E). destruct (negb (l =? 0)); [discriminate|].
  apply mbind_ok in E. destruct E as (x1 & _ & E). apply mbind_ok in E. destruct E as (y1 & _ & E). apply mbind_ok in E. destruct E as ([ret o1] & E1 & E). apply mlift_ok in E1.
  apply mbind_ok in E. destruct E as ([r2 x2] & _ & E). apply mbind_ok in E. destruct E as (x3 & _ & E). apply mbind_ok in E. destruct E as (y3 & _ & E). apply mbind_ok in E. destruct E as (y4 & _ & E).
  destruct y4 as [y4|]; [|discriminate]. destruct (2 <? nlhs); [|discriminate]. apply mbind_ok in E. destruct E as (s1 & E2 & E). apply mlift_ok in E2.
  apply (f_equal (fun e => match e with Ok (inr (Output _ _ (Some a) b)) => Some (a, b) | _ => None end)) in E. cbn in E.
  assert (Es : s1 = s) by congruence. assert (Eo : o1 = o) by congruence. subst s1 o1. clear E.
  exists nV, nComp, nC, opt, l, o0, ret. split; [exact E0|]. split; [exact E1|]. intros C.
  destruct (stats_short (o_storeSteps opt) nV ret elapsed (getOutputStatistics o) C) as (s' & Es & Hs). rewrite E2 in Es. injection Es as <-. exact Hs.
Qed.
End Mex.
