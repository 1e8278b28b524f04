(** * MatlabProps: properties of the ways to call the MATLAB interface (no LCQPow code). *)
From Coq Require Import String.
From Verif Require Import Base Arith Codes Utilities Options Stats FileIO Subsolver State LCQProblem Loops Tactics SpecSparse SpecLoad Messages SpecOptions Matlab Python Printf
  SpecInterfaces InterfaceFacts MatlabFacts SpecMatlab Kernels CscKernels CscBuild LoadLoops LoadDense LoadSparse LoadFacts Pure Refine StartDense Spec RunFacts ApiFacts FileLoadFacts MatlabForms.
Local Open Scope list_scope.
Local Open Scope Z_scope.
Notation "'let?' x ':=' e 'in' k" := (mbind e (fun x => k)) (at level 200, x name, e at level 100, k at level 200, right associativity).

Section MatlabProps.
Context {T : Type} `{Arith T}.
Variables (dtoi : T -> res Z) (itod : Z -> T).

Lemma flip_sym (u : umat T) : symmetric u -> rows_of (flip_Q u) = rows_of u.
Proof. intros Sy. unfold rows_of. cbn [flip_Q um_v um_Q um_L um_R um_A]. f_equal. apply tab_ext. intros k _. apply Sy. Qed.

Lemma p_forms_dense f (u : umat T) args : wf_dense (rows_of u) -> ml_dense_call f u args -> u_x0 (um_v u) = None -> u_y0 (um_v u) = None ->
  mexLoad dtoi itod args =
    (let! o := new_object (um_v u) setToDefault in let! '(r, o) := load_dense (rows_of (flip_Q u)) o in
     Ok (inr (u_nV (um_v u), u_nComp (um_v u), u_nC (um_v u), setToDefault, ml_code r, o))).
Proof.
  intros W M X Y. rewrite <- (app_nil_r args). rewrite (mex_dense dtoi itod f u args [] _ (wu_v _ W) M (or_introl (conj eq_refl eq_refl))). cbn [mbind mret bind pm_options pm_x0 pm_y0].
  unfold load_dense, load_dense_from. cbn [rows_of ud_v flip_Q um_v]. rewrite X, Y. reflexivity.
Qed.
Lemma p_forms_symmetric f (u : umat T) args : wf_dense (rows_of u) -> symmetric u -> ml_dense_call f u args -> u_x0 (um_v u) = None -> u_y0 (um_v u) = None ->
  mexLoad dtoi itod args =
    (let! o := new_object (um_v u) setToDefault in let! '(r, o) := load_dense (rows_of u) o in
     Ok (inr (u_nV (um_v u), u_nComp (um_v u), u_nC (um_v u), setToDefault, ml_code r, o))).
Proof. intros W Sy M X Y. rewrite (p_forms_dense f u args W M X Y), flip_sym by assumption. reflexivity. Qed.
Lemma p_forms_sparse f (u : usparse T) args : wf_sparse u -> ml_sparse_call f u args -> u_x0 (us_v u) = None -> u_y0 (us_v u) = None ->
  mexLoad dtoi itod args =
    (let! o := new_object (us_v u) setToDefault in let! '(r, o) := load_sparse u o in
     Ok (inr (u_nV (us_v u), u_nComp (us_v u), u_nC (us_v u), setToDefault, rv_code r, o))).
Proof.
  intros W M X Y. rewrite <- (app_nil_r args). rewrite (mex_sparse dtoi itod f u args [] _ W M (or_introl (conj eq_refl eq_refl))). cbn [mbind mret bind pm_options pm_x0 pm_y0].
  unfold load_sparse, load_sparse_from. rewrite X, Y. reflexivity.
Qed.

Lemma guesses_ptr (v : uvec T) s pm : wf_vec v -> ml_guesses v s -> whole_max_penalty dtoi itod s -> readParams dtoi itod (MxStruct s) (u_nV v) (u_nComp v) (u_nC v) = Ok (inr pm) ->
  pm_options pm = after (param_calls dtoi s) setToDefault /\ pm_x0 pm = ptr_of (u_x0 v) /\ pm_y0 pm = ptr_of (u_y0 v).
Proof.
  intros V (F & X & Y) Wm P. destruct (params_ok dtoi itod s _ _ _ pm F Wm P) as (P1 & P2 & P3). rewrite X in P2. rewrite Y in P3. split; [exact P1|]. split.
  - rewrite P2. destruct (u_x0 v) as [l|] eqn:El; [|reflexivity]. cbn [option_map]. pose proof (wv_x0 _ V) as Hl. rewrite El in Hl. cbn in Hl. pose proof (wv_nV _ V). apply pr_some. lia.
  - rewrite P3. destruct (u_y0 v) as [l|] eqn:El; [|reflexivity]. cbn [option_map]. pose proof (wv_y0 _ V) as Hl. rewrite El in Hl. cbn in Hl. unfold u_nA in Hl.
    pose proof (wv_nV _ V). pose proof (wv_nC _ V). pose proof (wv_nComp _ V). apply pr_some. lia.
Qed.
Lemma p_params_dense f (u : umat T) args s nV nComp nC opt r o : wf_dense (rows_of u) -> ml_dense_call f u args -> ml_guesses (um_v u) s -> whole_max_penalty dtoi itod s ->
  mexLoad dtoi itod (args ++ [MxStruct s]) = Ok (inr (nV, nComp, nC, opt, r, o)) ->
  opt = after (param_calls dtoi s) setToDefault /\
  exists o0 rv, new_object (um_v u) opt = Ok o0 /\ load_dense (rows_of (flip_Q u)) o0 = Ok (rv, o) /\ r = ml_code rv.
Proof.
  intros W M G Wm E. rewrite (mex_dense dtoi itod f u args [MxStruct s] _ (wu_v _ W) M (or_intror (ex_intro _ s (conj eq_refl eq_refl)))) in E.
  apply mbind_ok in E. destruct E as (pm & P & E). destruct (guesses_ptr _ s pm (wu_v _ W) G Wm P) as (P1 & P2 & P3).
  apply bind_ok in E. destruct E as (o0 & E0 & E). apply bind_ok in E. destruct E as ([rv o1] & E1 & E).
  assert (Ed : load_dense (rows_of (flip_Q u)) o0 = Ok (rv, o1)) by (unfold load_dense; unfold load_dense_from in E1; rewrite P2, P3 in E1; exact E1).
  apply (f_equal (fun e => match e with Ok (inr (_, a, b, c)) => Some (a, b, c) | _ => None end)) in E. injection E as Ea Eb Ec. subst. split; [exact P1|]. exists o0, rv. auto.
Qed.
Lemma p_params_sparse f (u : usparse T) args s nV nComp nC opt r o : wf_sparse u -> ml_sparse_call f u args -> ml_guesses (us_v u) s -> whole_max_penalty dtoi itod s ->
  mexLoad dtoi itod (args ++ [MxStruct s]) = Ok (inr (nV, nComp, nC, opt, r, o)) ->
  opt = after (param_calls dtoi s) setToDefault /\
  exists o0 rv, new_object (us_v u) opt = Ok o0 /\ load_sparse u o0 = Ok (rv, o) /\ r = rv_code rv.
Proof.
  intros W M G Wm E. rewrite (mex_sparse dtoi itod f u args [MxStruct s] _ W M (or_intror (ex_intro _ s (conj eq_refl eq_refl)))) in E.
  apply mbind_ok in E. destruct E as (pm & P & E). destruct (guesses_ptr _ s pm (ws_v _ W) G Wm P) as (P1 & P2 & P3).
  apply bind_ok in E. destruct E as (o0 & E0 & E). apply bind_ok in E. destruct E as ([rv o1] & E1 & E).
  assert (Ed : load_sparse u o0 = Ok (rv, o1)) by (unfold load_sparse; unfold load_sparse_from in E1; rewrite P2, P3 in E1; exact E1).
  apply (f_equal (fun e => match e with Ok (inr (_, a, b, c)) => Some (a, b, c) | _ => None end)) in E. injection E as Ea Eb Ec. subst. split; [exact P1|]. exists o0, rv. auto.
Qed.

(** ** Dual guesses with OSQP *)
Lemma guess_short v (o : lcqp T) x0 y : wf_vec v -> dims v (pd o) -> fits (u_nV v) x0 -> len y < u_nV v + u_nA v -> setInitialGuess (ptr_of x0) (Some (lift y)) o = UB OutOfBounds.
Proof.
  intros V (E1 & E2 & E3) Fx Hy. pose proof (wv_nV _ V). pose proof (wv_nC _ V). pose proof (wv_nComp _ V). pose proof (wv_int _ V). unfold u_nA in Hy.
  unfold setInitialGuess. rewrite E1, E2, E3. cbn [get bind]. replace (u_nV v =? 0) with false by lia. replace (u_nComp v =? 0) with false by lia. cbn [orb].
  rewrite alloc_init_ok by lia. cbn [bind].
  match goal with |- context [if notNull ?x then memcpy_ptr ?a ?x ?n else Ok ?a] => assert (X : exists z, (if notNull x then memcpy_ptr a x n else Ok a) = Ok z) end.
  { destruct x0 as [x|]; cbn [ptr_of notNull isNull negb]; [|eauto]. cbn [fits] in Fx. eexists. apply memcpy_ptr_full; auto. rewrite len_lift, len_repeat; lia. }
  destruct X as (z & ->). cbn [bind notNull isNull negb]. rewrite alloc_ok by lia. cbn [bind]. unfold copy_loop.
  pose proof (len_nonneg y). rewrite (copy_short y _ (Z.to_nat (len y))); [reflexivity|lia|lia|lia|rewrite len_repeat; lia].
Qed.
Lemma load_dense_short u (o : lcqp T) x0 y : wf_dense u -> dims (ud_v u) (pd o) -> fin_lower (ud_v u) -> fits (u_nV (ud_v u)) x0 -> len y < u_nV (ud_v u) + u_nA (ud_v u) ->
  load_dense_from u (ptr_of x0) (Some (lift y)) o = UB OutOfBounds.
Proof.
  intros W D F Fx Hy. pose proof (wu_v _ W) as V. pose proof (wv_nV _ V). pose proof (wv_nComp _ V). pose proof (wv_sq _ V).
  pose proof D as (E1 & E2 & E3). unfold load_dense_from, loadLCQP. rewrite E1, E3. cbn [get bind].
  replace (u_nV (ud_v u) <=? 0) with false by lia. replace (u_nComp (ud_v u) <=? 0) with false by lia.
  unfold and_then at 1. unfold setQ. rewrite E1. cbn [get bind]. replace (u_nV (ud_v u) <=? 0) with false by lia.
  rewrite memcpy_new_k by (rewrite ?(wu_Q _ W); lia). cbn [bind is_success].
  unfold and_then at 1. rewrite (setG_ok (ud_v u)) by auto. cbn [bind is_success].
  rewrite (copy_box_ok (ud_v u)) by auto. cbn [bind].
  unfold and_then at 1. rewrite setConstraints_ok by auto. cbn [bind is_success].
  unfold and_then at 1. rewrite setComplementarityBounds_ok by auto. cbn [bind is_success].
  unfold and_then at 1. rewrite (guess_short (ud_v u)) by auto. reflexivity.
Qed.
Lemma load_sparse_short u (o : lcqp T) x0 y : wf_sparse u -> dims (us_v u) (pd o) -> fin_lower (us_v u) -> concat (us_C u) <> [] -> fits (u_nV (us_v u)) x0 -> len y < u_nV (us_v u) + u_nA (us_v u) ->
  load_sparse_from u (ptr_of x0) (Some (lift y)) o = UB OutOfBounds.
Proof.
  intros W D F NZ Fx Hy. pose proof (ws_v _ W) as V. pose proof (wv_nV _ V). pose proof (wv_nC _ V). pose proof (wv_nComp _ V). pose proof (wv_int _ V). pose proof (wv_sq _ V).
  pose proof D as (E1 & E2 & E3).
  unfold load_sparse_from, loadLCQP_csc. unfold and_then at 1. unfold setQ_csc. rewrite E1. cbn [get bind].
  replace (u_nV (us_v u) <=? 0) with false by lia.
  pose proof (ws_Q _ W) as WQ. assert (0 <= u_nV (us_v u)) by lia. pose proof (wf_cols_len (u_nV (us_v u)) _ _ ltac:(assumption) WQ).
  rewrite (copyCSC_ok _ _ _ _ (repr_csc_of _ _ _ WQ)) by lia. cbn [bind is_success].
  unfold and_then at 1. rewrite (setG_ok (us_v u)) by auto. cbn [bind is_success].
  unfold and_then at 1. rewrite setConstraints_csc_ok by auto. cbn [bind].
  replace (len (concat (us_C u)) =? 0) with false by (destruct (concat (us_C u)) eqn:E; [congruence|rewrite len_cons; pose proof (len_nonneg l); lia]).
  cbn [is_success].
  unfold and_then at 1. rewrite setComplementarityBounds_ok by auto. cbn [bind is_success].
  unfold and_then at 1. rewrite (guess_short (us_v u)) by auto. reflexivity.
Qed.

(** Initial guesses delivered by the parameter loop *)
Lemma full_vec n (f : mxArray T) name : 0 < n -> mxIsSparse f = false -> wf_mx f -> checkDouble f n 1 name false = Ok (inr tt) -> exists l, mxGetPr f = Some (lift l) /\ len l = n.
Proof.
  intros Hn Fs Fw C. unfold checkDouble in C. cbn [andb] in C. destruct f as [m k l| | | |]; try discriminate. cbn [mxIsDouble negb mxGetM mxGetN wf_mx] in *.
  destruct (Z.eqb_spec m n) as [->|]; [|discriminate]. destruct (Z.eqb_spec k 1) as [->|]; [|discriminate]. exists l. split; [apply pr_some; lia|lia].
Qed.
Lemma params_guess s nV nComp nC pm : 0 < nV -> 0 <= nC -> 0 < nComp -> full_fields s -> readParams dtoi itod (MxStruct s) nV nComp nC = Ok (inr pm) ->
  (exists x, pm_x0 pm = ptr_of x /\ fits nV x) /\ (lookup "y0" s = None /\ pm_y0 pm = None \/
    lookup "y0" s <> None /\ exists y, pm_y0 pm = Some (lift y) /\ len y = match o_qpSolver (pm_options pm) with OSQP_SPARSE => nC + 2 * nComp | _ => nV + nC + 2 * nComp end).
Proof.
  intros HV HC HK F E. unfold readParams in E. cbn [mxGetField] in E. apply mbind_ok in E. destruct E as (x0 & Ex & E).
  do 13 (apply mbind_ok in E; let o := fresh "o" in let e := fresh "E" in destruct E as (o & e & E); clear e).
  apply mbind_ok in E. destruct E as (y0 & Ey & E). injection E as <-. cbn [pm_options pm_x0 pm_y0]. split.
  - destruct (lookup "x0" s) as [f|] eqn:L; [|injection Ex as <-; exists None; split; [reflexivity|exact I]]. apply mbind_ok in Ex. destruct Ex as ([] & C & Ex). injection Ex as <-.
    destruct (F _ _ L) as (Fs & Fw). destruct (full_vec _ _ _ HV Fs Fw C) as (l & -> & Hl). exists (Some l). split; [reflexivity|exact Hl].
  - destruct (lookup "y0" s) as [f|] eqn:L; [|injection Ey as <-; left; auto]. right. split; [discriminate|]. apply mbind_ok in Ey. destruct Ey as ([] & C & Ey). injection Ey as <-.
    destruct (F _ _ L) as (Fs & Fw). apply full_vec in C; auto. destruct (o_qpSolver _); lia.
Qed.
Lemma p_osqp_dense f (u : umat T) args s pm : wf_dense (rows_of u) -> fin_lower (um_v u) -> ml_dense_call f u args -> full_fields s ->
  readParams dtoi itod (MxStruct s) (u_nV (um_v u)) (u_nComp (um_v u)) (u_nC (um_v u)) = Ok (inr pm) -> o_qpSolver (pm_options pm) = OSQP_SPARSE -> lookup "y0" s <> None ->
  mexLoad dtoi itod (args ++ [MxStruct s]) = UB OutOfBounds.
Proof.
  intros W Fl M F P Os Y. pose proof (wu_v _ W) as V. cbn [rows_of ud_v] in V. rewrite (mex_dense dtoi itod f u args [MxStruct s] _ V M (or_intror (ex_intro _ s (conj eq_refl eq_refl)))), P. cbn [mbind bind].
  rewrite new_object_ok by exact V. cbn [bind]. destruct (params_guess s _ _ _ pm (wv_nV _ V) (wv_nC _ V) (wv_nComp _ V) F P) as ((x & -> & Fx) & [(Y' & _)|(_ & y & -> & Hy)]); [contradiction|].
  rewrite Os in Hy. rewrite load_dense_short; [reflexivity| |apply fresh_dims|exact Fl|exact Fx|cbn [rows_of ud_v flip_Q um_v]; pose proof (wv_nV _ V); unfold u_nA; lia].
  destruct W as [W1 W2 W3 W4 W5]. constructor; try assumption. cbn [rows_of ud_v ud_Q flip_Q um_v um_Q] in *. unfold row_major in *. rewrite len_tab in * by (pose proof (wv_nV _ V); nia). exact W2.
Qed.
Lemma p_osqp_sparse f (u : usparse T) args s pm : wf_sparse u -> fin_lower (us_v u) -> concat (us_C u) <> [] -> ml_sparse_call f u args -> full_fields s ->
  readParams dtoi itod (MxStruct s) (u_nV (us_v u)) (u_nComp (us_v u)) (u_nC (us_v u)) = Ok (inr pm) -> o_qpSolver (pm_options pm) = OSQP_SPARSE -> lookup "y0" s <> None ->
  mexLoad dtoi itod (args ++ [MxStruct s]) = UB OutOfBounds.
Proof.
  intros W Fl NZ M F P Os Y. pose proof (ws_v _ W) as V. rewrite (mex_sparse dtoi itod f u args [MxStruct s] _ W M (or_intror (ex_intro _ s (conj eq_refl eq_refl)))), P. cbn [mbind bind].
  rewrite new_object_ok by exact V. cbn [bind]. destruct (params_guess s _ _ _ pm (wv_nV _ V) (wv_nC _ V) (wv_nComp _ V) F P) as ((x & -> & Fx) & [(Y' & _)|(_ & y & -> & Hy)]); [contradiction|].
  rewrite Os in Hy. rewrite load_sparse_short; [reflexivity|exact W|apply fresh_dims|exact Fl|exact NZ|exact Fx|pose proof (wv_nV _ V); unfold u_nA; lia].
Qed.

(** ** The struct of default options *)
Lemma p_C65_error (eps : T) nV nComp nC : readParams dtoi itod (MxStruct (LCQPow_default_options eps)) nV nComp nC = Ok (inl "solveZeroPenaltyFirst"%string).
Proof. reflexivity. Qed.
End MatlabProps.
