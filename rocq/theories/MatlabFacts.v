(** * MatlabFacts: proofs about the MATLAB interface (no LCQPow code). *)
From Coq Require Import String.
From Verif Require Import Base Arith Codes Utilities Options Stats FileIO Subsolver State LCQProblem Loops Tactics SpecSparse SpecLoad Messages SpecOptions Matlab Python Printf SpecInterfaces InterfaceFacts.
Local Open Scope list_scope.
Local Open Scope Z_scope.
Notation "'let?' x ':=' e 'in' k" := (mbind e (fun x => k)) (at level 200, x name, e at level 100, k at level 200, right associativity).
Notation "'let?' ' p ':=' e 'in' k" := (mbind e (fun p => k)) (at level 200, p strict pattern, e at level 100, k at level 200, right associativity).

Section MatlabFacts.
Context {T : Type} `{Arith T}.
Variables (dtoi : T -> res Z) (itod : Z -> T).

Lemma mbind_ok {X Y} (m : mex X) (k : X -> mex Y) y : mbind m k = Ok (inr y) -> exists x, m = Ok (inr x) /\ k x = Ok (inr y).
Proof. unfold mbind. destruct m as [[e|x]|u]; cbn [bind]; try discriminate. eauto. Qed.
Lemma mlift_ok {X} (r : res X) x : mlift r = Ok (inr x) -> r = Ok x.
Proof. unfold mlift. destruct r; cbn [bind]; [|discriminate]. intros E. injection E as ->. reflexivity. Qed.

Lemma dbl_inv (s : list (string * mxArray T)) name k o o' : full_fields s -> dbl_field (MxStruct s) name k o = Ok (inr o') ->
  (lookup name s = None /\ o' = o) \/ exists v, scalar (lookup name s) = Some v /\ k v o = Ok (inr o').
Proof.
  intros F. unfold dbl_field. cbn [mxGetField]. destruct (lookup name s) as [f|] eqn:L; [|intros E; injection E as <-; left; auto]. intros E0. right.
  destruct (F _ _ L) as (Fs & Fw). apply mbind_ok in E0. destruct E0 as ([] & C & E). apply mbind_ok in E. destruct E as (v & P & E). apply mlift_ok in P.
  unfold checkDouble in C. cbn [andb] in C. destruct f as [m n l| | | |]; try discriminate. cbn [mxIsDouble negb mxGetM mxGetN wf_mx] in *.
  destruct (Z.eqb_spec m 1) as [->|]; [|discriminate]. destruct (Z.eqb_spec n 1) as [->|]; [|discriminate].
  destruct l as [|x [|y l]]; [change (len (@nil T)) with 0 in Fw; lia| |rewrite !len_cons in Fw; pose proof (len_nonneg l); lia].
  cbn in P. injection P as <-. exists x. split; [reflexivity|exact E].
Qed.
Lemma lgl_inv (s : list (string * mxArray T)) name k o o' : lgl_field (MxStruct s) name k o = Ok (inr o') ->
  (lookup name s = None /\ o' = o) \/ exists b : bool, flag (lookup name s) = Some b /\ o' = k b o.
Proof.
  unfold lgl_field. cbn [mxGetField]. destruct (lookup name s) as [f|] eqn:L; [|intros E; injection E as <-; left; auto]. intros E0. right.
  apply mbind_ok in E0. destruct E0 as ([] & C & E). injection E as <-. unfold checkBool in C. destruct f as [| |m n b| |]; try discriminate. cbn [mxIsLogical negb mxGetM mxGetN] in *.
  destruct (Z.eqb_spec m 1) as [->|]; [|discriminate]. destruct (Z.eqb_spec n 1) as [->|]; [|discriminate]. exists b. split; reflexivity.
Qed.

Lemma after_app l l' (o : options T) : after (l ++ l') o = after l' (after l o).
Proof. unfold after. apply fold_left_app. Qed.

Lemma num_step (s : list (string * mxArray T)) name f (sc : T -> setter T) o o' : full_fields s -> (forall v o, call (sc v) o = f v o) ->
  dbl_field (MxStruct s) name (fun v o => mret (via f v o)) o = Ok (inr o') -> o' = after (match scalar (lookup name s) with Some v => [sc v] | None => [] end) o.
Proof.
  intros F Ef E. destruct (dbl_inv _ _ _ _ _ F E) as [(L & ->)|(v & L & K)]; [rewrite L; reflexivity|]. rewrite L. injection K as <-. cbn. rewrite Ef. reflexivity.
Qed.
Lemma int_step (s : list (string * mxArray T)) name f (sc : Z -> setter T) o o' : full_fields s -> (forall v o, call (sc v) o = f v o) ->
  dbl_field (MxStruct s) name (by_int dtoi f) o = Ok (inr o') ->
  o' = after (match scalar (lookup name s) with Some v => match dtoi v with Ok i => [sc i] | UB _ => [] end | None => [] end) o.
Proof.
  intros F Ef E. destruct (dbl_inv _ _ _ _ _ F E) as [(L & ->)|(v & L & K)]; [rewrite L; reflexivity|]. rewrite L. apply mbind_ok in K. destruct K as (i & K1 & K2). apply mlift_ok in K1.
  rewrite K1. injection K2 as <-. cbn. rewrite Ef. reflexivity.
Qed.
Lemma lgl_step (s : list (string * mxArray T)) name f (sc : bool -> setter T) o o' : (forall v o, call (sc v) o = f v o) ->
  lgl_field (MxStruct s) name (via f) o = Ok (inr o') -> o' = after (match flag (lookup name s) with Some v => [sc v] | None => [] end) o.
Proof.
  intros Ef E. destruct (lgl_inv _ _ _ _ _ E) as [(L & ->)|(v & L & ->)]; rewrite L; [reflexivity|]. cbn. rewrite Ef. reflexivity.
Qed.

Lemma params_ok (s : list (string * mxArray T)) nV nComp nC pm : full_fields s -> whole_max_penalty dtoi itod s -> readParams dtoi itod (MxStruct s) nV nComp nC = Ok (inr pm) ->
  pm_options pm = after (param_calls dtoi s) setToDefault /\
  pm_x0 pm = match lookup "x0" s with Some f => mxGetPr f | None => None end /\ pm_y0 pm = match lookup "y0" s with Some f => mxGetPr f | None => None end.
Proof.
  intros F W E. unfold readParams in E. cbn [mxGetField] in E.
  apply mbind_ok in E. destruct E as (x0 & Ex & E).
  apply mbind_ok in E. destruct E as (o1 & E1 & E). apply (num_step _ _ _ SStat) in E1; [|exact F|reflexivity].
  apply mbind_ok in E. destruct E as (o2 & E2 & E). apply (num_step _ _ _ SCompl) in E2; [|exact F|reflexivity].
  apply mbind_ok in E. destruct E as (o3 & E3 & E). apply (num_step _ _ _ SRho0) in E3; [|exact F|reflexivity].
  apply mbind_ok in E. destruct E as (o4 & E4 & E). apply (num_step _ _ _ SBeta) in E4; [|exact F|reflexivity].
  apply mbind_ok in E. destruct E as (o5 & E5 & E). apply (lgl_step _ _ _ SZeroFirst) in E5; [|reflexivity].
  apply mbind_ok in E. destruct E as (o6 & E6 & E). apply (int_step _ _ _ SMaxIter) in E6; [|exact F|reflexivity].
  apply mbind_ok in E. destruct E as (o7 & E7 & E).
  assert (E7' : o7 = after (match scalar (lookup "maxPenaltyParameter" s) with Some v => [SMaxRho v] | None => [] end) o6).
  { destruct (dbl_inv _ _ _ _ _ F E7) as [(L & ->)|(v & L & K)]; [rewrite L; reflexivity|]. rewrite L. destruct (W v L) as (i & Hi & Hv). apply mbind_ok in K. destruct K as (i' & K1 & K2). apply mlift_ok in K1.
    assert (i' = i) by congruence. subst i'. injection K2 as <-. unfold via. rewrite Hv. reflexivity. }
  apply mbind_ok in E. destruct E as (o8 & E8 & E). apply (int_step _ _ _ SNDyn) in E8; [|exact F|reflexivity].
  apply mbind_ok in E. destruct E as (o9 & E9 & E). apply (num_step _ _ _ SEta) in E9; [|exact F|reflexivity].
  apply mbind_ok in E. destruct E as (o10 & E10 & E). apply (int_step _ _ _ SPrint) in E10; [|exact F|reflexivity].
  apply mbind_ok in E. destruct E as (o11 & E11 & E). apply (lgl_step _ _ _ SStore) in E11; [|reflexivity].
  apply mbind_ok in E. destruct E as (o12 & E12 & E). apply (int_step _ _ _ SSolver) in E12; [|exact F|reflexivity].
  apply mbind_ok in E. destruct E as (o13 & E13 & E). apply (lgl_step _ _ _ SPerturb) in E13; [|reflexivity].
  apply mbind_ok in E. destruct E as (y0 & Ey & E). injection E as <-. cbn [pm_options pm_x0 pm_y0]. split; [|split].
  - unfold param_calls. cbv zeta. rewrite !after_app. subst. reflexivity.
  - destruct (lookup "x0" s); [|injection Ex as <-; reflexivity]. apply mbind_ok in Ex. destruct Ex as ([] & _ & Ex). injection Ex as <-. reflexivity.
  - destruct (lookup "y0" s); [|injection Ey as <-; reflexivity]. apply mbind_ok in Ey. destruct Ey as ([] & _ & Ey). injection Ey as <-. reflexivity.
Qed.

(** ** Loading *)
Lemma pr_some m n (l : list T) : 0 < len l -> mxGetPr (MxDense m n l) = Some (lift l).
Proof. destruct l; [change (len (@nil T)) with 0; lia|reflexivity]. Qed.
Lemma pr_vec n (l : option (list T)) : 0 < n -> fits n l -> mxGetPr (ml_vec n l) = ptr_of l.
Proof. intros Hn F. destruct l as [l|]; [|reflexivity]. cbn in F |- *. destruct l; [change (len (@nil T)) with 0 in F; lia|reflexivity]. Qed.
Lemma chk_vec n (l : option (list T)) name : checkDouble (ml_vec n l) n 1 name true = mret tt.
Proof. unfold checkDouble. destruct l; [|reflexivity]. cbn [ml_vec]. destruct (true && _); [reflexivity|]. cbn. rewrite Z.eqb_refl. reflexivity. Qed.
Lemma chk_mat m n (l : list T) name e : checkDouble (MxDense m n l) m n name e = mret tt.
Proof. unfold checkDouble. destruct (e && _); [reflexivity|]. cbn. rewrite !Z.eqb_refl. reflexivity. Qed.

Lemma mat_full m n (M : Z -> Z -> T) : 0 < m -> 0 < n -> mxIsEmpty (ml_mat m n M) = false.
Proof. intros. unfold mxIsEmpty. cbn [ml_mat mxGetM mxGetN]. lia. Qed.
Lemma mex_dense_ok (u : umat T) extra opt : wf_dense (rows_of u) -> symmetric u -> cons_args (um_v u) ->
  (extra = [] /\ opt = setToDefault /\ u_x0 (um_v u) = None /\ u_y0 (um_v u) = None \/
   exists s, extra = [MxStruct s] /\ readParams dtoi itod (MxStruct s) (u_nV (um_v u)) (u_nComp (um_v u)) (u_nC (um_v u)) = Ok (inr (mkParams opt (ptr_of (u_x0 (um_v u))) (ptr_of (u_y0 (um_v u)))))) ->
  mexLoad dtoi itod (ml_args u ++ extra) =
    (let! o := new_object (um_v u) opt in let! '(r, o) := load_dense (rows_of u) o in
     Ok (inr (u_nV (um_v u), u_nComp (um_v u), u_nC (um_v u), opt, ml_code r, o))).
Proof.
  intros W Sy Ca Ex. pose proof (wu_v _ W) as V. cbn [rows_of ud_v] in V. set (v := um_v u) in *.
  pose proof (wv_nV _ V) as HnV. pose proof (wv_nC _ V) as HnC. pose proof (wv_nComp _ V) as HnComp. pose proof (wv_rect _ V) as Hr. unfold u_nA in Hr.
  set (N := Z.of_nat (length (ml_args u ++ extra))).
  assert (HN : N = 13 /\ extra = [] \/ N = 14 /\ exists s, extra = [MxStruct s]).
  { destruct Ex as [(-> & _)|(s & -> & _)]; [left|right; split; [|eauto]]; unfold N; rewrite app_length; cbn; auto. }
  assert (Ha : forall i a, nth_error (ml_args u) (Z.to_nat i) = Some a -> arg (ml_args u ++ extra) i = mret a).
  { intros i a E. unfold arg. rewrite nth_error_app1, E by (apply nth_error_Some; congruence). reflexivity. }
  unfold mexLoad. fold N. replace ((N <? 8) || (14 <? N)) with false by (destruct HN as [(-> & _)|(-> & _)]; reflexivity).
  assert (D : mexDims (ml_args u ++ extra) N = mret (u_nV v, u_nComp v, u_nC v)).
  { unfold mexDims. rewrite (Ha 0 (ml_mat (u_nV v) (u_nV v) (um_Q u)) eq_refl), (Ha 2 (ml_mat (u_nComp v) (u_nV v) (um_L u)) eq_refl),
      (Ha 8 (if u_nC v =? 0 then MxDense 0 0 [] else ml_mat (u_nC v) (u_nV v) (um_A u)) eq_refl). cbn [mbind mret bind]. rewrite !mat_full by lia. cbn [mxIsDouble ml_mat mxGetM negb orb].
    replace (11 <? N) with true by (destruct HN as [(-> & _)|(-> & _)]; reflexivity). cbn [mbind mret bind].
    destruct (Z.eqb_spec (u_nC v) 0) as [E0|E0]; [rewrite E0; reflexivity|]. change (MxDense (u_nC v) (u_nV v) (col_major (u_nC v) (u_nV v) (um_A u))) with (ml_mat (u_nC v) (u_nV v) (um_A u)).
    rewrite mat_full by lia. reflexivity. }
  rewrite D. cbn [mbind mret bind].
  assert (C : mexChecks (ml_args u ++ extra) N (u_nV v) (u_nComp v) (u_nC v) = mret tt).
  { unfold mexChecks.
    rewrite (Ha 0 (ml_mat (u_nV v) (u_nV v) (um_Q u)) eq_refl), (Ha 1 (MxDense (u_nV v) 1 (u_g v)) eq_refl), (Ha 2 (ml_mat (u_nComp v) (u_nV v) (um_L u)) eq_refl), (Ha 3 (ml_mat (u_nComp v) (u_nV v) (um_R u)) eq_refl),
      (Ha 8 (if u_nC v =? 0 then MxDense 0 0 [] else ml_mat (u_nC v) (u_nV v) (um_A u)) eq_refl), (Ha 9 (ml_vec (u_nC v) (u_lbA v)) eq_refl), (Ha 10 (ml_vec (u_nC v) (u_ubA v)) eq_refl),
      (Ha 11 (ml_vec (u_nV v) (u_lb v)) eq_refl), (Ha 12 (ml_vec (u_nV v) (u_ub v)) eq_refl).
    cbn [mbind mret bind]. unfold ml_mat. rewrite !chk_mat. cbn [mbind mret bind]. rewrite !chk_vec.
    assert (CA : checkDouble (if u_nC v =? 0 then MxDense 0 0 [] else MxDense (u_nC v) (u_nV v) (col_major (u_nC v) (u_nV v) (um_A u))) (u_nC v) (u_nV v) "A" true = mret tt).
    { destruct (Z.eqb_spec (u_nC v) 0); [reflexivity|apply chk_mat]. }
    rewrite CA. destruct HN as [(-> & _)|(-> & (s & ->))]; [reflexivity|]. change (arg (ml_args u ++ [MxStruct s]) 13) with (mret (MxStruct s : mxArray T)). reflexivity. }
  rewrite C. cbn [mbind mret bind]. unfold new_object. destruct (LCQProblem_ctor (u_nV v) (u_nC v) (u_nComp v)) as [o|]; [|reflexivity]. cbn [mlift mbind mret bind].
  assert (P : (let? si := structIdx (ml_args u ++ extra) N in
               let? pm := (if si =? -1 then mret (mkParams setToDefault None None) else let? s := arg (ml_args u ++ extra) si in readParams dtoi itod s (u_nV v) (u_nComp v) (u_nC v)) in mret pm) = mret (mkParams opt (ptr_of (u_x0 v)) (ptr_of (u_y0 v)))).
  { destruct Ex as [(-> & -> & -> & ->)|(s & -> & E)].
    - destruct HN as [(-> & _)|(_ & s & C0)]; [reflexivity|discriminate].
    - destruct HN as [(_ & C0)|(-> & _)]; [discriminate|]. unfold structIdx. cbn [Z.eqb Pos.eqb mbind mret bind]. change (arg (ml_args u ++ [MxStruct s]) 13) with (mret (MxStruct s : mxArray T)). cbn [mbind mret bind]. rewrite E. reflexivity. }
  apply mbind_ok in P. destruct P as (si & P1 & P). apply mbind_ok in P. destruct P as (pm & P2 & P3). assert (Ep : pm = mkParams opt (ptr_of (u_x0 v)) (ptr_of (u_y0 v))) by (apply (f_equal (fun e => match e with Ok (inr q) => q | _ => pm end)) in P3; exact P3). subst pm.
  rewrite P1. cbn [mbind bind]. rewrite P2. cbn [mbind bind pm_options pm_x0 pm_y0].
  rewrite (Ha 0 (ml_mat (u_nV v) (u_nV v) (um_Q u)) eq_refl). cbn [mbind mret bind]. change (mxIsSparse (ml_mat (u_nV v) (u_nV v) (um_Q u))) with false. cbv iota.
  unfold LCQPDense. rewrite (Ha 0 (ml_mat (u_nV v) (u_nV v) (um_Q u)) eq_refl), (Ha 2 (ml_mat (u_nComp v) (u_nV v) (um_L u)) eq_refl), (Ha 3 (ml_mat (u_nComp v) (u_nV v) (um_R u)) eq_refl),
    (Ha 8 (if u_nC v =? 0 then MxDense 0 0 [] else ml_mat (u_nC v) (u_nV v) (um_A u)) eq_refl). cbn [mbind mret bind].
  assert (EA : (if 0 <? u_nC v then mret (mxGetPr (if u_nC v =? 0 then MxDense 0 0 [] else ml_mat (u_nC v) (u_nV v) (um_A u))) else mret None)
               = mret (if u_nC v =? 0 then None else Some (lift (col_major (u_nC v) (u_nV v) (um_A u))))).
  { destruct (Z.eqb_spec (u_nC v) 0) as [E0|E0]; [rewrite E0; reflexivity|]. replace (0 <? u_nC v) with true by lia. unfold ml_mat. rewrite pr_some by (rewrite len_cols by lia; nia). reflexivity. }
  rewrite EA. cbn [mbind mret bind].
  assert (RV : readVectors (ml_args u ++ extra) N (u_nC v) = mret (mkVectors (Some (lift (u_g v))) (ptr_of (u_lbL v)) (ptr_of (u_ubL v)) (ptr_of (u_lbR v)) (ptr_of (u_ubR v)) (ptr_of (u_lbA v)) (ptr_of (u_ubA v)) (ptr_of (u_lb v)) (ptr_of (u_ub v)))).
  { unfold readVectors. rewrite (Ha 1 (MxDense (u_nV v) 1 (u_g v)) eq_refl), (Ha 4 (ml_vec (u_nComp v) (u_lbL v)) eq_refl), (Ha 5 (ml_vec (u_nComp v) (u_ubL v)) eq_refl),
      (Ha 6 (ml_vec (u_nComp v) (u_lbR v)) eq_refl), (Ha 7 (ml_vec (u_nComp v) (u_ubR v)) eq_refl), (Ha 9 (ml_vec (u_nC v) (u_lbA v)) eq_refl), (Ha 10 (ml_vec (u_nC v) (u_ubA v)) eq_refl),
      (Ha 11 (ml_vec (u_nV v) (u_lb v)) eq_refl), (Ha 12 (ml_vec (u_nV v) (u_ub v)) eq_refl). cbn [mbind mret bind].
    replace ((N =? 10) || ((N =? 11) && (u_nC v =? 0))) with false by (destruct HN as [(-> & _)|(-> & _)]; reflexivity).
    replace (11 <=? N) with true by (destruct HN as [(-> & _)|(-> & _)]; reflexivity). replace (13 <=? N) with true by (destruct HN as [(-> & _)|(-> & _)]; reflexivity).
    rewrite pr_some by (rewrite (wv_g _ V); lia).
    rewrite (pr_vec (u_nComp v) (u_lbL v)), (pr_vec (u_nComp v) (u_ubL v)), (pr_vec (u_nComp v) (u_lbR v)), (pr_vec (u_nComp v) (u_ubR v)) by (first [lia | destruct V; assumption]).
    rewrite (pr_vec (u_nV v) (u_lb v)), (pr_vec (u_nV v) (u_ub v)) by (first [lia | destruct V; assumption]).
    assert (E : mxGetPr (ml_vec (u_nC v) (u_lbA v)) = ptr_of (u_lbA v) /\ mxGetPr (ml_vec (u_nC v) (u_ubA v)) = ptr_of (u_ubA v)).
    { destruct (Z.eq_dec (u_nC v) 0) as [E0|E0]; [destruct (Ca E0) as (-> & ->); split; reflexivity|]. split; apply (pr_vec (u_nC v)); first [lia | destruct V; assumption]. }
    destruct E as (-> & ->). reflexivity. }
  rewrite RV. cbn [mbind mret bind]. unfold ml_mat. rewrite !(pr_some (u_nComp v) (u_nV v)) by (rewrite len_cols by lia; nia). rewrite !toRowMajor_ok by nia. cbn [mlift mbind mret bind].
  assert (TA : toRowMajor (if u_nC v =? 0 then None else Some (lift (col_major (u_nC v) (u_nV v) (um_A u)))) (u_nC v) (u_nV v) = Ok (arg_A (rows_of u))).
  { unfold arg_A. cbn [rows_of ud_v ud_A]. fold v. destruct (Z.eqb_spec (u_nC v) 0) as [E0|E0]; [reflexivity|]. apply toRowMajor_ok; nia. }
  match goal with |- context [toRowMajor ?p (u_nC v) (u_nV v)] => assert (TA' : toRowMajor p (u_nC v) (u_nV v) = Ok (arg_A (rows_of u))) by exact TA end.
  rewrite TA'. cbn [mlift mbind mret bind v_g v_lbL v_ubL v_lbR v_ubR v_lbA v_ubA v_lb v_ub].
  unfold ml_mat. rewrite (pr_some (u_nV v) (u_nV v)) by (rewrite len_cols by lia; nia). rewrite (cols_sym _ _ Sy).
  unfold load_dense. cbn [rows_of ud_v ud_Q ud_L ud_R]. fold v. destruct (loadLCQP _ _ _ _ _ _ _ _ _ _ _ _ _ _ _ _) as [(r, o')|]; reflexivity.
Qed.

(** ** Statistics *)
Lemma stats_short (store : bool) nV ret (elapsed : T) st : store = false \/ st_iterTotal st <= 0 -> exists s, statsStruct store nV ret elapsed st = Ok s /\
  forall name v, lookup name (stat_meaning ret elapsed st) = Some v -> lookup name s = Some v.
Proof.
  intros C. unfold statsStruct. replace (store && (0 <? st_iterTotal st)) with false by (destruct C as [->|C]; [reflexivity|]; destruct store; [cbn; lia|reflexivity]).
  eexists. split; [reflexivity|]. intros name v E. unfold stat_meaning, lookup in E.
  repeat match type of E with (if String.eqb ?a ?b then _ else _) = _ => destruct (String.eqb_spec a b); [subst name; destruct store; exact E|] end. discriminate.
Qed.
Lemma firstn_ok {X} (l : list X) : 0 < len l -> firstn_rd (len l) l = Ok l.
Proof.
  intros Hl. unfold firstn_rd. rewrite (for_seq _ (fun i => take i l) 0 (len l) ltac:(lia)); [rewrite take_all by lia; reflexivity|].
  intros i Hi. destruct l as [|x l']; [change (len (@nil X)) with 0 in *; lia|]. cbn [vec_getter deref bind]. set (l := x :: l') in *. rewrite (rd_lift x) by lia. cbn [bind]. f_equal.
  apply (list_eq x); [rewrite len_app, !len_take by lia; reflexivity|]. intros k Hk. rewrite len_app, len_take in Hk by lia. cbn in Hk. rewrite at_take by lia.
  destruct (Z.eq_dec k i) as [->|]; [rewrite at_app_r by (rewrite len_take; lia); rewrite len_take by lia; rewrite Z.sub_diag; reflexivity|].
  rewrite at_app_l by (rewrite len_take; lia). rewrite at_take by lia. reflexivity.
Qed.
Lemma xsteps_ok nV (l : list (list T)) : 0 <= nV -> (forall x, In x l -> len x = nV) -> xsteps_rd (len l) nV l = Ok (concat l).
Proof.
  intros Hn Hl. unfold xsteps_rd. pose proof (len_nonneg l). rewrite (for_seq _ (fun i => concat (take i l)) 0 (len l) ltac:(lia)); [rewrite take_all by lia; reflexivity|].
  intros i Hi. set (x := at_ [] l i). assert (Hx : len x = nV) by (apply Hl; unfold x, at_; apply nth_In; unfold len in Hi; lia).
  assert (Et : take (i + 1) l = take i l ++ [x]).
  { apply (list_eq []); [rewrite len_app, !len_take by lia; reflexivity|]. intros k Hk. rewrite len_take in Hk by lia. rewrite at_take by lia.
    destruct (Z.eq_dec k i) as [->|]; [rewrite at_app_r by (rewrite len_take; lia); rewrite len_take by lia; rewrite Z.sub_diag; reflexivity|].
    rewrite at_app_l by (rewrite len_take; lia). rewrite at_take by lia. reflexivity. }
  rewrite Et, concat_app. cbn [concat]. rewrite app_nil_r. rewrite <- (app_nil_r (concat (take i l))) at 1. change (@nil T) with (take 0 x) at 1. rewrite (for_seq _ (fun j => concat (take i l) ++ take j x) 0 nV Hn); [rewrite (take_all x nV) by lia; reflexivity|].
  intros j Hj. rewrite (rd_lift []) by lia. cbn [bind]. fold x. destruct x as [|y x'] eqn:Ex; [change (len (@nil T)) with 0 in Hx; lia|]. rewrite <- Ex in *. rewrite (rd_lift y) by lia. cbn [bind]. rewrite <- app_assoc. f_equal. f_equal.
  apply (list_eq y); [rewrite len_app, !len_take by lia; reflexivity|]. intros k Hk. rewrite len_app, len_take in Hk by lia. cbn in Hk. rewrite at_take by lia.
  destruct (Z.eq_dec k j) as [->|]; [rewrite at_app_r by (rewrite len_take; lia); rewrite len_take by lia; rewrite Z.sub_diag; reflexivity|].
  rewrite at_app_l by (rewrite len_take; lia). rewrite at_take by lia. reflexivity.
Qed.
(** Where the values really go if steps are stored. *)
Lemma stats_long nV ret (elapsed : T) st : 0 <= nV -> 0 < st_iterTotal st -> tracked nV st -> exists s, statsStruct true nV ret elapsed st = Ok s /\
  lookup "qp_exit_flag" s = Some (SNums (concat (st_xSteps st))) /\ lookup "innerIters" s = Some (SInts (st_subproblemIters st)) /\
  lookup "xSteps" s = Some (SInts (st_accuSubproblemIters st)) /\ lookup "accumulatedSubproblemIters" s = Some (SNums (st_stepLength st)) /\
  lookup "stepLength" s = Some (SNums (st_stepSize st)) /\ lookup "stepSize" s = Some (SNums (st_statVals st)) /\ lookup "statVals" s = Some (SNums (st_objVals st)) /\
  lookup "objVals" s = Some (SNums (st_phiVals st)) /\ lookup "phiVals" s = Some (SNums (st_meritVals st)) /\ lookup "meritVals" s = Some (SInts (st_innerIters st)) /\
  lookup "subproblemIters" s = Some SEmpty.
Proof.
  intros Hn Hp (L0 & L0' & L1 & L2 & L3 & L4 & L5 & L6 & L7 & L8 & L9). unfold statsStruct. replace (true && (0 <? st_iterTotal st)) with true by lia.
  assert (FX : forall X (l : list X), len l = st_iterTotal st -> firstn_rd (st_iterTotal st) l = Ok l) by (intros X l El; rewrite <- El; apply firstn_ok; lia).
  assert (XX : xsteps_rd (st_iterTotal st) nV (st_xSteps st) = Ok (concat (st_xSteps st))) by (rewrite <- L0; apply xsteps_ok; assumption).
  cbv zeta. rewrite XX. cbn [bind]. rewrite (FX _ (st_innerIters st)) by assumption. cbn [bind]. rewrite (FX _ (st_subproblemIters st)) by assumption. cbn [bind]. rewrite (FX _ (st_accuSubproblemIters st)) by assumption. cbn [bind].
  rewrite (FX _ (st_stepLength st)) by assumption. cbn [bind]. rewrite (FX _ (st_stepSize st)) by assumption. cbn [bind]. rewrite (FX _ (st_statVals st)) by assumption. cbn [bind].
  rewrite (FX _ (st_objVals st)) by assumption. cbn [bind]. rewrite (FX _ (st_phiVals st)) by assumption. cbn [bind]. rewrite (FX _ (st_meritVals st)) by assumption. cbn [bind].
  eexists. split; [reflexivity|]. repeat split.
Qed.
End MatlabFacts.
