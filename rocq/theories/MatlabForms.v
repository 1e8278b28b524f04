(** * MatlabForms: proofs about the ways to call the MATLAB interface (no LCQPow code). *)
From Coq Require Import String.
From Verif Require Import Base Arith Codes Utilities Options Stats FileIO Subsolver State LCQProblem Loops Tactics SpecSparse SpecLoad Messages SpecOptions Matlab Python Printf
  SpecInterfaces InterfaceFacts MatlabFacts SpecMatlab CscKernels LoadSparse StartDense.
Local Open Scope list_scope.
Local Open Scope Z_scope.

Section MatlabForms.
Context {T : Type} `{Arith T}.
Variables (dtoi : T -> res Z) (itod : Z -> T).

(** A double matrix of a given size.  No LCQPow code. *)
Definition shaped (m n : Z) (a : mxArray T) : Prop := mxIsDouble a = true /\ mxGetM a = m /\ mxGetN a = n.
Lemma chk_shaped m n (a : mxArray T) name e : shaped m n a -> checkDouble a m n name e = mret tt.
Proof. intros (D & M & N). unfold checkDouble. destruct (e && _); [reflexivity|]. rewrite D, M, N, !Z.eqb_refl. reflexivity. Qed.
Lemma chk_none m n (a : mxArray T) name : ml_none a -> checkDouble a m n name true = mret tt.
Proof. intros (p & q & -> & E). unfold checkDouble, mxIsEmpty. cbn. replace ((p =? 0) || (q =? 0)) with true by lia. reflexivity. Qed.
Lemma chk_opt n l (a : mxArray T) name : ml_opt n l a -> checkDouble a n 1 name true = mret tt.
Proof. destruct l; cbn [ml_opt]; [intros ->; apply chk_mat|apply chk_none]. Qed.
Lemma pr_none (a : mxArray T) : ml_none a -> mxGetPr a = None.
Proof. intros (p & q & -> & _). reflexivity. Qed.
Lemma pr_opt n l (a : mxArray T) : 0 < n \/ l = None -> fits n l -> ml_opt n l a -> mxGetPr a = ptr_of l.
Proof. intros Hn F. destruct l as [l|]; cbn [ml_opt]; [|apply pr_none]. intros ->. destruct Hn as [Hn|]; [|discriminate]. cbn in F. cbn [ptr_of]. apply pr_some. lia. Qed.
Lemma double_opt n l (a : mxArray T) : ml_opt n l a -> mxIsDouble a = true /\ mxIsStruct a = false.
Proof. destruct l; cbn [ml_opt]; [intros ->; auto|intros (p & q & -> & _); auto]. Qed.
Lemma shaped_full m n (a : mxArray T) : 0 < m -> 0 < n -> shaped m n a -> mxIsEmpty a = false.
Proof. intros Hm Hn (_ & E1 & E2). unfold mxIsEmpty. rewrite E1, E2. lia. Qed.
Lemma none_empty (a : mxArray T) : ml_none a -> mxIsEmpty a = true.
Proof. intros (p & q & -> & E). unfold mxIsEmpty. cbn. lia. Qed.

Lemma F2_cons {X Y} (P : X -> Y -> Prop) p ps l : Forall2 P (p :: ps) l -> exists a l', l = a :: l' /\ P p a /\ Forall2 P ps l'.
Proof. intros F. inversion F; subst. eauto. Qed.
Lemma F2_nil {X Y} (P : X -> Y -> Prop) l : Forall2 P [] l -> l = [].
Proof. intros F. inversion F. reflexivity. Qed.
Ltac inv_all := repeat match goal with
  | F : Forall2 _ (_ :: _) ?l |- _ => apply F2_cons in F; let a := fresh "a" in let l' := fresh "l" in let p := fresh "P" in destruct F as (a & l' & -> & p & F)
  | F : Forall2 _ [] ?l |- _ => apply F2_nil in F; subst l end.
Ltac do_args := repeat match goal with |- context [arg ?l ?i] =>
  let a := eval cbv [nth_error Z.to_nat Pos.to_nat Pos.iter_op Init.Nat.add] in (nth_error l (Z.to_nat i)) in
  lazymatch a with Some ?a => change (arg l i) with (mret a : mex (mxArray T)) end end.

(** Everything in front of the reading of matrices. *)
Lemma mex_front f v args extra pmr : wf_vec v -> ml_form_fits f v ->
  Forall2 (fun p a => p a) (ml_form_args f v (shaped (u_nV v) (u_nV v)) (shaped (u_nComp v) (u_nV v)) (shaped (u_nComp v) (u_nV v)) (shaped (u_nC v) (u_nV v))) args ->
  (extra = [] /\ pmr = mret (mkParams setToDefault None None) \/ exists s, extra = [MxStruct s] /\ pmr = readParams dtoi itod (MxStruct s) (u_nV v) (u_nComp v) (u_nC v)) ->
  let prhs := args ++ extra in let N := Z.of_nat (length prhs) in
  readVectors prhs N (u_nC v) = mret (mkVectors (Some (lift (u_g v))) (ptr_of (u_lbL v)) (ptr_of (u_ubL v)) (ptr_of (u_lbR v)) (ptr_of (u_ubR v)) (ptr_of (u_lbA v)) (ptr_of (u_ubA v)) (ptr_of (u_lb v)) (ptr_of (u_ub v))) /\
  mexLoad dtoi itod prhs =
    (let? pm := pmr in let! o := new_object v (pm_options pm) in
     let? a0 := arg prhs 0 in
     let? '(ret, o) := if mxIsSparse a0 then LCQPSparse o (u_nV v) (u_nComp v) (u_nC v) N prhs (pm_x0 pm) (pm_y0 pm) else LCQPDense o (u_nV v) (u_nComp v) (u_nC v) N prhs (pm_x0 pm) (pm_y0 pm) in
     mret (u_nV v, u_nComp v, u_nC v, pm_options pm, ret, o)).
Proof.
  intros V (Ca & Fc & Fb) M Ex prhs N.
  pose proof (wv_nV _ V) as HnV. pose proof (wv_nC _ V) as HnC. pose proof (wv_nComp _ V) as HnComp.
  assert (HA : u_nC v = 0 \/ 0 < u_nC v) by lia.
  assert (Na : forall l : option (list T), u_nC v = 0 -> (u_nC v = 0 -> l = None) -> 0 < u_nC v \/ l = None) by (intros; right; auto).
  assert (LA : 0 < u_nC v \/ u_lbA v = None) by (destruct HA as [E|]; [right; apply Ca; exact E|left; assumption]).
  assert (UA : 0 < u_nC v \/ u_ubA v = None) by (destruct HA as [E|]; [right; apply Ca; exact E|left; assumption]).
  pose proof (wv_lbL _ V). pose proof (wv_ubL _ V). pose proof (wv_lbR _ V). pose proof (wv_ubR _ V). pose proof (wv_lbA _ V). pose proof (wv_ubA _ V). pose proof (wv_lb _ V). pose proof (wv_ub _ V).
  assert (Ed : exists x, u_g v = x) by eauto. pose proof (wv_g _ V) as Hg.
  cbn [ml_form_args app] in M. destruct f; cbn [app] in M; inv_all.
  all: destruct Ex as [(-> & ->)|(s & -> & ->)]; subst prhs N; cbn [app]; match goal with |- context [Z.of_nat (length ?l)] => let n := eval vm_compute in (Z.of_nat (length l)) in change (Z.of_nat (length l)) with n end.
  all: split; [unfold readVectors; do_args; cbn [mbind mret bind];
    repeat match goal with E : ml_opt ?n ?l ?a |- _ => lazymatch goal with _ : mxGetPr a = _ |- _ => fail | _ => pose proof (pr_opt n l a ltac:(solve [left; assumption | assumption]) ltac:(assumption) E) end end;
    cbn [ptr_of] in *; repeat match goal with E : mxGetPr ?a = ?b |- _ => rewrite E; clear E end|].
  all: try (destruct HA as [Z0|Z0]; [destruct (Ca Z0) as (Ea1 & Ea2); rewrite ?Z0, ?Ea1, ?Ea2|]; try (destruct Fb as (Eb1 & Eb2); rewrite ?Eb1, ?Eb2); try lia; solve [reflexivity]).
  all: try match goal with |- (if _ then _ else _) = mret _ => 
    destruct (Z.eqb_spec (u_nC v) 0) as [Z0|Z0]; [destruct (Ca Z0) as (Ea1 & Ea2)|]; destruct Fb as (Eb1 & Eb2); 
    [match goal with P : ml_none _ |- _ => rewrite (pr_none _ P) end; rewrite ?Ea1, ?Ea2, ?Eb1, ?Eb2; reflexivity | rewrite ?Eb1, ?Eb2; reflexivity] end.
  all: destruct HA as [Z0|Z0]; [assert (Ez : (u_nC v =? 0) = true) by lia|assert (Ez : (u_nC v =? 0) = false) by lia]; try lia.
  all: try match goal with P : if _ =? 0 then _ else _ |- _ => rewrite Ez in P end.
  all: unfold mexLoad; match goal with |- context [Z.of_nat (length ?l)] => let n := eval vm_compute in (Z.of_nat (length l)) in change (Z.of_nat (length l)) with n end.
  all: match goal with |- context [mexDims ?l ?n] => 
    assert (D : mexDims l n = mret (u_nV v, u_nComp v, u_nC v)); [
      unfold mexDims; do_args; cbn [mbind mret bind];
      repeat match goal with P : shaped ?m ?n ?a |- context [mxIsEmpty ?a] => rewrite (shaped_full m n a) by (first [exact P|lia]) | P : ml_none ?a |- context [mxIsEmpty ?a] => rewrite (none_empty a P) end;
      repeat match goal with P : ml_opt ?n ?l ?a |- context [mxIsStruct ?a] => rewrite (proj2 (double_opt n l a P)) end;
      repeat match goal with P : shaped _ _ ?a |- _ => destruct P as (? & ? & ?) end;
      repeat match goal with E : mxIsDouble ?a = _ |- context [mxIsDouble ?a] => rewrite E end;
      repeat match goal with E : mxGetM ?a = _ |- context [mxGetM ?a] => rewrite E end; rewrite ?Z0; reflexivity|
      assert (C : mexChecks l n (u_nV v) (u_nComp v) (u_nC v) = mret tt); [
        unfold mexChecks; do_args; cbn [mbind mret bind]; 
        repeat match goal with
        | P : shaped ?m ?n ?a |- context [checkDouble ?a ?m ?n ?s ?e] => rewrite (chk_shaped m n a s e P)
        | P : ml_none ?a |- context [checkDouble ?a ?m ?n ?s true] => rewrite (chk_none m n a s P)
        | P : ml_opt ?n ?l ?a |- context [checkDouble ?a ?n 1 ?s true] => rewrite (chk_opt n l a s P)
        | P : ml_opt ?n (Some ?l) ?a |- context [checkDouble ?a ?n 1 ?s false] => change (a = MxDense n 1 l) in P; rewrite P; rewrite chk_mat
        end; 
        repeat match goal with P : ml_opt ?n ?l ?a |- context [mxIsStruct ?a] => rewrite (proj2 (double_opt n l a P)) end;
        repeat match goal with P : ml_opt ?n ?l ?a |- context [mxIsDouble ?a] => rewrite (proj1 (double_opt n l a P)) end; try reflexivity|]] end.
  all: match goal with |- (if ?c then _ else _) = _ => change c with false end; cbv iota; rewrite D; cbn [mbind mret bind]; rewrite C; cbn [mbind mret bind];
    pose proof (new_object_ok v setToDefault V) as O; unfold new_object in *; destruct (LCQProblem_ctor (u_nV v) (u_nC v) (u_nComp v)) as [o|]; [clear O|discriminate]; cbn [mlift mbind mret bind]; unfold structIdx; do_args; cbn [Z.eqb Pos.eqb mbind mret bind];
    repeat match goal with P : ml_opt ?n ?l ?a |- context [mxIsDouble ?a] => rewrite (proj1 (double_opt n l a P)) end; cbn [Z.eqb Pos.eqb mbind mret bind mxIsDouble]; do_args; cbn [mbind mret bind].
  all: try reflexivity. all: destruct (readParams _ _ _ _ _ _) as [[e|pm]|]; reflexivity.
Qed.

Lemma F2_mono {X} (ps qs : list (X -> Prop)) l : Forall2 (fun (p q : X -> Prop) => forall x, p x -> q x) ps qs -> Forall2 (fun p a => p a) ps l -> Forall2 (fun p a => p a) qs l.
Proof. intros F. revert l. induction F as [|p q ps qs Hp F IH]; intros l G; inversion G; subst; constructor; auto. Qed.
Lemma F2_refl {X} (P : X -> X -> Prop) l : (forall x, P x x) -> Forall2 P l l.
Proof. intros R. induction l; constructor; auto. Qed.
Lemma form_mono f v (p1 p2 p3 p4 q1 q2 q3 q4 : mxArray T -> Prop) l : (forall x, p1 x -> q1 x) -> (forall x, p2 x -> q2 x) -> (forall x, p3 x -> q3 x) -> (forall x, p4 x -> q4 x) ->
  Forall2 (fun p a => p a) (ml_form_args f v p1 p2 p3 p4) l -> Forall2 (fun p a => p a) (ml_form_args f v q1 q2 q3 q4) l.
Proof.
  intros H1 H2 H3 H4. apply F2_mono. unfold ml_form_args. apply Forall2_app; [repeat (constructor; [first [assumption | auto]|]); constructor|].
  destruct f; repeat (constructor; [auto|]); try constructor. all: intros x; destruct (u_nC v =? 0); auto.
Qed.
(** Where the matrices are. *)
Lemma form_mats f v (pQ pL pR pA : mxArray T -> Prop) args extra : Forall2 (fun p a => p a) (ml_form_args f v pQ pL pR pA) args ->
  (exists a, pQ a /\ arg (args ++ extra) 0 = mret a) /\ (exists a, pL a /\ arg (args ++ extra) 2 = mret a) /\ (exists a, pR a /\ arg (args ++ extra) 3 = mret a) /\
  (match f with FPlain | FBox => u_nC v = 0 | _ => True end -> 0 < u_nC v -> exists a, pA a /\ arg (args ++ extra) 8 = mret a).
Proof.
  intros M. unfold ml_form_args in M. cbn [app] in M. inv_all. cbn [app]. do_args.
  repeat (split; [eexists; split; [eassumption|reflexivity]|]). intros Fc Hc. destruct f; try lia; inv_all; cbn [app]; do_args.
  all: replace (u_nC v =? 0) with false in * by lia. all: eexists; split; [eassumption|reflexivity].
Qed.

Lemma cols_flip n (M : Z -> Z -> T) : col_major n n M = row_major n n (transp M).
Proof. reflexivity. Qed.

(** The call of loadLCQP with dense data and given initial guesses.  No LCQPow code. *)
Definition load_dense_from (u : udense T) (x0 y0 : ptr T) (o : lcqp T) : res (ReturnValue * lcqp T) :=
  let v := ud_v u in
  loadLCQP (Some (lift (ud_Q u))) (Some (lift (u_g v))) (Some (lift (ud_L u))) (Some (lift (ud_R u)))
    (ptr_of (u_lbL v)) (ptr_of (u_ubL v)) (ptr_of (u_lbR v)) (ptr_of (u_ubR v)) (arg_A u) (ptr_of (u_lbA v)) (ptr_of (u_ubA v)) (ptr_of (u_lb v)) (ptr_of (u_ub v)) x0 y0 o.
Lemma mex_dense f (u : umat T) args extra pmr : wf_vec (um_v u) -> ml_dense_call f u args ->
  (extra = [] /\ pmr = mret (mkParams setToDefault None None) \/ exists s, extra = [MxStruct s] /\ pmr = readParams dtoi itod (MxStruct s) (u_nV (um_v u)) (u_nComp (um_v u)) (u_nC (um_v u))) ->
  mexLoad dtoi itod (args ++ extra) =
    (let? pm := pmr in let! o := new_object (um_v u) (pm_options pm) in let! '(r, o) := load_dense_from (rows_of (flip_Q u)) (pm_x0 pm) (pm_y0 pm) o in
     Ok (inr (u_nV (um_v u), u_nComp (um_v u), u_nC (um_v u), pm_options pm, ml_code r, o))).
Proof.
  intros V (Ff & M) Ex. set (v := um_v u) in *. pose proof (wv_nV _ V) as HnV. pose proof (wv_nC _ V) as HnC. pose proof (wv_nComp _ V) as HnComp. pose proof (wv_rect _ V) as Hr. pose proof (wv_sq _ V) as Hs. unfold u_nA in Hr.
  assert (Sh : forall m n (X : Z -> Z -> T) a, ml_mat m n X = a -> shaped m n a) by (intros m n X a <-; split; [reflexivity|split; reflexivity]).
  destruct (mex_front f v args extra pmr V Ff) as (RV & ->); [revert M; apply form_mono; intros x; apply Sh|exact Ex|].
  destruct (form_mats f v _ _ _ _ args extra M) as ((? & <- & A0) & (? & <- & A2) & (? & <- & A3) & A8). specialize (A8 (proj1 (proj2 Ff))).
  destruct pmr as [[e|pm]|]; [reflexivity| |reflexivity]. cbn [mbind bind]. destruct (new_object v (pm_options pm)) as [o|]; [|reflexivity]. cbn [bind]. rewrite A0. cbn [mbind mret bind]. change (mxIsSparse (ml_mat (u_nV v) (u_nV v) (um_Q u))) with false. cbv iota.
  unfold LCQPDense. rewrite A0, A2, A3. cbn [mbind mret bind].
  set (pA := if u_nC v =? 0 then None else Some (lift (col_major (u_nC v) (u_nV v) (um_A u)))).
  assert (EA : (if 0 <? u_nC v then let? a8 := arg (args ++ extra) 8 in mret (mxGetPr a8) else mret None) = mret pA).
  { unfold pA. destruct (Z.eqb_spec (u_nC v) 0) as [E0|E0]; [rewrite E0; reflexivity|]. replace (0 <? u_nC v) with true by lia. destruct (A8 ltac:(lia)) as (a & <- & ->). cbn [mbind mret bind]. unfold ml_mat. rewrite pr_some by (rewrite len_cols by lia; nia). reflexivity. }
  rewrite EA. cbn [mbind mret bind]. rewrite RV. cbn [mbind mret bind]. unfold ml_mat. rewrite !(pr_some (u_nComp v) (u_nV v)) by (rewrite len_cols by lia; nia). rewrite !toRowMajor_ok by nia. cbn [mlift mbind mret bind].
  assert (TA : toRowMajor pA (u_nC v) (u_nV v) = Ok (arg_A (rows_of (flip_Q u)))).
  { unfold arg_A, pA. cbn [rows_of ud_v ud_A flip_Q um_v]. fold v. destruct (Z.eqb_spec (u_nC v) 0) as [E0|E0]; [reflexivity|]. apply toRowMajor_ok; nia. }
  rewrite TA. cbn [mlift mbind mret bind v_g v_lbL v_ubL v_lbR v_ubR v_lbA v_ubA v_lb v_ub]. rewrite (pr_some (u_nV v) (u_nV v)) by (rewrite len_cols by lia; nia). rewrite cols_flip.
  unfold load_dense_from. cbn [rows_of flip_Q ud_v ud_Q ud_L ud_R um_v um_Q um_L um_R]. fold v. destruct (loadLCQP _ _ _ _ _ _ _ _ _ _ _ _ _ _ _ _) as [(r, o')|]; reflexivity.
Qed.

(** ** Sparse *)
Lemma copy_step {X} (d : X) l (row : arr X) i : 0 <= i < len l -> len row = len l -> wr (lift (take i l) ++ drop i row) i (at_ d l i) = Ok (lift (take (i + 1) l) ++ drop (i + 1) row).
Proof.
  intros Hi Hr. rewrite (drop_cons None row i) by lia. rewrite wr_app by (rewrite len_lift, len_take; lia). rewrite (take_succ d) by lia. rewrite lift_app, <- app_assoc. reflexivity.
Qed.
Lemma len_none {X} n : 0 <= n -> len (repeat (@None X) (Z.to_nat n)) = n.
Proof. intros. unfold len. rewrite repeat_length. lia. Qed.
Lemma csc_read m n (cols : list (list (Z * T))) : 0 <= n < INT_MAX -> len cols = n -> len (concat cols) <= INT_MAX -> readSparseMatrix (ml_csc m n cols) m n = Ok (csc_of m n cols).
Proof.
  intros Hn Hc Hz. unfold readSparseMatrix. change (mxGetJc (ml_csc m n cols)) with (Some (lift (tab (n + 1) (off cols)))). cbn [deref bind]. set (z := len (concat cols)) in *. assert (Hz0 : 0 <= z) by apply len_nonneg.
  assert (Ez : at_ 0 (tab (n + 1) (off cols)) n = z) by (rewrite at_tab by lia; rewrite <- Hc; apply off_all).
  rewrite (rd_lift 0) by (rewrite len_tab; lia). cbn [bind]. rewrite Ez. rewrite !alloc_ok by lia. cbn [bind].
  set (xs := map snd (concat cols)). set (is := map fst (concat cols)).
  assert (Lx : len xs = z) by (unfold xs, len; rewrite map_length; reflexivity). assert (Li : len is = z) by (unfold is, len; rewrite map_length; reflexivity).
  assert (EP : 0 < z -> mxGetPr (ml_csc m n cols) = Some (lift xs)) by (intros Hp; cbn [mxGetPr ml_csc]; fold xs; destruct xs; [change (len (@nil T)) with 0 in Lx; lia|reflexivity]).
  match goal with |- context [for_ 0 z ?f ?s] => assert (E1 : for_ 0 z f s = Ok (lift xs, lift is)) end.
  { rewrite (for_seq _ (fun i => (lift (take i xs) ++ drop i (repeat None (Z.to_nat z)), lift (take i is) ++ drop i (repeat None (Z.to_nat z)))) 0 z Hz0).
    - rewrite !(take_all) by lia. rewrite !(drop_all) by (rewrite len_none; lia). rewrite !app_nil_r. reflexivity.
    - intros i Hi. rewrite (EP ltac:(lia)). cbn [deref bind].
      rewrite (rd_lift a_zero) by lia. cbn [bind]. rewrite copy_step by (rewrite ?len_none; lia). cbn [bind mxGetIr ml_csc deref]. fold is. rewrite (rd_lift 0) by lia. cbn [bind]. rewrite copy_step by (rewrite ?len_none; lia). reflexivity. }
  rewrite E1. cbn [bind].
  match goal with |- context [for_ 0 (n + 1) ?f ?s] => assert (E2 : for_ 0 (n + 1) f s = Ok (lift (tab (n + 1) (off cols)))) end.
  { rewrite (for_seq _ (fun i => lift (take i (tab (n + 1) (off cols))) ++ drop i (repeat None (Z.to_nat (n + 1)))) 0 (n + 1) ltac:(lia)).
    - rewrite (take_all) by (rewrite len_tab; lia). rewrite drop_all by (rewrite len_none; lia). rewrite app_nil_r. reflexivity.
    - intros i Hi. rewrite (rd_lift 0) by (rewrite len_tab; lia). cbn [bind]. apply copy_step; rewrite ?len_none; rewrite ?len_tab; lia. }
  rewrite E2. cbn [bind]. rewrite (rd_lift 0) by (rewrite len_tab; lia). cbn [bind]. rewrite Ez. reflexivity.
Qed.

(** The call of loadLCQP with sparse data and given initial guesses.  No LCQPow code. *)
Definition load_sparse_from (u : usparse T) (x0 y0 : ptr T) (o : lcqp T) : res (ReturnValue * lcqp T) :=
  let v := us_v u in
  loadLCQP_csc (Some (csc_of (u_nV v) (u_nV v) (us_Q u))) (Some (lift (u_g v))) (Some (csc_of (u_nComp v) (u_nV v) (us_L u))) (Some (csc_of (u_nComp v) (u_nV v) (us_R u)))
    (ptr_of (u_lbL v)) (ptr_of (u_ubL v)) (ptr_of (u_lbR v)) (ptr_of (u_ubR v))
    (match us_A u with Some c => Some (csc_of (u_nC v) (u_nV v) c) | None => None end) (ptr_of (u_lbA v)) (ptr_of (u_ubA v)) (ptr_of (u_lb v)) (ptr_of (u_ub v)) x0 y0 o.
Lemma mex_sparse f (u : usparse T) args extra pmr : wf_sparse u -> ml_sparse_call f u args ->
  (extra = [] /\ pmr = mret (mkParams setToDefault None None) \/ exists s, extra = [MxStruct s] /\ pmr = readParams dtoi itod (MxStruct s) (u_nV (us_v u)) (u_nComp (us_v u)) (u_nC (us_v u))) ->
  mexLoad dtoi itod (args ++ extra) =
    (let? pm := pmr in let! o := new_object (us_v u) (pm_options pm) in let! '(r, o) := load_sparse_from u (pm_x0 pm) (pm_y0 pm) o in
     Ok (inr (u_nV (us_v u), u_nComp (us_v u), u_nC (us_v u), pm_options pm, rv_code r, o))).
Proof.
  intros W (Ff & HA & M) Ex. pose proof (ws_v _ W) as V. set (v := us_v u) in *. pose proof (wv_nV _ V) as HnV. pose proof (wv_nC _ V) as HnC. pose proof (wv_nComp _ V) as HnComp. pose proof (wv_rect _ V) as Hr. pose proof (wv_int _ V) as Hi. unfold u_nA in Hr.
  assert (Sh : forall m n c a, ml_csc m n c = a -> shaped m n a) by (intros m n X a <-; split; [reflexivity|split; reflexivity]).
  destruct (mex_front f v args extra pmr V Ff) as (RV & ->); [revert M; apply form_mono; try (intros x; apply Sh); intros x (c & _ & ->); eapply Sh; reflexivity|exact Ex|].
  destruct (form_mats f v _ _ _ _ args extra M) as ((? & <- & A0) & (? & <- & A2) & (? & <- & A3) & A8). specialize (A8 (proj1 (proj2 Ff))).
  destruct pmr as [[e|pm]|]; [reflexivity| |reflexivity]. cbn [mbind bind]. destruct (new_object v (pm_options pm)) as [o|]; [|reflexivity]. cbn [bind]. rewrite A0. cbn [mbind mret bind]. change (mxIsSparse (ml_csc (u_nV v) (u_nV v) (us_Q u))) with true. cbv iota.
  assert (RQ : readSparseMatrix (ml_csc (u_nV v) (u_nV v) (us_Q u)) (u_nV v) (u_nV v) = Ok (csc_of (u_nV v) (u_nV v) (us_Q u))).
  { apply csc_read; [lia|apply (ws_Q _ W)|]. pose proof (ws_merge _ W) as Hz. fold v in Hz. nia. }
  assert (RL : readSparseMatrix (ml_csc (u_nComp v) (u_nV v) (us_L u)) (u_nComp v) (u_nV v) = Ok (csc_of (u_nComp v) (u_nV v) (us_L u))).
  { apply csc_read; [lia|apply (ws_L _ W)|]. pose proof (wf_cols_len (u_nComp v) (u_nV v) (us_L u) ltac:(lia) (ws_L _ W)) as Hz. fold v in Hz. nia. }
  assert (RR : readSparseMatrix (ml_csc (u_nComp v) (u_nV v) (us_R u)) (u_nComp v) (u_nV v) = Ok (csc_of (u_nComp v) (u_nV v) (us_R u))).
  { apply csc_read; [lia|apply (ws_R _ W)|]. pose proof (wf_cols_len (u_nComp v) (u_nV v) (us_R u) ltac:(lia) (ws_R _ W)) as Hz. fold v in Hz. nia. }
  unfold LCQPSparse. rewrite A0, A2, A3. cbn [mbind mret bind]. change (mxIsSparse (ml_csc _ _ _)) with true. cbn [negb orb].
  assert (EB : (if 0 <? u_nC v then let? a8 := arg (args ++ extra) 8 in mret (negb (mxIsSparse a8)) else mret false) = mret false).
  { destruct (Z.ltb_spec 0 (u_nC v)) as [L|L]; [|reflexivity]. destruct (A8 L) as (a & (c & _ & ->) & ->). reflexivity. }
  change (mxIsSparse (ml_csc (u_nV v) (u_nV v) (us_Q u))) with true. change (mxIsSparse (ml_csc (u_nComp v) (u_nV v) (us_L u))) with true. change (mxIsSparse (ml_csc (u_nComp v) (u_nV v) (us_R u))) with true. cbn [negb orb].
  rewrite EB. cbn [mbind mret bind]. rewrite RQ, RL, RR. cbn [mlift mbind mret bind].
  assert (RA : (if 0 <? u_nC v then let? a8 := arg (args ++ extra) 8 in let? A := mlift (readSparseMatrix a8 (u_nC v) (u_nV v)) in mret (Some A) else mret None)
    = mret (match us_A u with Some c => Some (csc_of (u_nC v) (u_nV v) c) | None => None end)).
  { destruct (Z.ltb_spec 0 (u_nC v)) as [L|L]; [|rewrite (proj1 HA) by lia; reflexivity]. destruct (A8 L) as (a & (c & Ec & ->) & ->). rewrite Ec. cbn [mbind mret bind].
    pose proof (ws_A _ W) as WA. unfold us_Acols in WA. rewrite Ec in WA. fold v in WA.
    rewrite csc_read; [reflexivity|lia|apply WA|]. pose proof (wf_cols_len (u_nC v) (u_nV v) c ltac:(lia) WA). nia. }
  rewrite RA. cbn [mbind mret bind]. rewrite RV. cbn [mlift mbind mret bind v_g v_lbL v_ubL v_lbR v_ubR v_lbA v_ubA v_lb v_ub].
  unfold load_sparse_from. fold v. destruct (loadLCQP_csc _ _ _ _ _ _ _ _ _ _ _ _ _ _ _ _) as [(r, o')|]; reflexivity.
Qed.
End MatlabForms.
