(** * LoadLoops: the loops of the load functions on explicit contents (no LCQPow code). *)
From Verif Require Import Base Arith Codes Utilities Options Stats FileIO Subsolver State LCQProblem Tactics Loops Kernels SpecSparse CscKernels CscBuild SpecLoad.

Section LoadLoops.
Context {T : Type} `{Arith T}.

Lemma take_0 {X} (l : list X) : take 0 l = [].
Proof. reflexivity. Qed.
Lemma drop_drop_cons {X} (a : arr X) i : 0 <= i < len a -> exists x, drop i a = x :: drop (i + 1) a.
Proof. intros. exists (at_ None a i). apply drop_cons; auto. Qed.

Lemma wr_pre (pre : list T) (rest : arr T) i v : 0 <= i < len rest ->
  wr (lift pre ++ drop i rest) (len pre) v = Ok (lift (pre ++ [v]) ++ drop (i + 1) rest).
Proof.
  intros Hi. destruct (drop_drop_cons rest i Hi) as (x & ->).
  rewrite wr_app by (rewrite len_lift; reflexivity). rewrite lift_app, <- app_assoc. reflexivity.
Qed.

Lemma copy_loop_ok (pre src : list T) (rest : arr T) n o : o = len pre -> n = len src -> n <= len rest ->
  copy_loop (lift pre ++ rest) o (Some (lift src)) n = Ok (lift (pre ++ src) ++ drop n rest).
Proof.
  intros -> -> Hr. pose proof (len_nonneg src). unfold copy_loop.
  pose (st := fun i => lift (pre ++ take i src) ++ drop i rest).
  change (lift pre ++ rest) with (lift pre ++ drop 0 rest). rewrite <- (app_nil_r pre) at 1. rewrite <- (take_0 src) at 1.
  change (lift (pre ++ take 0 src) ++ drop 0 rest) with (st 0).
  rewrite (for_seq _ st); [unfold st; rewrite take_all by lia; reflexivity|lia|].
  intros i Hi. unfold st. cbn [deref bind]. rewrite rd_vec_ by lia. cbn [bind].
  replace (len pre + i) with (len (pre ++ take i src)) by (rewrite len_app, len_take; lia).
  rewrite wr_pre by lia. rewrite <- app_assoc. rewrite (take_succ a_zero) by lia. reflexivity.
Qed.
Lemma copy_loop_start (src : list T) (rest : arr T) n : n = len src -> n <= len rest ->
  copy_loop rest 0 (Some (lift src)) n = Ok (lift src ++ drop n rest).
Proof. intros. apply (copy_loop_ok [] src rest n 0); auto. Qed.
Lemma copy_loop_0 (dst : arr T) o p : copy_loop dst o p 0 = Ok dst.
Proof. reflexivity. Qed.

Lemma fill_loop_ok v n (rest : arr T) : 0 <= n <= len rest ->
  fill_loop rest v n = Ok (lift (tab n (fun _ => v)) ++ drop n rest).
Proof.
  intros Hn. unfold fill_loop. apply for_fill1; try lia. intros i C Hi Hl _. apply wr_ok. lia.
Qed.

Lemma len_fresh n : 0 <= n -> len (repeat (@None T) (Z.to_nat n)) = n.
Proof. apply len_repeat. Qed.
Lemma drop_fresh n m : 0 <= m <= n -> drop m (repeat (@None T) (Z.to_nat n)) = repeat None (Z.to_nat (n - m)).
Proof.
  intros Hm. unfold drop. replace (Z.to_nat n) with (Z.to_nat m + Z.to_nat (n - m))%nat by lia.
  rewrite repeat_app. rewrite skipn_app. rewrite skipn_all2 by (rewrite repeat_length; lia).
  rewrite repeat_length. replace (Z.to_nat m - Z.to_nat m)%nat with O by lia. reflexivity.
Qed.

(** Copying into a fresh array *)
Lemma copy_new (src : list T) n : n = len src -> n <= INT_MAX -> (let! a := alloc n in copy_loop a 0 (Some (lift src)) n) = Ok (lift src).
Proof.
  intros Hn Hi. pose proof (len_nonneg src). rewrite alloc_ok by lia. cbn [bind].
  rewrite copy_loop_start by (rewrite ?len_fresh; auto; lia).
  rewrite drop_all by (rewrite len_fresh; lia). rewrite app_nil_r. reflexivity.
Qed.
Lemma memcpy_new (src : list T) n : n = len src -> n <= INT_MAX -> (let! a := alloc n in memcpy_ptr a (Some (lift src)) n) = Ok (lift src).
Proof.
  intros Hn Hi. pose proof (len_nonneg src). rewrite alloc_ok by lia. cbn [bind].
  apply memcpy_ptr_full; auto. rewrite len_fresh; lia.
Qed.

Lemma memcpy_new_k {B} (src : list T) n (f : arr T -> res B) : n = len src -> n <= INT_MAX ->
  (let! a := alloc n in let! b := memcpy_ptr a (Some (lift src)) n in f b) = f (lift src).
Proof.
  intros Hn Hi. pose proof (len_nonneg src). rewrite alloc_ok by lia. cbn [bind].
  rewrite memcpy_ptr_full by (rewrite ?len_fresh; lia). reflexivity.
Qed.
Lemma copy_new_k {B} (src : list T) n (f : arr T -> res B) : n = len src -> n <= INT_MAX ->
  (let! a := alloc n in let! b := copy_loop a 0 (Some (lift src)) n in f b) = f (lift src).
Proof.
  intros Hn Hi. pose proof (copy_new src n Hn Hi) as E. destruct (alloc n); [|discriminate]. cbn [bind] in *. rewrite E. reflexivity.
Qed.

Lemma len_bnd n l (d : T) : 0 <= n -> fits n l -> len (bnd n l d) = n.
Proof. intros Hn F. destruct l; simpl in *; auto. apply len_tab; auto. Qed.

Lemma init_bounds_ok nC n b (d : T) : 0 <= nC <= n -> n <= INT_MAX -> fits nC b ->
  init_bounds nC n (ptr_of b) d = Ok (lift (bnd nC b d) ++ repeat None (Z.to_nat (n - nC))).
Proof.
  intros Hn Hi F. unfold init_bounds. rewrite alloc_ok by lia. cbn [bind].
  destruct b as [l|]; simpl.
  - simpl in F. rewrite copy_loop_start by (rewrite ?len_fresh; auto; lia).
    rewrite drop_fresh by lia. reflexivity.
  - rewrite fill_loop_ok by (rewrite len_fresh; lia). rewrite drop_fresh by lia. reflexivity.
Qed.

Lemma box_vec_ok n b (d : T) : 0 <= n <= INT_MAX -> fits n b -> box_vec n (ptr_of b) d = Ok (lift (bnd n b d)).
Proof.
  intros Hn F. unfold box_vec. rewrite alloc_ok by lia. cbn [bind]. destruct b as [l|]; simpl.
  - simpl in F. apply memcpy_ptr_full; auto. rewrite len_fresh; lia.
  - rewrite fill_loop_ok by (rewrite len_fresh; lia). rewrite drop_all by (rewrite len_fresh; lia). rewrite app_nil_r. reflexivity.
Qed.

(** ** Complementarity bounds *)
Lemma all_above (l : list T) i : (forall v, In v l -> a_le v a_ninf = false) -> 0 <= i < len l -> a_le (at_ a_zero l i) a_ninf = false.
Proof. intros A Hi. apply A. unfold at_. apply nth_In. unfold len in Hi. lia. Qed.

(** Contents of the member array after [i] passes *)
Definition xpart (b : option (list T)) (old : ptr T) (n i : Z) : ptr T :=
  match b with Some l => Some (lift (take i l) ++ repeat None (Z.to_nat (n - i))) | None => old end.

Lemma xpart_new n b (old : ptr T) : 0 <= n <= INT_MAX ->
  (if notNull (ptr_of b) return (res (ptr T)) then let! a := alloc n in Ok (Some a) else Ok old) = Ok (xpart b old n 0).
Proof. intros Hn. destruct b; simpl; auto. rewrite alloc_ok by lia. cbn [bind]. replace (n - 0) with n by lia. reflexivity. Qed.
Lemma xpart_full n b old : fits n b -> xpart b old n n = match b with Some l => Some (lift l) | None => old end.
Proof.
  destruct b; simpl; auto. intros <-. rewrite take_all by lia. replace (len l - len l) with 0 by lia.
  simpl. rewrite app_nil_r. reflexivity.
Qed.

Lemma wr_take (l : list T) n i : len l = n -> 0 <= i < n ->
  wr (lift (take i l) ++ repeat None (Z.to_nat (n - i))) i (at_ a_zero l i) = Ok (lift (take (i + 1) l) ++ repeat None (Z.to_nat (n - (i + 1)))).
Proof.
  intros Hl Hi. replace (Z.to_nat (n - i)) with (S (Z.to_nat (n - (i + 1)))) by lia. cbn [repeat].
  rewrite wr_app by (rewrite len_lift, len_take; lia). rewrite (take_succ a_zero) by lia. rewrite lift_app, <- app_assoc. reflexivity.
Qed.
Lemma wr_bound (pre l : list T) m o i v : o = len pre -> 0 <= i < m -> len l = i ->
  wr (lift (pre ++ l) ++ repeat None (Z.to_nat (m - i))) (o + i) v = Ok (lift (pre ++ (l ++ [v])) ++ repeat None (Z.to_nat (m - (i + 1)))).
Proof.
  intros -> Hi Hl. replace (Z.to_nat (m - i)) with (S (Z.to_nat (m - (i + 1)))) by lia. cbn [repeat].
  rewrite wr_app by (rewrite len_lift, len_app; lia). rewrite !lift_app, <- !app_assoc. reflexivity.
Qed.

(** State before pass [i] *)
Definition cbl_st (n m : Z) (lb ub : option (list T)) (lbX ubX : ptr T) (pl pu : list T) (i : Z) : ptr T * ptr T * ptr T * ptr T :=
  (xpart lb lbX n i, xpart ub ubX n i, Some (lift (pl ++ take i (bnd n lb a_zero)) ++ repeat None (Z.to_nat (m - i))),
   Some (lift (pu ++ take i (bnd n ub a_pinf)) ++ repeat None (Z.to_nat (m - i)))).


Lemma take_const n i (v : T) : 0 <= i < n -> take (i + 1) (tab n (fun _ => v)) = take i (tab n (fun _ => v)) ++ [v].
Proof. intros. rewrite (take_succ v) by (rewrite len_tab; lia). rewrite at_tab by lia. reflexivity. Qed.

(** A lower bound is -infinity. No LCQPow code. *)
Definition below (lb : option (list T)) (i : Z) : bool :=
  match lb with Some l => a_le (at_ a_zero l i) a_ninf | None => false end.

Lemma compl_bound_loop_gen o n m lb ub lbX ubX pl pu : fits n lb -> fits n ub -> o = len pl -> o = len pu -> 0 <= n <= m ->
  let st := cbl_st n m lb ub lbX ubX pl pu in
  ((forall i, 0 <= i < n -> below lb i = false) -> compl_bound_loop o n (ptr_of lb) (ptr_of ub) (st 0) = Ok (inl (st n))) /\
  (forall k, 0 <= k < n -> (forall i, 0 <= i < k -> below lb i = false) -> below lb k = true ->
     compl_bound_loop o n (ptr_of lb) (ptr_of ub) (st 0) = Ok (inr (st k))).
Proof.
  intros Fl Fu Ho Ho' Hn st.
  assert (G : forall (P : (Z -> ptr T * ptr T * ptr T * ptr T -> res ((ptr T * ptr T * ptr T * ptr T) + (ptr T * ptr T * ptr T * ptr T))) -> Prop),
    (forall body, (forall i, 0 <= i < n -> body i (st i) = Ok (if below lb i then inr (st i) else inl (st (i + 1)))) -> P body) ->
    exists body, compl_bound_loop o n (ptr_of lb) (ptr_of ub) (st 0) = forb 0 n body (st 0) /\ P body).
  { intros P HP. eexists. split; [unfold compl_bound_loop; reflexivity|]. apply HP.
    intros i Hi. unfold st, cbl_st, xpart, bnd, below. clear P HP.
    assert (Lt : forall v : T, len (take i (tab n (fun _ => v))) = i) by (intros; rewrite len_take; rewrite ?len_tab; lia).
    destruct lb as [l|], ub as [u|]; simpl in Fl, Fu; cbn [ptr_of].
    - rewrite (rd_vec_ l) by lia. cbn [bind]. destruct (a_le (at_ a_zero l i) a_ninf); [reflexivity|]. cbn [deref bind].
      rewrite wr_take by (auto; lia). cbn [deref bind]. rewrite wr_bound by (auto; rewrite ?len_take; lia). cbn [bind].
      rewrite (rd_vec_ u) by lia. cbn [deref bind]. rewrite wr_take by (auto; lia). cbn [deref bind].
      rewrite wr_bound by (auto; rewrite ?len_take; lia). cbn [bind].
      rewrite (take_succ a_zero l), (take_succ a_zero u) by lia. reflexivity.
    - rewrite (rd_vec_ l) by lia. cbn [bind]. destruct (a_le (at_ a_zero l i) a_ninf); [reflexivity|]. cbn [deref bind].
      rewrite wr_take by (auto; lia). cbn [deref bind]. rewrite wr_bound by (auto; rewrite ?len_take; lia). cbn [bind].
      cbn [deref bind]. rewrite wr_bound by (auto; lia). cbn [bind].
      rewrite (take_succ a_zero l), take_const by lia. reflexivity.
    - cbn [deref bind]. rewrite wr_bound by (auto; lia). cbn [bind].
      rewrite (rd_vec_ u) by lia. cbn [deref bind]. rewrite wr_take by (auto; lia). cbn [deref bind].
      rewrite wr_bound by (auto; rewrite ?len_take; lia). cbn [bind].
      rewrite (take_succ a_zero u), take_const by lia. reflexivity.
    - cbn [deref bind]. rewrite wr_bound by (auto; lia). cbn [deref bind]. rewrite wr_bound by (auto; lia). cbn [bind].
      rewrite !take_const by lia. reflexivity. }
  split.
  - intros Hb. destruct (G (fun body => forb 0 n body (st 0) = Ok (inl (st n)))) as (body & -> & E); auto.
    intros body B. apply forb_seq; [lia|]. intros i Hi. rewrite B, Hb by lia. reflexivity.
  - intros k Hk Hb Hk'. destruct (G (fun body => forb 0 n body (st 0) = Ok (inr (st k)))) as (body & -> & E); auto.
    intros body B. apply (forb_exit _ st 0 n k); [lia| |rewrite B, Hk' by lia; reflexivity].
    intros i Hi. rewrite B, Hb by lia. reflexivity.
Qed.

Lemma above_below lb n i : fits n lb -> above_ninf lb -> 0 <= i < n -> below lb i = false.
Proof. destruct lb; simpl; auto. intros <- A Hi. apply all_above; auto. Qed.
Lemma below_first lb n : fits n lb -> 0 <= n -> ~ above_ninf lb ->
  exists k, 0 <= k < n /\ (forall i, 0 <= i < k -> below lb i = false) /\ below lb k = true.
Proof.
  intros F Hn Hab. destruct lb as [l|]; simpl in *; [|tauto]. subst n. 
  assert (E : exists j, 0 <= j < len l /\ a_le (at_ a_zero l j) a_ninf = true).
  { clear Hn. induction l as [|x l IH]; [exfalso; apply Hab; intros v []|].
    destruct (a_le x a_ninf) eqn:Ex.
    - exists 0. rewrite len_cons. pose proof (len_nonneg l). split; [lia|exact Ex].
    - destruct IH as (j & Hj & Ej). { intros A. apply Hab. intros v [->|Hv]; auto. }
      exists (j + 1). rewrite len_cons. split; [lia|]. unfold at_ in *. replace (Z.to_nat (j + 1)) with (S (Z.to_nat j)) by lia. exact Ej. }
  destruct E as (j & Hj & Ej). clear Hab.
  assert (G : forall m : nat, Z.of_nat m <= len l ->
     (exists k, 0 <= k < Z.of_nat m /\ (forall i, 0 <= i < k -> a_le (at_ a_zero l i) a_ninf = false) /\ a_le (at_ a_zero l k) a_ninf = true) \/
     (forall i, 0 <= i < Z.of_nat m -> a_le (at_ a_zero l i) a_ninf = false)).
  { induction m as [|m IH]; intros Hm; [right; intros; lia|].
    destruct IH as [(k & Hk & A & B)|A]; [lia|left; exists k; split; [lia|auto]|].
    destruct (a_le (at_ a_zero l (Z.of_nat m)) a_ninf) eqn:Em.
    - left. exists (Z.of_nat m). split; [lia|auto].
    - right. intros i Hi. destruct (Z.eq_dec i (Z.of_nat m)) as [->|]; auto. apply A. lia. }
  destruct (G (length l)) as [(k & Hk & A & B)|A]; [unfold len; lia|exists k; auto|].
  rewrite A in Ej; [discriminate|exact Hj].
Qed.
End LoadLoops.
