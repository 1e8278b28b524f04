(** * CscBuild: the functions that build CSC matrices column by column (any arithmetic). *)
From Verif Require Import Base Arith Codes Utilities Tactics Loops Kernels SpecSparse CscKernels.

Section Build.
Context {T : Type}.
Implicit Types (built : list (list (Z * T))) (cur : list (Z * T)).

(** Column pointers after closing the columns [built] *)
Definition pclosed (n : Z) built : arr Z :=
  lift (tab (len built + 1) (off built)) ++ repeat None (Z.to_nat (n - len built)).
(** Column pointers while the entries [cur] of the next column have been stored *)
Definition popen (n : Z) built cur : arr Z :=
  lift (tab (len built + 1) (off built)) ++ Some (len (concat built) + len cur) :: repeat None (Z.to_nat (n - len built - 1)).

Lemma pclosed_app n built cur : len built < n -> pclosed n (built ++ [cur]) = popen n built cur.
Proof.
  intros Hn. unfold pclosed, popen. pose proof (len_nonneg built).
  rewrite len_app, len_cons, len_nil. replace (len built + (0 + 1)) with (len built + 1) by lia.
  rewrite (tab_succ (len built + 1)) by lia. rewrite lift_app, <- app_assoc. f_equal.
  - f_equal. apply tab_ext. intros j Hj. apply off_app. lia.
  - replace (n - (len built + 1)) with (n - len built - 1) by lia. simpl. do 2 f_equal.
    unfold off. rewrite take_all by (rewrite len_app, len_cons, len_nil; lia). rewrite concat_app, len_app. simpl.
    rewrite app_nil_r. reflexivity.
Qed.
Lemma len_pclosed n built : len built <= n -> len (pclosed n built) = n + 1.
Proof.
  intros. pose proof (len_nonneg built). unfold pclosed. rewrite len_app, len_lift, len_tab by lia.
  unfold len at 2. rewrite repeat_length. lia.
Qed.
Lemma len_popen n built cur : len built < n -> len (popen n built cur) = n + 1.
Proof. intros. rewrite <- pclosed_app by lia. apply len_pclosed. rewrite len_app, len_cons, len_nil. lia. Qed.

Lemma pclosed_rd n built : rd (pclosed n built) (len built) = Ok (len (concat built)).
Proof.
  pose proof (len_nonneg built). unfold pclosed. rewrite rd_app_l by (rewrite len_lift, len_tab; lia).
  rewrite (rd_lift 0) by (rewrite len_tab; lia). rewrite at_tab by lia. rewrite off_all. reflexivity.
Qed.
Lemma pclosed_open n built : len built < n -> wr (pclosed n built) (len built + 1) (len (concat built)) = Ok (popen n built []).
Proof.
  intros Hn. pose proof (len_nonneg built). unfold pclosed.
  replace (Z.to_nat (n - len built)) with (S (Z.to_nat (n - len built - 1))) by lia. simpl.
  rewrite wr_app by (rewrite len_lift, len_tab; lia). unfold popen. rewrite len_nil, Z.add_0_r. reflexivity.
Qed.
Lemma popen_rd n built cur : rd (popen n built cur) (len built + 1) = Ok (len (concat built) + len cur).
Proof.
  pose proof (len_nonneg built). unfold popen. rewrite rd_app_r by (rewrite len_lift, len_tab; lia).
  rewrite len_lift, len_tab by lia. replace (len built + 1 - (len built + 1)) with 0 by lia. reflexivity.
Qed.
Lemma popen_push n built cur e : wr (popen n built cur) (len built + 1) (len (concat built) + len cur + 1) = Ok (popen n built (cur ++ [e])).
Proof.
  pose proof (len_nonneg built). unfold popen. rewrite wr_app by (rewrite len_lift, len_tab; lia).
  rewrite len_app, len_cons, len_nil. replace (len (concat built) + (len cur + (0 + 1))) with (len (concat built) + len cur + 1) by lia. reflexivity.
Qed.

Lemma pclosed_nil n : 0 <= n -> wr (repeat None (Z.to_nat (n + 1))) 0 0 = Ok (pclosed n []).
Proof.
  intros. replace (Z.to_nat (n + 1)) with (S (Z.to_nat n)) by lia. unfold pclosed. change (len (@nil (list (Z * T)))) with 0. replace (n - 0) with n by lia. reflexivity.
Qed.
Lemma pclosed_full n built : len built = n -> pclosed n built = lift (tab (n + 1) (off built)).
Proof. intros <-. unfold pclosed. rewrite Z.sub_diag. simpl. apply app_nil_r. Qed.

(** The state (column pointers, row vector, value vector) *)
Definition closed (n : Z) built : arr Z * list Z * list T := (pclosed n built, map fst (concat built), map snd (concat built)).
(** The three vectors while column number [len built] is being filled. No LCQPow code. *)
Definition opened (n : Z) built cur : arr Z * list Z * list T :=
  (popen n built cur, map fst (concat built ++ cur), map snd (concat built ++ cur)).
Lemma closed_app n built cur : len built < n -> closed n (built ++ [cur]) = opened n built cur.
Proof. intros. unfold closed, opened. rewrite pclosed_app by auto. rewrite concat_app. simpl. rewrite app_nil_r. reflexivity. Qed.

Lemma build_loop n (colf : Z -> list (Z * T)) (inner : Z -> arr Z * list Z * list T -> res (arr Z * list Z * list T)) : 0 <= n ->
  (forall j built, 0 <= j < n -> len built = j -> inner j (opened n built []) = Ok (opened n built (colf j))) ->
  for_ 0 n (fun j '(p, rows, data) =>
      let! pj := rd p j in
      let! p := wr p (j + 1) pj in
      inner j (p, rows, data)) (closed n []) = Ok (closed n (tab n colf)).
Proof.
  intros Hn Hi. change (@nil (list (Z * T))) with (tab 0 colf).
  apply (for_seq _ (fun j => closed n (tab j colf)) 0 n); auto.
  intros j Hj. unfold closed at 1. assert (L : len (tab j colf) = j) by (apply len_tab; lia).
  assert (R := pclosed_rd n (tab j colf)). rewrite L in R. rewrite R. cbn [bind].
  assert (W := pclosed_open n (tab j colf)). rewrite L in W. rewrite W by lia. cbn [bind].
  specialize (Hi j (tab j colf) Hj L). unfold opened at 1 in Hi. rewrite app_nil_r in Hi. rewrite Hi.
  rewrite tab_succ by lia. rewrite closed_app by lia. reflexivity.
Qed.

(** Appending one entry *)
Lemma opened_push n built cur r x j : len built = j ->
  (let! q := rd (popen n built cur) (j + 1) in
   let! p := wr (popen n built cur) (j + 1) (q + 1) in
   Ok (p, map fst (concat built ++ cur) ++ [r], map snd (concat built ++ cur) ++ [x])) = Ok (opened n built (cur ++ [(r, x)])).
Proof.
  intros <-. rewrite popen_rd. cbn [bind]. rewrite (popen_push n built cur (r, x)). cbn [bind]. unfold opened.
  rewrite app_assoc, !(map_app _ (concat built ++ cur)). reflexivity.
Qed.

(** Copying the vectors into arrays *)
Lemma vec_to_arr {X} (v : list X) : len v <= INT_MAX ->
  (let! a := alloc (len v) in for_ 0 (len v) (fun k a => let! e := vrd v k in wr a k e) a) = Ok (lift v).
Proof.
  intros Hv. pose proof (len_nonneg v). rewrite alloc_ok by lia. cbn [bind].
  destruct v as [|x0 v']; [reflexivity|]. set (v := x0 :: v') in *.
  rewrite (for_fill1 _ (at_ x0 v)); [|lia|rewrite len_repeat; lia|].
  - rewrite drop_all, app_nil_r by (rewrite len_repeat; lia). rewrite tab_at. reflexivity.
  - intros k C Hk Hl _. rewrite len_repeat in Hl by lia. rewrite (vrd_ok x0) by lia. simpl. apply wr_ok. lia.
Qed.

Lemma vecs_to_arrs {X Y} (v : list X) (w : list Y) (a : arr X) (b : arr Y) (n : Z) : n = len v -> n = len w -> n = len a -> n = len b ->
  for_ 0 n (fun k '(a, b) =>
      let! r := vrd v k in
      let! a := wr a k r in
      let! x := vrd w k in
      let! b := wr b k x in
      Ok (a, b)) (a, b) = Ok (lift v, lift w).
Proof.
  intros Hv Hw Ha Hb. destruct v as [|x0 v'], w as [|y0 w'].
  - rewrite len_nil in Hv. subst n. destruct a, b; try (rewrite len_cons in *; pose proof (len_nonneg a); pose proof (len_nonneg b); lia); try reflexivity;
      rewrite ?len_nil, ?len_cons in *; try pose proof (len_nonneg b); try pose proof (len_nonneg a); lia.
  - rewrite len_nil, len_cons in *. pose proof (len_nonneg w'). lia.
  - rewrite len_nil, len_cons in *. pose proof (len_nonneg v'). lia.
  - set (v := x0 :: v') in *. set (w := y0 :: w') in *. pose proof (len_nonneg v).
    pose (st := fun k => (lift (tab k (at_ x0 v)) ++ drop k a, lift (tab k (at_ y0 w)) ++ drop k b)).
    change (a, b) with (st 0). replace (Ok (lift v, lift w)) with (Ok (st n)).
    + apply (for_seq _ st 0 n); [lia|]. intros k Hk. unfold st.
      rewrite (vrd_ok x0), (vrd_ok y0) by lia. cbn [bind].
      rewrite !wr_ok by (rewrite len_fill; lia). cbn [bind]. rewrite !upd_fill by lia. reflexivity.
    + unfold st. rewrite !drop_all, !app_nil_r by lia. rewrite Hv at 1. rewrite Hw. rewrite !tab_at. reflexivity.
Qed.

Lemma repr_create m n (cols : list (list (Z * T))) : len cols = n ->
  (forall c r x, In c cols -> In (r, x) c -> 0 <= r < m) ->
  repr (createCSC m n (len (concat cols)) (lift (map snd (concat cols))) (lift (map fst (concat cols))) (lift (tab (n + 1) (off cols)))) m n cols.
Proof. intros. constructor; auto. Qed.

End Build.

Section BuildA.
Context {T : Type} `{Arith T}.

(** Linear search in a sorted column *)
Fixpoint find_row (c : list (Z * T)) (k : Z) : option T :=
  match c with
  | [] => None
  | e :: t => if fst e =? k then Some (snd e) else if k <? fst e then None else find_row t k
  end.

Lemma forb_shift {S R} lo n (f : Z -> S -> res (S + R)) s : forb lo (lo + n) f s = forb 0 n (fun k => f (lo + k)) s.
Proof.
  unfold forb. replace (lo + n - lo) with n by lia. rewrite Z.sub_0_r.
  replace lo with (lo + 0) at 1 by lia.
  generalize 0 as i. revert s. induction (Z.to_nat n); intros s i; simpl; auto.
  destruct (f (lo + i) s) as [[s'|r]|]; simpl; auto. replace (lo + i + 1) with (lo + (i + 1)) by lia. apply IHn0.
Qed.

Lemma forb_ext {S R} lo hi (f g : Z -> S -> res (S + R)) s : (forall k s, f k s = g k s) -> forb lo hi f s = forb lo hi g s.
Proof.
  intros E. unfold forb. generalize (Z.to_nat (hi - lo)) as N. intros N. revert lo s. induction N as [|N IH]; intros lo s; simpl; auto. rewrite E.
  destruct (g lo s) as [[s'|r]|]; simpl; auto.
Qed.

Lemma getIndexOfIn_ok S m n cols j r : repr S m n cols -> 0 <= j < n ->
  exists ix, getIndexOfIn r (c_i S) (off cols j) (off cols (j + 1)) = Ok ix /\
    match find_row (col cols j) r with
    | Some x => ix <> -1 /\ csc_x S ix = Ok x
    | None => ix = -1
    end.
Proof.
  intros HR Hj. pose proof (rp_len _ _ _ _ HR) as L. unfold getIndexOfIn. rewrite off_succ by lia. rewrite forb_shift.
  assert (G : forall l o, 0 <= o ->
     (forall k, 0 <= k < len l -> rd (lift (map fst (concat cols))) (o + k) = Ok (fst (at_ (0, a_zero) l k)) /\
         csc_x S (o + k) = Ok (snd (at_ (0, a_zero) l k))) ->
     exists ix, (let! q := forb 0 (len l) (fun k (_ : unit) =>
         let! l := deref (c_i S) in
         let! v := rd l (o + k) in
         if v =? r then Ok (inr (o + k)) else if r <? v then Ok (inr (-1)) else Ok (inl tt)) tt in
       match q with inl _ => Ok (-1) | inr r => Ok r end) = Ok ix /\
       match find_row l r with Some x => ix <> -1 /\ csc_x S ix = Ok x | None => ix = -1 end).
  { rewrite (rp_i _ _ _ _ HR). cbn [deref bind]. induction l as [|e l IH]; intros o Ho Hl.
    - exists (-1). split; reflexivity.
    - pose proof (len_nonneg l). rewrite forb_cons by (rewrite len_cons; lia).
      destruct (Hl 0) as [E1 E2]; [rewrite len_cons; lia|]. rewrite E1. cbn [bind].
      change (at_ (0, a_zero) (e :: l) 0) with e in *. cbn [find_row].
      destruct (Z.eqb_spec (fst e) r); [exists (o + 0); cbn [bind]; repeat split; auto; lia|].
      destruct (Z.ltb_spec r (fst e)); [exists (-1); split; reflexivity|]. cbn [bind].
      rewrite len_cons. replace (0 + 1) with 1 by lia. replace (len l + 1) with (1 + len l) by lia. rewrite forb_shift.
      destruct (IH (o + 1)) as (ix & E & HI); [lia| |].
      + intros k Hk. replace (o + 1 + k) with (o + (1 + k)) by lia.
        replace (at_ (0, a_zero) l k) with (at_ (0, a_zero) (e :: l) (1 + k)).
        * apply Hl. rewrite len_cons. lia.
        * unfold at_. replace (Z.to_nat (1 + k)) with (Datatypes.S (Z.to_nat k)) by lia. reflexivity.
      + exists ix. split; auto. rewrite <- E.
        f_equal. apply forb_ext. intros k u. replace (o + (1 + k)) with (o + 1 + k) by lia. reflexivity. }
  apply G; [apply off_nonneg|]. intros k Hk. split; [|apply (csc_x_repr S m n cols HR); auto].
  rewrite <- (csc_i_repr S m n cols HR a_zero j k Hj Hk). unfold csc_i. rewrite (rp_i _ _ _ _ HR). reflexivity.
Qed.

(** One step of the merged inner product. No LCQPow code. *)
Definition symstep (c2 : list (Z * T)) (t : T) (e : Z * T) : T :=
  match find_row c2 (fst e) with Some x2 => (t + snd e * x2)%num | None => t end.

Lemma symm_acc_ok S1 S2 m n cols1 cols2 i j tmp : repr S1 m n cols1 -> repr S2 m n cols2 -> 0 <= i < n -> 0 <= j < n ->
  symm_acc S1 S2 i j tmp = Ok (fold_left (symstep (col cols2 j)) (col cols1 i) tmp).
Proof.
  intros H1 H2 Hi Hj. unfold symm_acc.
  eapply (for_col_fold S1 m n cols1 H1 a_zero i _ _ (fun _ => True)); auto.
  intros k r x t E1 E2 Hr _ _. split; auto. rewrite E1. cbn [bind]. rewrite !(csc_p_repr S2 m n cols2 H2) by lia. cbn [bind].
  destruct (getIndexOfIn_ok S2 m n cols2 j r H2 Hj) as (ix & -> & HI). cbn [bind]. unfold symstep. cbn [fst snd].
  destruct (find_row (col cols2 j) r).
  - destruct HI as [N Ex]. destruct (Z.eqb_spec ix (-1)); [lia|]. rewrite E2. cbn [bind]. rewrite Ex. reflexivity.
  - subst ix. reflexivity.
Qed.

(** Entry (i,j) of L'R + R'L as computed from the columns *)
Definition sym_csc (colsL colsR : list (list (Z * T))) (i j : Z) : T :=
  fold_left (symstep (col colsL j)) (col colsR i) (fold_left (symstep (col colsR j)) (col colsL i) a_zero).
(** Concatenation of a table of lists. No LCQPow code. *)
Definition tabcat {X} (n : Z) (f : Z -> list X) : list X := concat (tab n f).
(** Columns of the csc MatrixSymmetrizationProduct. *)
Definition symm_cols (colsL colsR : list (list (Z * T))) (n : Z) : list (list (Z * T)) :=
  tab n (fun j => tabcat n (fun i => let v := sym_csc colsL colsR i j in if isZero v then [] else [(i, v)])).

Lemma tabcat_succ {X} n (f : Z -> list X) : 0 <= n -> tabcat (n + 1) f = tabcat n f ++ f n.
Proof. intros. unfold tabcat. rewrite tab_succ, concat_app by lia. simpl. rewrite app_nil_r. reflexivity. Qed.

Lemma in_tabcat {X} n (f : Z -> list X) x : In x (tabcat n f) -> exists i, 0 <= i < n /\ In x (f i).
Proof.
  unfold tabcat. intros Hx. apply in_concat in Hx. destruct Hx as (l & Hl & Hx).
  unfold tab in Hl. apply in_map_iff in Hl. destruct Hl as (k & <- & Hk). apply in_seq in Hk.
  exists (Z.of_nat k). split; [lia|auto].
Qed.
Lemma in_tab {X} n (f : Z -> X) x : In x (tab n f) -> exists i, 0 <= i < n /\ x = f i.
Proof. unfold tab. intros Hx. apply in_map_iff in Hx. destruct Hx as (k & <- & Hk). apply in_seq in Hk. exists (Z.of_nat k). split; [lia|auto]. Qed.

Lemma symm_cols_rows cL cR n : forall c r x, In c (symm_cols cL cR n) -> In (r, x) c -> 0 <= r < n.
Proof.
  intros c r x Hc Hr. apply in_tab in Hc. destruct Hc as (j & Hj & ->). apply in_tabcat in Hr. destruct Hr as (i & Hi & Hr).
  cbv zeta in Hr. destruct (isZero _); [contradiction|]. destruct Hr as [E|[]]. injection E as <- _. auto.
Qed.

Lemma MatrixSymmetrizationProduct_csc_ok L R m n cL cR : repr L m n cL -> repr R m n cR -> 0 <= n ->
  n + 1 <= INT_MAX -> n * n <= INT_MAX ->
  exists M, MatrixSymmetrizationProduct_csc L R = Ok M /\
    if len (concat (symm_cols cL cR n)) =? 0 then M = None
    else exists M', M = Some M' /\ repr M' n n (symm_cols cL cR n).
Proof.
  intros HL HR Hn Hmx Hmx2. unfold MatrixSymmetrizationProduct_csc. rewrite (rp_n _ _ _ _ HL).
  rewrite alloc_ok by lia. cbn [bind]. rewrite (pclosed_nil (T := T)) by auto. cbn [bind].
  change (pclosed (T := T) n [], @nil Z, @nil T) with (closed (T := T) n []).
  pose (colf := fun j => tabcat n (fun i => let v := sym_csc cL cR i j in if isZero v then [] else [(i, v)])).
  rewrite (build_loop n colf (fun j st => for_ 0 n (fun i '(p, rows, data) =>
        let! tmp := symm_acc L R i j a_zero in
        let! tmp := symm_acc R L i j tmp in
        if isZero tmp then Ok (p, rows, data) else
        let! q := rd p (j + 1) in
        let! p := wr p (j + 1) (q + 1) in
        Ok (p, rows ++ [i], data ++ [tmp])) st)); auto.
  2: { intros j built Hj Hb.
       pose (part := fun k => tabcat k (fun i => let v := sym_csc cL cR i j in if isZero v then [] else [(i, v)])).
       change (colf j) with (part n). change (@nil (Z * T)) with (part 0).
       apply (for_seq _ (fun k => opened n built (part k)) 0 n); auto. intros k Hk. unfold opened at 1.
       rewrite (symm_acc_ok L R m n cL cR) by auto. cbn [bind]. rewrite (symm_acc_ok R L m n cR cL) by auto. cbn [bind].
       fold (sym_csc cL cR k j). 
       assert (Pk : part (k + 1) = part k ++ (if isZero (sym_csc cL cR k j) then [] else [(k, sym_csc cL cR k j)]))
         by (unfold part; rewrite tabcat_succ by lia; reflexivity). rewrite Pk. cbv zeta.
       destruct (isZero (sym_csc cL cR k j)).
       - rewrite app_nil_r. reflexivity.
       - apply opened_push. auto. }
  fold (symm_cols cL cR n) in colf. change (tab n colf) with (symm_cols cL cR n). set (cols := symm_cols cL cR n).
  assert (Lc : len cols = n) by (apply len_tab; auto).
  unfold closed. cbn [bind]. assert (Rp := pclosed_rd n cols). rewrite Lc in Rp. rewrite Rp. cbn [bind].
  destruct (Z.eqb_spec (len (concat cols)) 0); [eauto|].
  assert (Bd : len (concat cols) <= n * n).
  { assert (Hlc : forall j, len (colf j) <= n).
    { intros j. unfold colf. assert (G : forall k, 0 <= k -> len (tabcat k (fun i => let v := sym_csc cL cR i j in if isZero v then [] else [(i, v)])) <= k).
      { intros k Hk. pattern k. apply natlike_ind; auto; [unfold tabcat; rewrite tab_0; simpl; unfold len; simpl; lia|].
        intros x Hx IH. unfold Z.succ. rewrite tabcat_succ, len_app by lia. cbv zeta in IH |- *.
        match goal with |- context [if ?b then [] else [(_, _)]] => destruct b end; unfold len at 2; simpl length; lia. }
      apply G. auto. }
    assert (G : forall k, 0 <= k -> len (concat (tab k colf)) <= k * n).
    { intros k Hk. pattern k. apply natlike_ind; auto; [rewrite tab_0; simpl; unfold len; simpl; lia|].
      intros x Hx IH. unfold Z.succ. rewrite tab_succ, concat_app, len_app by lia. simpl. rewrite app_nil_r. pose proof (Hlc x). lia. }
    apply G. auto. }
  pose proof (len_nonneg (concat cols)).
  rewrite !alloc_ok by lia. cbn [bind].
  rewrite vecs_to_arrs by (rewrite ?len_map, ?len_repeat; lia). cbn [bind].
  rewrite pclosed_full by auto. eexists. split; [reflexivity|]. eexists. split; [reflexivity|].
  apply repr_create; auto. apply symm_cols_rows.
Qed.

(** dns_to_csc *)
Definition nonzero (v : T) : bool := a_lt a_zero v || a_lt v a_zero.
(** Columns of dns_to_csc. *)
Definition dns_cols (l : list T) (m n : Z) : list (list (Z * T)) :=
  tab n (fun i => tabcat m (fun j => if nonzero (ent l n j i) then [(j, ent l n j i)] else [])).
Lemma dns_to_csc_ok l m n : 0 <= m -> 0 <= n -> m * n <= len l -> n + 1 <= INT_MAX -> m * n <= INT_MAX ->
  exists S, dns_to_csc (Some (lift l)) m n = Ok S /\ repr S m n (dns_cols l m n).
Proof.
  intros Hm Hn Hl Hmx Hmx2. unfold dns_to_csc. rewrite alloc_ok by lia. cbn [bind]. rewrite (pclosed_nil (T := T)) by auto. cbn [bind].
  change (pclosed (T := T) n [], @nil Z, @nil T) with (closed (T := T) n []).
  pose (colf := fun i => tabcat m (fun j => if nonzero (ent l n j i) then [(j, ent l n j i)] else [])).
  rewrite (build_loop n colf (fun i st => for_ 0 m (fun j '(p, rows, data) =>
        let! f := deref (Some (lift l)) in
        let! v := rd f (j * n + i) in
        if a_lt a_zero v || a_lt v a_zero then
          let! q := rd p (i + 1) in
          let! p := wr p (i + 1) (q + 1) in
          Ok (p, rows ++ [j], data ++ [v])
        else Ok (p, rows, data)) st)); auto.
  2: { intros i built Hi Hb.
       pose (part := fun k => tabcat k (fun j => if nonzero (ent l n j i) then [(j, ent l n j i)] else [])).
       change (colf i) with (part m). change (@nil (Z * T)) with (part 0).
       apply (for_seq _ (fun k => opened n built (part k)) 0 m); auto. intros k Hk. unfold opened at 1. cbn [deref bind].
       rewrite (rd_ent l n k i m) by lia. cbn [bind]. 
       assert (Pk : part (k + 1) = part k ++ (if nonzero (ent l n k i) then [(k, ent l n k i)] else []))
         by (unfold part; rewrite tabcat_succ by lia; reflexivity). rewrite Pk.
       unfold nonzero at 1. destruct (a_lt a_zero (ent l n k i) || a_lt (ent l n k i) a_zero).
       - apply opened_push. auto.
       - rewrite app_nil_r. reflexivity. }
  change (tab n colf) with (dns_cols l m n). set (cols := dns_cols l m n).
  assert (Lc : len cols = n) by (apply len_tab; auto).
  unfold closed. cbn [bind]. assert (Rp := pclosed_rd n cols). rewrite Lc in Rp. rewrite Rp. cbn [bind].
  assert (Bd : len (concat cols) <= n * m).
  { assert (Hlc : forall j, len (colf j) <= m).
    { intros j. unfold colf. assert (G : forall k, 0 <= k -> len (tabcat k (fun i => if nonzero (ent l n i j) then [(i, ent l n i j)] else [])) <= k).
      { intros k Hk. pattern k. apply natlike_ind; auto; [unfold tabcat; rewrite tab_0; simpl; unfold len; simpl; lia|].
        intros x Hx IH. unfold Z.succ. rewrite tabcat_succ, len_app by lia.
        match goal with |- context [if ?b then [(_, _)] else []] => destruct b end; unfold len at 2; simpl length; lia. }
      apply G. auto. }
    assert (G : forall k, 0 <= k -> len (concat (tab k colf)) <= k * m).
    { intros k Hk. pattern k. apply natlike_ind; auto; [rewrite tab_0; simpl; unfold len; simpl; lia|].
      intros x Hx IH. unfold Z.succ. rewrite tab_succ, concat_app, len_app by lia. simpl. rewrite app_nil_r. pose proof (Hlc x). lia. }
    apply G. auto. }
  pose proof (len_nonneg (concat cols)).
  rewrite !alloc_ok by lia. cbn [bind].
  rewrite vecs_to_arrs by (rewrite ?len_map, ?len_repeat; lia). cbn [bind].
  rewrite pclosed_full by auto. eexists. split; [reflexivity|]. apply repr_create; auto.
  intros c r x Hc Hr. apply in_tab in Hc. destruct Hc as (j & Hj & ->). apply in_tabcat in Hr. destruct Hr as (i & Hi & Hr).
  destruct (nonzero _); [|contradiction]. destruct Hr as [E|[]]. injection E as <- _. auto.
Qed.

(** copyCSC *)
Lemma memcpy_ptr_full {X} (dst : arr X) (l : list X) n : n = len l -> n = len dst -> memcpy_ptr dst (Some (lift l)) n = Ok (lift l).
Proof.
  intros Hl Hd. unfold memcpy_ptr. destruct (Z.eqb_spec n 0) as [->|].
  - destruct l; [|rewrite len_cons in Hl; pose proof (len_nonneg l); lia].
    destruct dst; [reflexivity|]. rewrite len_cons in Hd. pose proof (len_nonneg dst). lia.
  - simpl. pose proof (len_nonneg l). rewrite memcpy_all_ok by (rewrite ?len_lift; lia).
    rewrite take_all, drop_all, app_nil_r by (rewrite ?len_lift; lia). reflexivity.
Qed.
Lemma copyCSC_ok (S : csc T) m n cols : repr S m n cols -> n + 1 <= INT_MAX -> len (concat cols) <= INT_MAX ->
  copyCSC (Some S) = Ok S.
Proof.
  intros HR Hn Hz. pose proof (repr_n S m n cols HR). pose proof (len_nonneg (concat cols)). unfold copyCSC. cbn [deref bind].
  rewrite (rp_nz _ _ _ _ HR), (rp_n _ _ _ _ HR), (rp_i _ _ _ _ HR), (rp_x _ _ _ _ HR), (rp_p _ _ _ _ HR).
  rewrite !alloc_ok by lia. cbn [bind].
  rewrite !memcpy_ptr_full by (rewrite ?len_map, ?len_tab, ?len_repeat; lia). cbn [bind].
  destruct HR as [Em En El Ep Ei Ex Ez Er]. destruct S. cbn in *. congruence.
Qed.

(** copyCSC to upper triangle *)
Definition upper_cols (cols : list (list (Z * T))) (n : Z) : list (list (Z * T)) :=
  tab n (fun j => filter (fun e => fst e <=? j) (col cols j)).
Lemma copyCSC_upper_ok (S : csc T) m n cols : repr S m n cols -> n + 1 <= INT_MAX -> len (concat cols) <= INT_MAX ->
  exists U, copyCSC_upper (Some S) = Ok U /\ repr U m n (upper_cols cols n).
Proof.
  intros HR Hn Hz. pose proof (repr_n S m n cols HR). pose proof (rp_len _ _ _ _ HR) as L. unfold copyCSC_upper. cbn [deref bind].
  rewrite (rp_n _ _ _ _ HR). rewrite alloc_ok by lia. cbn [bind]. rewrite (pclosed_nil (T := T)) by auto. cbn [bind].
  change (pclosed (T := T) n [], @nil Z, @nil T) with (closed (T := T) n []).
  pose (colf := fun j => filter (fun e => fst e <=? j) (col cols j)).
  rewrite (build_loop n colf (fun j st => for_col S j (fun i '(p, rows, data) =>
        let! r := csc_i S i in
        if j <? r then Ok (p, rows, data) else
        let! x := csc_x S i in
        let! q := rd p (j + 1) in
        let! p := wr p (j + 1) (q + 1) in
        Ok (p, rows ++ [r], data ++ [x])) st)); auto.
  2: { intros j built Hj Hb. rewrite (for_col_repr S m n cols HR) by auto.
       pose (part := fun k => filter (fun e : Z * T => fst e <=? j) (take k (col cols j))).
       replace (colf j) with (part (len (col cols j))) by (unfold part, colf; rewrite take_all by lia; reflexivity).
       change (@nil (Z * T)) with (part 0).
       pose proof (len_nonneg (col cols j)).
       apply (for_seq _ (fun k => opened n built (part k)) 0 (len (col cols j))); auto. intros k Hk. unfold opened at 1.
       rewrite (csc_i_repr S m n cols HR a_zero) by auto. cbn [bind].
       rewrite (csc_x_repr S m n cols HR a_zero) by auto. cbn [bind].
       assert (Pk : part (k + 1) = part k ++ filter (fun e : Z * T => fst e <=? j) [at_ (0, a_zero) (col cols j) k])
         by (unfold part; rewrite (take_succ (0, a_zero)), filter_app by lia; reflexivity). rewrite Pk. cbn [filter].
       destruct (at_ (0, a_zero) (col cols j) k) as [r x]. cbn [fst snd].
       destruct (Z.ltb_spec j r), (Z.leb_spec r j); try lia.
       - rewrite app_nil_r. reflexivity.
       - apply opened_push. auto. }
  change (tab n colf) with (upper_cols cols n). set (uc := upper_cols cols n).
  assert (Lc : len uc = n) by (apply len_tab; auto).
  unfold closed. cbn [bind]. assert (Rp := pclosed_rd n uc). rewrite Lc in Rp. rewrite Rp. cbn [bind].
  assert (Bd : len (concat uc) <= len (concat cols)).
  { assert (G : forall k, 0 <= k <= n -> len (concat (tab k colf)) <= off cols k).
    { intros k Hk. destruct Hk as [Hk0 Hk]. revert Hk. pattern k. apply natlike_ind; auto; [rewrite tab_0, off_0; simpl; unfold len; simpl; lia|].
      intros x Hx IH Hs. unfold Z.succ in *. rewrite tab_succ, concat_app, len_app by lia. rewrite off_succ by lia. simpl. rewrite app_nil_r.
      assert (len (colf x) <= len (col cols x)); [|lia]. unfold colf, len. apply inj_le. clear. induction (col cols x) as [|e l IH]; simpl; auto. destruct (fst e <=? x); simpl; lia. }
    pose proof (off_all cols) as OA. rewrite L in OA. rewrite <- OA. apply G. lia. }
  pose proof (len_nonneg (concat uc)).
  assert (V1 := vec_to_arr (map fst (concat uc))). assert (V2 := vec_to_arr (map snd (concat uc))). rewrite len_map in V1; rewrite len_map in V2.
  rewrite V1, V2 by lia. cbn [bind].
  rewrite pclosed_full by auto. eexists. split; [reflexivity|]. rewrite (rp_m _ _ _ _ HR). apply repr_create; auto.
  intros c r x Hc Hr. apply in_tab in Hc. destruct Hc as (j & Hj & ->). apply filter_In in Hr. destruct Hr as [Hr _].
  eapply (rp_rows _ _ _ _ HR); eauto. apply col_in. lia.
Qed.

End BuildA.
