(** * ModeFacts: switching between dense and sparse mode (no LCQPow code). *)
From Coq Require Import QArith Qcanon.
From Verif Require Import Base Arith Codes Utilities Options Stats FileIO Subsolver State LCQProblem Tactics Loops Kernels Exact SpecSparse CscKernels CscDense CscBuild CscMerge SpecMath QSum
  KernelProps2 Pure PureFacts Refine SpecLoad LoadDense LoadSparse SpecExact SpecRun SpecTrace SpecSolve StartDense StartSparse ExactOps ExactDense ExactSparse ExactRun SpecModes Lockstep LockstepFacts.
Open Scope Z_scope.

Lemma repr_eq {T} (S : csc T) m n cols : repr S m n cols -> S = csc_of m n cols.
Proof. intros []. destruct S. cbn in *. unfold csc_of. congruence. Qed.

Lemma sorted_unique {T} (c : list (Z * T)) : sorted c -> forall e e', In e c -> In e' c -> fst e = fst e' -> e = e'.
Proof.
  induction c as [|a c IH]; intros Sc e e' He He' E; [contradiction|]. destruct Sc as [H1 H2]. destruct He as [<-|He], He' as [<-|He']; auto.
  - specialize (H1 _ He'). lia.
  - specialize (H1 _ He). lia.
Qed.
Lemma sorted_qcol c : sorted c -> forall e, In e c -> qcol c (fst e) = snd e.
Proof.
  induction c as [|a c IH]; intros Sc e He; [contradiction|]. destruct Sc as [H1 H2]. rewrite qcol_cons. destruct He as [->|He].
  - rewrite Z.eqb_refl, qcol_none; [ring|]. intros e' He'. specialize (H1 _ He'). lia.
  - specialize (H1 _ He). destruct (Z.eqb_spec (fst a) (fst e)); [lia|]. rewrite IH by auto. ring.
Qed.
Lemma in_fincol c e : In e (fincol c) -> exists x, In (fst e, x) c /\ snd e = Fin x.
Proof. unfold fincol. intros H. apply in_map_iff in H. destruct H as ([i x] & <- & H). exists x. auto. Qed.
Lemma sorted_fincol c : sorted c -> sorted (fincol c).
Proof. induction c as [|a c IH]; intros S; [exact I|]. destruct S as [H1 H2]. split; [|apply IH; auto]. intros e He. apply in_fincol in He. destruct He as (x & Hx & _). apply H1 in Hx. exact Hx. Qed.
Lemma last_sorted c i : sorted c -> last_from (Fin 0) (fincol c) i = Fin (qcol c i).
Proof.
  intros Sc. destruct (in_dec Z.eq_dec i (map fst c)) as [Hi|Hi].
  - apply in_map_iff in Hi. destruct Hi as ([j x] & Ej & Hx). cbn in Ej. subst j. pose proof (sorted_qcol c Sc _ Hx) as Q. cbn in Q. rewrite Q.
    apply last_from_in; [apply sorted_unique, sorted_fincol, Sc|]. apply (in_map (fun e : Z * Qc => (fst e, Fin (snd e)))) in Hx. exact Hx.
  - rewrite last_from_notin.
    + rewrite qcol_none; [reflexivity|]. intros e He E. apply Hi. apply in_map_iff. exists e. auto.
    + intros x C. apply in_fincol in C. destruct C as (y & C & _). apply Hi. apply in_map_iff. exists (i, y). auto.
Qed.

(** csc to dense *)
Lemma to_dns_fin cols l m n : wf_cols m n (fincols cols) -> 0 <= m -> 0 < n -> m * n <= INT_MAX -> len l = m * n -> same_matrix l cols m n ->
  csc_to_dns (Some (csc_of m n (fincols cols))) = Ok (Some (lift (fins l))).
Proof.
  intros W Hm Hn Hx Ll SM. pose proof (repr_stored _ _ _ _ (repr_csc_of _ _ _ W)) as HS. pose proof (wf_fincols _ _ _ W) as (Lc & Rc & Sc).
  assert (Rw : forall c e, In c (fincols cols) -> In e c -> 0 <= fst e < m). { intros c [r x] Hc He. destruct W as (_ & W2 & _). eapply W2; eauto. }
  destruct (csc_to_dns_gen _ _ _ _ HS Hm Hx) as [G _].
  { intros c e Hc He. specialize (Rw c e Hc He). assert (INT_MIN < 0) by reflexivity. nia. }
  rewrite (G Rw). do 3 f_equal. unfold dense_of. rewrite <- (tab_qat l (m * n)) by auto. rewrite <- tab_fins. apply tab_ext. intros k Hk.
  pose proof (Z.div_mod k n ltac:(lia)) as Ek. pose proof (Z.mod_pos_bound k n Hn) as Bk.
  assert (Bi : 0 <= k / n < m) by (split; [apply Z.div_pos; lia|apply Z.div_lt_upper_bound; nia]).
  assert (Ec : col (fincols cols) (k mod n) = fincol (col cols (k mod n))) by (unfold fincols, col; exact (at_map fincol [] cols (k mod n))).
  change (@a_zero xq _) with (Fin 0). rewrite Ec, last_sorted.
  - f_equal. change (qcol (col cols (k mod n)) (k / n)) with (qentry cols (k / n) (k mod n)). rewrite <- SM by auto. unfold qent. f_equal. lia.
  - apply Sc. apply col_in. lia.
Qed.

Lemma sorted_ext {T} : forall c d : list (Z * T), sorted c -> sorted d -> (forall e, In e c <-> In e d) -> c = d.
Proof.
  induction c as [|a c IH]; intros [|b d] Sc Sd E; auto.
  - exfalso. apply (E b). left. reflexivity.
  - exfalso. apply (proj1 (E a)). left. reflexivity.
  - destruct Sc as [C1 C2], Sd as [D1 D2].
    assert (a = b). { destruct (proj1 (E a) (or_introl eq_refl)) as [|Ha]; [auto|]. destruct (proj2 (E b) (or_introl eq_refl)) as [|Hb]; [auto|]. apply D1 in Ha. apply C1 in Hb. lia. }
    subst b. f_equal. apply IH; auto. intros e. split; intros He.
    + destruct (proj1 (E e) (or_intror He)) as [<-|]; auto. apply C1 in He. lia.
    + destruct (proj2 (E e) (or_intror He)) as [<-|]; auto. apply D1 in He. lia.
Qed.
Lemma qcol_nonzero c i : qcol c i <> 0%Qc -> exists x, In (i, x) c.
Proof.
  intros N. destruct (in_dec Z.eq_dec i (map fst c)) as [Hi|Hi].
  - apply in_map_iff in Hi. destruct Hi as ([j x] & <- & Hx). eauto.
  - exfalso. apply N. apply qcol_none. intros e He E. apply Hi. apply in_map_iff. eauto.
Qed.
Lemma nonzero_fin q : nonzero (Fin q) = true <-> q <> 0%Qc.
Proof.
  unfold nonzero. change (@a_zero xq _) with (Fin 0). cbn [a_lt xq_arith x_lt]. rewrite Bool.orb_true_iff. split.
  - intros [E|E] ->; discriminate.
  - intros N. destruct (Qc_ltb 0 q) eqn:E1; [auto|]. destruct (Qc_ltb q 0) eqn:E2; [auto|]. exfalso. apply N.
    apply Qc_ltb_false in E1, E2. apply Qcle_antisym; auto.
Qed.

(** dense to csc *)
Lemma dns_cols_fin cols l m n : wf_cols m n (fincols cols) -> 0 <= m -> 0 <= n -> same_matrix l cols m n -> no_zeros cols ->
  dns_cols (fins l) m n = fincols cols.
Proof.
  intros W Hm Hn SM NZ. pose proof (wf_fincols _ _ _ W) as (Lc & Rc & Sc).
  assert (E : fincols cols = tab n (fun j => fincol (at_ [] cols j))).
  { unfold fincols. rewrite <- (tab_at [] cols) at 1. rewrite map_tab, Lc. reflexivity. }
  rewrite E. unfold dns_cols. apply tab_ext. intros j Hj.
  assert (Hc : In (at_ [] cols j) cols) by (apply (col_in cols); lia). set (c := at_ [] cols j) in *.
  assert (ES : tabcat m (fun i => if nonzero (ent (fins l) n i j) then [(i, ent (fins l) n i j)] else []) =
     selcol m (fun i => negb (nonzero (ent (fins l) n i j))) (fun i => ent (fins l) n i j)).
  { unfold selcol, tabcat. f_equal. apply tab_ext. intros i Hi. destruct (nonzero (ent (fins l) n i j)); reflexivity. }
  rewrite ES. apply sorted_ext; [apply sorted_selcol|apply sorted_fincol; auto|].
  assert (EE : forall i, 0 <= i < m -> ent (fins l) n i j = Fin (qcol c i)).
  { intros i Hi. unfold ent. change (@a_zero xq _) with (Fin 0). rewrite at_fins. f_equal. change (qat l (i * n + j)) with (qent l n i j). rewrite SM by auto. reflexivity. }
  intros [i x]. rewrite in_selcol. split.
  - intros (Hi & B & ->). rewrite EE in * by auto. apply Bool.negb_false_iff, nonzero_fin in B. destruct (qcol_nonzero _ _ B) as (y & Hy).
    pose proof (sorted_qcol c (Sc _ Hc) _ Hy) as Q. cbn in Q. rewrite Q. apply (in_map (fun e : Z * Qc => (fst e, Fin (snd e)))) in Hy. exact Hy.
  - intros He. apply in_fincol in He. destruct He as (y & Hy & Ey). cbn in Hy, Ey. subst x.
    assert (Hi : 0 <= i < m) by (apply (Rc c (i, y)); auto). pose proof (sorted_qcol c (Sc _ Hc) _ Hy) as Q. cbn in Q. pose proof (NZ c _ Hc Hy) as N. cbn in N.
    split; [auto|]. rewrite EE by auto. rewrite Q. split; [|reflexivity]. apply Bool.negb_false_iff, nonzero_fin. exact N.
Qed.
(** The nonzero entries of a dense matrix, column by column.  No LCQPow code. *)
Definition dcols (l : list Qc) (m n : Z) : list (list (Z * Qc)) := tab n (fun j => selcol m (fun i => Qc_eqb (qent l n i j) 0) (fun i => qent l n i j)).
Lemma dcols_ok l m n : 0 <= m -> 0 <= n -> wf_cols m n (fincols (dcols l m n)) /\ same_matrix l (dcols l m n) m n /\ no_zeros (dcols l m n).
Proof.
  intros Hm Hn. split; [|split].
  - split; [|split].
    + unfold fincols, dcols. rewrite len_map, len_tab by auto. reflexivity.
    + intros c r x Hc Hx. unfold fincols, dcols in Hc. apply in_map_iff in Hc. destruct Hc as (c' & <- & Hc). apply in_tab in Hc. destruct Hc as (j & Hj & ->).
      apply in_fincol in Hx. destruct Hx as (y & Hx & _). apply in_selcol in Hx. tauto.
    + intros c Hc. unfold fincols, dcols in Hc. apply in_map_iff in Hc. destruct Hc as (c' & <- & Hc). apply in_tab in Hc. destruct Hc as (j & Hj & ->).
      apply sorted_fincol, sorted_selcol.
  - intros i j Hi Hj. unfold qentry, dcols. rewrite at_tab by auto. rewrite qcol_selcol by auto. destruct (Qc_eqb (qent l n i j) 0) eqn:E; [|reflexivity].
    apply Qc_eqb_spec in E. exact E.
  - intros c [i x] Hc He. unfold dcols in Hc. apply in_tab in Hc. destruct Hc as (j & Hj & ->). apply in_selcol in He. destruct He as (_ & B & ->). cbn.
    intros C. rewrite C in B. discriminate B.
Qed.
Lemma of_dns_fin l m n : 0 <= m -> 0 <= n -> len l = m * n -> n + 1 <= INT_MAX -> m * n <= INT_MAX ->
  dns_to_csc (Some (lift (fins l))) m n = Ok (csc_of m n (dns_cols (fins l) m n)).
Proof.
  intros Hm Hn Ll H1 H2. destruct (dns_to_csc_ok (fins l) m n) as (S & E & HR); auto; [rewrite len_fins; lia|]. rewrite E. f_equal. apply repr_eq. exact HR.
Qed.
Lemma round_fin l m n : 0 <= m -> 0 < n -> len l = m * n -> n + 1 <= INT_MAX -> m * n <= INT_MAX ->
  exists S, dns_to_csc (Some (lift (fins l))) m n = Ok S /\ csc_to_dns (Some S) = Ok (Some (lift (fins l))).
Proof.
  intros Hm Hn Ll H1 H2. destruct (dcols_ok l m n) as (W & SM & NZ); [auto|lia|]. eexists. split; [apply of_dns_fin; auto; lia|].
  rewrite (dns_cols_fin (dcols l m n)) by (auto; lia). apply to_dns_fin; auto.
Qed.

(** Sorted columns of the stacked matrix *)
Lemma sorted_cat {T} (c d : list (Z * T)) : sorted c -> sorted d -> (forall e e', In e c -> In e' d -> fst e < fst e') -> sorted (c ++ d).
Proof.
  induction c as [|a c IH]; intros Sc Sd H; [exact Sd|]. destruct Sc as [C1 C2]. cbn [app]. split.
  - intros e He. apply in_app_or in He. destruct He as [He|He]; [apply C1; auto|apply H; [left; reflexivity|auto]].
  - apply IH; auto. intros e e' He. apply H. right. exact He.
Qed.
Lemma sorted_shift {T} k (c : list (Z * T)) : sorted c -> sorted (shift_col k c).
Proof.
  induction c as [|a c IH]; intros Sc; [exact I|]. destruct Sc as [C1 C2]. split; [|apply IH; auto].
  intros e He. apply in_map_iff in He. destruct He as (e' & <- & He). apply C1 in He. cbn. lia.
Qed.
Lemma in_shift {T} k (c : list (Z * T)) e : In e (shift_col k c) -> exists e', In e' c /\ snd e = snd e' /\ fst e = k + fst e'.
Proof. intros H. apply in_map_iff in H. destruct H as (e' & <- & H). exists e'. cbn. auto. Qed.
Lemma us_ALR_wf {T} {AR : Arith T} (u : usparse T) : wf_sparse u -> wf_cols (u_nA (us_v u)) (u_nV (us_v u)) (us_ALR u).
Proof.
  intros W. pose proof (us_ALR_repr u W) as Re. split; [destruct Re; assumption|]. split; [destruct Re; assumption|].
  intros c Hc. unfold us_ALR, stack_cols in Hc. apply in_tab in Hc. destruct Hc as (j & Hj & ->).
  destruct (ws_A _ W) as (LA & RA & SA), (ws_L _ W) as (LL & RL & SL), (ws_R _ W) as (LR & RR & SR).
  assert (CA : In (col (us_Acols u) j) (us_Acols u)) by (apply col_in; lia). assert (CL : In (col (us_L u) j) (us_L u)) by (apply col_in; lia). assert (CR : In (col (us_R u) j) (us_R u)) by (apply col_in; lia).
  apply sorted_cat; [auto|apply sorted_cat; [apply sorted_shift; auto|apply sorted_shift; auto|]|].
  - intros e e' He He'. apply in_shift in He, He'. destruct He as ([i x] & Hx & _ & ->), He' as ([i' x'] & Hx' & _ & ->). pose proof (RL _ _ _ CL Hx). pose proof (RR _ _ _ CR Hx'). cbn. lia.
  - intros [i x] e' He He'. pose proof (RA _ _ _ CA He). apply in_app_or in He'.
    destruct He' as [He'|He']; apply in_shift in He'; destruct He' as ([i' x'] & Hx' & _ & ->); [pose proof (RL _ _ _ CL Hx')|pose proof (RR _ _ _ CR Hx')]; cbn; pose proof (wv_nComp _ (ws_v _ W)); lia.
Qed.

(** ** Objects *)
Lemma dense_sizes u : wf_dense (to_dense u) -> let v := qd_v u in
  len (qd_Q u) = qv_nV v * qv_nV v /\ len (qd_A u ++ qd_L u ++ qd_R u) = (qv_nC v + 2 * qv_nComp v) * qv_nV v /\
  len (qd_L u) = qv_nComp v * qv_nV v /\ len (qd_R u) = qv_nComp v * qv_nV v /\ len (dense_Cm u) = qv_nV v * qv_nV v.
Proof.
  intros W v. pose proof (wu_Q _ W) as A1. pose proof (wu_A _ W) as A2. pose proof (wu_L _ W) as A3. pose proof (wu_R _ W) as A4. cbn in A1, A2, A3, A4. rewrite len_fins in *.
  pose proof (wv_nV _ (wu_v _ W)) as N. cbn in N. split; [auto|]. split; [rewrite !len_app, A2, A3, A4; fold v; ring|]. split; [auto|]. split; [auto|].
  unfold dense_Cm. apply len_tab. fold v. fold v in N. nia.
Qed.
Lemma vec_sizes v : wf_vec (to_vec v) -> 0 < qv_nV v /\ 0 <= qv_nC v /\ 0 < qv_nComp v /\ qv_nV v + 1 <= INT_MAX /\ qv_nV v * qv_nV v <= INT_MAX /\
  (qv_nC v + 2 * qv_nComp v) * qv_nV v <= INT_MAX /\ qv_nComp v * qv_nV v <= INT_MAX.
Proof.
  intros W. pose proof (wv_nV _ W) as A1. pose proof (wv_nC _ W) as A2. pose proof (wv_nComp _ W) as A3. pose proof (wv_int _ W) as A4. pose proof (wv_sq _ W) as A5. pose proof (wv_rect _ W) as A6.
  unfold u_nA in *. cbn [to_vec u_nV u_nC u_nComp] in *. assert (0 <= qv_nC v * qv_nV v) by nia. assert (0 <= qv_nComp v * qv_nV v) by nia.
  do 4 (split; [lia|]). split; [exact A5|]. split; [exact A6|]. nia.
Qed.
Lemma ALR_fins u : ud_A (to_dense u) ++ ud_L (to_dense u) ++ ud_R (to_dense u) = fins (qd_A u ++ qd_L u ++ qd_R u).
Proof. cbn. unfold fins. rewrite !map_app. reflexivity. Qed.
Lemma C_fins u : wf_dense (to_dense u) -> symm (ud_L (to_dense u)) (ud_R (to_dense u)) (u_nComp (ud_v (to_dense u))) (u_nV (ud_v (to_dense u))) = fins (dense_Cm u).
Proof. intros W. exact (dense_C_fin u). Qed.

Section Switch.
Variables (v : qvec) (opt : options xq).
Hypothesis Wv : wf_vec (to_vec v).
Let o0 := fresh (to_vec v) opt.

(** A loaded object in terms of its matrices *)
Definition dense_obj (o : lcqp xq) (Q A L R C : ptr xq) : lcqp xq :=
  mkLcqp (set_d_sparseSolver false (set_d_C_sparse None (set_d_R_sparse None (set_d_L_sparse None (set_d_A_sparse None (set_d_Q_sparse None
    (set_d_C C (set_d_R R (set_d_L L (set_d_A A (set_d_Q Q (pd o))))))))))) ) (it o).
(** The object after a switch to sparse mode. *)
Definition sparse_obj (o : lcqp xq) (Q A L R C : csc xq) : lcqp xq :=
  mkLcqp (set_d_sparseSolver true (set_d_C None (set_d_R None (set_d_L None (set_d_A None (set_d_Q None
    (set_d_C_sparse (Some C) (set_d_R_sparse (Some R) (set_d_L_sparse (Some L) (set_d_A_sparse (Some A) (set_d_Q_sparse (Some Q) (pd o))))))))))) ) (it o).

Lemma loaded_dense_obj d : wf_dense (to_dense d) -> qd_v d = v -> loaded_dense (to_dense d) o0 =
  dense_obj (loaded_dense (to_dense d) o0) (Some (lift (fins (qd_Q d)))) (Some (lift (fins (qd_A d ++ qd_L d ++ qd_R d)))) (Some (lift (fins (qd_L d))))
    (Some (lift (fins (qd_R d)))) (Some (lift (fins (dense_Cm d)))).
Proof. intros W E. rewrite <- ALR_fins, <- C_fins by auto. reflexivity. Qed.
Lemma loaded_sparse_obj s : wf_sparse (to_sparse s) -> qs_v s = v -> concat (us_C (to_sparse s)) <> [] -> loaded_sparse (to_sparse s) o0 =
  sparse_obj (loaded_sparse (to_sparse s) o0) (csc_of (qv_nV v) (qv_nV v) (fincols (qs_Q s))) (csc_of (qv_nC v + 2 * qv_nComp v) (qv_nV v) (fincols (sp_ALR s)))
    (csc_of (qv_nComp v) (qv_nV v) (fincols (qs_L s))) (csc_of (qv_nComp v) (qv_nV v) (fincols (qs_R s))) (csc_of (qv_nV v) (qv_nV v) (fincols (sp_C s))).
Proof.
  intros W E N. rewrite <- (sparse_ALR_fin s), <- (sparse_C_fin s W). subst v. unfold loaded_sparse, sparse_obj, constrained_csc.
  assert (len (concat (us_C (to_sparse s))) =? 0 = false) as ->. { apply Z.eqb_neq. intros C. apply N. destruct (concat (us_C (to_sparse s))); [reflexivity|]. unfold len in C. cbn in C. lia. }
  reflexivity.
Qed.

Lemma to_sparse_obj o (Q A L R C : list Qc) sQ sA sL sR sC n nC m : d_nV (pd o) = Some n -> d_nC (pd o) = Some nC -> d_nComp (pd o) = Some m ->
  dns_to_csc (Some (lift (fins Q))) n n = Ok sQ -> dns_to_csc (Some (lift (fins A))) (nC + 2 * m) n = Ok sA -> dns_to_csc (Some (lift (fins L))) m n = Ok sL ->
  dns_to_csc (Some (lift (fins R))) m n = Ok sR -> dns_to_csc (Some (lift (fins C))) n n = Ok sC ->
  switchToSparseMode (dense_obj o (Some (lift (fins Q))) (Some (lift (fins A))) (Some (lift (fins L))) (Some (lift (fins R))) (Some (lift (fins C)))) =
    Ok (SUCCESSFUL_RETURN, sparse_obj o sQ sA sL sR sC).
Proof.
  intros D1 D2 D3 E1 E2 E3 E4 E5. unfold switchToSparseMode, dense_obj. cbn [pd it d_sparseSolver d_nV d_Q d_A d_L d_R d_C d_nC d_nComp set_d_sparseSolver set_d_C_sparse set_d_R_sparse set_d_L_sparse set_d_A_sparse set_d_Q_sparse set_d_C set_d_R set_d_L set_d_A set_d_Q].
  rewrite D1, D2, D3. cbn [get bind]. rewrite E1. cbn [bind]. rewrite E2. cbn [bind]. rewrite E3. cbn [bind]. rewrite E4. cbn [bind]. rewrite E5. cbn [bind]. reflexivity.
Qed.
Lemma to_dense_obj o Q A L R C (lQ lA lL lR lC : arr xq) :
  csc_to_dns (Some Q) = Ok (Some lQ) -> csc_to_dns (Some A) = Ok (Some lA) -> csc_to_dns (Some L) = Ok (Some lL) -> csc_to_dns (Some R) = Ok (Some lR) -> csc_to_dns (Some C) = Ok (Some lC) ->
  switchToDenseMode (sparse_obj o Q A L R C) = Ok (SUCCESSFUL_RETURN, dense_obj o (Some lQ) (Some lA) (Some lL) (Some lR) (Some lC)).
Proof.
  intros E1 E2 E3 E4 E5. unfold switchToDenseMode, sparse_obj. cbn [pd it d_sparseSolver d_Q_sparse d_A_sparse d_L_sparse d_R_sparse d_C_sparse negb set_d_sparseSolver set_d_C_sparse set_d_R_sparse set_d_L_sparse set_d_A_sparse set_d_Q_sparse set_d_C set_d_R set_d_L set_d_A set_d_Q].
  rewrite E1. cbn [bind]. rewrite E2. cbn [bind]. rewrite E3. cbn [bind]. rewrite E4. cbn [bind]. rewrite E5. cbn [bind]. reflexivity.
Qed.

Lemma round_obj d : wf_dense (to_dense d) -> qd_v d = v ->
  exists o1, switchToSparseMode (loaded_dense (to_dense d) o0) = Ok (SUCCESSFUL_RETURN, o1) /\ d_sparseSolver (pd o1) = true /\
    switchToDenseMode o1 = Ok (SUCCESSFUL_RETURN, loaded_dense (to_dense d) o0).
Proof.
  intros W E. destruct (dense_sizes d W) as (A1 & A2 & A3 & A4 & A5). destruct (vec_sizes v Wv) as (N1 & N2 & N3 & N4 & N5 & N6 & N7).
  rewrite (loaded_dense_obj d W E). set (o := loaded_dense (to_dense d) o0). rewrite E in *.
  destruct (round_fin _ _ _ (Z.lt_le_incl _ _ N1) N1 A1 N4 N5) as (sQ & Q1 & Q2).
  destruct (round_fin (qd_A d ++ qd_L d ++ qd_R d) (qv_nC v + 2 * qv_nComp v) (qv_nV v) ltac:(lia) N1 A2 N4 N6) as (sA & Q3 & Q4).
  destruct (round_fin _ _ _ (Z.lt_le_incl _ _ N3) N1 A3 N4 N7) as (sL & Q5 & Q6).
  destruct (round_fin _ _ _ (Z.lt_le_incl _ _ N3) N1 A4 N4 N7) as (sR & Q7 & Q8).
  destruct (round_fin _ _ _ (Z.lt_le_incl _ _ N1) N1 A5 N4 N5) as (sC & Q9 & Q10).
  exists (sparse_obj o sQ sA sL sR sC). split; [|split; [reflexivity|]].
  - eapply to_sparse_obj with (n := qv_nV v) (nC := qv_nC v) (m := qv_nComp v); auto.
  - apply to_dense_obj; auto.
Qed.

(** Both formats give the same object after a switch *)
Section Same.
Variables (d : qdense) (s : qsparse).
Hypothesis Wd : wf_dense (to_dense d).
Hypothesis Ws : wf_sparse (to_sparse s).
Hypothesis Ed : qd_v d = v.
Hypothesis SP : same_problem d s.
Hypothesis NT : no_tiny (sparse_data s).
Hypothesis NZ : concat (us_C (to_sparse s)) <> [].
Lemma Es : qs_v s = v. Proof using Ed SP. destruct SP as (V & _). congruence. Qed.
Lemma AG : agree (dense_data d) (sparse_data s). Proof. exact (same_agree d s SP). Qed.

Lemma rest_same Q A L R C : dense_obj (loaded_dense (to_dense d) o0) Q A L R C = dense_obj (loaded_sparse (to_sparse s) o0) Q A L R C.
Proof.
  unfold dense_obj, loaded_dense, loaded_sparse, constrained, constrained_csc, cbounded, boxed, guessed. cbn [ud_v us_v to_dense to_sparse pd it]. rewrite Ed, Es. reflexivity.
Qed.
Lemma rest_same' Q A L R C : sparse_obj (loaded_dense (to_dense d) o0) Q A L R C = sparse_obj (loaded_sparse (to_sparse s) o0) Q A L R C.
Proof.
  unfold sparse_obj, loaded_dense, loaded_sparse, constrained, constrained_csc, cbounded, boxed, guessed. cbn [ud_v us_v to_dense to_sparse pd it]. rewrite Ed, Es. reflexivity.
Qed.

Lemma smQ : same_matrix (qd_Q d) (qs_Q s) (qv_nV v) (qv_nV v).
Proof. intros i j Hi Hj. destruct SP as (V & SQ & _). rewrite <- Ed in Hi, Hj. rewrite <- Ed. exact (SQ i j Hi Hj). Qed.
Lemma smL : same_matrix (qd_L d) (qs_L s) (qv_nComp v) (qv_nV v).
Proof. intros i j Hi Hj. destruct SP as (V & _ & SL & _). rewrite <- Ed in Hi, Hj. rewrite <- Ed. exact (SL i j Hi Hj). Qed.
Lemma smR : same_matrix (qd_R d) (qs_R s) (qv_nComp v) (qv_nV v).
Proof. intros i j Hi Hj. destruct SP as (V & _ & _ & SL & _). rewrite <- Ed in Hi, Hj. rewrite <- Ed. exact (SL i j Hi Hj). Qed.
Lemma smALR : same_matrix (qd_A d ++ qd_L d ++ qd_R d) (sp_ALR s) (qv_nC v + 2 * qv_nComp v) (qv_nV v).
Proof.
  intros i j Hi Hj. assert (En : e_nA (dense_data d) = qv_nC v + 2 * qv_nComp v) by (unfold e_nA; cbn; rewrite Ed; reflexivity).
  assert (En' : e_nA (sparse_data s) = qv_nC v + 2 * qv_nComp v) by (unfold e_nA; cbn; rewrite Es; reflexivity).
  pose proof (dense_rows d Wd i j) as D. rewrite Ed in D. rewrite D by (auto; lia). rewrite (sparse_rows s Ws) by (rewrite ?Es; auto; lia).
  apply (ag_rows _ _ AG); [lia|]. cbn. rewrite Ed. auto.
Qed.
Lemma smC : same_matrix (dense_Cm d) (sp_C s) (qv_nV v) (qv_nV v).
Proof.
  intros i j Hi Hj. pose proof (dense_C_ent d i j) as D. rewrite Ed in D. rewrite D by auto. rewrite (sparse_C_ent s NT) by (rewrite Es; auto).
  apply (ag_C _ _ AG); cbn; rewrite Ed; auto.
Qed.
Lemma wfQ : wf_cols (qv_nV v) (qv_nV v) (fincols (qs_Q s)). Proof. pose proof (ws_Q _ Ws) as W. cbn in W. rewrite Es in W. exact W. Qed.
Lemma wfL : wf_cols (qv_nComp v) (qv_nV v) (fincols (qs_L s)). Proof. pose proof (ws_L _ Ws) as W. cbn in W. rewrite Es in W. exact W. Qed.
Lemma wfR : wf_cols (qv_nComp v) (qv_nV v) (fincols (qs_R s)). Proof. pose proof (ws_R _ Ws) as W. cbn in W. rewrite Es in W. exact W. Qed.
Lemma wfALR : wf_cols (qv_nC v + 2 * qv_nComp v) (qv_nV v) (fincols (sp_ALR s)).
Proof. pose proof (us_ALR_wf _ Ws) as W. rewrite (sparse_ALR_fin s) in W. unfold u_nA in W. cbn [to_sparse us_v to_vec u_nV u_nC u_nComp] in W. rewrite Es in W. exact W. Qed.
Lemma wfC : wf_cols (qv_nV v) (qv_nV v) (fincols (sp_C s)).
Proof.
  pose proof (us_C_repr _ Ws) as Re. rewrite (sparse_C_fin s Ws) in Re. cbn [to_sparse us_v to_vec u_nV] in Re. rewrite Es in Re. split; [destruct Re; assumption|]. split; [destruct Re; assumption|].
  intros c Hc. unfold fincols in Hc. apply in_map_iff in Hc. destruct Hc as (c' & <- & Hc). unfold sp_C, qsymm_cols in Hc. apply in_tab in Hc. destruct Hc as (j & Hj & ->). apply sorted_fincol, sorted_selcol.
Qed.

Lemma sparse_to_dense : switchToDenseMode (loaded_sparse (to_sparse s) o0) = Ok (SUCCESSFUL_RETURN, loaded_dense (to_dense d) o0).
Proof.
  destruct (dense_sizes d Wd) as (A1 & A2 & A3 & A4 & A5). destruct (vec_sizes v Wv) as (N1 & N2 & N3 & N4 & N5 & N6 & N7). rewrite Ed in *.
  rewrite (loaded_sparse_obj s Ws Es NZ), (loaded_dense_obj d Wd Ed), rest_same. apply to_dense_obj; apply to_dns_fin; auto using wfQ, wfL, wfR, wfALR, wfC, smQ, smL, smR, smALR, smC; lia.
Qed.

Hypothesis ZQ : no_zeros (qs_Q s).
Hypothesis ZL : no_zeros (qs_L s).
Hypothesis ZR : no_zeros (qs_R s).
Hypothesis ZA : match qs_A s with Some c => no_zeros c | None => True end.

Lemma zALR : no_zeros (sp_ALR s).
Proof.
  intros c e Hc He. unfold sp_ALR, stack_cols in Hc. apply in_tab in Hc. destruct Hc as (j & Hj & ->).
  destruct (wf_fincols _ _ _ wfL) as (LL & _). destruct (wf_fincols _ _ _ wfR) as (LR & _). rewrite Es in *.
  assert (Sh : forall k c, In e (shift_col k c) -> exists e', In e' c /\ snd e' = snd e). { intros k c H. unfold shift_col in H. apply in_map_iff in H. destruct H as (e' & <- & H). exists e'. auto. }
  apply in_app_or in He. destruct He as [He|He]; [|apply in_app_or in He; destruct He as [He|He]].
  - unfold qs_Acols, col in He. destruct (qs_A s) as [cA|] eqn:EA.
    + pose proof (ws_A _ Ws) as WA. rewrite Acols_fin in WA. cbn in WA. rewrite Es in WA. apply wf_fincols in WA. unfold qs_Acols in WA. rewrite EA in WA. destruct WA as (LA & _).
      apply (ZA (at_ [] cA j)); [apply (col_in cA); lia|exact He].
    + rewrite Es, at_tab in He by auto. contradiction.
  - apply Sh in He. destruct He as (e' & He & <-). apply (ZL (col (qs_L s) j)); [apply col_in; lia|exact He].
  - apply Sh in He. destruct He as (e' & He & <-). apply (ZR (col (qs_R s) j)); [apply col_in; lia|exact He].
Qed.
Lemma zC : no_zeros (sp_C s).
Proof.
  intros c [i x] Hc He. unfold sp_C, qsymm_cols in Hc. apply in_tab in Hc. destruct Hc as (j & Hj & ->). apply in_selcol in He. destruct He as (_ & B & ->). cbn. intros C. rewrite C in B. discriminate B.
Qed.

Lemma dense_to_sparse : switchToSparseMode (loaded_dense (to_dense d) o0) = Ok (SUCCESSFUL_RETURN, loaded_sparse (to_sparse s) o0).
Proof.
  destruct (dense_sizes d Wd) as (A1 & A2 & A3 & A4 & A5). destruct (vec_sizes v Wv) as (N1 & N2 & N3 & N4 & N5 & N6 & N7). rewrite Ed in *.
  assert (G : forall l cols k, wf_cols k (qv_nV v) (fincols cols) -> 0 <= k -> k * qv_nV v <= INT_MAX -> len l = k * qv_nV v -> same_matrix l cols k (qv_nV v) -> no_zeros cols ->
    dns_to_csc (Some (lift (fins l))) k (qv_nV v) = Ok (csc_of k (qv_nV v) (fincols cols))).
  { intros l cols k W Hk Hx Ll SM Z. rewrite of_dns_fin by (auto; lia). rewrite (dns_cols_fin cols) by (auto; lia). reflexivity. }
  rewrite (loaded_sparse_obj s Ws Es NZ), (loaded_dense_obj d Wd Ed), <- rest_same'.
  apply to_sparse_obj with (n := qv_nV v) (nC := qv_nC v) (m := qv_nComp v); try reflexivity; apply G; auto using wfQ, wfL, wfR, wfALR, wfC, smQ, smL, smR, smALR, smC, zALR, zC; lia.
Qed.
End Same.
End Switch.

(** ** Any object, any arithmetic *)
Lemma bind_assoc {X Y Z} (x : res X) (f : X -> res Y) (g : Y -> res Z) : bind (bind x f) g = bind x (fun a => bind (f a) g).
Proof. destruct x; reflexivity. Qed.
Section Any.
Context {T : Type} {AR : Arith T}.

Lemma switch_idle (o : lcqp T) : (d_sparseSolver (pd o) = true -> switchToSparseMode o = Ok (SUCCESSFUL_RETURN, o)) /\
  (d_sparseSolver (pd o) = false -> switchToDenseMode o = Ok (SUCCESSFUL_RETURN, o)).
Proof. unfold switchToSparseMode, switchToDenseMode. split; intros ->; reflexivity. Qed.

Lemma switch_round (o : lcqp T) n nC m Q A L R C : d_sparseSolver (pd o) = false ->
  d_nV (pd o) = Some n -> d_nC (pd o) = Some nC -> d_nComp (pd o) = Some m -> 0 <= n -> 0 <= nC -> 0 <= m -> n + 1 <= INT_MAX -> n * n <= INT_MAX -> (nC + 2 * m) * n <= INT_MAX ->
  d_Q (pd o) = Some (lift Q) -> d_A (pd o) = Some (lift A) -> d_L (pd o) = Some (lift L) -> d_R (pd o) = Some (lift R) -> d_C (pd o) = Some (lift C) ->
  len Q = n * n -> len A = (nC + 2 * m) * n -> len L = m * n -> len R = m * n -> len C = n * n ->
  d_Q_sparse (pd o) = None -> d_A_sparse (pd o) = None -> d_L_sparse (pd o) = None -> d_R_sparse (pd o) = None -> d_C_sparse (pd o) = None ->
  (forall x, In x (Q ++ A ++ L ++ R ++ C) -> a_lt a_zero x = true \/ a_lt x a_zero = true \/ x = a_zero) ->
  exists o1, switchToSparseMode o = Ok (SUCCESSFUL_RETURN, o1) /\ d_sparseSolver (pd o1) = true /\ switchToDenseMode o1 = Ok (SUCCESSFUL_RETURN, o).
Proof.
  intros M Dn DC Dm Hn HC Hm N1 N2 N3 EQ EA EL ER EC LQ LA LL LR LC SQ SA SL SR SC K.
  assert (N4 : m * n <= INT_MAX) by nia.
  destruct (round_any Q n n) as (sQ & Q1 & Q2); auto. { intros x Hx. apply K. rewrite !in_app_iff. auto. }
  destruct (round_any A (nC + 2 * m) n) as (sA & A1 & A2); auto; [lia| |]. { intros x Hx. apply K. rewrite !in_app_iff. auto. }
  destruct (round_any L m n) as (sL & L1 & L2); auto. { intros x Hx. apply K. rewrite !in_app_iff. auto. }
  destruct (round_any R m n) as (sR & R1 & R2); auto. { intros x Hx. apply K. rewrite !in_app_iff. auto. }
  destruct (round_any C n n) as (sC & C1 & C2); auto. { intros x Hx. apply K. rewrite !in_app_iff. auto. }
  unfold switchToSparseMode. rewrite M, Dn, DC, Dm, EQ, EA, EL, ER, EC. cbn [get bind]. rewrite Q1. cbn [bind]. rewrite A1. cbn [bind]. rewrite L1. cbn [bind]. rewrite R1. cbn [bind]. rewrite C1. cbn [bind].
  eexists. split; [reflexivity|]. split; [reflexivity|]. unfold switchToDenseMode.
  cbn [pd it d_sparseSolver d_Q_sparse d_A_sparse d_L_sparse d_R_sparse d_C_sparse negb set_d_sparseSolver set_d_C_sparse set_d_R_sparse set_d_L_sparse set_d_A_sparse set_d_Q_sparse set_d_C set_d_R set_d_L set_d_A set_d_Q].
  rewrite Q2. cbn [bind]. rewrite A2. cbn [bind]. rewrite L2. cbn [bind]. rewrite R2. cbn [bind]. rewrite C2. cbn [bind isNull orb].
  destruct o as [d i]. cbn [pd it] in *. destruct d. cbn in *. subst. reflexivity.
Qed.

Lemma switch_failed (o : lcqp T) r o' : switchToDenseMode o = Ok (r, o') -> r <> SUCCESSFUL_RETURN ->
  r = FAILED_SWITCH_TO_DENSE /\ d_sparseSolver (pd o) = true /\ exists Q A L R C, o' = mkLcqp (set_d_C C (set_d_R R (set_d_L L (set_d_A A (set_d_Q Q (pd o)))))) (it o).
Proof.
  unfold switchToDenseMode. intros E N. destruct (d_sparseSolver (pd o)) eqn:M; cbn [negb] in E.
  2:{ injection E as <- <-. congruence. }
  apply bind_ok in E. destruct E as (Q & EQ & E). apply bind_ok in E. destruct E as (A & EA & E). apply bind_ok in E. destruct E as (L & EL & E). apply bind_ok in E. destruct E as (R & ER & E). apply bind_ok in E. destruct E as (C & EC & E).
  destruct (isNull Q || isNull A || isNull L || isNull R || isNull C)%bool.
  - injection E as <- <-. split; [reflexivity|]. split; [reflexivity|]. exists Q, A, L, R, C. reflexivity.
  - injection E as <- <-. congruence.
Qed.
(** Other dense matrices.  No LCQPow code. *)
Definition redense (Q A L R C : ptr T) (d : pdata T) : pdata T := set_d_C C (set_d_R R (set_d_L L (set_d_A A (set_d_Q Q d)))).
(** The same for a result.  No LCQPow code. *)
Definition redense_r (Q A L R C : ptr T) (a : res (ReturnValue * lcqp T)) : res (ReturnValue * lcqp T) :=
  match a with Ok (r, o) => Ok (r, mkLcqp (redense Q A L R C (pd o)) (it o)) | UB u => UB u end.
Section Redense.
Variables (Q A L R C : ptr T).
Let dd := redense Q A L R C.
Lemma sparse_pass orc rand d s : d_sparseSolver d = true -> pass orc rand (dd d) s = pass orc rand d s.
Proof. intros M. destruct d. cbn in M. subst. reflexivity. Qed.
Lemma sparse_loop orc rand d fuel : d_sparseSolver d = true -> forall s, loop fuel orc rand (dd d) s = loop fuel orc rand d s.
Proof. intros M. induction fuel as [|fuel IH]; intros s; cbn [loop]; [reflexivity|]. rewrite (sparse_pass _ _ _ _ M). destruct (pass orc rand d s) as [[s' [r|]]|u]; cbn [bind]; auto. Qed.
Lemma sparse_first orc d s : d_sparseSolver d = true -> first_solve orc (dd d) s = first_solve orc d s.
Proof. intros M. destruct d. cbn in M. subst. reflexivity. Qed.
Lemma redense_and a k : (forall o, d_sparseSolver (pd o) = true -> k (mkLcqp (dd (pd o)) (it o)) = redense_r Q A L R C (k o)) ->
  (forall r o, a = Ok (r, o) -> d_sparseSolver (pd o) = true) -> and_then_quiet (redense_r Q A L R C a) k = redense_r Q A L R C (and_then_quiet a k).
Proof.
  intros Hk Ha. unfold and_then_quiet. destruct a as [[r o]|u]; cbn [redense_r bind]; [|reflexivity]. destruct (is_success r); [|reflexivity]. apply Hk. eapply Ha. reflexivity.
Qed.
Ltac step := match goal with
  | |- redense_r _ _ _ _ _ (if ?b then _ else _) = _ => idtac
  | |- bind ?x _ = redense_r _ _ _ _ _ (bind ?x _) => destruct x as [?v|?u]; cbn [bind]; [|reflexivity]
  | |- (if ?b then _ else _) = redense_r _ _ _ _ _ (if ?b then _ else _) => destruct b; [try reflexivity|try reflexivity]
  end.
Lemma sparse_setLB b o : setLB b (mkLcqp (dd (pd o)) (it o)) = redense_r Q A L R C (setLB b o).
Proof. unfold setLB. destruct o as [d s]. destruct d. cbn. repeat step. reflexivity. Qed.
Lemma sparse_setUB b o : setUB b (mkLcqp (dd (pd o)) (it o)) = redense_r Q A L R C (setUB b o).
Proof. unfold setUB. destruct o as [d s]. destruct d. cbn. repeat step. reflexivity. Qed.
Lemma setLB_mode b o r o' : setLB b o = Ok (r, o') -> d_sparseSolver (pd o') = d_sparseSolver (pd o).
Proof. unfold setLB. intros E. apply bind_ok in E. destruct E as (n & En & E). destruct (n =? 0); [injection E as <- <-; reflexivity|]. apply bind_ok in E. destruct E as (v & Ev & E). injection E as <- <-. reflexivity. Qed.
Lemma setUB_mode b o r o' : setUB b o = Ok (r, o') -> d_sparseSolver (pd o') = d_sparseSolver (pd o).
Proof. unfold setUB. intros E. apply bind_ok in E. destruct E as (n & En & E). destruct (n =? 0); [injection E as <- <-; reflexivity|]. apply bind_ok in E. destruct E as (v & Ev & E). injection E as <- <-. reflexivity. Qed.
Lemma sparse_phi n m d : d_sparseSolver d = true -> init_phi n m (dd d) = bind (init_phi n m d) (fun d => Ok (dd d)).
Proof.
  intros M. unfold init_phi. change (d_lbL (dd d)) with (d_lbL d). change (d_lbR (dd d)) with (d_lbR d). change (d_sparseSolver (dd d)) with (d_sparseSolver d).
  change (d_R_sparse (dd d)) with (d_R_sparse d). change (d_L_sparse (dd d)) with (d_L_sparse d). rewrite M.
  destruct (notNull (d_lbL d) || notNull (d_lbR d)); [|reflexivity].
  do 4 (rewrite bind_assoc; match goal with |- bind ?x _ = bind ?x _ => destruct x; cbn [bind]; [|reflexivity] end).
  rewrite bind_assoc; match goal with |- bind ?x _ = bind ?x _ => destruct x; cbn [bind]; reflexivity end.
Qed.
Lemma sparse_subsolver o : d_sparseSolver (pd o) = true -> init_subsolver (mkLcqp (dd (pd o)) (it o)) = redense_r Q A L R C (init_subsolver o).
Proof.
  intros M. unfold init_subsolver. cbn [pd it].
  change (o_qpSolver (d_options (dd (pd o)))) with (o_qpSolver (d_options (pd o))). change (d_nV (dd (pd o))) with (d_nV (pd o)). change (d_nC (dd (pd o))) with (d_nC (pd o)). change (d_nComp (dd (pd o))) with (d_nComp (pd o)).
  change (d_lb (dd (pd o))) with (d_lb (pd o)). change (d_ub (dd (pd o))) with (d_ub (pd o)).
  assert (QP : forall solver, solver <> OSQP_SPARSE ->
     (let! nV := get (d_nV (pd o)) in let! nC := get (d_nC (pd o)) in let! nComp := get (d_nComp (pd o)) in
      let d := set_d_boxDualOffset (Some nV) (set_d_nDuals (Some (nV + nC + 2 * nComp)) (dd (pd o))) in
      let o := mkLcqp d (it o) in
      if (match solver with QPOASES_DENSE => d_sparseSolver d | _ => negb (d_sparseSolver d) end) then Ok (DENSE_SPARSE_MISSMATCH, o) else
      and_then_quiet (setLB (d_lb_tmp d) o) (fun o =>
      and_then_quiet (setUB (d_ub_tmp (pd o)) o) (fun o =>
      let! sub := match solver with QPOASES_DENSE => Subsolver_dense nV (nC + 2 * nComp) (d_Q (pd o)) (d_A (pd o)) | _ => Subsolver_sparse nV (nC + 2 * nComp) (d_Q_sparse (pd o)) (d_A_sparse (pd o)) solver end in
      Ok (SUCCESSFUL_RETURN, mkLcqp (set_d_subsolver (Some sub) (pd o)) (it o))))) = redense_r Q A L R C
     (let! nV := get (d_nV (pd o)) in let! nC := get (d_nC (pd o)) in let! nComp := get (d_nComp (pd o)) in
      let d := set_d_boxDualOffset (Some nV) (set_d_nDuals (Some (nV + nC + 2 * nComp)) (pd o)) in
      let o := mkLcqp d (it o) in
      if (match solver with QPOASES_DENSE => d_sparseSolver d | _ => negb (d_sparseSolver d) end) then Ok (DENSE_SPARSE_MISSMATCH, o) else
      and_then_quiet (setLB (d_lb_tmp d) o) (fun o =>
      and_then_quiet (setUB (d_ub_tmp (pd o)) o) (fun o =>
      let! sub := match solver with QPOASES_DENSE => Subsolver_dense nV (nC + 2 * nComp) (d_Q (pd o)) (d_A (pd o)) | _ => Subsolver_sparse nV (nC + 2 * nComp) (d_Q_sparse (pd o)) (d_A_sparse (pd o)) solver end in
      Ok (SUCCESSFUL_RETURN, mkLcqp (set_d_subsolver (Some sub) (pd o)) (it o)))))).
  { intros solver NS. do 3 step. cbv zeta.
    set (o1 := mkLcqp (set_d_boxDualOffset (Some v) (set_d_nDuals (Some (v + v0 + 2 * v1)) (pd o))) (it o)).
    change (mkLcqp (set_d_boxDualOffset (Some v) (set_d_nDuals (Some (v + v0 + 2 * v1)) (dd (pd o)))) (it o)) with (mkLcqp (dd (pd o1)) (it o1)).
    change (d_sparseSolver (set_d_boxDualOffset (Some v) (set_d_nDuals (Some (v + v0 + 2 * v1)) (dd (pd o))))) with (d_sparseSolver (pd o)).
    change (d_sparseSolver (set_d_boxDualOffset (Some v) (set_d_nDuals (Some (v + v0 + 2 * v1)) (pd o)))) with (d_sparseSolver (pd o)).
    change (d_lb_tmp (set_d_boxDualOffset (Some v) (set_d_nDuals (Some (v + v0 + 2 * v1)) (dd (pd o))))) with (d_lb_tmp (pd o)).
    change (d_lb_tmp (set_d_boxDualOffset (Some v) (set_d_nDuals (Some (v + v0 + 2 * v1)) (pd o)))) with (d_lb_tmp (pd o)).
    rewrite M. destruct solver; [reflexivity| |congruence]. cbn [negb].
    rewrite sparse_setLB. apply redense_and.
    - intros o2 M2. change (d_ub_tmp (pd {| pd := dd (pd o2); it := it o2 |})) with (d_ub_tmp (pd o2)). rewrite sparse_setUB. apply redense_and.
      + intros o3 M3. cbn [pd it]. change (d_Q_sparse (dd (pd o3))) with (d_Q_sparse (pd o3)). change (d_A_sparse (dd (pd o3))) with (d_A_sparse (pd o3)).
        step. reflexivity.
      + intros r o3 E. rewrite (setUB_mode _ _ _ _ E). exact M2.
    - intros r o2 E. rewrite (setLB_mode _ _ _ _ E). exact M. }
  destruct (o_qpSolver (d_options (pd o))) eqn:ES; [exact (QP QPOASES_DENSE ltac:(discriminate))|exact (QP QPOASES_SPARSE ltac:(discriminate))|].
  step. do 3 step. cbv zeta.
  match goal with |- bind ?x _ = redense_r _ _ _ _ _ (bind ?y _) => change x with y; destruct y as [yk|u]; cbn [bind]; [|reflexivity] end.
  cbn [pd it]. match goal with |- context [negb (d_sparseSolver ?d)] => change (d_sparseSolver d) with (d_sparseSolver (pd o)) end.
  rewrite M. cbn [negb].
  match goal with |- (if ?x then _ else _) = redense_r _ _ _ _ _ (if negb ?b then _ else if ?y then _ else _) => change b with (d_sparseSolver (pd o)); rewrite M; cbn [negb]; change x with y; destruct y; [reflexivity|] end.
  match goal with |- bind ?x _ = redense_r _ _ _ _ _ (bind ?y _) => change x with y; destruct y as [sub|u]; cbn [bind]; reflexivity end.
Qed.
Lemma and_quiet_ok a k r o : and_then_quiet (T := T) a k = Ok (r, o) -> exists r' o', a = Ok (r', o') /\ (k o' = Ok (r, o) \/ (r = r' /\ o = o')).
Proof. unfold and_then_quiet. destruct a as [[r' o']|u]; cbn [bind]; [|discriminate]. intros E. exists r', o'. split; [reflexivity|]. destruct (is_success r'); [auto|]. injection E as <- <-. auto. Qed.
Lemma subsolver_mode o r o' : init_subsolver (T := T) o = Ok (r, o') -> d_sparseSolver (pd o') = d_sparseSolver (pd o).
Proof.
  unfold init_subsolver. intros E.
  assert (QP : forall n nD (k : lcqp T -> res (subsolver T)) r o',
    and_then_quiet (setLB (d_lb_tmp (pd o)) (mkLcqp (set_d_boxDualOffset (Some n) (set_d_nDuals (Some nD) (pd o))) (it o))) (fun o =>
      and_then_quiet (setUB (d_ub_tmp (pd o)) o) (fun o => let! sub := k o in Ok (SUCCESSFUL_RETURN, mkLcqp (set_d_subsolver (Some sub) (pd o)) (it o)))) = Ok (r, o') -> d_sparseSolver (pd o') = d_sparseSolver (pd o)).
  { clear. intros n nD k r o' E. apply and_quiet_ok in E. destruct E as (r1 & o1 & E1 & E). apply setLB_mode in E1. cbn [pd set_d_boxDualOffset set_d_nDuals] in E1. destruct E as [E|(-> & ->)]; [|exact E1].
    apply and_quiet_ok in E. destruct E as (r2 & o2 & E2 & E). apply setUB_mode in E2. destruct E as [E|(-> & ->)]; [|exact (eq_trans E2 E1)].
    apply bind_ok in E. destruct E as (sub & _ & E). injection E as <- <-. exact (eq_trans E2 E1). }
  destruct (o_qpSolver (d_options (pd o))).
  - apply bind_ok in E. destruct E as (nV & _ & E). apply bind_ok in E. destruct E as (nC & _ & E). apply bind_ok in E. destruct E as (nK & _ & E). cbv zeta in E.
    match type of E with (if ?b then _ else _) = _ => set (bb := b) in E end. clearbody bb. destruct bb; [injection E as <- <-; reflexivity|]. exact (QP _ _ (fun o => Subsolver_dense nV (nC + 2 * nK) (d_Q (pd o)) (d_A (pd o))) _ _ E).
  - apply bind_ok in E. destruct E as (nV & _ & E). apply bind_ok in E. destruct E as (nC & _ & E). apply bind_ok in E. destruct E as (nK & _ & E). cbv zeta in E.
    match type of E with (if ?b then _ else _) = _ => set (bb := b) in E end. clearbody bb. destruct bb; [injection E as <- <-; reflexivity|]. exact (QP _ _ (fun o => Subsolver_sparse nV (nC + 2 * nK) (d_Q_sparse (pd o)) (d_A_sparse (pd o)) QPOASES_SPARSE) _ _ E).
  - destruct (_ || _); [injection E as <- <-; reflexivity|].
    apply bind_ok in E. destruct E as (nV & _ & E). apply bind_ok in E. destruct E as (nC & _ & E). apply bind_ok in E. destruct E as (nK & _ & E). cbv zeta in E. apply bind_ok in E. destruct E as (yk & _ & E).
    match type of E with (if ?b then _ else _) = _ => set (bb := b) in E end. clearbody bb. destruct bb; [injection E as <- <-; reflexivity|]. destruct (_ || _); [injection E as <- <-; reflexivity|]. apply bind_ok in E. destruct E as (sub & _ & E). injection E as <- <-. reflexivity.
Qed.
Lemma phi_mode n m d d' : init_phi (T := T) n m d = Ok d' -> d_sparseSolver d' = d_sparseSolver d.
Proof.
  unfold init_phi. intros E. destruct (_ || _); [|injection E as <-; reflexivity]. do 5 (apply bind_ok in E; destruct E as (? & _ & E)). injection E as <-. reflexivity.
Qed.
Lemma init_mode o r o' : initializeSolver (T := T) o = Ok (r, o') -> d_sparseSolver (pd o') = d_sparseSolver (pd o).
Proof.
  unfold initializeSolver. intros E. apply and_quiet_ok in E. destruct E as (r1 & o1 & E1 & E). apply subsolver_mode in E1. destruct E as [E|(-> & ->)]; [|exact E1].
  do 4 (apply bind_ok in E; destruct E as (? & _ & E)). apply bind_ok in E; destruct E as (d & Ed & E). apply phi_mode in Ed. cbv zeta in E. injection E as <- <-.
  exact (eq_trans Ed E1).
Qed.
Lemma sparse_init o : d_sparseSolver (pd o) = true -> initializeSolver (mkLcqp (dd (pd o)) (it o)) = redense_r Q A L R C (initializeSolver o).
Proof.
  intros M. unfold initializeSolver. rewrite (sparse_subsolver _ M). apply redense_and.
  - intros o1 M1. cbn [pd it]. change (d_nV (dd (pd o1))) with (d_nV (pd o1)). change (d_nComp (dd (pd o1))) with (d_nComp (pd o1)). change (d_g (dd (pd o1))) with (d_g (pd o1)).
    do 4 step. rewrite (sparse_phi _ _ _ M1). rewrite bind_assoc. step. reflexivity.
  - intros r o1 E. rewrite (subsolver_mode _ _ _ E). exact M.
Qed.
Lemma sparse_run orc rand o : d_sparseSolver (pd o) = true -> runSolver orc rand (mkLcqp (dd (pd o)) (it o)) = redense_r Q A L R C (runSolver orc rand o).
Proof.
  intros M. unfold runSolver, runSolver_fuel. rewrite (sparse_init _ M). change (d_options (pd {| pd := dd (pd o); it := it o |})) with (d_options (pd o)).
  destruct (initializeSolver o) as [[r o1]|u] eqn:E; cbn [redense_r bind]; [|reflexivity]. apply init_mode in E. destruct (negb (is_success r)); [reflexivity|].
  cbn [pd it]. change (redense Q A L R C) with dd. rewrite sparse_first by exact (eq_trans E M). destruct (first_solve orc (pd o1) (it o1)) as [[s [r1|]]|u]; cbn [bind]; [reflexivity| |reflexivity].
  rewrite sparse_loop by exact (eq_trans E M). destruct (loop _ orc rand (pd o1) s) as [[r2 s2]|u]; reflexivity.
Qed.
End Redense.
Lemma redense_outcome Q A L R C a : same_outcome a (redense_r Q A L R C a).
Proof. destruct a as [[r o]|u]; cbn [redense_r same_outcome]; [|reflexivity]. repeat match goal with |- _ /\ _ => split end; reflexivity. Qed.
Lemma failed_run (o : lcqp T) r o' : switchToDenseMode o = Ok (r, o') -> r <> SUCCESSFUL_RETURN -> r = FAILED_SWITCH_TO_DENSE /\
  forall orc rand, same_outcome (runSolver orc rand o) (runSolver orc rand o').
Proof.
  intros E N. destruct (switch_failed o r o' E N) as (-> & M & Q & A & L & R & C & ->). split; [reflexivity|]. intros orc rand.
  change (mkLcqp (set_d_C C (set_d_R R (set_d_L L (set_d_A A (set_d_Q Q (pd o)))))) (it o)) with (mkLcqp (redense Q A L R C (pd o)) (it o)).
  rewrite (sparse_run _ _ _ _ _ _ _ _ M). apply redense_outcome.
Qed.
Lemma switch_sparse_ok (o : lcqp T) r o' : switchToSparseMode o = Ok (r, o') -> r = SUCCESSFUL_RETURN /\ it o' = it o /\ d_sparseSolver (pd o') = true.
Proof.
  unfold switchToSparseMode. intros E. destruct (d_sparseSolver (pd o)) eqn:M. { injection E as <- <-. auto. }
  repeat (apply bind_ok in E; destruct E as (? & ? & E)). injection E as <- <-. auto.
Qed.
End Any.

(** ** The property lemmas for loaded objects *)
Lemma c53_loaded d opt o0 r o : wf_dense (to_dense d) -> new_object (to_vec (qd_v d)) opt = Ok o0 -> load_dense (to_dense d) o0 = Ok (r, o) ->
  exists o1, switchToSparseMode o = Ok (SUCCESSFUL_RETURN, o1) /\ d_sparseSolver (pd o1) = true /\ switchToDenseMode o1 = Ok (SUCCESSFUL_RETURN, o).
Proof.
  intros W E0 E. pose proof (wu_v _ W) as V. rewrite (new_object_ok _ _ V) in E0. injection E0 as <-.
  rewrite load_dense_ok in E; [|auto|apply fresh_dims|apply fin_lower_q]. injection E as <- <-. apply round_obj; auto.
Qed.
Lemma c53_formats d s opt o0 r r' od os : wf_dense (to_dense d) -> wf_sparse (to_sparse s) -> same_problem d s -> no_tiny (sparse_data s) ->
  (exists i j, 0 <= i < qv_nV (qs_v s) /\ 0 <= j < qv_nV (qs_v s) /\ e_C (sparse_data s) i j <> 0%Qc) ->
  new_object (to_vec (qd_v d)) opt = Ok o0 -> load_dense (to_dense d) o0 = Ok (r, od) -> load_sparse (to_sparse s) o0 = Ok (r', os) ->
  switchToDenseMode os = Ok (SUCCESSFUL_RETURN, od) /\ (stores_no_zeros s -> switchToSparseMode od = Ok (SUCCESSFUL_RETURN, os)).
Proof.
  intros Wd Ws SP NT NC E0 Ed Es. pose proof (wu_v _ Wd) as V. rewrite (new_object_ok _ _ V) in E0. injection E0 as <-.
  pose proof (sparse_nonzero s Ws NT NC) as NZ.
  rewrite load_dense_ok in Ed; [|auto|apply fresh_dims|apply fin_lower_q]. injection Ed as <- <-.
  assert (EV : qd_v d = qs_v s) by apply SP. rewrite load_sparse_ok in Es; [|auto|cbn [to_dense to_sparse ud_v us_v]; rewrite <- EV; apply fresh_dims|apply fin_lower_q|auto]. injection Es as <- <-.
  split; [|intros (Z1 & Z2 & Z3 & Z4)]; [eapply sparse_to_dense; eauto|eapply dense_to_sparse; eauto].
Qed.
