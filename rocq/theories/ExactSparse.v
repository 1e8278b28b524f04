(** * ExactSparse: sparse rational data as operations of the list-level loop (no LCQPow code). *)
From Coq Require Import QArith Qcanon.
From Verif Require Import Base Arith Codes Utilities Options Stats FileIO Subsolver State LCQProblem Tactics Loops Kernels Exact SpecSparse CscKernels CscBuild CscMerge SpecMath QSum
  KernelProps2 Pure PureFacts SpecLoad LoadSparse SpecExact SpecRun SpecTrace StartDense StartSparse ExactOps ExactDense.
Open Scope Z_scope.

(** ** Merged columns with finite values *)
Definition ftag (t : @tag Qc) : @tag xq := (fst t, (option_map Fin (fst (snd t)), option_map Fin (snd (snd t)))).
(** Value of a merged entry of Q + r C. *)
Definition qtval (r : Qc) (t : @tag Qc) : Qc :=
  (match fst (snd t) with Some a => a | None => 0 end + match snd (snd t) with Some b => r * b | None => 0 end)%Qc.

Lemma mtag_fin q c : mtag (fincol q) (fincol c) = map ftag (mtag q c).
Proof.
  remember (length q + length c)%nat as N eqn:EN. revert q c EN. induction N as [N IH] using lt_wf_ind. intros q c EN.
  rewrite (mtag_eq q c), (mtag_eq (fincol q)). destruct q as [|e q], c as [|f c]; cbn [fincol map].
  - reflexivity.
  - apply (f_equal2 cons); [reflexivity|]. change (map (fun e => (fst e, Fin (snd e))) c) with (fincol c). change [] with (fincol []) at 1. eapply IH; [|reflexivity]. subst N. cbn. lia.
  - apply (f_equal2 cons); [reflexivity|]. change (map (fun e => (fst e, Fin (snd e))) q) with (fincol q). change [] with (fincol []) at 1. eapply IH; [|reflexivity]. subst N. cbn. lia.
  - cbn [fst snd]. change (map (fun e => (fst e, Fin (snd e))) c) with (fincol c). change (map (fun e => (fst e, Fin (snd e))) q) with (fincol q).
    change ((fst e, Fin (snd e)) :: fincol q) with (fincol (e :: q)). change ((fst f, Fin (snd f)) :: fincol c) with (fincol (f :: c)).
    destruct (fst e <? fst f); [|destruct (fst f <? fst e)]; cbn [map]; (apply (f_equal2 cons); [reflexivity|]); (eapply IH; [|reflexivity]; subst N; cbn; lia).
Qed.

Lemma mtag_col r q c i : qcol (map (fun t => (fst t, qtval r t)) (mtag q c)) i = (qcol q i + r * qcol c i)%Qc.
Proof.
  remember (length q + length c)%nat as N eqn:EN. revert q c EN. induction N as [N IH] using lt_wf_ind. intros q c EN.
  assert (I : forall q' c', (length q' + length c' < N)%nat -> qcol (map (fun t => (fst t, qtval r t)) (mtag q' c')) i = (qcol q' i + r * qcol c' i)%Qc)
    by (intros; eapply IH; eauto).
  rewrite mtag_eq. destruct q as [|e q], c as [|f c]; cbn [map].
  - rewrite qcol_nil. ring.
  - rewrite !qcol_cons, I by (subst N; cbn; lia). cbn [fst snd qtval]. unfold qtval. cbn [fst snd]. rewrite qcol_nil. destruct (fst f =? i); ring.
  - rewrite !qcol_cons, I by (subst N; cbn; lia). cbn [fst snd qtval]. unfold qtval. cbn [fst snd]. rewrite qcol_nil. destruct (fst e =? i); ring.
  - destruct (Z.ltb_spec (fst e) (fst f)); [|destruct (Z.ltb_spec (fst f) (fst e))]; cbn [map]; rewrite !qcol_cons, I by (subst N; cbn; lia); unfold qtval; cbn [fst snd]; rewrite ?qcol_cons.
    + destruct (fst e =? i); ring.
    + destruct (fst f =? i); ring.
    + replace (fst f) with (fst e) by lia. destruct (fst e =? i); ring.
Qed.

Lemma tval_fin r t : tval (Fin r) (ftag t) = match snd t with (None, None) => Fin 0 | _ => Fin (qtval r t) end.
Proof.
  destruct t as [i [[a|] [b|]]]; unfold tval, ftag, qtval; cbn [fst snd option_map]; rewrite ?fin_mul, ?fin_add; try reflexivity; f_equal; ring.
Qed.
Lemma tval_fin' r t : tval (Fin r) (ftag t) = Fin (qtval r t).
Proof. rewrite tval_fin. destruct t as [i [[a|] [b|]]]; try reflexivity. Qed.

Section Sparse.
Variable u : qsparse.
Let v := qs_v u.
Let n := qv_nV v.
Let m := qv_nComp v.
Let e := sparse_data u.
Hypothesis W : wf_sparse (to_sparse u).
Hypothesis P : paired (to_vec v).
Hypothesis Sy : e_symmetric e.
Hypothesis NT : no_tiny e.
Variable opt : options xq.
Let p := sparse_ops (to_sparse u) opt.

Let Wv : wf_vec (to_vec v) := ws_v _ W.
Let Hn : 0 < n := wv_nV _ Wv.
Let Hm : 0 < m := wv_nComp _ Wv.
Let HC : 0 <= qv_nC v := wv_nC _ Wv.

Lemma wf_fincols k l cols : wf_cols k l (fincols cols) -> len cols = l /\ (forall c x, In c cols -> In x c -> 0 <= fst x < k) /\ (forall c, In c cols -> sorted c).
Proof.
  intros (E1 & E2 & E3). rewrite len_fincols in E1. split; [auto|]. split.
  - intros c [r x] Hc Hx. cbn. apply (E2 (fincol c) r (Fin x)).
    + apply in_map. auto.
    + change (r, Fin x) with ((fun y : Z * Qc => (fst y, Fin (snd y))) (r, x)). apply in_map. auto.
  - intros c Hc. assert (S0 : sorted (fincol c)) by (apply E3, in_map; auto). clear - S0. induction c as [|a c IH]; [exact I|]. destruct S0 as [S1 S2]. split; [|auto].
    intros b Hb. apply (S1 (fst b, Fin (snd b))). change (fst b, Fin (snd b)) with ((fun y : Z * Qc => (fst y, Fin (snd y))) b). apply in_map. auto.
Qed.
Let WQ := wf_fincols _ _ _ (ws_Q _ W).
Let WL := wf_fincols _ _ _ (ws_L _ W).
Let WR := wf_fincols _ _ _ (ws_R _ W).

(** Columns of A over rationals. *)
Definition qs_Acols : list (list (Z * Qc)) := match qs_A u with Some c => c | None => tab n (fun _ => []) end.
Lemma Acols_fin : us_Acols (to_sparse u) = fincols qs_Acols.
Proof. unfold us_Acols, qs_Acols. cbn [to_sparse us_A us_v to_vec u_nV]. fold v. fold n. destruct (qs_A u); cbn [option_map]; [reflexivity|]. unfold fincols. rewrite map_tab. reflexivity. Qed.
Let WA : len qs_Acols = n /\ (forall c x, In c qs_Acols -> In x c -> 0 <= fst x < qv_nC v) /\ (forall c, In c qs_Acols -> sorted c).
Proof. apply wf_fincols. rewrite <- Acols_fin. exact (ws_A _ W). Qed.

(** C by columns. No LCQPow code. *)
Definition sp_C : list (list (Z * Qc)) := qsymm_cols (qs_L u) (qs_R u) m n.
Lemma sparse_C_fin : us_C (to_sparse u) = fincols sp_C.
Proof.
  unfold us_C. cbn [to_sparse us_L us_R us_v to_vec u_nV]. destruct WL as (L1 & L2 & L3). destruct WR as (R1 & R2 & R3).
  apply symm_cols_fin; auto.
Qed.
Lemma sparse_C_ent i j : 0 <= i < n -> 0 <= j < n -> qentry sp_C i j = e_C e i j.
Proof.
  intros Hi Hj. unfold sp_C, qsymm_cols, qentry. rewrite at_tab by auto. rewrite qcol_selcol by auto.
  change (qsym_csc (qs_L u) (qs_R u) m i j) with (e_C e i j). destruct (tinyb (e_C e i j)) eqn:E; [|reflexivity].
  apply tinyb_spec in E. destruct E as [E1 E2]. destruct (NT i j Hi Hj) as [E|[E|E]]; [auto| |]; exfalso; eapply Qclt_not_le; eauto.
Qed.
Lemma sp_C_rows c x : In c sp_C -> In x c -> 0 <= fst x < n.
Proof.
  intros Hc Hx. apply (symm_cols_rows (fincols (qs_L u)) (fincols (qs_R u)) n (fincol c) (fst x) (Fin (snd x))).
  - assert (E := sparse_C_fin). unfold us_C in E. cbn [to_sparse us_L us_R us_v to_vec u_nV] in E. fold v in E. fold n in E. rewrite E. apply in_map. auto.
  - change (fst x, Fin (snd x)) with ((fun y : Z * Qc => (fst y, Fin (snd y))) x). apply in_map. auto.
Qed.
Lemma len_sp_C : len sp_C = n. Proof. apply len_tab. lia. Qed.

(** Merged columns over rationals. *)
Definition sp_tags : list (list (@tag Qc)) := mtags (qs_Q u) sp_C n.
Lemma sparse_tags_fin : us_tags (to_sparse u) = map (map ftag) sp_tags.
Proof.
  unfold us_tags, sp_tags, mtags. rewrite sparse_C_fin. cbn [to_sparse us_Q us_v to_vec u_nV]. rewrite map_tab. apply tab_ext. intros j Hj.
  rewrite !col_fincols. apply mtag_fin.
Qed.
(** Q + r C by columns. No LCQPow code. *)
Definition sp_H (r : Qc) : list (list (Z * Qc)) := map (map (fun t => (fst t, qtval r t))) sp_tags.
(** The values [h] are those of Q + r C. *)
Definition sparse_EH (h : @tag xq -> xq) (r : Qc) : Prop := forall t, h (ftag t) = Fin (qtval r t).
Lemma sparse_H_fin h r : sparse_EH h r -> vcols h (us_tags (to_sparse u)) = fincols (sp_H r).
Proof.
  intros E. rewrite sparse_tags_fin. unfold vcols, sp_H, fincols. rewrite !map_map. apply map_ext. intros c. unfold fincol. rewrite !map_map. apply map_ext. intros t.
  rewrite E. reflexivity.
Qed.
Lemma sparse_H_ent r i j : 0 <= i < n -> 0 <= j < n -> qentry (sp_H r) i j = e_H e r i j.
Proof.
  intros Hi Hj. unfold sp_H, sp_tags, mtags, qentry. rewrite map_tab, at_tab by auto. rewrite mtag_col. unfold e_H. rewrite <- sparse_C_ent by auto. reflexivity.
Qed.
Lemma len_sp_H r : len (sp_H r) = n. Proof. unfold sp_H, sp_tags, mtags. rewrite len_map. apply len_tab. lia. Qed.
Lemma sp_H_rows r c x : In c (sp_H r) -> In x c -> 0 <= fst x < n.
Proof.
  intros Hc Hx. unfold sp_H, sp_tags, mtags in Hc. rewrite map_tab in Hc. apply in_tab in Hc. destruct Hc as (j & Hj & ->).
  apply in_map_iff in Hx. destruct Hx as (t & <- & Ht). cbn. apply mtag_rows in Ht. destruct Ht as (y & [Hy|Hy]).
  - destruct WQ as (Q1 & Q2 & _). apply (Q2 (col (qs_Q u) j) (fst t, y)); auto. apply col_in. rewrite Q1. auto.
  - apply (sp_C_rows (col sp_C j) (fst t, y)); auto. apply col_in. rewrite len_sp_C. auto.
Qed.

(** Stacked columns over rationals. *)
Definition sp_ALR : list (list (Z * Qc)) := stack_cols (qv_nC v) m n qs_Acols (qs_L u) (qs_R u).
Lemma sparse_ALR_fin : us_ALR (to_sparse u) = fincols sp_ALR.
Proof.
  unfold us_ALR, sp_ALR, stack_cols. rewrite Acols_fin. cbn [to_sparse us_L us_R us_v to_vec u_nV u_nC u_nComp]. unfold fincols at 4. rewrite map_tab.
  apply tab_ext. intros j Hj. rewrite !col_fincols. unfold fincol, shift_col. rewrite !map_app, !map_map. reflexivity.
Qed.
Lemma qcol_shift k c i : qcol (shift_col k c) i = qcol c (i - k).
Proof.
  unfold shift_col. induction c as [|x c IH]; [reflexivity|]. cbn [map]. rewrite !qcol_cons, IH. cbn [fst snd].
  destruct (Z.eqb_spec (k + fst x) i), (Z.eqb_spec (fst x) (i - k)); try lia; reflexivity.
Qed.
Lemma qcol_out c k i : (forall x, In x c -> 0 <= fst x < k) -> ~ (0 <= i < k) -> qcol c i = 0%Qc.
Proof. intros R Ho. apply qcol_none. intros x Hx Ex. apply Ho. rewrite <- Ex. auto. Qed.
Lemma sparse_rows i j : 0 <= i < e_nA e -> 0 <= j < n -> qentry sp_ALR i j = e_rows e i j.
Proof.
  intros Hi Hj. unfold sp_ALR, stack_cols, qentry. rewrite at_tab by auto. rewrite !qcol_app, !qcol_shift.
  destruct WL as (L1 & L2 & _). destruct WR as (R1 & R2 & _). destruct WA as (A1 & A2 & _).
  assert (RL : forall x, In x (col (qs_L u) j) -> 0 <= fst x < m) by (intros; apply (L2 (col (qs_L u) j)); auto; apply col_in; rewrite L1; auto).
  assert (RR : forall x, In x (col (qs_R u) j) -> 0 <= fst x < m) by (intros; apply (R2 (col (qs_R u) j)); auto; apply col_in; rewrite R1; auto).
  assert (RA : forall x, In x (col qs_Acols j) -> 0 <= fst x < qv_nC v) by (intros; apply (A2 (col qs_Acols j)); auto; apply col_in; rewrite A1; auto).
  unfold e_rows. cbn [e sparse_data e_nC e_nComp e_A e_L e_R]. fold v. fold m.
  destruct (Z.ltb_spec i (qv_nC v)).
  - rewrite (qcol_out (col (qs_L u) j) m) by (auto; lia). rewrite (qcol_out (col (qs_R u) j) m) by (auto; pose proof Hm; lia).
    unfold qs_Acols. destruct (qs_A u); [unfold qentry, col; ring|]. unfold col. rewrite at_tab by auto. rewrite qcol_nil. ring.
  - rewrite (qcol_out (col qs_Acols j) (qv_nC v)) by (auto; lia). destruct (Z.ltb_spec i (qv_nC v + m)).
    + rewrite (qcol_out (col (qs_R u) j) m) by (auto; lia). unfold qentry, col. ring.
    + rewrite (qcol_out (col (qs_L u) j) m) by (auto; lia). replace (i - (qv_nC v + m)) with (i - qv_nC v - m) by lia. unfold qentry, col. ring.
Qed.
Lemma len_sp_ALR : len sp_ALR = n. Proof. apply len_tab. lia. Qed.
Lemma sp_ALR_rows c x : In c sp_ALR -> In x c -> 0 <= fst x < e_nA e.
Proof.
  intros Hc Hx. unfold sp_ALR, stack_cols in Hc. apply in_tab in Hc. destruct Hc as (j & Hj & ->). unfold e_nA. cbn [e sparse_data e_nC e_nComp]. fold v. fold m.
  destruct WL as (L1 & L2 & _). destruct WR as (R1 & R2 & _). destruct WA as (A1 & A2 & _). pose proof Hm. pose proof HC.
  apply in_app_or in Hx. destruct Hx as [Hx|Hx]; [|apply in_app_or in Hx; destruct Hx as [Hx|Hx]].
  - pose proof (A2 (col qs_Acols j) x ltac:(apply col_in; rewrite A1; auto) Hx). lia.
  - apply in_map_iff in Hx. destruct Hx as (y & <- & Hy). pose proof (L2 (col (qs_L u) j) y ltac:(apply col_in; rewrite L1; auto) Hy) as B.
    change (0 <= fst y < m) in B. cbn [fst]. lia.
  - apply in_map_iff in Hx. destruct Hx as (y & <- & Hy). pose proof (R2 (col (qs_R u) j) y ltac:(apply col_in; rewrite R1; auto) Hy) as B.
    change (0 <= fst y < m) in B. cbn [fst]. lia.
Qed.

(** The sparse kernels compute with the transpose *)
Lemma affine_csc_fin r cols x c : len cols = n -> (forall l y, In l cols -> In y l -> 0 <= fst y < n) ->
  affine_csc (Fin r) (fincols cols) (fins x) (fins c) n = fins (tab n (fun j => r * qsum n (fun i => qentry cols i j * qat x i) + qat c j)%Qc).
Proof.
  intros Hl Hr. unfold affine_csc. rewrite <- tab_fins. apply tab_ext. intros j Hj. rewrite col_fincols.
  rewrite (colsum_fin _ _ n) by (intros; eapply Hr; eauto; apply col_in; lia). change (@a_zero xq _) with (Fin 0). rewrite at_fins, fin_mul, fin_add. reflexivity.
Qed.
Lemma quad_csc_fin cols x : len cols = n -> (forall l y, In l cols -> In y l -> 0 <= fst y < n) ->
  quad_csc (fincols cols) (fins x) n = Fin (qform (qentry cols) n x).
Proof.
  intros Hl Hr. unfold quad_csc. rewrite (fsum_fin n _ (fun j => qat x j * qsum n (fun i => qentry cols i j * qat x i))%Qc).
  2: { intros j Hj. rewrite col_fincols. rewrite (colsum_fin _ _ n) by (intros; eapply Hr; eauto; apply col_in; lia).
       change (@a_zero xq _) with (Fin 0). rewrite at_fins, fin_mul. reflexivity. }
  f_equal. unfold qform, mv.
  rewrite (qsum_ext n _ (fun j => qsum n (fun i => qat x i * (qentry cols i j * qat x j)))%Qc).
  2: { intros j Hj. rewrite <- qsum_scale. apply qsum_ext. intros. ring. }
  rewrite qsum_swap. apply qsum_ext. intros i Hi. rewrite qsum_scale. reflexivity.
Qed.
Lemma tmul_csc_fin cols k y : len cols = n -> (forall l x, In l cols -> In x l -> 0 <= fst x < k) ->
  tmul_csc (fincols cols) (fins y) n = fins (tab n (fun j => tv (qentry cols) k y j)).
Proof.
  intros Hl Hr. unfold tmul_csc. rewrite <- tab_fins. apply tab_ext. intros j Hj. rewrite col_fincols.
  change (@a_zero xq _) with (Fin 0). rewrite (tcolsum_fin _ _ _ k) by (intros; eapply Hr; eauto; apply col_in; lia). f_equal. rewrite Qcplus_0_l. reflexivity.
Qed.
Lemma addtmul_csc_fin cols k y c : len cols = n -> (forall l x, In l cols -> In x l -> 0 <= fst x < k) ->
  addtmul_csc (fincols cols) (fins y) (fins c) n = fins (tab n (fun j => qat c j + tv (qentry cols) k y j)%Qc).
Proof.
  intros Hl Hr. unfold addtmul_csc. rewrite <- tab_fins. apply tab_ext. intros j Hj. rewrite col_fincols.
  change (@a_zero xq _) with (Fin 0). rewrite at_fins. rewrite (tcolsum_fin _ _ _ k) by (intros; eapply Hr; eauto; apply col_in; lia). reflexivity.
Qed.
Lemma mul_csc_fin cols k x : mul_csc (fincols cols) (fins x) k n = fins (tab k (mv (qentry cols) n x)).
Proof. unfold mul_csc. rewrite <- tab_fins. apply tab_ext. intros i Hi. apply rowsum_fin. Qed.

Lemma sparse_gphi_fin : match sparse_gphi (to_sparse u) with
  | None => (forall k, lo (qv_lbL v) k = 0%Qc) /\ (forall k, lo (qv_lbR v) k = 0%Qc) /\ u_pc (to_vec v) = Fin 0
  | Some l => l = fins (tab n (e_gphi e)) /\ u_pc (to_vec v) = Fin (qsum m (fun k => lo (qv_lbL v) k * lo (qv_lbR v) k)%Qc)
  end.
Proof.
  unfold sparse_gphi, u_pc. destruct P as [P1 P2]. cbn [to_sparse us_v]. fold v. cbn [to_vec u_lbL u_lbR] in *.
  destruct (qv_lbL v) as [l|] eqn:EL, (qv_lbR v) as [r|] eqn:ER; cbn [option_map] in *.
  - split.
    + cbn [to_vec u_nV u_nComp us_L us_R to_sparse]. fold v. fold n. fold m. change (@a_zero xq _) with (Fin 0). rewrite (tab_fins n (fun _ => 0%Qc)).
      destruct WL as (L1 & L2 & _). destruct WR as (R1 & R2 & _).
      rewrite (addtmul_csc_fin _ m), (addtmul_csc_fin _ m), <- (tab_fins n (e_gphi e)) by auto. apply tab_ext. intros i Hi. rewrite at_fins, fin_neg, qat_tab by auto. f_equal.
      rewrite qat_tab, qat_tab by auto. unfold e_gphi, tv, e. cbn [sparse_data e_nComp e_L e_R e_lbL e_lbR]. fold v. rewrite EL, ER. fold m n. cbn [lo]. ring.
    + cbn [to_vec u_nComp]. fold m. apply fsum_fin. intros i Hi. change (@a_zero xq _) with (Fin 0). rewrite !at_fins. reflexivity.
  - exfalso. discriminate (P2 eq_refl).
  - exfalso. discriminate (P1 eq_refl).
  - cbn. auto.
Qed.

Lemma sparse_exops : exops p e sparse_EH.
Proof.
  pose proof sparse_gphi_fin as G. pose proof Hn as Hn'. pose proof Hm as Hm'.
  constructor; cbn [p sparse_ops p_opt p_nV p_nC p_nComp p_off p_box p_g p_gphi p_pc p_setH p_updH p_affH p_quadH p_affC p_quadC p_quadQ p_tA p_mulL p_mulR]; auto.
  - apply Z.lt_le_incl. exact Hm.
  - pose proof (wv_g _ Wv) as E. cbn in E. rewrite len_fins in E. exact E.
  - destruct (osqp opt); [reflexivity|]. symmetry. apply Z.ltb_lt. exact Hn.
  - destruct (osqp opt); auto.
  - destruct (sparse_gphi (to_sparse u)); [apply G|]. intros i Hi. unfold e_gphi. destruct G as (G1 & G2 & _).
    cbn [e sparse_data e_lbL e_lbR]. fold v.
    rewrite (qsum_ext _ _ (fun _ => 0%Qc)), (qsum_ext _ (fun k => _ * lo (qv_lbR v) k)%Qc (fun _ => 0%Qc)), qsum_zero; [ring| |]; intros k _; rewrite ?G1, ?G2; ring.
  - intros x Lx. rewrite sparse_C_fin. change (u_nV (us_v (to_sparse u))) with n. rewrite quad_csc_fin by (auto using len_sp_C; apply sp_C_rows). rewrite fin_half. rewrite <- phi_fn.
    cbn [e sparse_data e_nComp e_lbL e_lbR e_nV]. fold v. fold n. fold m.
    assert (EQ : qform (qentry sp_C) n x = qform (e_C e) n x) by (apply qform_ext; intros; apply sparse_C_ent; auto). rewrite EQ.
    change (us_v (to_sparse u)) with (to_vec v).
    destruct (sparse_gphi (to_sparse u)) as [l|].
    + destruct G as (-> & ->). rewrite dot_fin. change (@a_zero xq _) with (Fin 0). rewrite !fin_add. do 3 f_equal.
      rewrite Qcplus_0_l. unfold qdot. apply qsum_ext. intros i Hi. rewrite qat_tab by auto. reflexivity.
    + destruct G as (G1 & G2 & ->). change (@a_zero xq _) with (Fin 0). rewrite !fin_add. do 3 f_equal.
      * rewrite (qsum_ext m _ (fun _ => 0%Qc)), qsum_zero; [reflexivity|]. intros k _. rewrite G1. ring.
      * rewrite (qsum_ext n _ (fun _ => 0%Qc)), qsum_zero; [reflexivity|]. intros j Hj. unfold e_gphi. cbn [e sparse_data e_lbL e_lbR]. fold v.
        rewrite (qsum_ext _ (fun k => _ * lo (qv_lbL v) k)%Qc (fun _ => 0%Qc)), (qsum_ext _ (fun k => _ * lo (qv_lbR v) k)%Qc (fun _ => 0%Qc)), qsum_zero; [ring| |]; intros k _; rewrite ?G1, ?G2; ring.
  - intros r t. apply tval_fin'.
  - intros h r f Ef Hf E t. unfold bump. rewrite E, Ef. change (@a_one xq _) with (Fin 1). destruct t as [i [a [b|]]]; unfold ftag; cbn [fst snd option_map].
    + rewrite fin_div, fin_sub, !fin_mul, fin_add by auto. f_equal. unfold qtval. cbn [fst snd]. field. auto.
    + unfold qtval. cbn [fst snd]. reflexivity.
  - intros h r x c E Lx Lc. rewrite (sparse_H_fin h r E). change (u_nV (us_v (to_sparse u))) with n. change (@a_one xq _) with (Fin 1).
    rewrite affine_csc_fin by (auto using len_sp_H; apply sp_H_rows). f_equal. apply tab_ext. intros j Hj. rewrite Qcmult_1_l. f_equal. unfold mv.
    apply qsum_ext. intros i Hi. f_equal. rewrite sparse_H_ent by auto. unfold e_H. rewrite (Sy i j), (e_C_sym e i j) by auto. reflexivity.
  - intros h r x E Lx. rewrite (sparse_H_fin h r E). change (u_nV (us_v (to_sparse u))) with n. rewrite quad_csc_fin by (auto using len_sp_H; apply sp_H_rows).
    f_equal. apply qform_ext. intros; apply sparse_H_ent; auto.
  - intros r x c Lx Lc. rewrite sparse_C_fin. change (u_nV (us_v (to_sparse u))) with n. rewrite affine_csc_fin by (auto using len_sp_C; apply sp_C_rows).
    f_equal. apply tab_ext. intros j Hj. do 2 f_equal. unfold mv. apply qsum_ext. intros i Hi. f_equal. rewrite sparse_C_ent by auto. apply e_C_sym.
  - intros x Lx. destruct WQ as (Q1 & Q2 & _). cbn [to_sparse us_Q us_v to_vec u_nV]. fold v. fold n. apply quad_csc_fin; auto.
  - intros y Ly. rewrite sparse_ALR_fin. change (u_nV (us_v (to_sparse u))) with n. rewrite (tmul_csc_fin _ (e_nA e)) by (auto using len_sp_ALR; apply sp_ALR_rows).
    f_equal. apply tab_ext. intros j Hj. apply tv_ext. intros i Hi. apply sparse_rows; auto.
  - intros x Lx. apply mul_csc_fin.
  - intros x Lx. apply mul_csc_fin.
Qed.
End Sparse.
