(** * Columns: the list-level loop does not see the order of variables (no LCQPow code). *)
From Coq Require Import Permutation QArith Qcanon.
From Verif Require Import Base Arith Codes Utilities Options Stats FileIO Subsolver State LCQProblem Tactics Loops Kernels
  Pure PureFacts SpecLoad SpecRenumber SpecColumns Refine CscBuild.
Open Scope Z_scope.

Section Lists.
Context {T : Type} `{Arith T}.
Variables (n : Z) (f : Z -> Z).
Hypothesis (Hn : 0 <= n) (Hf : permutes n f).
Lemma moved_tab (g g' : Z -> T) : (forall i, 0 <= i < n -> g' i = g (f i)) -> moved n f (tab n g) (tab n g').
Proof.
  intros E. split; [apply len_tab; auto|]. split; [apply len_tab; auto|]. intros i Hi. pose proof (proj1 Hf i Hi). rewrite !at_tab by auto. auto.
Qed.
Lemma moved_wadd (a c : T) x x' y y' : moved n f x x' -> moved n f y y' -> moved n f (wadd a x c y n) (wadd a x' c y' n).
Proof. intros (_ & _ & X) (_ & _ & Y). apply moved_tab. intros i Hi. rewrite X, Y by auto. reflexivity. Qed.
Lemma moved_const (z : T) : moved n f (tab n (fun _ => z)) (tab n (fun _ => z)).
Proof. apply moved_tab. reflexivity. Qed.
End Lists.

Section Columns.
Context {T : Type} `{Arith T} {K K' : Type}.
Variables (p : ops T K) (p' : ops T K') (f : Z -> Z) (KP : K -> K' -> Prop) (rand rand' : nat -> Z).
Let n := p_nV p.
Let b := p_off p.
Let nC := p_nC p.
Let m := p_nComp p.
Let N := nC + 2 * m.
Hypothesis (Hn : 0 <= p_nV p) (Hb : p_off p = p_nV p \/ p_off p = 0) (Ho : p_box p = true -> p_off p = p_nV p) (Hc : 0 <= p_nC p) (Hm : 0 <= p_nComp p).
Hypothesis (Hf : permutes n f).
Hypothesis (Eopt : p_opt p' = p_opt p) (Esol : p_solver p' = p_solver p) (EnV : p_nV p' = p_nV p) (EnC : p_nC p' = p_nC p) (Em : p_nComp p' = p_nComp p).
Hypothesis (Eoff : p_off p' = p_off p) (Ebox : p_box p' = p_box p) (Epc : p_pc p' = p_pc p) (Elb : p_lbA p' = p_lbA p) (Eub : p_ubA p' = p_ubA p).
Hypothesis (Hg : moved n f (p_g p) (p_g p')) (Hgphi : moved_opt n f (p_gphi p) (p_gphi p')).
Hypothesis (Hlb : moved_opt n f (p_lb p) (p_lb p')) (Hub : moved_opt n f (p_ub p) (p_ub p')).
Hypothesis (HmH : moved_both n f (p_matH p) (p_matH p')) (HmA : moved_cols N n f (p_matA p) (p_matA p')).
Hypothesis (HsetH : forall r, KP (p_setH p r) (p_setH p' r)) (HupdH : forall r h h', KP h h' -> KP (p_updH p r h) (p_updH p' r h')).
Hypothesis (HaffH : forall h h' x x' c c', KP h h' -> moved n f x x' -> moved n f c c' -> moved n f (p_affH p h x c) (p_affH p' h' x' c')).
Hypothesis (HquadH : forall h h' x x', KP h h' -> moved n f x x' -> p_quadH p' h' x' = p_quadH p h x).
Hypothesis (HaffC : forall r x x' c c', moved n f x x' -> moved n f c c' -> moved n f (p_affC p r x c) (p_affC p' r x' c')).
Hypothesis (HquadC : forall x x', moved n f x x' -> p_quadC p' x' = p_quadC p x).
Hypothesis (HquadQ : forall x x', moved n f x x' -> p_quadQ p' x' = p_quadQ p x).
Hypothesis (HtA : forall y, moved n f (p_tA p y) (p_tA p' y)).
Hypothesis (HmL : forall x x', moved n f x x' -> p_mulL p' x' = p_mulL p x).
Hypothesis (HmR : forall x x', moved n f x x' -> p_mulR p' x' = p_mulR p x).
Hypothesis (Hdot : forall x x' y y', moved n f x x' -> moved n f y y' -> dot x' y' n = dot x y n).
Hypothesis (Hmax : forall x x', moved n f x x' -> maxabs x' n = maxabs x n).
Hypothesis (Hrand : o_perturbStep (p_opt p) = true -> moved_draws n f rand rand').

(** Related states.  No LCQPow code. *)
Record Rel (v : vst T K) (w : vst T K') : Prop := mkRel {
  r_rho : v_rho w = v_rho v; r_alpha : v_alpha w = v_alpha v; r_gt : moved n f (v_gt v) (v_gt w); r_gk : moved n f (v_gk v) (v_gk w);
  r_x : moved n f (v_x v) (v_x w); r_yA : v_yA w = v_yA v; r_p : moved n f (v_p v) (v_p w); r_stat : moved n f (v_stat v) (v_stat w);
  r_h : KP (v_h v) (v_h w); r_outer : v_outer w = v_outer v; r_inner : v_inner w = v_inner v; r_total : v_total w = v_total v;
  r_qpit : v_qpit w = v_qpit v; r_flag : v_flag w = v_flag v; r_algo : v_algo w = v_algo v; r_hist : v_hist w = v_hist v;
  r_stats : moved_stats n f (v_stats v) (v_stats w); r_work : v_work w = v_work v;
  r_calls : Forall2 (moved_qp n b N f) (v_calls v) (v_calls w); r_rnd : v_rnd w = v_rnd v; r_block : exists k, v_rnd v = (k * Z.to_nat n)%nat }.
(** After a solved QP.  No LCQPow code. *)
Definition RelL (v : vst T K) (w : vst T K') : Prop := Rel v w /\ moved_duals b N f (v_y v) (v_y w).
Lemma RelL_Rel v w : RelL v w -> Rel v w.
Proof. intros [R _]. exact R. Qed.

Ltac fields := cbn [v_rho v_alpha v_gt v_gk v_x v_y v_yA v_p v_stat v_h v_outer v_inner v_total v_qpit v_flag v_algo v_hist v_stats v_work v_calls v_rnd
  w_rho w_alpha w_gt w_gk w_x w_y w_yA w_p w_stat w_h w_outer w_inner w_total w_qpit w_flag w_algo w_hist w_stats w_work w_calls w_rnd].
Ltac rel R :=
  let z_rho := fresh in pose proof (r_rho _ _ R) as z_rho;
  let z_alpha := fresh in pose proof (r_alpha _ _ R) as z_alpha;
  let z_gt := fresh in pose proof (r_gt _ _ R) as z_gt;
  let z_gk := fresh in pose proof (r_gk _ _ R) as z_gk;
  let z_x := fresh in pose proof (r_x _ _ R) as z_x;
  let z_yA := fresh in pose proof (r_yA _ _ R) as z_yA;
  let z_p := fresh in pose proof (r_p _ _ R) as z_p;
  let z_stat := fresh in pose proof (r_stat _ _ R) as z_stat;
  let z_h := fresh in pose proof (r_h _ _ R) as z_h;
  let z_outer := fresh in pose proof (r_outer _ _ R) as z_outer;
  let z_inner := fresh in pose proof (r_inner _ _ R) as z_inner;
  let z_total := fresh in pose proof (r_total _ _ R) as z_total;
  let z_qpit := fresh in pose proof (r_qpit _ _ R) as z_qpit;
  let z_flag := fresh in pose proof (r_flag _ _ R) as z_flag;
  let z_algo := fresh in pose proof (r_algo _ _ R) as z_algo;
  let z_hist := fresh in pose proof (r_hist _ _ R) as z_hist;
  let z_stats := fresh in pose proof (r_stats _ _ R) as z_stats;
  let z_work := fresh in pose proof (r_work _ _ R) as z_work;
  let z_calls := fresh in pose proof (r_calls _ _ R) as z_calls;
  let z_rnd := fresh in pose proof (r_rnd _ _ R) as z_rnd;
  let z_block := fresh in pose proof (r_block _ _ R) as z_block;
  constructor; fields; auto.

Let moved_tab := moved_tab n f Hn Hf.
Let moved_wadd := moved_wadd n f Hn Hf.
Let moved_const := moved_const n f Hn Hf.

Variables (orc orc' : oracle T).
Hypothesis (HO : names_blind n b N f orc orc').

Lemma sub_rn ini y0 y0' v w : (ini = true -> moved_duals_opt b N f y0 y0') -> Rel v w -> exists h h',
  Forall2 (moved_qp n b N f) h h' /\ moved_answer n b N f (orc h) (orc' h') /\
  exists ret k fl wk raw, (raw = true \/ is_success ret = false) /\
    v_sub p orc ini y0 v = mkSubRes ret k fl wk (if raw then Some (orc h) else None) h /\
    v_sub p' orc' ini y0' w = mkSubRes ret k fl wk (if raw then Some (orc' h') else None) h'.
Proof.
  intros HY R.
  assert (F' : Forall2 (moved_qp n b N f) (v_call p ini (v_x v) y0 (v_gk v) :: v_calls v) (v_call p' ini (v_x w) y0' (v_gk w) :: v_calls w)).
  { constructor; [|apply R]. constructor; cbn; auto; try apply R; destruct ini; auto; try exact I. apply R. }
  pose proof (HO _ _ F') as A. eexists. eexists. split; [exact F'|]. split; [exact A|]. destruct A as [Er Ei Es Ew Ex0 Ey0 _ _ _].
  unfold v_sub. rewrite Esol, (r_work _ _ R).
  set (h := v_call p ini (v_x v) y0 (v_gk v) :: v_calls v) in *. set (h' := v_call p' ini (v_x w) y0' (v_gk w) :: v_calls w) in *.
  assert (EN : ini && notNull y0' = ini && notNull y0).
  { destruct ini; [|reflexivity]. specialize (HY eq_refl). destruct y0, y0'; try contradiction; reflexivity. }
  cbv zeta. rewrite Er, Ei, Es, Ew, Ex0, Ey0. clear HY. clearbody h h'. destruct (p_solver p).
  - do 4 eexists. exists true. split; [|split; reflexivity]. left; reflexivity.
  - do 4 eexists. exists true. split; [|split; reflexivity]. left; reflexivity.
  - destruct (ini && q_wsx_fails (orc h)); [do 4 eexists; exists false; split; [|split; reflexivity]; right; reflexivity|].
    rewrite EN. destruct (ini && notNull y0 && q_wsy_fails (orc h)); [do 4 eexists; exists false; split; [|split; reflexivity]; right; reflexivity|].
    destruct (negb _); [do 4 eexists; exists false; split; [|split; reflexivity]; right; reflexivity|].
    do 4 eexists. exists true. split; [|split; reflexivity]. left; reflexivity.
Qed.

Lemma record_rn ret k fl wk raw raw' h h' v w : Forall2 (moved_qp n b N f) h h' -> Rel v w ->
  Rel (v_record (mkSubRes ret k fl wk raw h) v) (v_record (mkSubRes ret k fl wk raw' h') w).
Proof. intros F R. unfold v_record. destruct k, fl; rel R. Qed.
Lemma record_x ret k fl wk raw h (v : vst T K) : v_x (v_record (mkSubRes ret k fl wk raw h) v) = v_x v.
Proof. unfold v_record. destruct k, fl; reflexivity. Qed.
Lemma record_x' ret k fl wk raw h (v : vst T K') : v_x (v_record (mkSubRes ret k fl wk raw h) v) = v_x v.
Proof. unfold v_record. destruct k, fl; reflexivity. Qed.

(** Statistics *)
(** No LCQPow code. *)
Definition with_steps (xs : list (list T)) (s : stats T) : stats T :=
  mkStats (st_iterTotal s) (st_iterOuter s) (st_subproblemIter s) (st_rhoOpt s) (st_status s) (st_exit_flag s) xs
         (st_innerIters s) (st_subproblemIters s) (st_accuSubproblemIters s) (st_stepLength s) (st_stepSize s) (st_statVals s)
         (st_objVals s) (st_phiVals s) (st_meritVals s).
Lemma stats_ex s s' : moved_stats n f s s' -> exists xs, Forall2 (moved n f) (st_xSteps s) xs /\ s' = with_steps xs s.
Proof. intros [F E]. exists (st_xSteps s'). split; [exact F|exact E]. Qed.
Lemma stats_in xs s : Forall2 (moved n f) (st_xSteps s) xs -> moved_stats n f s (with_steps xs s).
Proof. intros F. split; [exact F|reflexivity]. Qed.
(** Updates of the counters.  No LCQPow code. *)
Definition simS (a b : res (ReturnValue * stats T)) : Prop := sim (fun a b => fst b = fst a /\ moved_stats n f (snd a) (snd b)) a b.
Lemma stats_sub k s s' : moved_stats n f s s' -> simS (updateSubproblemIter k s) (updateSubproblemIter k s').
Proof.
  intros M. apply stats_ex in M. destruct M as (xs & F & ->). unfold simS, updateSubproblemIter. destruct (k <? 0); [split; [reflexivity|apply stats_in; exact F]|].
  change (st_subproblemIter (with_steps xs s)) with (st_subproblemIter s). destruct (chk_int _); [|reflexivity]. split; [reflexivity|]. split; [exact F|reflexivity].
Qed.
Lemma stats_total k s s' : moved_stats n f s s' -> simS (updateIterTotal k s) (updateIterTotal k s').
Proof.
  intros M. apply stats_ex in M. destruct M as (xs & F & ->). unfold simS, updateIterTotal. destruct (k <? 0); [split; [reflexivity|apply stats_in; exact F]|].
  change (st_iterTotal (with_steps xs s)) with (st_iterTotal s). destruct (chk_int _); [|reflexivity]. split; [reflexivity|]. split; [exact F|reflexivity].
Qed.
Lemma stats_outer k s s' : moved_stats n f s s' -> simS (updateIterOuter k s) (updateIterOuter k s').
Proof.
  intros M. apply stats_ex in M. destruct M as (xs & F & ->). unfold simS, updateIterOuter. destruct (k <? 0); [split; [reflexivity|apply stats_in; exact F]|].
  change (st_iterOuter (with_steps xs s)) with (st_iterOuter s). destruct (chk_int _); [|reflexivity]. split; [reflexivity|]. split; [exact F|reflexivity].
Qed.
Lemma stats_rho r s s' : moved_stats n f s s' -> moved_stats n f (snd (updateRhoOpt r s)) (snd (updateRhoOpt r s')).
Proof. intros M. apply stats_ex in M. destruct M as (xs & F & ->). unfold updateRhoOpt. destruct (a_le _ _); [apply stats_in; exact F|]. split; [exact F|reflexivity]. Qed.
Lemma stats_flag k s s' : moved_stats n f s s' -> moved_stats n f (updateQPSolverExitFlag k s) (updateQPSolverExitFlag k s').
Proof. intros M. apply stats_ex in M. destruct M as (xs & F & ->). split; [exact F|reflexivity]. Qed.
Lemma stats_status a s s' : moved_stats n f s s' -> moved_stats n f (updateSolutionStatus a s) (updateSolutionStatus a s').
Proof. intros M. apply stats_ex in M. destruct M as (xs & F & ->). split; [exact F|reflexivity]. Qed.
Lemma stored_x (l : list T) k : 0 <= k <= len l ->
  for_ 0 k (fun i xs => let! a := deref (Some (lift l)) in let! v := rd a i in Ok (xs ++ [v])) ([] : list T) = Ok (take k l).
Proof.
  intros Hk. change ([] : list T) with (take 0 l). apply (for_seq _ (fun k => take k l)); [lia|]. intros i Hi. cbn [deref bind]. rewrite rd_vec_ by lia. cbn [bind]. f_equal.
  unfold take. replace (Z.to_nat (i + 1)) with (S (Z.to_nat i)) by lia. assert (Hl : (Z.to_nat i < length l)%nat) by (unfold len in *; lia). unfold at_. clear Hi Hk.
  revert Hl. generalize (Z.to_nat i) as q. clear i. induction l as [|a l IH]; intros q Hl; cbn in Hl; [lia|]. destruct q; [reflexivity|]. cbn. f_equal. apply IH. lia.
Qed.
Lemma stats_track x x' a1 a2 a3 a4 a5 a6 a7 a8 s s' : moved n f x x' -> moved_stats n f s s' ->
  sim (moved_stats n f) (updateTrackingVectors (Some (lift x)) a1 a2 a3 a4 a5 a6 a7 a8 n s) (updateTrackingVectors (Some (lift x')) a1 a2 a3 a4 a5 a6 a7 a8 n s').
Proof.
  intros X M. pose proof X as (L & L' & _). apply stats_ex in M. destruct M as (xs & F & ->). unfold updateTrackingVectors. rewrite !stored_x by (unfold n in *; lia).
  assert (E : forall l : list T, len l = n -> take n l = l) by (intros l El; unfold take; apply firstn_all2; unfold len in El; lia). rewrite !E by auto. cbn [bind].
  change (st_accuSubproblemIters (with_steps xs s)) with (st_accuSubproblemIters s).
  destruct (match st_accuSubproblemIters s with [] => _ | _ => _ end); [|reflexivity]. cbn [bind sim]. split; [|reflexivity].
  apply Forall2_app; [exact F|]. constructor; [exact X|constructor].
Qed.

Lemma solve_rn ini y0 y0' v w : (ini = true -> moved_duals_opt b N f y0 y0') -> Rel v w ->
  sim (fun a b => fst b = fst a /\ Rel (snd a) (snd b) /\ (fst a = SUCCESSFUL_RETURN -> RelL (snd a) (snd b)))
    (v_solve p orc ini y0 v) (v_solve p' orc' ini y0' w).
Proof.
  intros HY R. destruct (sub_rn ini y0 y0' v w HY R) as (h & h' & F & [Er Ei Es Ew Ex0 Ey0 Ex Eb Ey] & ret & k & fl & wk & raw & HR & E1 & E2).
  unfold v_solve. rewrite E1, E2. cbv zeta.
  pose proof (record_rn ret k fl wk (if raw then Some (orc h) else None) (if raw then Some (orc' h') else None) h h' v w F R) as R1.
  set (v1 := v_record (mkSubRes ret k fl wk (if raw then Some (orc h) else None) h) v) in *.
  set (w1 := v_record (mkSubRes ret k fl wk (if raw then Some (orc' h') else None) h') w) in *.
  clearbody v1 w1. rewrite (r_qpit _ _ R1), (r_flag _ _ R1). cbn [sr_ret sr_raw].
  destruct (v_qpit v1) as [q|]; [|reflexivity]. cbn [get bind]. eapply sim_bind; [exact (stats_sub q _ _ (r_stats _ _ R1))|]. intros [c1 st] [c2 st'] [_ MS]. cbn [fst snd] in MS.
  destruct (v_flag v1) as [g|]; [|reflexivity]. cbn [get bind].
  assert (R2 : Rel (w_stats (updateQPSolverExitFlag g st) v1) (w_stats (updateQPSolverExitFlag g st') w1)) by (rel R1; apply stats_flag; exact MS).
  set (v2 := w_stats _ v1) in *. set (w2 := w_stats _ w1) in *. clearbody v2 w2.
  destruct (is_success ret) eqn:ES; cbn [negb].
  2: { split; [reflexivity|]. split; [exact R2|cbn; intros ->; discriminate]. }
  destruct HR as [->|]; [|discriminate]. cbn [get bind sim].
  assert (EXx : moved n f (a_x p (orc h)) (a_x p' (orc' h'))) by (unfold a_x; rewrite EnV; apply moved_tab; intros; apply Ex; auto).
  assert (EY : moved_duals b N f (a_y p (orc h)) (a_y p' (orc' h'))).
  { unfold a_y, p_nD, p_nA. rewrite Eoff, EnC, Em, Esol. fold b nC m N. assert (0 <= b + N) by (unfold b, N, nC, m; lia). split; [apply len_tab; auto|]. split; [apply len_tab; auto|]. split; intros i Hi.
    - assert (0 <= f i < b) by (destruct Hb as [B|B]; [unfold b in *; rewrite B in *; apply (proj1 Hf); auto|unfold b in Hi; lia]).
      assert (0 <= N) by (unfold N, nC, m; lia). rewrite !at_tab by lia. destruct (p_solver p); [| |f_equal]; apply Eb; lia.
    - assert (0 <= b) by (unfold b; lia). rewrite !at_tab by lia. destruct (p_solver p); [| |f_equal]; apply Ey; lia. }
  assert (EYA : tab (p_nA p') (fun i => at_ a_zero (a_y p' (orc' h')) (p_off p' + i)) = tab (p_nA p) (fun i => at_ a_zero (a_y p (orc h)) (p_off p + i))).
  { unfold p_nA. rewrite Eoff, EnC, Em. fold b nC m N. apply tab_ext. intros i Hi. destruct EY as (_ & _ & _ & EY). apply EY. lia. }
  split; [reflexivity|]. cbn [snd].
  match goal with |- Rel ?A ?B /\ _ => assert (RR : RelL A B) end.
  { split; [|exact EY]. rel R2. rewrite EnV. apply moved_wadd; auto. }
  split; [exact (proj1 RR)|intros _; exact RR].
Qed.

Lemma lin_rn v w : Rel v w -> Rel (v_lin p v) (v_lin p' w).
Proof. intros R. unfold v_lin. rel R. rewrite (r_rho _ _ R). apply HaffC; apply R. Qed.
Lemma lin_rnL v w : RelL v w -> RelL (v_lin p v) (v_lin p' w).
Proof. intros [R Y]. split; [apply lin_rn; exact R|exact Y]. Qed.
Lemma station_rnL v w : RelL v w -> RelL (v_station p v) (v_station p' w).
Proof.
  intros [R Y]. split; [|exact Y]. unfold v_station. rewrite Ebox, EnV. fold n.
  assert (S : moved n f (wadd a_one (p_affH p (v_h v) (v_x v) (v_gt v)) a_mone (p_tA p (v_yA v)) n) (wadd a_one (p_affH p' (v_h w) (v_x w) (v_gt w)) a_mone (p_tA p' (v_yA w)) n)).
  { rewrite (r_yA _ _ R). apply moved_wadd; [apply HaffH; apply R|apply HtA]. }
  rel R. destruct (p_box p) eqn:B; [|exact S]. pose proof (Ho eq_refl) as HO1. unfold wadd at 1 3. apply moved_tab. intros i Hi. rewrite (proj2 (proj2 S)) by auto. f_equal. f_equal.
  apply (proj1 (proj2 (proj2 Y))). unfold b. rewrite HO1. exact Hi.
Qed.
Lemma step_rnL v w : RelL v w -> RelL (v_step p v) (v_step p' w).
Proof. intros [R Y]. split; [|exact Y]. unfold v_step. rel R. rewrite EnV, (r_alpha _ _ R). apply moved_wadd; apply R. Qed.
Lemma steplen_rnL v w : RelL v w -> RelL (v_steplen p v) (v_steplen p' w).
Proof.
  intros [R Y]. split; [|exact Y]. unfold v_steplen. rewrite EnV. fold n.
  rewrite (HquadH _ _ _ _ (r_h _ _ R) (r_p _ _ R)). rewrite (Hdot (v_p v) (v_p w) (p_affH p (v_h v) (v_x v) (v_gt v)) (p_affH p' (v_h w) (v_x w) (v_gt w))) by (first [apply R|apply HaffH; apply R]). rel R.
Qed.
Lemma perturb_rnL v w : o_perturbStep (p_opt p) = true -> RelL v w -> RelL (v_perturb p rand v) (v_perturb p' rand' w).
Proof.
  intros HP [R Y]. split; [|exact Y]. pose proof (Hrand HP) as HD. unfold v_perturb. rewrite EnV, (r_rnd _ _ R). fold n. destruct (r_block _ _ R) as [k Ek]. rel R.
  - rewrite Ek. apply moved_tab. intros i Hi. rewrite (proj2 (proj2 (r_x _ _ R))) by auto. rewrite HD by auto. reflexivity.
  - exists (S k). rewrite Ek. cbn. lia.
Qed.
Lemma print_rnL v w : RelL v w -> sim RelL (v_print p v) (v_print p' w).
Proof.
  intros R. unfold v_print. rewrite Eopt, (r_qpit _ _ (proj1 R)). destruct (o_printLevel _); try exact R. destruct (v_qpit v); [exact R|reflexivity].
Qed.
Lemma obj_rn v w : Rel v w -> v_obj p' w = v_obj p v.
Proof. intros R. unfold v_obj. rewrite EnV. fold n. rewrite (Hdot _ _ _ _ Hg (r_x _ _ R)), (HquadQ _ _ (r_x _ _ R)). reflexivity. Qed.
Lemma phi_rn v w : Rel v w -> v_phi p' w = v_phi p v.
Proof.
  intros R. unfold v_phi. rewrite EnV, Epc. fold n. rewrite (HquadC _ _ (r_x _ _ R)). unfold moved_opt in Hgphi. destruct (p_gphi p), (p_gphi p'); try contradiction; [|reflexivity].
  rewrite (Hdot _ _ _ _ Hgphi (r_x _ _ R)). reflexivity.
Qed.
Lemma merit_rn v w : Rel v w -> v_merit p' w = v_merit p v.
Proof. intros R. unfold v_merit. rewrite EnV. fold n. rewrite (Hdot _ _ _ _ Hg (r_x _ _ R)), (HquadH _ _ _ _ (r_h _ _ R) (r_x _ _ R)). reflexivity. Qed.
Lemma store_rnL v w : RelL v w -> sim RelL (v_store p v) (v_store p' w).
Proof.
  intros [R Y]. unfold v_store. rewrite (r_qpit _ _ R), (obj_rn _ _ R), (phi_rn _ _ R), (merit_rn _ _ R), (r_inner _ _ R), (r_alpha _ _ R), EnV. fold n.
  rewrite (Hmax _ _ (r_p _ _ R)), (Hmax _ _ (r_stat _ _ R)). destruct (v_qpit v); [|reflexivity]. cbn [get bind].
  eapply sim_bind; [apply stats_track; [apply R|apply R]|]. intros st st' MS. split; [|exact Y]. rel R.
Qed.
Lemma total_rnL v w : RelL v w -> sim RelL (v_totalIter v) (v_totalIter w).
Proof.
  intros [R Y]. unfold v_totalIter. rewrite (r_total _ _ R). destruct (chk_int _); [|reflexivity]. cbn [bind].
  eapply sim_bind; [exact (stats_total 1 _ _ (r_stats _ _ R))|]. intros [c1 st] [c2 st'] [_ MS]. split; [|exact Y]. rel R.
Qed.
Lemma inner_rnL k v w : RelL v w -> RelL (w_inner k v) (w_inner k w).
Proof. intros [R Y]. split; [|exact Y]. rel R. Qed.
Lemma hist_rnL k v w : RelL v w -> RelL (w_hist k v) (w_hist k w).
Proof. intros [R Y]. split; [|exact Y]. rel R. Qed.
Lemma compl_rn v w : Rel v w -> v_complOK p' w = v_complOK p v.
Proof. intros R. unfold v_complOK. rewrite Eopt, (phi_rn _ _ R). reflexivity. Qed.
Lemma leyffer_rnL v w : RelL v w -> fst (v_leyffer p' w) = fst (v_leyffer p v) /\ RelL (snd (v_leyffer p v)) (snd (v_leyffer p' w)).
Proof.
  intros R. unfold v_leyffer. rewrite Eopt, (compl_rn _ _ (proj1 R)), (phi_rn _ _ (proj1 R)), (r_hist _ _ (proj1 R)).
  destruct (_ <=? 0); [split; [reflexivity|exact R]|]. destruct (_ <? _); [split; [reflexivity|apply hist_rnL; exact R]|].
  destruct (v_complOK p v); split; try reflexivity; apply hist_rnL; exact R.
Qed.
Lemma penalty_rn v w : Rel v w -> Rel (v_penalty p v) (v_penalty p' w).
Proof.
  intros R. unfold v_penalty. rewrite Eopt, EnV. fold n. unfold moved_opt in Hgphi.
  destruct (0 <? _); destruct (p_gphi p), (p_gphi p'); try contradiction; fields; rel R; rewrite ?(r_rho _ _ R); auto using stats_rho, moved_wadd; apply HupdH; apply R.
Qed.
Lemma penalty_y v : v_y (v_penalty p v) = v_y v.
Proof. unfold v_penalty. destruct (0 <? _), (p_gphi p); reflexivity. Qed.
Lemma penalty_y' v : v_y (v_penalty p' v) = v_y v.
Proof. unfold v_penalty. destruct (0 <? _), (p_gphi p'); reflexivity. Qed.
Lemma penaltyStep_rnL v w : RelL v w -> sim RelL (v_penaltyStep p v) (v_penaltyStep p' w).
Proof.
  intros [R Y]. unfold v_penaltyStep, v_outerIter. pose proof (penalty_rn _ _ R) as R1. assert (Y1 : moved_duals b N f (v_y (v_penalty p v)) (v_y (v_penalty p' w))) by (rewrite penalty_y, penalty_y'; exact Y).
  set (v1 := v_penalty p v) in *. set (w1 := v_penalty p' w) in *. clearbody v1 w1. rewrite (r_outer _ _ R1). destruct (chk_int _); [|reflexivity]. cbn [bind].
  pose proof (stats_outer 1 _ _ (r_stats _ _ R1)) as S. destruct (updateIterOuter 1 (v_stats v1)) as [[c1 st]|], (updateIterOuter 1 (v_stats w1)) as [[c2 st']|]; try contradiction; [|exact S].
  destruct S as [_ MS]. cbn [snd] in MS. cbn [bind sim]. split; [|exact Y1]. rel R1.
Qed.
Lemma head_rnL v w : RelL v w -> sim RelL (v_head p v) (v_head p' w).
Proof.
  intros R. unfold v_head. eapply sim_bind; [apply print_rnL, station_rnL, step_rnL; exact R|]. intros v1 w1 R1.
  rewrite Eopt. eapply sim_bind with (R := RelL); [destruct (o_storeSteps _); [apply store_rnL; exact R1|exact R1]|]. intros v2 w2 R2.
  eapply sim_bind; [apply total_rnL; exact R2|]. intros v3 w3 R3. rewrite (r_inner _ _ (proj1 R3)).
  destruct (chk_int _) as [k|]; [|reflexivity]. cbn [bind].
  destruct (leyffer_rnL _ _ (inner_rnL k _ _ R3)) as [L1 L2].
  destruct (v_leyffer p (w_inner k v3)) as [bl v4]. destruct (v_leyffer p' (w_inner k w3)) as [b' w4]. cbn [fst snd] in *. subst b'.
  eapply sim_bind with (R := RelL); [destruct bl; [apply penaltyStep_rnL; exact L2|exact L2]|]. intros v5 w5 R5. apply lin_rnL. exact R5.
Qed.
Lemma duals_rnL v w : RelL v w -> RelL (v_duals p v) (v_duals p' w).
Proof.
  intros [R Y]. split; [unfold v_duals; rel R|]. cbn [v_duals v_y w_y]. unfold v_duals. cbn [v_y w_y]. unfold p_nD, p_nA. rewrite Eoff, EnC, Em, (r_rho _ _ R), (HmL _ _ (r_x _ _ R)), (HmR _ _ (r_x _ _ R)). fold b nC m N.
  assert (0 <= b + N) by (unfold b, N, nC, m; lia). assert (0 <= nC) by exact Hc. assert (0 <= m) by exact Hm. assert (0 <= N) by (unfold N; lia).
  destruct Y as (_ & _ & Yb & Y). split; [apply len_tab; auto|]. split; [apply len_tab; auto|]. split; intros k Hk.
  - assert (0 <= f k < b) by (destruct Hb as [B|B]; [unfold b in *; rewrite B in *; apply (proj1 Hf); auto|unfold b in Hk; lia]).
    rewrite !at_tab by lia. rewrite !(proj2 (Z.leb_gt _ k)) by lia. rewrite !(proj2 (Z.leb_gt _ (f k))) by lia. cbn [andb]. apply Yb. exact Hk.
  - assert (0 <= b) by (unfold b; lia). rewrite !at_tab by lia. rewrite Y by exact Hk. reflexivity.
Qed.
Lemma classify_rn tol yA ws : forall s t, v_classify p' tol yA ws s t = v_classify p tol yA ws s t.
Proof. induction ws as [|i ws IH]; intros s t; [reflexivity|]. cbn [v_classify]. rewrite EnC, Em, !IH. reflexivity. Qed.
Lemma finish_rnL v w : RelL v w -> RelL (v_finish p v) (v_finish p' w).
Proof.
  intros R0. unfold v_finish. pose proof (duals_rnL _ _ R0) as [R Y]. set (v1 := v_duals p v) in *. set (w1 := v_duals p' w) in *. clearbody v1 w1.
  assert (E : v_weak p' w1 = v_weak p v1) by (unfold v_weak; rewrite Eopt, Em, (HmL _ _ (r_x _ _ R)), (HmR _ _ (r_x _ _ R)); reflexivity).
  rewrite Eopt, E, classify_rn, (r_yA _ _ R). split; [|exact Y]. rel R. apply stats_status. assumption.
Qed.

(** A step of the loop *)
Definition RelO (a : vst T K * option ReturnValue) (b : vst T K' * option ReturnValue) : Prop :=
  snd b = snd a /\ Rel (fst a) (fst b) /\ (snd a = None \/ snd a = Some SUCCESSFUL_RETURN -> RelL (fst a) (fst b)).
Lemma tail_rnL v w : RelL v w -> sim RelO (v_tail p orc rand v) (v_tail p' orc' rand' w).
Proof.
  intros R. unfold v_tail. rewrite Eopt, (r_total _ _ (proj1 R)), (r_rho _ _ (proj1 R)).
  destruct (_ <? _); [split; [reflexivity|]; split; [apply RelL_Rel; exact R|intros [?|?]; discriminate]|].
  destruct (a_lt _ _); [split; [reflexivity|]; split; [apply RelL_Rel; exact R|intros [?|?]; discriminate]|].
  eapply sim_bind; [apply (solve_rn false None None); [discriminate|apply lin_rn, RelL_Rel, R]|].
  intros [r v1] [r' w1] (Er & R1 & R2). cbn [fst snd] in *. subst r'. destruct (is_success r) eqn:ES; cbn [negb].
  - assert (R3 : RelL v1 w1) by (apply R2; destruct r; try discriminate; reflexivity). cbn [sim].
    assert (R4 : RelL (v_steplen p (if o_perturbStep (p_opt p) then v_perturb p rand v1 else v1)) (v_steplen p' (if o_perturbStep (p_opt p) then v_perturb p' rand' w1 else w1))).
    { apply steplen_rnL. generalize (perturb_rnL v1 w1). destruct (o_perturbStep (p_opt p)); intros G; [apply G; auto|exact R3]. }
    split; [reflexivity|]. split; [apply RelL_Rel; exact R4|intros _; exact R4].
  - split; [reflexivity|]. split; [exact R1|]. cbn [fst snd]. intros [?|E]; [discriminate|]. injection E as ->. discriminate.
Qed.
Lemma pass_rnL v w : RelL v w -> sim RelO (v_pass p orc rand v) (v_pass p' orc' rand' w).
Proof.
  intros R. unfold v_pass. eapply sim_bind; [apply head_rnL; exact R|]. intros v1 w1 R1.
  assert (E1 : v_statOK p' w1 = v_statOK p v1) by (unfold v_statOK; rewrite Eopt, EnV; fold n; rewrite (Hmax _ _ (r_stat _ _ (proj1 R1))); reflexivity).
  rewrite E1, (compl_rn _ _ (proj1 R1)).
  destruct (v_statOK p v1); [|apply tail_rnL; exact R1]. destruct (v_complOK p v1).
  - pose proof (finish_rnL _ _ R1) as R2. split; [reflexivity|]. split; [apply RelL_Rel; exact R2|intros _; exact R2].
  - eapply sim_bind; [apply penaltyStep_rnL; exact R1|]. intros v2 w2 R2. apply tail_rnL. exact R2.
Qed.
(** Results of a run *)
Definition RelR (a : ReturnValue * vst T K) (b : ReturnValue * vst T K') : Prop :=
  fst b = fst a /\ Rel (snd a) (snd b) /\ (fst a = SUCCESSFUL_RETURN -> RelL (snd a) (snd b)).
Lemma loop_rnL fuel : forall v w, RelL v w -> sim RelR (v_loop p fuel orc rand v) (v_loop p' fuel orc' rand' w).
Proof.
  induction fuel as [|fuel IH]; intros v w R; [reflexivity|]. cbn [v_loop]. eapply sim_bind; [apply pass_rnL; exact R|].
  intros [v1 e] [w1 e'] (Ee & R1 & R2). cbn [fst snd] in *. subst e'. destruct e as [r|]; [|apply IH; auto].
  split; [reflexivity|]. split; [exact R1|]. cbn [fst snd]. intros ->. apply R2. auto.
Qed.
Lemma run_rn fuel y0 y0' x0 x0' : moved_duals_opt b N f y0 y0' -> moved n f x0 x0' ->
  sim RelR (v_run p fuel orc rand y0 (v_init p x0)) (v_run p' fuel orc' rand' y0' (v_init p' x0')).
Proof.
  intros HY HX. assert (R0 : Rel (v_init p x0) (v_init p' x0')).
  { unfold v_init, p_nA. rewrite EnV, EnC, Em, Eopt. fold n. constructor; fields; auto using moved_const. split; [constructor|reflexivity]. exists O. reflexivity. }
  unfold v_run. eapply sim_bind with (R := RelO).
  - unfold v_first. rewrite Eopt. eapply sim_bind; [apply (solve_rn true y0 y0'); [auto|]|].
    + destruct (o_solveZeroPenaltyFirst _); [|apply lin_rn; exact R0]. rel R0.
    + intros [r v1] [r' w1] (Er & R1 & R2). cbn [fst snd] in *. subst r'. destruct (is_success r) eqn:ES; cbn [negb].
      * assert (R3 : RelL v1 w1) by (apply R2; destruct r; try discriminate; reflexivity). cbn [sim].
        match goal with |- RelO (?A, None) (?B, None) => assert (R4 : RelL A B) end.
        { destruct R3 as [R3 Y3]. split; [|exact Y3]. fields. rewrite (r_rho _ _ R3). rel R3. apply stats_rho. assumption. }
        split; [reflexivity|]. split; [apply RelL_Rel; exact R4|intros _; exact R4].
      * split; [reflexivity|]. split; [exact R1|]. cbn [fst snd]. intros [?|E]; [discriminate|]. injection E as ->. discriminate.
  - intros [v1 e] [w1 e'] (Ee & R1 & R2). cbn [fst snd] in *. subst e'. destruct e as [r|]; [|apply loop_rnL; auto].
    split; [reflexivity|]. split; [exact R1|]. cbn [fst snd]. intros ->. apply R2. auto.
Qed.
End Columns.
