(** * RenumberFacts: another order of constraints and complementarity pairs (no LCQPow code). *)
From Coq Require Import Permutation QArith Qcanon.
From Verif Require Import Base Arith Codes Utilities Options Stats FileIO Subsolver State LCQProblem Tactics Loops Kernels Exact SpecSparse CscKernels CscBuild CscMerge
  Pure PureFacts SpecLoad Refine LoadDense LoadSparse StartDense StartSparse SpecApi ApiFacts SpecSwap Swap SwapFacts SpecRenumber Renumber.
Open Scope Z_scope.

(** ** Sums in another order *)
Lemma fold_perm {X} (g : xq -> X -> xq) l l' : (forall a x y, g (g a x) y = g (g a y) x) -> Permutation l l' -> forall a, fold_left g l a = fold_left g l' a.
Proof. intros G. induction 1; intros; cbn [fold_left]; [reflexivity|apply IHPermutation|rewrite G; reflexivity|rewrite IHPermutation1; apply IHPermutation2]. Qed.
Lemma fsum_from_tab (a : xq) k f : fsum_from a k f = fold_left (fun t x => (t + x)%num) (tab k f) a.
Proof. unfold fsum_from, tab. rewrite fold_left_map'. reflexivity. Qed.
Lemma add_swap (a x y : xq) : (a + x + y = a + y + x)%num.
Proof. rewrite !x_add_assoc. f_equal. apply x_add_comm. Qed.
Lemma fsum_from_perm (a : xq) k f g : permutes k f -> fsum_from a k (fun i => g (f i)) = fsum_from a k g.
Proof.
  intros F. rewrite !fsum_from_tab. rewrite <- (map_tab g k f). assert (E : tab k g = map g (tab k (fun i => i))) by (rewrite map_tab; reflexivity). rewrite E. apply fold_perm; [intros; apply add_swap|]. apply Permutation_map. apply perm_tab. exact F.
Qed.
Lemma fsum_from_add2 (a : xq) k f g : 0 <= k -> fsum_from (fsum_from a k f) k g = fsum_from a k (fun i => (f i + g i)%num).
Proof.
  intros Hk. revert k Hk. apply natlike_ind; [reflexivity|]. intros k Hk IH. unfold Z.succ. rewrite (fsum_from_succ a k (fun i => (f i + g i)%num)) by auto. rewrite <- IH.
  rewrite fsum_from_succ by auto. rewrite fsum_from_succ by auto. rewrite (fsum_from_split (fsum_from a k f + f k)%num) by auto. rewrite (fsum_from_split (fsum_from a k f)) by auto.
  rewrite !x_add_assoc. f_equal. rewrite (x_add_comm (f k)). rewrite x_add_assoc. f_equal. apply x_add_comm.
Qed.

Section Inj.
Variables (nC m : Z) (nu : numbering).
Hypothesis (Hr : renumbers nC m nu) (Hc : 0 <= nC) (Hm : 0 <= m).
Lemma place_permutes : permutes (nC + 2 * m) (place nC m nu).
Proof.
  split; [exact (place_range nC m nu Hr Hc Hm)|]. destruct Hr as [[R1 R2] [P1 P2]]. intros i j Hi Hj E.
  destruct (place_cases nC m i Hi) as [Ki|[(a & Ha & ->)|(a & Ha & ->)]]; destruct (place_cases nC m j Hj) as [Kj|[(b & Hb & ->)|(b & Hb & ->)]].
  - rewrite (place_lo nC m nu i) in E by lia. rewrite (place_lo nC m nu j) in E by lia. apply R2; auto.
  - rewrite (place_lo nC m nu i) in E by lia. rewrite (place_L nC m nu b Hb) in E. pose proof (R1 _ Ki). pose proof (P1 _ Hb). destruct (nb_flip nu b); lia.
  - rewrite (place_lo nC m nu i) in E by lia. rewrite (place_R nC m nu b Hb) in E. pose proof (R1 _ Ki). pose proof (P1 _ Hb). destruct (nb_flip nu b); lia.
  - rewrite (place_L nC m nu a Ha) in E. rewrite (place_lo nC m nu j) in E by lia. pose proof (R1 _ Kj). pose proof (P1 _ Ha). destruct (nb_flip nu a); lia.
  - rewrite (place_L nC m nu a Ha) in E. rewrite (place_L nC m nu b Hb) in E. pose proof (P1 _ Ha). pose proof (P1 _ Hb). assert (a = b) by (apply P2; auto; destruct (nb_flip nu a), (nb_flip nu b); lia). lia.
  - rewrite (place_L nC m nu a Ha) in E. rewrite (place_R nC m nu b Hb) in E. pose proof (P1 _ Ha). pose proof (P1 _ Hb). assert (a = b) by (apply P2; auto; destruct (nb_flip nu a), (nb_flip nu b); lia). subst b. destruct (nb_flip nu a); lia.
  - rewrite (place_R nC m nu a Ha) in E. rewrite (place_lo nC m nu j) in E by lia. pose proof (R1 _ Kj). pose proof (P1 _ Ha). destruct (nb_flip nu a); lia.
  - rewrite (place_R nC m nu a Ha) in E. rewrite (place_L nC m nu b Hb) in E. pose proof (P1 _ Ha). pose proof (P1 _ Hb). assert (a = b) by (apply P2; auto; destruct (nb_flip nu a), (nb_flip nu b); lia). subst b. destruct (nb_flip nu a); lia.
  - rewrite (place_R nC m nu a Ha) in E. rewrite (place_R nC m nu b Hb) in E. pose proof (P1 _ Ha). pose proof (P1 _ Hb). assert (a = b) by (apply P2; auto; destruct (nb_flip nu a), (nb_flip nu b); lia). lia.
Qed.
End Inj.

(** ** The vectors *)
Lemma bnd_at k (l : option (list xq)) d i : 0 <= i < k -> at_ a_zero (bnd k l d) i = bound_at l d i.
Proof. intros Hi. destruct l; cbn [bnd bound_at]; [reflexivity|apply at_tab; auto]. Qed.
Lemma stack_lo (a b c : list xq) i : 0 <= i < len a -> at_ a_zero (a ++ b ++ c) i = at_ a_zero a i.
Proof. intros. apply at_app_l. lia. Qed.
Lemma stack_mid (a b c : list xq) i : 0 <= i < len b -> at_ a_zero (a ++ b ++ c) (len a + i) = at_ a_zero b i.
Proof. intros. rewrite at_app_r by lia. rewrite at_app_l by lia. f_equal. lia. Qed.
Lemma stack_hi (a b c : list xq) i : 0 <= i < len c -> at_ a_zero (a ++ b ++ c) (len a + len b + i) = at_ a_zero c i.
Proof. intros. pose proof (len_nonneg b). rewrite at_app_r by lia. rewrite at_app_r by lia. f_equal. lia. Qed.
Lemma stack_renum nC m nu (a b c a' b' c' : list xq) : renumbers nC m nu -> 0 <= nC -> 0 <= m ->
  len a = nC -> len b = m -> len c = m -> len a' = nC -> len b' = m -> len c' = m ->
  (forall i, 0 <= i < nC -> at_ a_zero a' i = at_ a_zero a (nb_row nu i)) ->
  (forall i, 0 <= i < m -> at_ a_zero b' i = at_ a_zero (if nb_flip nu i then c else b) (nb_pair nu i)) ->
  (forall i, 0 <= i < m -> at_ a_zero c' i = at_ a_zero (if nb_flip nu i then b else c) (nb_pair nu i)) ->
  renum 0 (nC + 2 * m) (place nC m nu) (a ++ b ++ c) (a' ++ b' ++ c').
Proof.
  intros Hr Hc Hm La Lb Lc La' Lb' Lc' HA HB HC. split; [rewrite !len_app; lia|]. split; [rewrite !len_app; lia|]. split; [lia|]. intros k Hk. rewrite !Z.add_0_l.
  destruct Hr as [[R1 _] [P1 _]]. destruct (place_cases nC m k Hk) as [K|[(i & Hi & ->)|(i & Hi & ->)]].
  - rewrite place_lo by lia. specialize (R1 k K). rewrite !stack_lo by lia. apply HA. auto.
  - rewrite place_L by auto. specialize (P1 i Hi). rewrite <- La' at 1. rewrite stack_mid by lia. rewrite HB by auto.
    destruct (nb_flip nu i); [rewrite <- La, <- Lb; rewrite stack_hi by lia|rewrite <- La; rewrite stack_mid by lia]; reflexivity.
  - rewrite place_R by auto. specialize (P1 i Hi). rewrite <- La', <- Lb' at 1. rewrite stack_hi by lia. rewrite HC by auto.
    destruct (nb_flip nu i); [rewrite <- La; rewrite stack_mid by lia|rewrite <- La, <- Lb; rewrite stack_hi by lia]; reflexivity.
Qed.

Section Vec.
Variables (b : Z) (nu : numbering) (v v' : uvec xq).
Hypothesis (V : wf_vec v) (V' : wf_vec v') (RV : renum_vec b nu v v') (Hr : renumbers (u_nC v) (u_nComp v) nu) (Pa : paired v) (Pa' : paired v').
Let nC := u_nC v.
Let m := u_nComp v.
Lemma rn_lower : renum 0 (nC + 2 * m) (place nC m nu) (u_lower v) (u_lower v').
Proof.
  pose proof (wv_nC _ V : 0 <= nC). pose proof (wv_nComp _ V : 0 < m). unfold u_lower. rewrite (nv_nC _ _ _ _ RV), (nv_nComp _ _ _ _ RV). fold nC m.
  pose proof (wv_lbA _ V') as F1. pose proof (wv_lbL _ V') as F2. pose proof (wv_lbR _ V') as F3. rewrite (nv_nC _ _ _ _ RV) in F1. rewrite (nv_nComp _ _ _ _ RV) in F2, F3.
  apply stack_renum; auto; try lia; try (apply bnd_len; [lia|]; auto; first [apply (wv_lbA _ V)|apply (wv_lbL _ V)|apply (wv_lbR _ V)]).
  - intros i Hi. pose proof (proj1 (proj1 Hr) i Hi). rewrite !bnd_at by auto. apply (nv_lbA _ _ _ _ RV). auto.
  - intros i Hi. pose proof (proj1 (proj2 Hr) i Hi). rewrite bnd_at by auto. rewrite (proj1 (nv_lower _ _ _ _ RV i Hi)). destruct (nb_flip nu i); rewrite bnd_at by auto; reflexivity.
  - intros i Hi. pose proof (proj1 (proj2 Hr) i Hi). rewrite bnd_at by auto. rewrite (proj2 (nv_lower _ _ _ _ RV i Hi)). destruct (nb_flip nu i); rewrite bnd_at by auto; reflexivity.
Qed.
Lemma rn_upper : renum 0 (nC + 2 * m) (place nC m nu) (u_upper v) (u_upper v').
Proof.
  pose proof (wv_nC _ V : 0 <= nC). pose proof (wv_nComp _ V : 0 < m). unfold u_upper. rewrite (nv_nC _ _ _ _ RV), (nv_nComp _ _ _ _ RV). fold nC m.
  pose proof (wv_ubA _ V') as F1. pose proof (wv_ubL _ V') as F2. pose proof (wv_ubR _ V') as F3. rewrite (nv_nC _ _ _ _ RV) in F1. rewrite (nv_nComp _ _ _ _ RV) in F2, F3.
  apply stack_renum; auto; try lia; try (apply bnd_len; [lia|]; auto; first [apply (wv_ubA _ V)|apply (wv_ubL _ V)|apply (wv_ubR _ V)]).
  - intros i Hi. pose proof (proj1 (proj1 Hr) i Hi). rewrite !bnd_at by auto. apply (nv_ubA _ _ _ _ RV). auto.
  - intros i Hi. pose proof (proj1 (proj2 Hr) i Hi). rewrite bnd_at by auto. rewrite (proj1 (nv_upper _ _ _ _ RV i Hi)). destruct (nb_flip nu i); rewrite bnd_at by auto; reflexivity.
  - intros i Hi. pose proof (proj1 (proj2 Hr) i Hi). rewrite bnd_at by auto. rewrite (proj2 (nv_upper _ _ _ _ RV i Hi)). destruct (nb_flip nu i); rewrite bnd_at by auto; reflexivity.
Qed.
(** Lower complementarity bounds are given in both problems or in none *)
Lemma rn_given : (u_lbL v = None /\ u_lbR v = None /\ u_lbL v' = None /\ u_lbR v' = None) \/
  exists l r l' r', u_lbL v = Some l /\ u_lbR v = Some r /\ u_lbL v' = Some l' /\ u_lbR v' = Some r' /\
    forall i, 0 <= i < m -> at_ a_zero l' i = at_ a_zero (if nb_flip nu i then r else l) (nb_pair nu i) /\ at_ a_zero r' i = at_ a_zero (if nb_flip nu i then l else r) (nb_pair nu i).
Proof.
  pose proof (nv_lower _ _ _ _ RV) as LO. destruct (nv_given _ _ _ _ RV) as [G1 G2]. destruct Pa as [P1 P2]. destruct Pa' as [P1' P2'].
  destruct (u_lbL v) as [l|] eqn:E1.
  - destruct (u_lbR v) as [r|] eqn:E2; [|specialize (P2 eq_refl); discriminate]. destruct (u_lbL v') as [l'|] eqn:E3; [|specialize (G1 eq_refl); discriminate].
    destruct (u_lbR v') as [r'|] eqn:E4; [|specialize (P2' eq_refl); discriminate]. right. exists l, r, l', r'. repeat (split; [reflexivity|]).
    intros i Hi. destruct (LO i Hi) as [A B]. cbn [bound_at] in A, B. destruct (nb_flip nu i); auto.
  - left. rewrite (P1 eq_refl). rewrite (G2 eq_refl) in *. rewrite (P1' eq_refl). auto.
Qed.
Lemma rn_pc : u_pc v' = u_pc v.
Proof.
  unfold u_pc. destruct rn_given as [(E1 & E2 & E3 & E4)|(l & r & l' & r' & E1 & E2 & E3 & E4 & E)]; [rewrite E1, E3; reflexivity|]. rewrite E1, E2, E3, E4.
  rewrite (nv_nComp _ _ _ _ RV). fold m. unfold fsum. rewrite <- (fsum_from_perm a_zero m (nb_pair nu) (fun i => (at_ a_zero l i * at_ a_zero r i)%num)) by apply Hr.
  apply fsum_from_ext; [pose proof (wv_nComp _ V : 0 < m); lia|]. intros i Hi. destruct (E i Hi) as [-> ->]. destruct (nb_flip nu i); [apply x_mul_comm|reflexivity].
Qed.
Lemma rn_fin : fin_lower v -> fin_lower v'.
Proof.
  intros [F1 F2]. pose proof (wv_lbL _ V) as K1. pose proof (wv_lbR _ V) as K2. pose proof (wv_lbL _ V') as K1'. pose proof (wv_lbR _ V') as K2'.
  rewrite (nv_nComp _ _ _ _ RV) in K1', K2'. unfold fin_lower.
  destruct rn_given as [(E1 & E2 & E3 & E4)|(l & r & l' & r' & E1 & E2 & E3 & E4 & E)]; [rewrite E3, E4; split; exact I|]. rewrite E1 in F1, K1. rewrite E2 in F2, K2. rewrite E3 in *. rewrite E4 in *. cbn [above_ninf fits] in *.
  assert (IN : forall (t : list xq) k, 0 <= k < len t -> In (at_ a_zero t k) t) by (intros t k Hk; unfold at_; apply nth_In; unfold len in Hk; lia).
  assert (NI : forall (t : list xq) x, In x t -> exists k, 0 <= k < len t /\ x = at_ a_zero t k).
  { intros t x Hx. destruct (In_nth t x a_zero Hx) as (k & Hk & E'). exists (Z.of_nat k). split; [unfold len; lia|]. unfold at_. rewrite Nat2Z.id. auto. }
  split; intros x Hx; apply NI in Hx; destruct Hx as (i & Hi & ->); (assert (Hi' : 0 <= i < m) by (unfold m; lia)); destruct (E i Hi') as [A B]; pose proof (proj1 (proj2 Hr) i Hi') as Hp.
  - rewrite A. destruct (nb_flip nu i); [apply F2|apply F1]; apply IN; lia.
  - rewrite B. destruct (nb_flip nu i); [apply F1|apply F2]; apply IN; lia.
Qed.
End Vec.

(** ** Dense mode *)
Section Dense.
Variables (nu : numbering) (u u' : udense xq).
Hypothesis (W : wf_dense u) (W' : wf_dense u') (RD : renum_dense nu u u') (Hr : renumbers (u_nC (ud_v u)) (u_nComp (ud_v u)) nu) (Pa : paired (ud_v u)) (Pa' : paired (ud_v u')).
Let n := u_nV (ud_v u).
Let nC := u_nC (ud_v u).
Let m := u_nComp (ud_v u).
Let RV := nd_v _ _ _ RD.
Let V := wu_v _ W.
Lemma rd_dims : u_nV (ud_v u') = n /\ u_nC (ud_v u') = nC /\ u_nComp (ud_v u') = m.
Proof. split; [|split]; apply RV. Qed.
Lemma rd_sizes : 0 < n /\ 0 <= nC /\ 0 < m.
Proof. split; [|split]; apply V. Qed.
Lemma rd_L i j : 0 <= i < m -> 0 <= j < n -> ent (ud_L u') n i j = ent (if nb_flip nu i then ud_R u else ud_L u) n (nb_pair nu i) j.
Proof. intros Hi Hj. exact (nd_L _ _ _ RD i Hi j Hj). Qed.
Lemma rd_R i j : 0 <= i < m -> 0 <= j < n -> ent (ud_R u') n i j = ent (if nb_flip nu i then ud_L u else ud_R u) n (nb_pair nu i) j.
Proof. intros Hi Hj. exact (nd_R _ _ _ RD i Hi j Hj). Qed.
Lemma rd_A i j : 0 <= i < nC -> 0 <= j < n -> ent (ud_A u') n i j = ent (ud_A u) n (nb_row nu i) j.
Proof. intros Hi Hj. exact (nd_A _ _ _ RD i Hi j Hj). Qed.

Lemma rd_C : ud_C u' = ud_C u.
Proof.
  destruct rd_dims as (E1 & E2 & E3). destruct rd_sizes as (S1 & S2 & S3). unfold ud_C. rewrite E1, E3. fold n m. unfold symm. apply tab_ext. intros t Ht. unfold sym_ent. cbv zeta.
  assert (B1 : 0 <= t / n < n) by (split; [apply Z.div_pos; lia|apply Z.div_lt_upper_bound; lia]). assert (B2 : 0 <= t mod n < n) by (apply Z.mod_pos_bound; lia).
  set (r := Z.max (t / n) (t mod n)). set (c := Z.min (t / n) (t mod n)). assert (Br : 0 <= r < n) by (unfold r; lia). assert (Bc : 0 <= c < n) by (unfold c; lia). clearbody r c.
  unfold fsum. rewrite <- (fsum_from_perm a_zero m (nb_pair nu) (fun k => (ent (ud_L u) n k r * ent (ud_R u) n k c + ent (ud_R u) n k r * ent (ud_L u) n k c)%num)) by apply Hr.
  apply fsum_from_ext; [lia|]. intros k Hk. rewrite !rd_L, !rd_R by auto. destruct (nb_flip nu k); [apply x_add_comm|reflexivity].
Qed.
Lemma rd_gphi : dense_gphi u' = dense_gphi u.
Proof.
  destruct rd_dims as (E1 & E2 & E3). destruct rd_sizes as (S1 & S2 & S3). unfold dense_gphi.
  destruct (rn_given _ nu _ _ RV Pa Pa') as [(G1 & G2 & G3 & G4)|(l & r & l' & r' & G1 & G2 & G3 & G4 & E)]; [rewrite G1, G3; reflexivity|]. rewrite G1, G2, G3, G4, E1, E3. fold n m. cbv zeta. f_equal.
  apply tab_ext. intros i Hi. f_equal. unfold addtmul. rewrite !at_tab by lia. rewrite !Z.div_1_r, !Z.mod_1_r. rewrite !fsum_from_add2 by lia.
  rewrite <- (fsum_from_perm a_zero m (nb_pair nu) (fun k => (ent (ud_R u) n k i * ent l 1 k 0 + ent (ud_L u) n k i * ent r 1 k 0)%num)) by apply Hr.
  apply fsum_from_ext; [lia|]. intros k Hk. rewrite rd_L, rd_R by auto. unfold ent at 2 4 6 8. rewrite !Z.mul_1_r, !Z.add_0_r. destruct (E k Hk) as [-> ->].
  destruct (nb_flip nu k); [apply x_add_comm|reflexivity].
Qed.
Lemma rd_ALR i j : 0 <= i < nC + 2 * m -> 0 <= j < n -> ent (ud_ALR u') n i j = ent (ud_ALR u) n (place nC m nu i) j.
Proof.
  intros Hi Hj. destruct rd_dims as (E1 & E2 & E3). destruct rd_sizes as (S1 & S2 & S3).
  pose proof (wu_L _ W : len (ud_L u) = m * n) as LL. pose proof (wu_R _ W : len (ud_R u) = m * n) as LR. pose proof (wu_A _ W : len (ud_A u) = nC * n) as LA.
  pose proof (wu_L _ W') as LL'. pose proof (wu_R _ W') as LR'. pose proof (wu_A _ W') as LA'. rewrite E1, E3 in LL'. rewrite E1, E3 in LR'. rewrite E1, E2 in LA'.
  assert (X1 : forall w : udense xq, len (ud_A w) = nC * n -> forall k, 0 <= k < nC -> ent (ud_ALR w) n k j = ent (ud_A w) n k j).
  { intros w Lw k Hk. unfold ent, ud_ALR. apply stack_lo. rewrite Lw. nia. }
  assert (X2 : forall w : udense xq, len (ud_A w) = nC * n -> len (ud_L w) = m * n -> forall k, 0 <= k < m -> ent (ud_ALR w) n (nC + k) j = ent (ud_L w) n k j).
  { intros w Lw Mw k Hk. unfold ent, ud_ALR. replace ((nC + k) * n + j) with (len (ud_A w) + (k * n + j)) by (rewrite Lw; ring). apply stack_mid. rewrite Mw. nia. }
  assert (X3 : forall w : udense xq, len (ud_A w) = nC * n -> len (ud_L w) = m * n -> len (ud_R w) = m * n -> forall k, 0 <= k < m -> ent (ud_ALR w) n (nC + m + k) j = ent (ud_R w) n k j).
  { intros w Lw Mw Rw k Hk. unfold ent, ud_ALR. replace ((nC + m + k) * n + j) with (len (ud_A w) + len (ud_L w) + (k * n + j)) by (rewrite Lw, Mw; ring). apply stack_hi. rewrite Rw. nia. }
  pose proof (proj1 (proj1 Hr) : forall i, 0 <= i < nC -> _) as R1. pose proof (proj1 (proj2 Hr) : forall i, 0 <= i < m -> _) as P1.
  destruct (place_cases nC m i Hi) as [Kl|[(k & Hk & ->)|(k & Hk & ->)]].
  - rewrite place_lo by lia. rewrite (X1 u' LA' _ Kl). rewrite (X1 u LA _ (R1 _ Kl)). apply rd_A; auto.
  - rewrite place_L by auto. rewrite (X2 u' LA' LL' _ Hk). rewrite rd_L by auto. destruct (nb_flip nu k); [rewrite (X3 u LA LL LR _ (P1 _ Hk))|rewrite (X2 u LA LL _ (P1 _ Hk))]; reflexivity.
  - rewrite place_R by auto. rewrite (X3 u' LA' LL' LR' _ Hk). rewrite rd_R by auto. destruct (nb_flip nu k); [rewrite (X2 u LA LL _ (P1 _ Hk))|rewrite (X3 u LA LL LR _ (P1 _ Hk))]; reflexivity.
Qed.
Lemma rd_rows : renum_rows n (nC + 2 * m) (place nC m nu) (MDense (ud_ALR u)) (MDense (ud_ALR u')).
Proof.
  destruct rd_dims as (E1 & E2 & E3). destruct rd_sizes as (S1 & S2 & S3).
  pose proof (wu_L _ W : len (ud_L u) = m * n) as LL. pose proof (wu_R _ W : len (ud_R u) = m * n) as LR. pose proof (wu_A _ W : len (ud_A u) = nC * n) as LA.
  pose proof (wu_L _ W') as LL'. pose proof (wu_R _ W') as LR'. pose proof (wu_A _ W') as LA'. rewrite E1, E3 in LL'. rewrite E1, E3 in LR'. rewrite E1, E2 in LA'.
  left. exists (ud_ALR u), (ud_ALR u'). split; [reflexivity|]. split; [reflexivity|]. split; [unfold ud_ALR; rewrite !len_app; lia|]. split; [unfold ud_ALR; rewrite !len_app; lia|]. exact rd_ALR.
Qed.
Lemma rd_tA y y' : renum 0 (nC + 2 * m) (place nC m nu) y y' -> tmul (ud_ALR u') y' (nC + 2 * m) n 1 = tmul (ud_ALR u) y (nC + 2 * m) n 1.
Proof.
  intros (_ & _ & _ & Y). destruct rd_sizes as (S1 & S2 & S3). unfold tmul. apply tab_ext. intros c Hc. rewrite Z.div_1_r, Z.mod_1_r. unfold fsum.
  rewrite <- (fsum_from_perm a_zero _ _ (fun k => (ent (ud_ALR u) n k c * ent y 1 k 0)%num) (place_permutes nC m nu Hr S2 ltac:(lia))).
  apply fsum_from_ext; [lia|]. intros k Hk. rewrite rd_ALR by lia. f_equal. unfold ent. rewrite !Z.mul_1_r, !Z.add_0_r. exact (Y k Hk).
Qed.
Lemma rd_mul_at (M M' x : list xq) i i0 : 0 <= i < m -> 0 <= i0 < m -> (forall j, 0 <= j < n -> ent M' n i j = ent M n i0 j) ->
  at_ a_zero (mmul M' x m n 1) i = at_ a_zero (mmul M x m n 1) i0.
Proof.
  intros Hi H0 E. destruct rd_sizes as (S1 & S2 & S3). unfold mmul. rewrite !at_tab by lia. rewrite !Z.div_1_r, !Z.mod_1_r. apply fsum_ext. intros k Hk. rewrite E by auto. reflexivity.
Qed.
Lemma rd_mulL x i : 0 <= i < m -> at_ a_zero (mmul (ud_L u') x m n 1) i = at_ a_zero (if nb_flip nu i then mmul (ud_R u) x m n 1 else mmul (ud_L u) x m n 1) (nb_pair nu i).
Proof.
  intros Hi. pose proof (proj1 (proj2 Hr) i Hi) as Hp. rewrite (rd_mul_at (if nb_flip nu i then ud_R u else ud_L u) (ud_L u') x i (nb_pair nu i)); auto; [destruct (nb_flip nu i); reflexivity|].
  intros. apply rd_L; auto.
Qed.
Lemma rd_mulR x i : 0 <= i < m -> at_ a_zero (mmul (ud_R u') x m n 1) i = at_ a_zero (if nb_flip nu i then mmul (ud_L u) x m n 1 else mmul (ud_R u) x m n 1) (nb_pair nu i).
Proof.
  intros Hi. pose proof (proj1 (proj2 Hr) i Hi) as Hp. rewrite (rd_mul_at (if nb_flip nu i then ud_L u else ud_R u) (ud_R u') x i (nb_pair nu i)); auto; [destruct (nb_flip nu i); reflexivity|].
  intros. apply rd_R; auto.
Qed.
End Dense.

(** From the list level to the objects *)
Lemma renum_conclude {K} (p p2 : ops xq K) KR KR' nu (P : xq -> Prop) n b k pl d d' (s1 s2 : res (ReturnValue * lcqp xq)) v1 v2 :
  p_nV p = n -> p_off p = b -> p_nC p + 2 * p_nComp p = k -> place (p_nC p) (p_nComp p) nu = pl -> p_nD p2 = p_nD p -> d_nV d' = d_nV d -> d_nDuals d = Some (p_nD p) -> d_nDuals d' = Some (p_nD p) ->
  (forall r o, s1 = Ok (r, o) -> exists a, s_algoStat (it o) = Some a) ->
  sim (fun a b => pd (snd a) = d /\ relT p KR (fst a, it (snd a)) b) s1 v1 -> sim (fun a b => pd (snd a) = d' /\ relT p2 KR' (fst a, it (snd a)) b) s2 v2 ->
  sim (Renumber.RelR p nu P) v1 v2 -> renum_runs n b k pl s1 s2.
Proof.
  intros En Eb Ek Ep EN DV DN DN' HA S1 S2 R. subst n b k pl.
  destruct v1 as [[r v]|e]; destruct v2 as [[r' w]|e']; try contradiction.
  2: { destruct s1 as [[? ?]|]; [contradiction|]. destruct s2 as [[? ?]|]; [contradiction|]. cbn in *. congruence. }
  destruct s1 as [[r1 o]|]; [|contradiction]. destruct s2 as [[r2 o']|]; [|contradiction].
  destruct R as (Er & R & RS). destruct S1 as (D & E1 & RB & RI). destruct S2 as (D' & E2 & RB' & RI'). cbn [fst snd] in *. subst r1 r2 r'.
  assert (XE : s_xk (it o') = s_xk (it o)). { rewrite (proj1 (rb_x _ _ _ RB)), (proj1 (rb_x _ _ _ RB')). destruct R as (c & y & yA & -> & F). reflexivity. }
  assert (AE : s_algoStat (it o') = s_algoStat (it o)). { rewrite (rb_algo _ _ _ RB), (rb_algo _ _ _ RB'). destruct R as (c & y & yA & -> & F). reflexivity. }
  assert (ND : d_nV (pd o') = d_nV (pd o)) by (rewrite D, D'; exact DV).
  cbn [renum_runs]. split; [reflexivity|]. split.
  { change (getOutputStatistics o') with (s_stats (it o')). change (getOutputStatistics o) with (s_stats (it o)). rewrite (rb_stats _ _ _ RB), (rb_stats _ _ _ RB'). destruct R as (c & y & yA & -> & F). reflexivity. }
  split; [intros buf; unfold getPrimalSolution; rewrite XE, AE, ND; reflexivity|]. split.
  { rewrite (rb_calls _ _ _ RB), (rb_calls _ _ _ RB'). destruct R as (c & y & yA & -> & F). exact F. }
  intros Su. destruct (RI Su) as [RR _]. destruct (RI' Su) as [RR' _]. pose proof (rl_y _ _ _ _ RR) as Y. pose proof (rl_y _ _ _ _ RR') as Y'. cbn [snd] in Y, Y'.
  destruct (HA _ _ eq_refl) as (a & Ea).
  exists a, (v_y v), (v_y w). split; [destruct (RS Su) as (c & y & yA & -> & _ & EY & _); exact EY|].
  intros buf Hb. destruct Y as [Y LY], Y' as [Y' LY']. rewrite EN in LY'.
  assert (LB : len buf = p_nD p) by (rewrite Hb; unfold p_nD, p_nA; ring).
  unfold getDualSolution. rewrite Y, Y', D, D', DN, DN', AE, Ea. cbn [get bind]. rewrite !copy_out by lia. split; reflexivity.
Qed.

Lemma good_pred m nu orc : good_for m nu orc -> exists P : xq -> Prop, (forall a, P a -> P (- a)%num) /\
  (forall i, 0 <= i < m -> nb_flip nu i = true -> forall a b, P a -> P b -> std_min a b = std_min b a) /\ (forall h k, P (q_y (orc h) k)).
Proof.
  intros [F|N].
  - exists (fun _ => True). split; [auto|]. split; [|auto]. intros i Hi E. rewrite F in E by auto. discriminate.
  - exists (fun a => a <> NaN). split; [exact x_neg_nan|]. split; [|exact N]. intros; apply x_min_comm; auto.
Qed.

Lemma p_C74_dense nu u u' opt orc orc' rand : wf_dense u -> wf_dense u' -> paired (ud_v u) -> paired (ud_v u') -> fin_lower (ud_v u) -> o_qpSolver opt = QPOASES_DENSE ->
  renumbers (u_nC (ud_v u)) (u_nComp (ud_v u)) nu -> renum_dense nu u u' ->
  order_blind (u_nV (ud_v u)) (u_nV (ud_v u)) (u_nC (ud_v u) + 2 * u_nComp (ud_v u)) (place (u_nC (ud_v u)) (u_nComp (ud_v u)) nu) orc orc' -> good_for (u_nComp (ud_v u)) nu orc ->
  renum_runs (u_nV (ud_v u)) (u_nV (ud_v u)) (u_nC (ud_v u) + 2 * u_nComp (ud_v u)) (place (u_nC (ud_v u)) (u_nComp (ud_v u)) nu) (solve_dense u opt orc rand) (solve_dense u' opt orc' rand).
Proof.
  intros W W' Pa Pa' FL Hq Hr RD HO HN. pose proof (wu_v _ W) as V. pose proof (wu_v _ W') as V'. pose proof (wv_nV _ V). pose proof (wv_nC _ V). pose proof (wv_nComp _ V).
  pose proof (nd_v _ _ _ RD) as RV. pose proof (rn_fin _ _ _ _ V V' RV Hr Pa Pa' FL) as FL'. destruct (rd_dims _ _ _ RD) as (D1 & D2 & D3).
  pose proof (solve_dense_ref u opt orc rand W Pa FL Hq) as S1. pose proof (solve_dense_ref u' opt orc' rand W' Pa' FL' Hq) as S2.
  destruct (good_pred _ _ _ HN) as (P & Pneg & Pmin & PN).
  eapply renum_conclude with (p := dense_ops u opt) (P := P) (nu := nu); [| | | | | | | | |exact S1|exact S2|]; try reflexivity.
  { unfold p_nD, p_nA. cbn. rewrite D1, D2, D3. reflexivity. }
  { cbn. f_equal. exact D1. }
  { unfold p_nD, p_nA. cbn. f_equal. lia. }
  { unfold p_nD, p_nA. cbn. f_equal. rewrite D1, D2, D3. lia. }
  { intros r o ES. eapply dense_algo; [exact W|exact Pa|exact FL|exact Hq|exact ES]. }
  set (n := u_nV (ud_v u)) in *. set (nC := u_nC (ud_v u)) in *. set (m := u_nComp (ud_v u)) in *.
  pose proof (run_rn (dense_ops u opt) (MDense (ud_ALR u')) (u_lower (ud_v u')) (u_upper (ud_v u'))
    (fun y => tmul (ud_ALR u') y (u_nA (ud_v u)) n 1) (fun x => mmul (ud_L u') x m n 1) (fun x => mmul (ud_R u') x m n 1) nu P rand) as R.
  assert (EA : u_nA (ud_v u') = u_nA (ud_v u)) by (unfold u_nA; rewrite D2, D3; reflexivity).
  assert (EO : dense_ops u' opt =
    mkOps xq (list xq) opt QPOASES_DENSE n nC m n true (u_g (ud_v u)) (dense_gphi u) (u_pc (ud_v u))
    (MDense (ud_Q u)) (MDense (ud_ALR u')) (u_lower (ud_v u')) (u_upper (ud_v u'))
    (Some (bnd n (u_lb (ud_v u)) a_ninf)) (Some (bnd n (u_ub (ud_v u)) a_pinf))
    (fun rho => wadd a_one (ud_Q u) rho (ud_C u) (n * n)) (fun rho _ => wadd a_one (ud_Q u) rho (ud_C u) (n * n))
    (fun h x c => affine a_one h x c n n) (fun h x => quad h x n) (fun rho x c => affine rho (ud_C u) x c n n) (fun x => quad (ud_C u) x n) (fun x => quad (ud_Q u) x n)
    (fun y => tmul (ud_ALR u') y (u_nA (ud_v u)) n 1) (fun x => mmul (ud_L u') x m n 1) (fun x => mmul (ud_R u') x m n 1)).
  { unfold dense_ops. rewrite (rd_C nu u u' W RD Hr), (rd_gphi nu u u' W RD Hr Pa Pa'), (rn_pc _ nu _ _ V RV Hr Pa Pa'), (nd_Q _ _ _ RD), (nv_g _ _ _ _ RV), (nv_lb _ _ _ _ RV), (nv_ub _ _ _ _ RV), EA, D1, D2, D3. reflexivity. }
  assert (EX : u_x (ud_v u') = u_x (ud_v u)) by (unfold u_x; rewrite (nv_x0 _ _ _ _ RV), D1; reflexivity). rewrite EX.
  cbn zeta in R. cbn [dense_ops p_opt p_solver p_nV p_nC p_nComp p_off p_box p_g p_gphi p_pc p_matH p_matA p_lbA p_ubA p_lb p_ub p_setH p_updH p_affH p_quadH p_affC p_quadC p_quadQ p_tA p_mulL p_mulR] in R.
  fold n nC m in R. rewrite <- EO in R.
  assert (Hn : 0 <= n) by lia. assert (Hc : 0 <= nC) by lia. assert (Hm : 0 <= m) by lia.
  specialize (R Hn (fun _ => Z.le_refl _) Hc Hm (rd_rows nu u u' W W' RD Hr) (rn_lower _ nu _ _ V V' RV Hr) (rn_upper _ nu _ _ V V' RV Hr)).
  assert (HT : forall y y', renum 0 (nC + 2 * m) (place nC m nu) y y' -> tmul (ud_ALR u') y' (u_nA (ud_v u)) n 1 = tmul (ud_ALR u) y (u_nA (ud_v u)) n 1) by (intros; apply (rd_tA nu u u' W W' RD Hr); auto).
  exact (R HT (rd_mulL nu u u' W RD Hr) (rd_mulR nu u u' W RD Hr) Hr Pneg x_mul_comm Pmin orc orc' HO (fun h k _ => PN h k) (Z.to_nat (o_maxIterations opt) + 2)%nat (u_y0 (ud_v u)) (u_y0 (ud_v u')) (u_x (ud_v u)) (nv_y0 _ _ _ _ RV)).
Qed.
