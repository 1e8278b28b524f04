(** * HelperFacts: bounds set by index and the perturbation of the gradient (no LCQPow code). *)
From Coq Require Import QArith Qcanon.
From Verif Require Import Base Arith Codes Utilities Options Stats FileIO Subsolver State LCQProblem Tactics Loops Kernels SpecMath SpecLoad LoadLoops SparseAgain.
Open Scope Z_scope.

Section G.
Context {T : Type} `{Arith T}.
Lemma set_lb_at (o : lcqp T) n b i v : d_nV (pd o) = Some n -> 0 < n <= INT_MAX -> fits n b ->
  exists o1, setLB (ptr_of b) o = Ok (SUCCESSFUL_RETURN, o1) /\ d_lb (pd o1) = Some (lift (bnd n b a_ninf)) /\
    if (0 <=? i) && (i <? n)
    then exists l o2, setLB_at i v o1 = Ok (SUCCESSFUL_RETURN, o2) /\ d_lb (pd o2) = Some (lift l) /\ len l = n /\ at_ a_zero l i = v /\
      (forall j, 0 <= j < n -> j <> i -> at_ a_zero l j = at_ a_zero (bnd n b a_ninf) j) /\ pd o2 = set_d_lb (Some (lift l)) (pd o) /\ it o2 = it o
    else setLB_at i v o1 = Ok (INDEX_OUT_OF_BOUNDS, o1).
Proof.
  intros En Hn F. unfold setLB. rewrite En. cbn [get bind]. destruct (Z.eqb_spec n 0); [lia|]. rewrite box_vec_ok by (auto; lia). cbn [bind].
  eexists. split; [reflexivity|]. split; [reflexivity|].
  unfold setLB_at. cbn [pd set_d_lb d_nV d_lb it]. rewrite En. cbn [get bind]. destruct (Z.eqb_spec n 0); [lia|].
  pose proof (len_bnd n b a_ninf ltac:(lia) F) as Ln. destruct ((0 <=? i) && (i <? n)) eqn:E; [|reflexivity].
  apply andb_true_iff in E. destruct E as [E1 E2]. cbn [deref bind]. rewrite wr_lift by lia. cbn [bind].
  exists (upd (bnd n b a_ninf) (Z.to_nat i) v). eexists. split; [reflexivity|]. cbn [pd it set_d_lb d_lb]. split; [reflexivity|]. split; [rewrite len_upd; exact Ln|].
  split; [rewrite at_upd, Z.eqb_refl by lia; reflexivity|]. split; [|split; reflexivity].
  intros j Hj Hji. rewrite at_upd by lia. destruct (Z.eqb_spec i j); [lia|reflexivity].
Qed.
Lemma set_ub_at (o : lcqp T) n b i v : d_nV (pd o) = Some n -> 0 < n <= INT_MAX -> fits n b ->
  exists o1, setUB (ptr_of b) o = Ok (SUCCESSFUL_RETURN, o1) /\ d_ub (pd o1) = Some (lift (bnd n b a_pinf)) /\
    if (0 <=? i) && (i <? n)
    then exists l o2, setUB_at i v o1 = Ok (SUCCESSFUL_RETURN, o2) /\ d_ub (pd o2) = Some (lift l) /\ len l = n /\ at_ a_zero l i = v /\
      (forall j, 0 <= j < n -> j <> i -> at_ a_zero l j = at_ a_zero (bnd n b a_pinf) j) /\ pd o2 = set_d_ub (Some (lift l)) (pd o) /\ it o2 = it o
    else setUB_at i v o1 = Ok (INDEX_OUT_OF_BOUNDS, o1).
Proof.
  intros En Hn F. unfold setUB. rewrite En. cbn [get bind]. destruct (Z.eqb_spec n 0); [lia|]. rewrite box_vec_ok by (auto; lia). cbn [bind].
  eexists. split; [reflexivity|]. split; [reflexivity|].
  unfold setUB_at. cbn [pd set_d_ub d_nV d_ub it]. rewrite En. cbn [get bind]. destruct (Z.eqb_spec n 0); [lia|].
  pose proof (len_bnd n b a_pinf ltac:(lia) F) as Ln. destruct ((0 <=? i) && (i <? n)) eqn:E; [|reflexivity].
  apply andb_true_iff in E. destruct E as [E1 E2]. cbn [deref bind]. rewrite wr_lift by lia. cbn [bind].
  exists (upd (bnd n b a_pinf) (Z.to_nat i) v). eexists. split; [reflexivity|]. cbn [pd it set_d_ub d_ub]. split; [reflexivity|]. split; [rewrite len_upd; exact Ln|].
  split; [rewrite at_upd, Z.eqb_refl by lia; reflexivity|]. split; [|split; reflexivity].
  intros j Hj Hji. rewrite at_upd by lia. destruct (Z.eqb_spec i j); [lia|reflexivity].
Qed.
Lemma perturb_grad rand d s n (l : list T) : d_nV d = Some n -> 0 <= n -> s_gk s = Some (lift l) -> len l = n ->
  exists sg : Z -> Z, (forall i, sg i = -1 \/ sg i = 0 \/ sg i = 1) /\
    perturbGradient rand d s = Ok (set_rnd (s_rnd s + Z.to_nat n)%nat (set_gk (Some (lift (tab n (fun i => at_ a_zero l i + a_of_Z (sg i) * EPS)%num))) s)).
Proof.
  intros En Hn Eg Lg. exists (fun i => rand (s_rnd s + Z.to_nat i)%nat mod 3 - 1). split; [intros i; pose proof (Z.mod_pos_bound (rand (s_rnd s + Z.to_nat i)%nat) 3); lia|].
  unfold perturbGradient. rewrite En, Eg. cbn [get bind deref].
  set (F := fun i => (at_ a_zero l i + a_of_Z (rand (s_rnd s + Z.to_nat i)%nat mod 3 - 1) * EPS)%num).
  pose (st := fun i => (lift (tab i F) ++ drop i (lift l), (s_rnd s + Z.to_nat i)%nat)).
  replace (lift l, s_rnd s) with (st 0) by (unfold st; rewrite tab_0, drop_0, Nat.add_0_r; reflexivity).
  match goal with |- context [for_ 0 n ?b (st 0)] => rewrite (for_seq b st 0 n) end; [|lia|].
  - cbn [bind]. unfold st. rewrite drop_all, app_nil_r by (rewrite len_lift; lia). reflexivity.
  - intros i Hi. unfold st at 1.
    rewrite (rd_some _ i (at_ a_zero l i)).
    + cbn [bind]. rewrite wr_ok by (rewrite len_fill; rewrite len_lift; lia). cbn [bind]. unfold st.
      rewrite (upd_fill F) by (rewrite len_lift; lia). replace (Z.to_nat (i + 1)) with (S (Z.to_nat i)) by lia. rewrite Nat.add_succ_r. reflexivity.
    + rewrite len_fill; rewrite len_lift; lia.
    + rewrite at_fill_r by lia. apply at_lift. lia.
Qed.
End G.
Lemma set_at_null : exists (o : lcqp xq), LCQProblem_ctor 2 0 1 = Ok o /\ setLB_at 0 a_zero o = UB NullDeref /\ setUB_at 1 a_zero o = UB NullDeref.
Proof. eexists. split; [vm_compute; reflexivity|]. split; vm_compute; reflexivity. Qed.
