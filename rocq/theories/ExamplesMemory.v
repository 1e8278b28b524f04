(** * ExamplesMemory: call histories that meet the hypotheses of the theorems about memory.  No LCQPow code. *)
From Coq Require Import List Bool Arith Lia.
From Verif Require Import Base OwnProblem SpecMemory SpecKeep.
Import ListNotations.
Local Open Scope nat_scope.

(** Dimensions of a problem with linear constraints *)
Definition exm_d : dims := mkDims true true.
(** A load with box bounds, complementarity bounds and a dual guess *)
Definition exm_full : largs := mkLargs true true true true true true true true true false true.
(** A load with linear constraints only *)
Definition exm_plain : largs := mkLargs true true false false false false false false false false true.
(** A load of sparse data with an empty complementarity product *)
Definition exm_empty : largs := mkLargs true true false false false false false false false false false.
(** A run that converges after three further subproblems *)
Definition exm_run (q : qps) : rpath := mkRpath q true true true true true 3 true false.
(** A run whose data OSQP rejects *)
Definition exm_reject : rpath := mkRpath Osqp true false true true true 0 true false.
(** All conversions succeed *)
Definition exm_ok (f : fld) : bool := true.
(** The conversion of A fails *)
Definition exm_badA (f : fld) : bool := match f with fA => false | _ => true end.
(** Files, all readable or all but R *)
Definition exm_files (all : bool) : fargs := mkFargs exm_full true true true (fun f => match f with tR => all | _ => true end).

(** Loading, a switch, a run refused in that mode, a run with OSQP, a switch back *)
Definition exm_hist : list mop := [MLoad exm_plain; MToSparse; MRun (exm_run QpDense); MRun (exm_run Osqp); MToDense exm_ok].
Lemma exm_single : single_use exm_d exm_hist.
Proof.
  apply (su_run exm_d (MLoad exm_plain) false [MToSparse; MRun (exm_run QpDense)] true (exm_run Osqp) [MToDense exm_ok] false).
  - repeat split; auto.
  - apply idle_sparse, idle_refused; [reflexivity|apply idle_nil].
  - discriminate.
  - apply idle_dense; [reflexivity|apply idle_nil].
Qed.
Lemma exm_single_run : exists s, lifetime exm_d exm_hist = Ok ([true; true; false; true; true], s) /\ length (blk s) = 45.
Proof. eexists. vm_compute. split; reflexivity. Qed.

(** Loading and running again and again *)
Definition exm_many : list mop :=
  [MLoadSparse exm_plain; MRun exm_reject; MRun (exm_run Osqp); MRun (exm_run QpSparse); MLoadFiles (exm_files true); MRun (exm_run QpDense); MToSparse;
   MRun (exm_run QpSparse); MToDense exm_badA; MLoadFiles (exm_files false); MLoad exm_full; MRun (exm_run Osqp)].
Lemma exm_many_ok : no_late_reject exm_many.
Proof.
  assert (L : forall p, In p (tl (tl exm_many)) -> ~ osqp_rejects p).
  { intros p I (r & -> & SR & SU). cbn in I. repeat (destruct I as [I|I]; [try discriminate I; injection I as <-; discriminate|]). destruct I. }
  intros l1 o1 l2 o2 l3 E (r & -> & S1 & S2). apply L. unfold exm_many in *.
  destruct l1 as [|x1 l1]; [discriminate|]. destruct l1 as [|x2 l1]; [inversion E; subst; discriminate|].
  inversion E as [[E1 E2 E3]]. cbn [tl]. rewrite E3. apply in_or_app. right. right. apply in_or_app. right. left. reflexivity.
Qed.

(** Witnesses of [succeeded] *)
Definition exm_reload : list mop := [MLoad exm_plain; MLoadFiles (exm_files true)].
(** Example call sequence. No LCQPow code. *)
Definition exm_rerun : list mop := [MLoad exm_plain; MRun (exm_run QpDense); MRun (exm_run QpDense)].
(** Example call sequence. No LCQPow code. *)
Definition exm_sparse : list mop := [MLoadSparse exm_plain; MRun (exm_run QpSparse)].
(** Example call sequence. No LCQPow code. *)
Definition exm_nofile : list mop := [MLoadFiles (exm_files false)].
(** Example call sequence. No LCQPow code. *)
Definition exm_noC : list mop := [MLoadSparse exm_empty; MLoad exm_plain].
(** Example call sequence. No LCQPow code. *)
Definition exm_badswitch : list mop := [MLoadSparse exm_plain; MToDense exm_badA].
Lemma exm_reload_ok : exists s, lifetime exm_d exm_reload = Ok ([true; true], s).
Proof. eexists. vm_compute. reflexivity. Qed.
Lemma exm_rerun_ok : exists s, lifetime exm_d exm_rerun = Ok ([true; true; true], s).
Proof. eexists. vm_compute. reflexivity. Qed.
Lemma exm_sparse_ok : exists s, lifetime exm_d exm_sparse = Ok ([true; true], s).
Proof. eexists. vm_compute. reflexivity. Qed.
Lemma exm_nofile_ok : exists s, lifetime exm_d exm_nofile = Ok ([false], s) /\ fa_ok (exm_files false) tQ = true /\
  In (true, tR) (files (exm_files false)) /\ fa_ok (exm_files false) tR = false.
Proof. eexists. vm_compute. repeat split. tauto. Qed.
Lemma exm_noC_ok : exists s, lifetime exm_d exm_noC = Ok ([false; true], s).
Proof. eexists. vm_compute. reflexivity. Qed.
Lemma exm_badswitch_ok : exists s, lifetime exm_d exm_badswitch = Ok ([true; false], s).
Proof. eexists. vm_compute. reflexivity. Qed.

(** Refutations *)
Lemma exm_leak : ~ all_freed (lifetime exm_d exm_sparse).
Proof.
  intros (oks & s & E & H). specialize (H 47).
  assert (X : (let! '(_, s) := lifetime exm_d exm_sparse in Ok (live s 47)) = Ok true) by (vm_compute; reflexivity).
  rewrite E in X. cbn [bind] in X. rewrite H in X. discriminate.
Qed.
(** OSQP accepts the data of the first run and rejects those of the second *)
Definition exm_late : list mop := [MLoadSparse exm_plain; MRun (exm_run Osqp); MLoadSparse exm_plain; MRun exm_reject].
Lemma exm_late_ub : lifetime exm_d exm_late = UB UseAfterFree.
Proof. vm_compute. reflexivity. Qed.
Lemma exm_assign_ub : assigned exm_d = UB UseAfterFree.
Proof. vm_compute. reflexivity. Qed.

(** A sparse load and a run *)
Lemma exm_keeps : exists s s', memory_after exm_d [MLoadSparse exm_plain] s /\ exec (op_cmd exm_d (MRun (exm_run Osqp))) s = Ok (true, s') /\
  exists a, points_to s fQ_sparse a.
Proof.
  eexists _, _. split; [|split].
  - eexists _, _, _. split; [vm_compute; reflexivity|]. vm_compute. reflexivity.
  - vm_compute. reflexivity.
  - eexists. split; vm_compute; reflexivity.
Qed.
