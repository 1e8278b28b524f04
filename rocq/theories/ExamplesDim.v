(** * ExamplesDim: histories for the dimensions (examples, not LCQPow code). *)
From Verif Require Import Base Arith Codes Utilities Options Stats FileIO Subsolver State LCQProblem SpecRun Spec SpecLife SpecUse SpecDim SpecMath Loops Examples ExamplesLife.

(** Loads and switches only.  No LCQPow code. *)
Definition exd_idle : history xq := [(exl_load None, SUCCESSFUL_RETURN); (KToSparse, SUCCESSFUL_RETURN)].
(** Two runs with qpOASES, the second refused, then a load.  No LCQPow code. *)
Definition exd_qp : history xq :=
  [(KOptions (ex_options QPOASES_DENSE), SUCCESSFUL_RETURN); (exl_load None, SUCCESSFUL_RETURN); (KRun, SUCCESSFUL_RETURN); (KToSparse, SUCCESSFUL_RETURN);
   (KRun, DENSE_SPARSE_MISSMATCH); (exl_load (zvec [0;0]), SUCCESSFUL_RETURN)].
(** A run with OSQP, then a load.  No LCQPow code. *)
Definition exd_osqp : history xq := exl_free ++ [(KRun, SUCCESSFUL_RETURN); (KToDense, SUCCESSFUL_RETURN)].
(** A run with qpOASES, then one with OSQP, rejected.  No LCQPow code. *)
Definition exd_both : history xq := exl_qpoases ++ [(KRun, INVALID_OSQP_BOX_CONSTRAINTS)].
(** A successful run with OSQP, then a refused run with qpOASES.  No LCQPow code. *)
Definition exd_mixed : history xq :=
  exl_free ++ [(KRun, SUCCESSFUL_RETURN); (KOptions (ex_options QPOASES_DENSE), SUCCESSFUL_RETURN); (KRun, DENSE_SPARSE_MISSMATCH)].

(** The condition [runs_with], call by call.  No LCQPow code. *)
Fixpoint all_runs (b : bool) (pre h : history xq) : Prop :=
  match h with [] => True | (c, r) :: t => (c = KRun -> (selected pre = OSQP_SPARSE <-> b = true)) /\ all_runs b (pre ++ [(c, r)]) t end.
Lemma all_runs_with b h pre : all_runs b pre h -> forall h1 r h2, h = h1 ++ (KRun, r) :: h2 -> (selected (pre ++ h1) = OSQP_SPARSE <-> b = true).
Proof.
  revert pre. induction h as [|[c r0] h IH]; intros pre A h1 r h2 E; [destruct h1; discriminate|]. destruct A as (A1 & A2). destruct h1 as [|e h1].
  - rewrite app_nil_r. apply A1. exact (f_equal (fun l => match l with e :: _ => fst e | [] => c end) E).
  - assert (E1 : (c, r0) = e) by exact (f_equal (fun l => match l with e :: _ => e | [] => (c, r0) end) E). subst e. change ((c, r0) :: h1) with ([(c, r0)] ++ h1). rewrite app_assoc.
    apply (IH _ A2 h1 r h2). exact (f_equal (@tl _) E).
Qed.

Lemma exd_idle_used : used exl_orc no_rand exd_idle exl_o (exl_after exd_idle) /\ no_run exd_idle.
Proof. split; [vm_compute; reflexivity|]. intros c r [E|[E|[]]]; injection E as <- <-; discriminate. Qed.
Lemma exd_qp_used : used exl_orc no_rand exd_qp exl_o (exl_after exd_qp) /\
  exd_qp = [(KOptions (ex_options QPOASES_DENSE), SUCCESSFUL_RETURN); (exl_load None, SUCCESSFUL_RETURN); (KRun, SUCCESSFUL_RETURN); (KToSparse, SUCCESSFUL_RETURN)] ++
    (KRun, DENSE_SPARSE_MISSMATCH) :: [(exl_load (zvec [0;0]), SUCCESSFUL_RETURN)].
Proof. split; [vm_compute; reflexivity|reflexivity]. Qed.
Lemma exd_qp_runs : runs_with false exd_qp.
Proof. intros h1 r h2 E. apply (all_runs_with false exd_qp []) with (2 := E). cbn. repeat split; intros; discriminate. Qed.
Lemma exd_osqp_used : used exl_orc no_rand exd_osqp exl_o (exl_after exd_osqp) /\ exd_osqp = exl_free ++ (KRun, SUCCESSFUL_RETURN) :: [(KToDense, SUCCESSFUL_RETURN)] /\
  selected exl_free = OSQP_SPARSE.
Proof. split; [vm_compute; reflexivity|split; reflexivity]. Qed.
Lemma exd_osqp_runs : runs_with true exd_osqp.
Proof. intros h1 r h2 E. apply (all_runs_with true exd_osqp []) with (2 := E). cbn. repeat split; intros; discriminate. Qed.
Lemma exd_both_used : used exl_orc no_rand exd_both exl_o (exl_after exd_both).
Proof. vm_compute. reflexivity. Qed.
Lemma exd_mixed_fails : used exl_orc no_rand exd_mixed exl_o (exl_after exd_mixed) /\ getNumberOfDuals (exl_after exd_mixed) = Ok 4 /\
  getDualSolution (Some (repeat None 4)) (exl_after exd_mixed) = UB OutOfBounds.
Proof. split; [vm_compute; reflexivity|]. split; vm_compute; reflexivity. Qed.
