(** * ExamplesMatlabQP: concrete option structs for the QP solvers (no LCQPow code). *)
From Coq Require Import String QArith Qcanon.
From Verif Require Import Base Arith Codes Utilities Options Matlab MatlabQP SpecMatlabQP MatlabQPFacts ExamplesInterfaces.
Local Open Scope string_scope.
Local Open Scope list_scope.
Local Open Scope Z_scope.

(** A struct with some options of qpOASES.  No LCQPow code. *)
Definition exo_qp : mxArray xq :=
  MxStruct [("printLevel", mxScalar (a_of_Z 9)); ("epsNum", mxScalar (a_lit (-3) (-1))); ("enableEqualities", mxScalar (a_of_Z 1)); ("epsDen", MxDense 0 0 []);
    ("unknown", mxScalar (a_of_Z 1))].
(** A struct with some settings of OSQP.  No LCQPow code. *)
Definition exo_osqp : mxArray xq := MxStruct [("linsys_solver", MxOther 1 5); ("max_iter", mxScalar (a_lit 15 (-1))); ("rho", mxScalar (a_lit 1 (-1)))].

Ltac listed Hi := repeat destruct Hi as [Hi|Hi]; try (destruct Hi; fail); injection Hi as <- <-.
Lemma exo_qp_proper : proper xq_to_int qpoases_known exo_qp.
Proof.
  intros n k Hi _. cbn in Hi. listed Hi; try (left; intros f Hf; discriminate).
  - right. exists (a_of_Z 9), (OInt 3). split; [reflexivity|]. exists 9. split; vm_compute; reflexivity.
  - right. exists (a_of_Z 1), (OInt 1). split; [reflexivity|]. exists 1. split; vm_compute; reflexivity.
  - right. exists (a_lit (-3) (-1)), (ONum (a_lit (-3) (-1))). split; reflexivity.
  - left. intros f Hf. assert (f = MxDense 0 0 []) by (cbn in Hf; congruence). subst f. left. discriminate.
Qed.
Lemma exo_osqp_proper : proper xq_to_int osqp_known exo_osqp.
Proof.
  intros n k Hi Hk. cbn in Hi. listed Hi; try (left; intros f Hf; discriminate); try (destruct (Hk eq_refl)).
  - right. exists (a_lit 1 (-1)), (ONum (a_lit 1 (-1))). split; reflexivity.
  - right. exists (a_lit 15 (-1)), (OInt 1). split; [reflexivity|]. exists 1. split; vm_compute; reflexivity.
Qed.

Lemma exo_lacks : lacks exo_qp "epsDen".
Proof. intros f Hf. assert (f = MxDense 0 0 []) by (cbn in Hf; congruence). subst f. left. discriminate. Qed.

(** The options of qpOASES for MATLAB: all 31, including the limits of iterations [m] and time.  No LCQPow code. *)
Definition exo_all (m : Z) : mxArray xq :=
  MxStruct (("maxIter", mxScalar (a_of_Z m)) :: map (fun nk => (fst nk, mxScalar (a_of_Z 1))) qpoases_known ++ [("maxCpuTime", mxScalar (a_of_Z 1))]).
Lemma exo_all_proper : proper xq_to_int qpoases_known (exo_all 0).
Proof.
  intros n k Hi _. right. cbn in Hi.
  listed Hi; solve [exists (a_of_Z 1), (OInt 1); split; [reflexivity|]; exists 1; split; vm_compute; reflexivity|exists (a_of_Z 1), (ONum (a_of_Z 1)); split; reflexivity].
Qed.
Lemma exo_ignored (s : settings xq) : exists r, forall m, gives (exo_all m) "maxIter" (a_of_Z m) /\ setupqpOASESOptions xq_to_int s (exo_all m) = Ok (r, []).
Proof.
  destruct (p_C71_qpoases xq_to_int s (exo_all 0) exo_all_proper) as (r & w & E & _ & _ & W). exists r. intros m. split; [reflexivity|].
  assert (W0 : w = []) by (rewrite W; vm_compute; reflexivity). rewrite W0 in E. rewrite <- E. vm_compute. reflexivity.
Qed.
