(** * OwnKeepFacts: a run leaves the loaded data where they are (proofs; no LCQPow code). *)
From Coq Require Import List Bool Arith Lia.
From Verif Require Import Base OwnProblem SpecMemory SpecKeep OwnCheck OwnProblemFacts OwnCopyFacts.
Import ListNotations.

Lemma run_keeps : forall d r f, In f data_flds -> keeps (Prob, f) (c_run d r) = true /\ nodel (Prob, f) (c_run d r) = true.
Proof.
  intros d [sv st su x y fi n co fa] f I. destruct sv, su; repeat (destruct I as [<-|I]; [split; vm_compute; reflexivity|]); destruct I.
Qed.
Lemma p_run_keeps : forall d l r s ok s' f, memory_after d l s -> exec (op_cmd d (MRun r)) s = Ok (ok, s') -> In f data_flds ->
  mem s' (Prob, f) = mem s (Prob, f) /\ forall a, points_to s f a -> points_to s' f a.
Proof.
  intros d l r s ok s' f (ok0 & s0 & oks & E0 & E1) E I. destruct (run_keeps d r f I) as [K N]. cbn [op_cmd] in E.
  pose proof (keeps_exec _ _ _ _ _ K E) as M. split; [exact M|]. intros a [Ma La].
  assert (J : inj s) by (eapply calls_inj; [|exact E1]; eapply exec_inj; [apply inj0|exact E0]).
  destruct (hol_exec _ a _ _ _ _ N J (or_introl (conj Ma La)) E) as [H|[_ L]]; [exact H|].
  exfalso. apply (L (Prob, f)). rewrite M. exact Ma.
Qed.
