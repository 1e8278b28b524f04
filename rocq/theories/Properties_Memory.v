(** * Properties_Memory: the memory of an LCQProblem and of its subsolver (C56).

    [lifetime d l] constructs a problem object, makes the calls [l] and destroys the object (OwnProblem.v); it is [UB] if a block is
    freed twice or used after it was freed, and otherwise says which calls succeeded and which blocks exist in the end.
    [all_freed], [memory_safe], [single_use] and [no_late_reject] are in SpecMemory.v. *)
From Coq Require Import List Bool Arith Lia.
From Verif Require Import Base OwnProblem SpecMemory SpecKeep OwnProblemFacts OwnCopy OwnCopyFacts OwnKeepFacts ExamplesMemory.
Import ListNotations.
Local Open Scope nat_scope.

(** C56 asks for [forall d l, all_freed (lifetime d l)], which is false (below).  It holds for objects that are loaded once and run at
    most once, with other calls that are refused or that switch the mode, if the run is not with sparse qpOASES. *)
Theorem C56_partial : forall d l, single_use d l -> all_freed (lifetime d l).
Proof. exact p_single. Qed.
Print Assumptions C56_partial.
Example C56_example : single_use exm_d exm_hist /\
  exists s, lifetime exm_d exm_hist = Ok ([true; true; false; true; true], s) /\ length (blk s) = 45.
Proof. exact (conj exm_single exm_single_run). Qed.

(** Any sequence of calls is free of double frees and of uses after a free, unless OSQP rejects the data of a run after it accepted
    those of an earlier run. *)
Theorem C56_safe_partial : forall d l, no_late_reject l -> memory_safe (lifetime d l).
Proof. exact p_safe. Qed.
Print Assumptions C56_safe_partial.
Example C56_safe_example : no_late_reject exm_many.
Proof. exact exm_many_ok. Qed.

(** A run, successful or not, neither frees nor replaces the loaded data, whatever was done with the object before: a block that held them
    still does. *)
Theorem C56_run_keeps : forall d l r s ok s' f, memory_after d l s -> exec (op_cmd d (MRun r)) s = Ok (ok, s') -> In f data_flds ->
  mem s' (Prob, f) = mem s (Prob, f) /\ forall a, points_to s f a -> points_to s' f a.
Proof. exact p_run_keeps. Qed.
Print Assumptions C56_run_keeps.
Example C56_run_keeps_example : exists s s', memory_after exm_d [MLoadSparse exm_plain] s /\ exec (op_cmd exm_d (MRun (exm_run Osqp))) s = Ok (true, s') /\
  exists a, points_to s fQ_sparse a.
Proof. exact exm_keeps. Qed.

(** Full C56 is false: after a run with sparse qpOASES a block is left. *)
Theorem C56_refuted : exists d l, ~ all_freed (lifetime d l).
Proof. exact (ex_intro _ exm_d (ex_intro _ exm_sparse exm_leak)). Qed.
Print Assumptions C56_refuted.

(** If OSQP rejects the data of a second run, the stale workspace is used and freed again. *)
Theorem C56_safe_refuted : exists d l, lifetime d l = UB UseAfterFree.
Proof. exact (ex_intro _ exm_d (ex_intro _ exm_late exm_late_ub)). Qed.
Print Assumptions C56_safe_refuted.

(** Assigning one problem object to another (p = LCQProblem(nV, nC, nComp)) frees the arrays twice. *)
Theorem C56_assign_refuted : exists d, assigned d = UB UseAfterFree.
Proof. exact (ex_intro _ exm_d exm_assign_ub). Qed.
Print Assumptions C56_assign_refuted.

(** A copy of a problem object (LCQProblem q(p), a parameter by value, ...) shares its arrays: destroying both frees them twice, whatever
    was done with the object before. *)
Theorem C56_copy_refuted : forall d l q accepted, d_ok d = true -> copied d l q accepted = UB UseAfterFree.
Proof. exact p_copied. Qed.
Print Assumptions C56_copy_refuted.
Example C56_copy_example : d_ok exm_d = true /\ (exists r, lifetime exm_d exm_hist = Ok r) /\ (exists r, lifetime exm_d [] = Ok r).
Proof. split; [reflexivity|]. split; eexists; vm_compute; reflexivity. Qed.

(** The leaks are systematic.  Loading a second time leaks, whatever happens in between and afterwards. *)
Theorem C56_reload : forall d l i j o1 o2 oks s, lifetime d l = Ok (oks, s) -> i < j ->
  succeeded l oks i o1 -> succeeded l oks j o2 -> is_load o1 -> is_load o2 -> exists a, live s a = true.
Proof. exact p_reload. Qed.
Print Assumptions C56_reload.
Example C56_reload_example : exists s, lifetime exm_d exm_reload = Ok ([true; true], s).
Proof. exact exm_reload_ok. Qed.

(** Running a second time leaks. *)
Theorem C56_rerun : forall d l i j r1 r2 oks s, lifetime d l = Ok (oks, s) -> i < j ->
  succeeded l oks i (MRun r1) -> succeeded l oks j (MRun r2) -> exists a, live s a = true.
Proof. exact p_rerun. Qed.
Print Assumptions C56_rerun.
Example C56_rerun_example : exists s, lifetime exm_d exm_rerun = Ok ([true; true; true], s).
Proof. exact exm_rerun_ok. Qed.

(** Running with sparse qpOASES leaks. *)
Theorem C56_sparse_qpoases : forall d l i r oks s, lifetime d l = Ok (oks, s) -> succeeded l oks i (MRun r) -> rp_solver r = QpSparse ->
  exists a, live s a = true.
Proof. exact p_sparse. Qed.
Print Assumptions C56_sparse_qpoases.
Example C56_sparse_qpoases_example : exists s, lifetime exm_d exm_sparse = Ok ([true; true], s).
Proof. exact exm_sparse_ok. Qed.

(** Loading from files leaks if the file for Q can be read and a later one cannot. *)
Theorem C56_files : forall d l i f oks s t, lifetime d l = Ok (oks, s) -> nth_error l i = Some (MLoadFiles f) ->
  fa_ok f tQ = true -> In (true, t) (files f) -> fa_ok f t = false -> exists a, live s a = true.
Proof. exact p_files. Qed.
Print Assumptions C56_files.
Example C56_files_example : exists s, lifetime exm_d exm_nofile = Ok ([false], s) /\ fa_ok (exm_files false) tQ = true /\
  In (true, tR) (files (exm_files false)) /\ fa_ok (exm_files false) tR = false.
Proof. exact exm_nofile_ok. Qed.

(** Loading sparse data whose complementarity product L'R + R'L has no entry leaks. *)
Theorem C56_empty_product : forall d l i a oks s, lifetime d l = Ok (oks, s) -> nth_error l i = Some (MLoadSparse a) ->
  d_ok d = true -> la_g a = true -> la_C a = false -> exists x, live s x = true.
Proof. exact p_empty. Qed.
Print Assumptions C56_empty_product.
Example C56_empty_product_example : exists s, lifetime exm_d exm_noC = Ok ([false; true], s).
Proof. exact exm_noC_ok. Qed.

(** A switch to dense mode that is reported as failed leaks. *)
Theorem C56_failed_switch : forall d l i ok oks s, lifetime d l = Ok (oks, s) -> nth_error l i = Some (MToDense ok) ->
  nth_error oks i = Some false -> exists x, live s x = true.
Proof. exact p_toDense. Qed.
Print Assumptions C56_failed_switch.
Example C56_failed_switch_example : exists s, lifetime exm_d exm_badswitch = Ok ([true; false], s).
Proof. exact exm_badswitch_ok. Qed.
