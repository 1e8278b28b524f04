(** * ExamplesFiles: the example problem in files (examples, not LCQPow code). *)
From Coq Require Import QArith Qcanon.
From Verif Require Import Base Arith Codes Utilities Options Stats FileIO Subsolver State LCQProblem Loops SpecSparse SpecMath SpecLoad SpecExact Python SpecInterfaces SpecFiles
  SpecApi Examples ExamplesKernels ExamplesExact.
Open Scope Z_scope.

(** A file with the numbers of a list.  No LCQPow code. *)
Definition file_of (l : list xq) : @file xq := Some (map TNum l).
(** The files of a problem, with a given file for the dual guess.  No LCQPow code. *)
Definition exf_files (u : udense xq) (y0 : option (@file xq)) : ufiles xq :=
  let v := ud_v u in
  mkUfiles (file_of (ud_Q u)) (file_of (u_g v)) (file_of (ud_L u)) (file_of (ud_R u)) (option_map file_of (u_lbL v)) (option_map file_of (u_ubL v))
    (option_map file_of (u_lbR v)) (option_map file_of (u_ubR v)) (if u_nC v =? 0 then None else Some (file_of (ud_A u))) (option_map file_of (u_lbA v)) (option_map file_of (u_ubA v))
    (option_map file_of (u_lb v)) (option_map file_of (u_ub v)) (option_map file_of (u_x0 v)) y0.
(** The example problem with bounds.  No LCQPow code. *)
Definition exf_u : udense xq :=
  to_dense (mkQdense (mkQvec 2 1 1 (zq [-2; -4]) (Some (zq [0])) None (Some (zq [0])) None None (Some (fz [10])) None None (Some (zq [1; 1])) None)
    (zq [2; 0; 0; 2]) (zq [1; 0]) (zq [0; 1]) (zq [1; 1])).
Lemma exf_wf : wf_dense exf_u.
Proof. constructor; [constructor; vm_compute; try reflexivity; try discriminate; exact I|reflexivity..]. Qed.
Lemma exf_fin : fin_lower (ud_v exf_u).
Proof. split; intros v [<-|[]]; reflexivity. Qed.
(** An object of the right size.  No LCQPow code. *)
Definition exf_o : lcqp xq := ok_or LCQProblem_default (new_object (ud_v exf_u) (ex_options QPOASES_DENSE)).
Lemma exf_new : new_object (ud_v exf_u) (ex_options QPOASES_DENSE) = Ok exf_o.
Proof. vm_compute. reflexivity. Qed.
Lemma file_holds l : holds (file_of l) l.
Proof. exists []. rewrite app_nil_r. reflexivity. Qed.
Lemma opt_holds l : holds_opt (option_map file_of l) l.
Proof. destruct l; [apply file_holds|exact I]. Qed.
Lemma exf_files_of y0 : files_of exf_u (exf_files exf_u y0).
Proof. unfold files_of. repeat split; first [apply file_holds|apply opt_holds]. Qed.

(** The same files, but with a file for g that ends after [n] numbers.  No LCQPow code. *)
Definition exf_short (n : nat) : ufiles xq :=
  let F := exf_files exf_u None in
  mkUfiles (uf_Q F) (file_of (firstn n (u_g (ud_v exf_u)))) (uf_L F) (uf_R F) (uf_lbL F) (uf_ubL F) (uf_lbR F) (uf_ubR F) (uf_A F) (uf_lbA F) (uf_ubA F)
    (uf_lb F) (uf_ub F) (uf_x0 F) None.
(** The object loaded from them.  No LCQPow code. *)
Definition exf_short_o : lcqp xq := snd (ok_or (SUCCESSFUL_RETURN, LCQProblem_default) (load_files (exf_short 1) exf_o)).
Lemma exf_short_loads : load_files (exf_short 1) exf_o = Ok (SUCCESSFUL_RETURN, exf_short_o).
Proof. vm_compute. reflexivity. Qed.
Lemma exf_short_run : forall orc rand, runSolver orc rand exf_short_o = UB Uninit.
Proof. intros. vm_compute. reflexivity. Qed.

Lemma file_complete l n : len l = n -> complete n (file_of l).
Proof. intros E. exists l. split; [exact E|apply file_holds]. Qed.
Lemma exf_unreadable : let F := exf_files exf_u (Some None) in
  (forall n f, In (n, Some f) (all_files 2 1 1 F) -> complete n f \/ unreadable n f) /\ (exists n f, In (n, Some f) (all_files 2 1 1 F) /\ unreadable n f).
Proof.
  intros F. split.
  - intros n f Hi. unfold all_files in Hi. cbn [In] in Hi.
    repeat (destruct Hi as [Hi|Hi]; [try discriminate; injection Hi as <- <-; first [left; apply file_complete; reflexivity|right; left; reflexivity]|]). destruct Hi.
  - exists 3, None. split; [|left; reflexivity]. unfold all_files. do 14 right. left. reflexivity.
Qed.

(** The solution of the example.  No LCQPow code. *)
Definition exf_x : list xq := fins (zq [0; 2]).
(** Its multipliers.  No LCQPow code. *)
Definition exf_y : list xq := fins (zq [0; 0; -2; 0]).
Lemma exf_gives : exists x y, getNumberOfPrimals (ex_done ex_oracle (ex_o QPOASES_DENSE)) = Ok 2 /\
  gives_primal (ex_done ex_oracle (ex_o QPOASES_DENSE)) 2 x /\ gives_dual (ex_done ex_oracle (ex_o QPOASES_DENSE)) y.
Proof.
  exists exf_x, exf_y. split; [vm_compute; reflexivity|]. split.
  - split; [reflexivity|]. exists S_STATIONARY_SOLUTION. intros buf L.
    destruct buf as [|a [|b [|c r]]]; try (exfalso; revert L; unfold len; cbn [length]; lia). vm_compute. repeat f_equal; apply Qc_is_canon; reflexivity.
  - split; [vm_compute; reflexivity|]. exists S_STATIONARY_SOLUTION. intros buf L. change (len exf_y) with 4 in L.
    destruct buf as [|a [|b [|c [|d [|e r]]]]]; try (exfalso; revert L; unfold len; cbn [length]; lia). vm_compute. repeat f_equal; apply Qc_is_canon; reflexivity.
Qed.
