(** * Properties_Files: loading from files, and the rest of the Python interface.

    [load_files F o] is the call of loadLCQP with file names, [load_dense u o] the one with arrays; [holds f l]: file f starts with the numbers l;
    [files_of u F]: the files F hold the data of problem u; [unreadable n f]: f cannot be opened or has something else among its first n entries
    (SpecFiles.v).  A file is the list of tokens scanf sees (FileIO.v). *)
From Coq Require Import QArith Qcanon.
From Verif Require Import Base Arith Codes Utilities Options Stats FileIO Subsolver State LCQProblem Loops SpecSparse SpecMath SpecLoad SpecExact SpecApi Python SpecInterfaces SpecFiles
  FileLoadFacts Examples ExamplesKernels ExamplesExact ExamplesFiles.
Open Scope Z_scope.

(** ** C61: loading from files is loading the arrays in them

    Partial: without a dual guess, and for files with enough numbers; for the other cases it is false (below). *)
Theorem C61_partial : forall T (A : Arith T) (u : udense T) opt (o : lcqp T) F,
  wf_dense u -> new_object (ud_v u) opt = Ok o -> files_of u F -> u_y0 (ud_v u) = None -> uf_y0 F = None -> load_files F o = load_dense u o.
Proof. exact @p_C61. Qed.
Print Assumptions C61_partial.
Example C61_example : wf_dense exf_u /\ new_object (ud_v exf_u) (ex_options QPOASES_DENSE) = Ok exf_o /\ files_of exf_u (exf_files exf_u None) /\ u_y0 (ud_v exf_u) = None.
Proof. exact (conj exf_wf (conj exf_new (conj (exf_files_of None) eq_refl))). Qed.

(** A file that cannot be read is reported by the return value and a message, and nothing is loaded. *)
Theorem C61_unreadable : forall T (A : Arith T) (v : uvec T) opt (o : lcqp T) F,
  wf_vec v -> new_object v opt = Ok o ->
  (forall n f, In (n, Some f) (all_files (u_nV v) (u_nC v) (u_nComp v) F) -> complete n f \/ unreadable n f) ->
  (exists n f, In (n, Some f) (all_files (u_nV v) (u_nC v) (u_nComp v) F) /\ unreadable n f) ->
  load_files F o = Ok (UNABLE_TO_READ_FILE, logL (EvMessage UNABLE_TO_READ_FILE) o).
Proof. exact @p_C61_bad. Qed.
Print Assumptions C61_unreadable.
Example C61_unreadable_example : let F := exf_files exf_u (Some None) in
  (forall n f, In (n, Some f) (all_files 2 1 1 F) -> complete n f \/ unreadable n f) /\ (exists n f, In (n, Some f) (all_files 2 1 1 F) /\ unreadable n f).
Proof. exact exf_unreadable. Qed.

(** C61 is false with a dual guess: whatever the problem, if the file for y0 holds the nC + 2 nComp numbers the code asks for, the call reads beyond
    the end of an array. *)
Theorem C61_dual_refuted : forall T (A : Arith T) (u : udense T) opt (o : lcqp T) F f,
  wf_dense u -> new_object (ud_v u) opt = Ok o -> fin_lower (ud_v u) -> files_of u F -> uf_y0 F = Some f -> complete (u_nA (ud_v u)) f ->
  load_files F o = UB OutOfBounds.
Proof. exact @p_C61_dual. Qed.
Print Assumptions C61_dual_refuted.
Example C61_dual_example : let f := file_of (fins (zq [0; 0; 0])) in
  fin_lower (ud_v exf_u) /\ files_of exf_u (exf_files exf_u (Some f)) /\ complete (u_nA (ud_v exf_u)) f.
Proof. intros f. split; [exact exf_fin|]. split; [apply exf_files_of|]. exists (fins (zq [0; 0; 0])). split; [reflexivity|apply file_holds]. Qed.

(** C61 is false for short files: a file for g with one number instead of two is accepted; the next runSolver reads an uninitialised value, whatever
    the QP solver answers. *)
Theorem C61_short_refuted : exists F (o o' : lcqp xq), new_object (ud_v exf_u) (ex_options QPOASES_DENSE) = Ok o /\
  uf_g F = file_of (firstn 1 (u_g (ud_v exf_u))) /\ u_nV (ud_v exf_u) = 2 /\
  load_files F o = Ok (SUCCESSFUL_RETURN, o') /\ forall orc rand, runSolver orc rand o' = UB Uninit.
Proof. exact (ex_intro _ (exf_short 1) (ex_intro _ exf_o (ex_intro _ exf_short_o (conj exf_new (conj eq_refl (conj eq_refl (conj exf_short_loads exf_short_run))))))). Qed.
Print Assumptions C61_short_refuted.

(** ** C62: the sparse Python calls and the Python getters

    Loading through Python is loading the same problem through C++; an absent vector is passed as an empty array.  Without constraints, bounds on them
    are not given. *)
Theorem C62_load : forall T (A : Arith T) (u : usparse T) (o : lcqp T), wf_sparse u -> cons_args (us_v u) -> py_load_sparse u o = load_sparse u o.
Proof. exact @py_sparse. Qed.
Print Assumptions C62_load.
Example C62_load_example : wf_sparse (to_sparse (exq_s true)) /\ cons_args (us_v (to_sparse (exq_s true))).
Proof. split; [apply exq_wf_s|]. intros C. vm_compute in C. discriminate. Qed.

(** The Python getters return the vectors the C++ getters write, in arrays of their own. *)
Theorem C62_getters : forall T (A : Arith T) (o : lcqp T) n x y, 0 <= n <= INT_MAX -> len y <= INT_MAX -> getNumberOfPrimals o = Ok n ->
  gives_primal o n x -> gives_dual o y -> py_getPrimalSolution o = Ok (Some (lift x)) /\ py_getDualSolution o = Ok (Some (lift y)).
Proof. exact (fun T A o n x y Hn Hy En Gx Gy => conj (py_primal o n x Hn En Gx) (py_dual o y Hy Gy)). Qed.
Print Assumptions C62_getters.
Example C62_getters_example : exists x y, getNumberOfPrimals (ex_done ex_oracle (ex_o QPOASES_DENSE)) = Ok 2 /\
  gives_primal (ex_done ex_oracle (ex_o QPOASES_DENSE)) 2 x /\ gives_dual (ex_done ex_oracle (ex_o QPOASES_DENSE)) y.
Proof. exact exf_gives. Qed.
