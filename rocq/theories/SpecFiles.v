(** * SpecFiles: loading a problem from files, and the remaining Python calls (specification, not LCQPow code). *)
From Verif Require Import Base Arith Codes Utilities Options Stats FileIO Subsolver State LCQProblem Loops SpecSparse SpecLoad Python SpecInterfaces.
Open Scope Z_scope.

Section SpecFiles.
Context {T : Type} `{Arith T}.

(** The files passed to loadLCQP; [None] is a NULL file name, [Some None] a file that cannot be opened.  No LCQPow code. *)
Record ufiles : Type := mkUfiles {
  uf_Q : @file T; uf_g : @file T; uf_L : @file T; uf_R : @file T;
  uf_lbL : option (@file T); uf_ubL : option (@file T); uf_lbR : option (@file T); uf_ubR : option (@file T);
  uf_A : option (@file T); uf_lbA : option (@file T); uf_ubA : option (@file T);
  uf_lb : option (@file T); uf_ub : option (@file T); uf_x0 : option (@file T); uf_y0 : option (@file T) }.
(** The call [loadLCQP] with file names on object [o].  No LCQPow code. *)
Definition load_files (F : ufiles) (o : lcqp T) : res (ReturnValue * lcqp T) :=
  loadLCQP_files (uf_Q F) (uf_g F) (uf_L F) (uf_R F) (uf_lbL F) (uf_ubL F) (uf_lbR F) (uf_ubR F) (uf_A F) (uf_lbA F) (uf_ubA F)
    (uf_lb F) (uf_ub F) (uf_x0 F) (uf_y0 F) o.

(** The file contains the numbers [l], perhaps followed by something.  No LCQPow code. *)
Definition holds (f : @file T) (l : list T) : Prop := exists rest, f = Some (map TNum l ++ rest).
(** The same for optional files: a NULL name for an absent vector.  No LCQPow code. *)
Definition holds_opt (f : option (@file T)) (l : option (list T)) : Prop :=
  match f, l with Some f, Some l => holds f l | None, None => True | _, _ => False end.
(** The files contain the problem [u], except for the dual guess; no file for A if there are no constraints.  No LCQPow code. *)
Definition files_of (u : udense T) (F : ufiles) : Prop :=
  let v := ud_v u in
  holds (uf_Q F) (ud_Q u) /\ holds (uf_g F) (u_g v) /\ holds (uf_L F) (ud_L u) /\ holds (uf_R F) (ud_R u) /\
  holds_opt (uf_lbL F) (u_lbL v) /\ holds_opt (uf_ubL F) (u_ubL v) /\ holds_opt (uf_lbR F) (u_lbR v) /\ holds_opt (uf_ubR F) (u_ubR v) /\
  holds_opt (uf_A F) (if u_nC v =? 0 then None else Some (ud_A u)) /\ holds_opt (uf_lbA F) (u_lbA v) /\ holds_opt (uf_ubA F) (u_ubA v) /\
  holds_opt (uf_lb F) (u_lb v) /\ holds_opt (uf_ub F) (u_ub v) /\ holds_opt (uf_x0 F) (u_x0 v).

(** A file with [n] numbers.  No LCQPow code. *)
Definition complete (n : Z) (f : @file T) : Prop := exists l, len l = n /\ holds f l.
(** A file that cannot be opened, or with something that is not a number among the first [n] entries.  No LCQPow code. *)
Definition unreadable (n : Z) (f : @file T) : Prop := f = None \/ exists l rest, len l < n /\ f = Some (map TNum l ++ TBad :: rest).
(** All files that are passed, with the number of values expected.  No LCQPow code. *)
Definition all_files (nV nC nComp : Z) (F : ufiles) : list (Z * option (@file T)) :=
  [ (nV * nV, Some (uf_Q F)); (nV, Some (uf_g F)); (nComp * nV, Some (uf_L F)); (nComp * nV, Some (uf_R F));
    (nComp, uf_lbL F); (nComp, uf_ubL F); (nComp, uf_lbR F); (nComp, uf_ubR F); (nC * nV, uf_A F); (nC, uf_lbA F); (nC, uf_ubA F);
    (nV, uf_lb F); (nV, uf_ub F); (nV, uf_x0 F); (nC + 2 * nComp, uf_y0 F) ].

(** The Python object made from the columns of a matrix: sizes, number of entries, values, rows, column starts.  No LCQPow code. *)
Definition py_csc (m n : Z) (cols : list (list (Z * T))) : option (csc T) :=
  cscWrapper (Some (m, n, len (concat cols), map snd (concat cols), map fst (concat cols), tab (n + 1) (off cols))).
(** The call of the Python method loadLCQP with sparse matrices; the default argument for A if there is none.  No LCQPow code. *)
Definition py_load_sparse (u : usparse T) (o : lcqp T) : res (ReturnValue * lcqp T) :=
  let v := us_v u in
  py_loadLCQP_csc (py_csc (u_nV v) (u_nV v) (us_Q u)) (u_g v) (py_csc (u_nComp v) (u_nV v) (us_L u)) (py_csc (u_nComp v) (u_nV v) (us_R u))
    (py_vec (u_lbL v)) (py_vec (u_ubL v)) (py_vec (u_lbR v)) (py_vec (u_ubR v))
    (match us_A u with Some c => py_csc (u_nC v) (u_nV v) c | None => cscWrapper None end) (py_vec (u_lbA v)) (py_vec (u_ubA v))
    (py_vec (u_lb v)) (py_vec (u_ub v)) (py_vec (u_x0 v)) (py_vec (u_y0 v)) o.
End SpecFiles.
Arguments ufiles T : clear implicits.
