(** * SpecLoad: the data a user passes to [loadLCQP], as lists (no LCQPow code). *)
From Verif Require Import Base Arith Codes Utilities Options Stats FileIO Subsolver State LCQProblem Loops SpecSparse.

Section SpecLoad.
Context {T : Type} `{Arith T}.

(** Sizes and vectors; [None] is a NULL pointer.  No LCQPow code. *)
Record uvec : Type := mkUvec {
  u_nV : Z; u_nC : Z; u_nComp : Z;
  u_g : list T;
  u_lbL : option (list T); u_ubL : option (list T); u_lbR : option (list T); u_ubR : option (list T);
  u_lbA : option (list T); u_ubA : option (list T);
  u_lb : option (list T); u_ub : option (list T);
  u_x0 : option (list T); u_y0 : option (list T) }.

(** Dense problem: matrices row by row; [ud_A] is ignored (NULL is passed) if there are no constraints.  No LCQPow code. *)
Record udense : Type := mkUdense { ud_v : uvec; ud_Q : list T; ud_L : list T; ud_R : list T; ud_A : list T }.
(** Sparse problem: matrices as columns of (row, value) entries; [None]: no matrix A is passed.  No LCQPow code. *)
Record usparse : Type := mkUsparse {
  us_v : uvec; us_Q : list (list (Z * T)); us_L : list (list (Z * T)); us_R : list (list (Z * T));
  us_A : option (list (list (Z * T))) }.

(** The pointer to a list.  No LCQPow code. *)
Definition ptr_of (l : option (list T)) : ptr T := match l with Some l => Some (lift l) | None => None end.
(** The csc structure storing given columns.  No LCQPow code. *)
Definition csc_of (m n : Z) (cols : list (list (Z * T))) : csc T :=
  mkCsc m n (Some (lift (tab (n + 1) (off cols)))) (Some (lift (map fst (concat cols)))) (Some (lift (map snd (concat cols))))
    (len (concat cols)).

(** Number of rows of the constraint matrix (A over L over R).  No LCQPow code. *)
Definition u_nA (u : uvec) : Z := u_nC u + 2 * u_nComp u.

(** An optional vector has [n] entries.  No LCQPow code. *)
Definition fits (n : Z) (l : option (list T)) : Prop := match l with Some l => len l = n | None => True end.
(** No entry is minus infinity (or less).  No LCQPow code. *)
Definition above_ninf (l : option (list T)) : Prop :=
  match l with Some l => forall v, In v l -> a_le v a_ninf = false | None => True end.

(** Some entry of a given vector is minus infinity.  No LCQPow code. *)
Definition has_ninf (l : option (list T)) : Prop := exists l' v, l = Some l' /\ In v l' /\ a_le v a_ninf = true.

(** The vectors have the sizes the interface documents, and lengths are machine integers.  No LCQPow code. *)
Record wf_vec (u : uvec) : Prop := mkWfVec {
  wv_nV : 0 < u_nV u; wv_nC : 0 <= u_nC u; wv_nComp : 0 < u_nComp u;
  wv_int : u_nV u + u_nC u + 2 * u_nComp u <= INT_MAX;
  wv_sq : u_nV u * u_nV u <= INT_MAX;
  wv_rect : u_nA u * u_nV u <= INT_MAX;
  wv_g : len (u_g u) = u_nV u;
  wv_lbL : fits (u_nComp u) (u_lbL u); wv_ubL : fits (u_nComp u) (u_ubL u);
  wv_lbR : fits (u_nComp u) (u_lbR u); wv_ubR : fits (u_nComp u) (u_ubR u);
  wv_lbA : fits (u_nC u) (u_lbA u); wv_ubA : fits (u_nC u) (u_ubA u);
  wv_lb : fits (u_nV u) (u_lb u); wv_ub : fits (u_nV u) (u_ub u);
  wv_x0 : fits (u_nV u) (u_x0 u); wv_y0 : fits (u_nV u + u_nA u) (u_y0 u) }.

(** Dense matrices of the documented sizes.  No LCQPow code. *)
Record wf_dense (u : udense) : Prop := mkWfDense {
  wu_v : wf_vec (ud_v u);
  wu_Q : len (ud_Q u) = u_nV (ud_v u) * u_nV (ud_v u);
  wu_L : len (ud_L u) = u_nComp (ud_v u) * u_nV (ud_v u);
  wu_R : len (ud_R u) = u_nComp (ud_v u) * u_nV (ud_v u);
  wu_A : len (ud_A u) = u_nC (ud_v u) * u_nV (ud_v u) }.

(** [n] columns with rows below [m], strictly increasing.  No LCQPow code. *)
Definition wf_cols (m n : Z) (cols : list (list (Z * T))) : Prop :=
  len cols = n /\ (forall c r x, In c cols -> In (r, x) c -> 0 <= r < m) /\ (forall c, In c cols -> sorted c).
(** Columns of A ([None]: all empty).  No LCQPow code. *)
Definition us_Acols (u : usparse) : list (list (Z * T)) :=
  match us_A u with Some c => c | None => tab (u_nV (us_v u)) (fun _ => []) end.
(** Sparse matrices of the documented sizes.  No LCQPow code. *)
Record wf_sparse (u : usparse) : Prop := mkWfSparse {
  ws_v : wf_vec (us_v u);
  ws_Q : wf_cols (u_nV (us_v u)) (u_nV (us_v u)) (us_Q u);
  ws_L : wf_cols (u_nComp (us_v u)) (u_nV (us_v u)) (us_L u);
  ws_R : wf_cols (u_nComp (us_v u)) (u_nV (us_v u)) (us_R u);
  ws_A : wf_cols (u_nC (us_v u)) (u_nV (us_v u)) (us_Acols u);
  ws_merge : len (concat (us_Q u)) + u_nV (us_v u) * u_nV (us_v u) <= INT_MAX }.

(** Lower complementarity bounds above minus infinity.  No LCQPow code. *)
Definition fin_lower (u : uvec) : Prop := above_ninf (u_lbL u) /\ above_ninf (u_lbR u).
(** Lower complementarity bounds given for both sides or for none.  No LCQPow code. *)
Definition paired (u : uvec) : Prop := u_lbL u = None <-> u_lbR u = None.

(** OSQP is usable without box constraints and without a dual guess.  No LCQPow code. *)
Definition osqp_ok (v : uvec) (opt : options T) : Prop :=
  o_qpSolver opt = OSQP_SPARSE -> u_lb v = None /\ u_ub v = None /\ u_y0 v = None.

(** The argument A: NULL if there are no constraints.  No LCQPow code. *)
Definition arg_A (u : udense) : ptr T := if u_nC (ud_v u) =? 0 then None else Some (lift (ud_A u)).
(** The call [loadLCQP] with dense data on object [o].  No LCQPow code. *)
Definition load_dense (u : udense) (o : lcqp T) : res (ReturnValue * lcqp T) :=
  let v := ud_v u in
  loadLCQP (Some (lift (ud_Q u))) (Some (lift (u_g v))) (Some (lift (ud_L u))) (Some (lift (ud_R u)))
    (ptr_of (u_lbL v)) (ptr_of (u_ubL v)) (ptr_of (u_lbR v)) (ptr_of (u_ubR v))
    (arg_A u) (ptr_of (u_lbA v)) (ptr_of (u_ubA v))
    (ptr_of (u_lb v)) (ptr_of (u_ub v)) (ptr_of (u_x0 v)) (ptr_of (u_y0 v)) o.

(** The call [loadLCQP] with sparse data on object [o].  No LCQPow code. *)
Definition load_sparse (u : usparse) (o : lcqp T) : res (ReturnValue * lcqp T) :=
  let v := us_v u in
  loadLCQP_csc (Some (csc_of (u_nV v) (u_nV v) (us_Q u))) (Some (lift (u_g v)))
    (Some (csc_of (u_nComp v) (u_nV v) (us_L u))) (Some (csc_of (u_nComp v) (u_nV v) (us_R u)))
    (ptr_of (u_lbL v)) (ptr_of (u_ubL v)) (ptr_of (u_lbR v)) (ptr_of (u_ubR v))
    (match us_A u with Some c => Some (csc_of (u_nC v) (u_nV v) c) | None => None end) (ptr_of (u_lbA v)) (ptr_of (u_ubA v))
    (ptr_of (u_lb v)) (ptr_of (u_ub v)) (ptr_of (u_x0 v)) (ptr_of (u_y0 v)) o.

(** A new object of the right size with given options.  No LCQPow code. *)
Definition new_object (u : uvec) (opt : options T) : res (lcqp T) :=
  let! o := LCQProblem_ctor (u_nV u) (u_nC u) (u_nComp u) in
  Ok (setOptions opt o).

(** Construct, set options, load, run.  No LCQPow code. *)
Definition solve_dense (u : udense) (opt : options T) (orc : oracle T) (rand : nat -> Z) : res (ReturnValue * lcqp T) :=
  let! o := new_object (ud_v u) opt in
  let! '(r, o) := load_dense u o in
  if is_success r then runSolver orc rand o else Ok (r, o).
(** The same with sparse data.  No LCQPow code. *)
Definition solve_sparse (u : usparse) (opt : options T) (orc : oracle T) (rand : nat -> Z) : res (ReturnValue * lcqp T) :=
  let! o := new_object (us_v u) opt in
  let! '(r, o) := load_sparse u o in
  if is_success r then runSolver orc rand o else Ok (r, o).

(** A given vector, or [n] times the default.  No LCQPow code. *)
Definition bnd (n : Z) (l : option (list T)) (dflt : T) : list T := match l with Some l => l | None => tab n (fun _ => dflt) end.
(** Lower bounds of the stacked constraints.  No LCQPow code. *)
Definition u_lower (u : uvec) : list T :=
  bnd (u_nC u) (u_lbA u) a_ninf ++ bnd (u_nComp u) (u_lbL u) a_zero ++ bnd (u_nComp u) (u_lbR u) a_zero.
(** Upper bounds of the stacked constraints.  No LCQPow code. *)
Definition u_upper (u : uvec) : list T :=
  bnd (u_nC u) (u_ubA u) a_pinf ++ bnd (u_nComp u) (u_ubL u) a_pinf ++ bnd (u_nComp u) (u_ubR u) a_pinf.

(** A column with rows shifted by [k].  No LCQPow code. *)
Definition shift_col (k : Z) (c : list (Z * T)) : list (Z * T) := map (fun e => (k + fst e, snd e)) c.
(** Stacked columns: those of A, then L and R with shifted rows.  No LCQPow code. *)
Definition stack_cols (nC nComp n : Z) (cA cL cR : list (list (Z * T))) : list (list (Z * T)) :=
  tab n (fun j => col cA j ++ shift_col nC (col cL j) ++ shift_col (nC + nComp) (col cR j)).

Lemma csc_of_repr S m n cols : repr S m n cols -> S = csc_of m n cols.
Proof. intros []. destruct S; simpl in *; subst; reflexivity. Qed.
Lemma repr_csc_of m n cols : wf_cols m n cols -> repr (csc_of m n cols) m n cols.
Proof. intros (? & ? & ?). constructor; auto. Qed.

End SpecLoad.
Arguments uvec T : clear implicits.
Arguments udense T : clear implicits.
Arguments usparse T : clear implicits.
