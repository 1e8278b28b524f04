(** * SpecRenumber: listing constraints and complementarity pairs in another order (specification, no LCQPow code). *)
From Coq Require Import Permutation.
From Verif Require Import Base Arith Codes Utilities Options Stats FileIO Subsolver State LCQProblem Loops SpecSparse SpecLoad StartSparse.
Open Scope Z_scope.

(** [f] permutes the numbers 0 .. k-1.  No LCQPow code. *)
Definition permutes (k : Z) (f : Z -> Z) : Prop :=
  (forall i, 0 <= i < k -> 0 <= f i < k) /\ (forall i j, 0 <= i < k -> 0 <= j < k -> f i = f j -> i = j).

(** Another numbering: constraint [i] was constraint [nb_row i], pair [i] was pair [nb_pair i], and if [nb_flip i] its two sides
    are exchanged.  No LCQPow code. *)
Record numbering : Type := mkNumbering { nb_row : Z -> Z; nb_pair : Z -> Z; nb_flip : Z -> bool }.
(** The two maps are permutations of [nC] constraints and [m] pairs.  No LCQPow code. *)
Definition renumbers (nC m : Z) (r : numbering) : Prop := permutes nC (nb_row r) /\ permutes m (nb_pair r).
(** Row [k] of the new stack of A ([nC] rows), L and R ([m] rows each) was this row of the old stack.  No LCQPow code. *)
Definition place (nC m : Z) (r : numbering) (k : Z) : Z :=
  if k <? nC then nb_row r k
  else if k <? nC + m then (if nb_flip r (k - nC) then nC + m else nC) + nb_pair r (k - nC)
  else (if nb_flip r (k - nC - m) then nC else nC + m) + nb_pair r (k - nC - m).

Section Renumber.
Context {T : Type} `{Arith T}.

(** [l'] is [l] with the entries from [b] on renumbered by [f].  No LCQPow code. *)
Definition renum (b k : Z) (f : Z -> Z) (l l' : list T) : Prop :=
  len l = b + k /\ len l' = b + k /\ (forall i, 0 <= i < b -> at_ a_zero l' i = at_ a_zero l i) /\
  (forall i, 0 <= i < k -> at_ a_zero l' (b + i) = at_ a_zero l (b + f i)).
(** The same for vectors that may be absent.  No LCQPow code. *)
Definition renum_opt (b k : Z) (f : Z -> Z) (l l' : option (list T)) : Prop :=
  match l, l' with Some l, Some l' => renum b k f l l' | None, None => True | _, _ => False end.
(** Matrices with [k] rows and [n] columns whose rows are renumbered; sparse matrices store the same entries.  No LCQPow code. *)
Definition renum_rows (n k : Z) (f : Z -> Z) (M M' : qp_mat T) : Prop :=
  (exists a a', M = MDense a /\ M' = MDense a' /\ len a = k * n /\ len a' = k * n /\
     forall i j, 0 <= i < k -> 0 <= j < n -> at_ a_zero a' (i * n + j) = at_ a_zero a (f i * n + j)) \/
  (exists c c', M = csc_mat k n c /\ M' = csc_mat k n c' /\
     forall j, 0 <= j < n -> Permutation (map (fun e => (f (fst e), snd e)) (col c' j)) (col c j)).

(** Two QPs that differ in the order of their [k] constraints only; [b] box multipliers come first.  No LCQPow code. *)
Record renum_qp (n b k : Z) (f : Z -> Z) (c d : qp_call T) : Prop := mkRenumQP {
  nq_solver : qc_solver d = qc_solver c; nq_initial : qc_initial d = qc_initial c;
  nq_H : qc_H d = qc_H c; nq_A : renum_rows n k f (qc_A c) (qc_A d); nq_g : qc_g d = qc_g c;
  nq_lbA : renum 0 k f (qc_lbA c) (qc_lbA d); nq_ubA : renum 0 k f (qc_ubA c) (qc_ubA d);
  nq_lb : qc_lb d = qc_lb c; nq_ub : qc_ub d = qc_ub c;
  nq_x0 : qc_x0 d = qc_x0 c; nq_y0 : renum_opt b k f (qc_y0 c) (qc_y0 d) }.
(** The same answer up to the order of the multipliers.  No LCQPow code. *)
Record renum_answer (n b k : Z) (f : Z -> Z) (a a' : qp_raw T) : Prop := mkRenumAns {
  na_ret : q_ret a' = q_ret a; na_iter : q_iter a' = q_iter a; na_status : q_status a' = q_status a; na_work : q_work a' = q_work a;
  na_wsx : q_wsx_fails a' = q_wsx_fails a; na_wsy : q_wsy_fails a' = q_wsy_fails a;
  na_x : forall i, 0 <= i < n -> q_x a' i = q_x a i;
  na_box : forall i, 0 <= i < b -> q_y a' i = q_y a i;
  na_y : forall i, 0 <= i < k -> q_y a' (b + i) = q_y a (b + f i) }.
(** A QP library that does not care about the order of constraints: [orc'] answers the renumbered QPs as [orc] answers the
    original ones.  No LCQPow code. *)
Definition order_blind (n b k : Z) (f : Z -> Z) (orc orc' : oracle T) : Prop :=
  forall h h', Forall2 (renum_qp n b k f) h h' -> renum_answer n b k f (orc h) (orc' h').

(** A bound vector with its default.  No LCQPow code. *)
Definition bound_at (l : option (list T)) (d : T) (i : Z) : T := match l with Some l => at_ a_zero l i | None => d end.
(** Bounds of the pairs: [a], [b] belong to the sides of the new problem, [l], [r] to L and R of the old one.  No LCQPow code. *)
Definition renum_pairs (m : Z) (r : numbering) (d : T) (l rr a b : option (list T)) : Prop :=
  forall i, 0 <= i < m ->
    bound_at a d i = (if nb_flip r i then bound_at rr d (nb_pair r i) else bound_at l d (nb_pair r i)) /\
    bound_at b d i = (if nb_flip r i then bound_at l d (nb_pair r i) else bound_at rr d (nb_pair r i)).
(** The vectors of [v'] are those of [v] in the new order; [b] box multipliers come first in the dual guess.  A missing bound vector
    may be replaced by its default, except that lower complementarity bounds are given in both problems or in none.  No LCQPow code. *)
Record renum_vec (b : Z) (r : numbering) (v v' : uvec T) : Prop := mkRenumVec {
  nv_nV : u_nV v' = u_nV v; nv_nC : u_nC v' = u_nC v; nv_nComp : u_nComp v' = u_nComp v; nv_g : u_g v' = u_g v;
  nv_given : u_lbL v' = None <-> u_lbL v = None;
  nv_lower : renum_pairs (u_nComp v) r a_zero (u_lbL v) (u_lbR v) (u_lbL v') (u_lbR v');
  nv_upper : renum_pairs (u_nComp v) r a_pinf (u_ubL v) (u_ubR v) (u_ubL v') (u_ubR v');
  nv_lbA : forall i, 0 <= i < u_nC v -> bound_at (u_lbA v') a_ninf i = bound_at (u_lbA v) a_ninf (nb_row r i);
  nv_ubA : forall i, 0 <= i < u_nC v -> bound_at (u_ubA v') a_pinf i = bound_at (u_ubA v) a_pinf (nb_row r i);
  nv_lb : u_lb v' = u_lb v; nv_ub : u_ub v' = u_ub v; nv_x0 : u_x0 v' = u_x0 v;
  nv_y0 : renum_opt b (u_nC v + 2 * u_nComp v) (place (u_nC v) (u_nComp v) r) (u_y0 v) (u_y0 v') }.
(** Row [i] of [M'] is row [f i] of [M].  No LCQPow code. *)
Definition row_is (n : Z) (M' : list T) (i : Z) (M : list T) (i0 : Z) : Prop :=
  forall j, 0 <= j < n -> at_ a_zero M' (i * n + j) = at_ a_zero M (i0 * n + j).
(** The dense problem [u'] is [u] in the new order.  No LCQPow code. *)
Record renum_dense (r : numbering) (u u' : udense T) : Prop := mkRenumDense {
  nd_v : renum_vec (u_nV (ud_v u)) r (ud_v u) (ud_v u'); nd_Q : ud_Q u' = ud_Q u;
  nd_A : forall i, 0 <= i < u_nC (ud_v u) -> row_is (u_nV (ud_v u)) (ud_A u') i (ud_A u) (nb_row r i);
  nd_L : forall i, 0 <= i < u_nComp (ud_v u) -> row_is (u_nV (ud_v u)) (ud_L u') i (if nb_flip r i then ud_R u else ud_L u) (nb_pair r i);
  nd_R : forall i, 0 <= i < u_nComp (ud_v u) -> row_is (u_nV (ud_v u)) (ud_R u') i (if nb_flip r i then ud_L u else ud_R u) (nb_pair r i) }.
(** The entries stored in column [j] of A, L and R, with their row in the stack of A, L and R.  No LCQPow code. *)
Definition stacked (u : usparse T) (j : Z) : list (Z * T) :=
  let v := us_v u in
  col (us_Acols u) j ++ map (fun e => (u_nC v + fst e, snd e)) (col (us_L u) j) ++ map (fun e => (u_nC v + u_nComp v + fst e, snd e)) (col (us_R u) j).
(** The sparse problem [u'] is [u] in the new order: the same entries are stored.  No LCQPow code. *)
Record renum_sparse (b : Z) (r : numbering) (u u' : usparse T) : Prop := mkRenumSparse {
  ns_v : renum_vec b r (us_v u) (us_v u'); ns_Q : us_Q u' = us_Q u;
  ns_rows : forall j, 0 <= j < u_nV (us_v u) ->
    Permutation (map (fun e => (place (u_nC (us_v u)) (u_nComp (us_v u)) r (fst e), snd e)) (stacked u' j)) (stacked u j) }.

(** Two runs that differ in the order of constraints and multipliers only: same undefined behaviour, or same code, same statistics,
    same primal solution and status, QPs with renumbered rows, and after success renumbered multipliers.  No LCQPow code. *)
Definition renum_runs (n b k : Z) (f : Z -> Z) (r1 r2 : res (ReturnValue * lcqp T)) : Prop :=
  match r1, r2 with
  | Ok (r, o), Ok (r', o') =>
      r' = r /\ getOutputStatistics o' = getOutputStatistics o /\
      (forall buf, getPrimalSolution buf o' = getPrimalSolution buf o) /\
      Forall2 (renum_qp n b k f) (s_calls (it o)) (s_calls (it o')) /\
      (r = SUCCESSFUL_RETURN -> exists s y y', renum b k f y y' /\
         forall buf : arr T, len buf = b + k ->
           getDualSolution (Some buf) o = Ok (s, Some (lift y)) /\ getDualSolution (Some buf) o' = Ok (s, Some (lift y')))
  | UB u, UB u' => u = u'
  | _, _ => False
  end.
End Renumber.
(** Without exchanged sides multipliers may be anything, otherwise they must not be NaN.  No LCQPow code. *)
Definition good_for (m : Z) (nu : numbering) (orc : oracle xq) : Prop :=
  (forall i, 0 <= i < m -> nb_flip nu i = false) \/ (forall h k, q_y (orc h) k <> NaN).
