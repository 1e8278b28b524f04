(** * SpecColumns: listing the variables in another order (specification, no LCQPow code). *)
From Coq Require Import Permutation.
From Verif Require Import Base Arith Codes Utilities Options Stats FileIO Subsolver State LCQProblem Loops SpecSparse SpecLoad StartSparse SpecRenumber.
Open Scope Z_scope.

Section Columns.
Context {T : Type} `{Arith T}.

(** Variable [i] of the new problem was variable [f i]: [l'] is the vector [l] in the new order.  No LCQPow code. *)
Definition moved (n : Z) (f : Z -> Z) (l l' : list T) : Prop :=
  len l = n /\ len l' = n /\ forall i, 0 <= i < n -> at_ a_zero l' i = at_ a_zero l (f i).
(** The same for vectors that may be absent.  No LCQPow code. *)
Definition moved_opt (n : Z) (f : Z -> Z) (l l' : option (list T)) : Prop :=
  match l, l' with Some l, Some l' => moved n f l l' | None, None => True | _, _ => False end.
(** Multipliers: [b] box multipliers in the new order, then [k] constraint multipliers unchanged.  No LCQPow code. *)
Definition moved_duals (b k : Z) (f : Z -> Z) (y y' : list T) : Prop :=
  len y = b + k /\ len y' = b + k /\ (forall i, 0 <= i < b -> at_ a_zero y' i = at_ a_zero y (f i)) /\
  (forall i, b <= i < b + k -> at_ a_zero y' i = at_ a_zero y i).
(** The same for a dual guess that may be absent.  No LCQPow code. *)
Definition moved_duals_opt (b k : Z) (f : Z -> Z) (y y' : option (list T)) : Prop :=
  match y, y' with Some y, Some y' => moved_duals b k f y y' | None, None => True | _, _ => False end.
(** Matrices with [k] rows and [n] columns whose columns are in the new order.  No LCQPow code. *)
Definition moved_cols (k n : Z) (f : Z -> Z) (M M' : qp_mat T) : Prop :=
  (exists a a', M = MDense a /\ M' = MDense a' /\ len a = k * n /\ len a' = k * n /\
     forall i j, 0 <= i < k -> 0 <= j < n -> at_ a_zero a' (i * n + j) = at_ a_zero a (i * n + f j)) \/
  (exists c c', M = csc_mat k n c /\ M' = csc_mat k n c' /\ forall j, 0 <= j < n -> col c' j = col c (f j)).
(** A sparse matrix that stores every entry on both sides of the diagonal.  No LCQPow code. *)
Definition two_sided (n : Z) (c : list (list (Z * T))) : Prop := forall i j x, 0 <= i < n -> 0 <= j < n -> In (i, x) (col c j) -> In (j, x) (col c i).
(** Rows and columns of the sparse matrix are in the new order: the same entries are stored.  No LCQPow code. *)
Definition both_moved (n : Z) (f : Z -> Z) (c c' : list (list (Z * T))) : Prop :=
  forall j, 0 <= j < n -> Permutation (map (fun e => (f (fst e), snd e)) (col c' j)) (col c (f j)).
(** Square matrices whose rows and columns are in the new order; sparse matrices store the same entries.  Of a symmetric matrix
    only the upper triangle may be stored.  No LCQPow code. *)
Definition moved_both (n : Z) (f : Z -> Z) (M M' : qp_mat T) : Prop :=
  (exists a a', M = MDense a /\ M' = MDense a' /\ len a = n * n /\ len a' = n * n /\
     forall i j, 0 <= i < n -> 0 <= j < n -> at_ a_zero a' (i * n + j) = at_ a_zero a (f i * n + f j)) \/
  (exists c c', M = csc_mat n n c /\ M' = csc_mat n n c' /\ both_moved n f c c') \/
  (exists c c', M = csc_mat n n (tab n (fun j => filter (fun e => fst e <=? j) (col c j))) /\
     M' = csc_mat n n (tab n (fun j => filter (fun e => fst e <=? j) (col c' j))) /\ two_sided n c /\ both_moved n f c c').

(** Two QPs that differ in the order of their [n] variables only; [b] box multipliers, [k] constraints.  No LCQPow code. *)
Record moved_qp (n b k : Z) (f : Z -> Z) (c d : qp_call T) : Prop := mkMovedQP {
  mq_solver : qc_solver d = qc_solver c; mq_initial : qc_initial d = qc_initial c;
  mq_H : moved_both n f (qc_H c) (qc_H d); mq_A : moved_cols k n f (qc_A c) (qc_A d); mq_g : moved n f (qc_g c) (qc_g d);
  mq_lbA : qc_lbA d = qc_lbA c; mq_ubA : qc_ubA d = qc_ubA c;
  mq_lb : moved_opt n f (qc_lb c) (qc_lb d); mq_ub : moved_opt n f (qc_ub c) (qc_ub d);
  mq_x0 : moved_opt n f (qc_x0 c) (qc_x0 d); mq_y0 : moved_duals_opt b k f (qc_y0 c) (qc_y0 d) }.
(** The same answer in the new order.  No LCQPow code. *)
Record moved_answer (n b k : Z) (f : Z -> Z) (a a' : qp_raw T) : Prop := mkMovedAns {
  ma_ret : q_ret a' = q_ret a; ma_iter : q_iter a' = q_iter a; ma_status : q_status a' = q_status a; ma_work : q_work a' = q_work a;
  ma_wsx : q_wsx_fails a' = q_wsx_fails a; ma_wsy : q_wsy_fails a' = q_wsy_fails a;
  ma_x : forall i, 0 <= i < n -> q_x a' i = q_x a (f i);
  ma_box : forall i, 0 <= i < b -> q_y a' i = q_y a (f i);
  ma_y : forall i, b <= i < b + k -> q_y a' i = q_y a i }.
(** A QP library that does not care about the order of variables: [orc'] answers the reordered QPs as [orc] answers the
    original ones.  No LCQPow code. *)
Definition names_blind (n b k : Z) (f : Z -> Z) (orc orc' : oracle T) : Prop :=
  forall h h', Forall2 (moved_qp n b k f) h h' -> moved_answer n b k f (orc h) (orc' h').
(** With random perturbations each draw of a step belongs to one variable; the draws are in the new order too.  No LCQPow code. *)
Definition moved_draws (n : Z) (f : Z -> Z) (rand rand' : nat -> Z) : Prop :=
  forall k i, 0 <= i < n -> rand' (k * Z.to_nat n + Z.to_nat i)%nat = rand (k * Z.to_nat n + Z.to_nat (f i))%nat.

(** The vectors of [v'] are those of [v] in the new order.  A missing box bound vector or initial guess may be replaced by its default.  No LCQPow code. *)
Record moved_vec (b : Z) (f : Z -> Z) (v v' : uvec T) : Prop := mkMovedVec {
  mv_nV : u_nV v' = u_nV v; mv_nC : u_nC v' = u_nC v; mv_nComp : u_nComp v' = u_nComp v; mv_g : moved (u_nV v) f (u_g v) (u_g v');
  mv_lbL : u_lbL v' = u_lbL v; mv_ubL : u_ubL v' = u_ubL v; mv_lbR : u_lbR v' = u_lbR v; mv_ubR : u_ubR v' = u_ubR v;
  mv_lbA : u_lbA v' = u_lbA v; mv_ubA : u_ubA v' = u_ubA v;
  mv_lb : forall i, 0 <= i < u_nV v -> bound_at (u_lb v') a_ninf i = bound_at (u_lb v) a_ninf (f i);
  mv_ub : forall i, 0 <= i < u_nV v -> bound_at (u_ub v') a_pinf i = bound_at (u_ub v) a_pinf (f i);
  mv_x0 : forall i, 0 <= i < u_nV v -> bound_at (u_x0 v') a_zero i = bound_at (u_x0 v) a_zero (f i);
  mv_y0 : moved_duals_opt b (u_nC v + 2 * u_nComp v) f (u_y0 v) (u_y0 v') }.
(** The columns of [M'] are those of [M] in the new order.  No LCQPow code. *)
Definition cols_moved (k n : Z) (f : Z -> Z) (M M' : list T) : Prop :=
  forall i j, 0 <= i < k -> 0 <= j < n -> at_ a_zero M' (i * n + j) = at_ a_zero M (i * n + f j).
(** The dense problem [u'] is [u] with its variables in the new order.  No LCQPow code. *)
Record moved_dense (f : Z -> Z) (u u' : udense T) : Prop := mkMovedDense {
  md_v : moved_vec (u_nV (ud_v u)) f (ud_v u) (ud_v u');
  md_Q : forall i j, 0 <= i < u_nV (ud_v u) -> 0 <= j < u_nV (ud_v u) ->
    at_ a_zero (ud_Q u') (i * u_nV (ud_v u) + j) = at_ a_zero (ud_Q u) (f i * u_nV (ud_v u) + f j);
  md_A : cols_moved (u_nC (ud_v u)) (u_nV (ud_v u)) f (ud_A u) (ud_A u');
  md_L : cols_moved (u_nComp (ud_v u)) (u_nV (ud_v u)) f (ud_L u) (ud_L u');
  md_R : cols_moved (u_nComp (ud_v u)) (u_nV (ud_v u)) f (ud_R u) (ud_R u') }.

(** The sparse problem [u'] is [u] with its variables in the new order.  No LCQPow code. *)
Record moved_sparse (b : Z) (f : Z -> Z) (u u' : usparse T) : Prop := mkMovedSparse {
  ms_v : moved_vec b f (us_v u) (us_v u');
  ms_Q : both_moved (u_nV (us_v u)) f (us_Q u) (us_Q u');
  ms_A : forall j, 0 <= j < u_nV (us_v u) -> col (us_Acols u') j = col (us_Acols u) (f j);
  ms_L : forall j, 0 <= j < u_nV (us_v u) -> col (us_L u') j = col (us_L u) (f j);
  ms_R : forall j, 0 <= j < u_nV (us_v u) -> col (us_R u') j = col (us_R u) (f j) }.

(** Statistics that agree, except that the stored iterates are in the new order.  No LCQPow code. *)
Definition moved_stats (n : Z) (f : Z -> Z) (s s' : stats T) : Prop :=
  Forall2 (moved n f) (st_xSteps s) (st_xSteps s') /\
  s' = mkStats (st_iterTotal s) (st_iterOuter s) (st_subproblemIter s) (st_rhoOpt s) (st_status s) (st_exit_flag s) (st_xSteps s')
         (st_innerIters s) (st_subproblemIters s) (st_accuSubproblemIters s) (st_stepLength s) (st_stepSize s) (st_statVals s)
         (st_objVals s) (st_phiVals s) (st_meritVals s).
(** Two runs that differ in the order of variables only: same undefined behaviour, or same code and status, same statistics up to the order in the stored
    iterates, the primal solution in the new order, reordered QPs, and after success the box multipliers in the new order and the same other multipliers.  No LCQPow code. *)
Definition moved_runs (n b k : Z) (f : Z -> Z) (r1 r2 : res (ReturnValue * lcqp T)) : Prop :=
  match r1, r2 with
  | Ok (r, o), Ok (r', o') =>
      r' = r /\ moved_stats n f (getOutputStatistics o) (getOutputStatistics o') /\
      Forall2 (moved_qp n b k f) (s_calls (it o)) (s_calls (it o')) /\
      exists s x x', moved n f x x' /\
        (forall buf : arr T, len buf = n -> getPrimalSolution (Some buf) o = Ok (s, Some (lift x)) /\ getPrimalSolution (Some buf) o' = Ok (s, Some (lift x'))) /\
        (r = SUCCESSFUL_RETURN -> exists y y', moved_duals b k f y y' /\
           forall buf : arr T, len buf = b + k ->
             getDualSolution (Some buf) o = Ok (s, Some (lift y)) /\ getDualSolution (Some buf) o' = Ok (s, Some (lift y')))
  | UB u, UB u' => u = u'
  | _, _ => False
  end.
End Columns.
