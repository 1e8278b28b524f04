(** * SpecSwap: exchanging the two sides of the complementarity constraint (specification, no LCQPow code). *)
From Coq Require Import QArith Qcanon.
From Verif Require Import Base Arith Codes Utilities Options Stats FileIO Subsolver State LCQProblem Loops SpecLoad StartSparse.
Open Scope Z_scope.

(** Positions [a .. a+m-1] and [a+m .. a+2m-1] change places, all others stay.  No LCQPow code. *)
Definition other (a m k : Z) : Z := if k <? a then k else if k <? a + m then k + m else k - m.

Section Swap.
Context {T : Type} `{Arith T}.

(** [l'] is [l] with two blocks of [m] entries exchanged, the first of which starts at [a].  No LCQPow code. *)
Definition exchanged (a m : Z) (l l' : list T) : Prop :=
  len l = a + 2 * m /\ len l' = a + 2 * m /\ forall k, 0 <= k < a + 2 * m -> at_ a_zero l' k = at_ a_zero l (other a m k).
(** The same for vectors that may be absent.  No LCQPow code. *)
Definition exchanged_opt (a m : Z) (l l' : option (list T)) : Prop :=
  match l, l' with Some l, Some l' => exchanged a m l l' | None, None => True | _, _ => False end.
(** [M] stacks the matrices A ([nC] rows), L and R ([m] rows each) with [n] columns, [M'] stacks A, R and L; both are dense or
    both are sparse.  No LCQPow code. *)
Definition exchanged_rows (n nC m : Z) (M M' : qp_mat T) : Prop :=
  (exists A L R, len A = nC * n /\ len L = m * n /\ len R = m * n /\ M = MDense (A ++ L ++ R) /\ M' = MDense (A ++ R ++ L)) \/
  (exists cA cL cR, M = csc_mat (nC + 2 * m) n (stack_cols nC m n cA cL cR) /\ M' = csc_mat (nC + 2 * m) n (stack_cols nC m n cA cR cL)).

(** Two QPs that differ in the order of their constraints only: [n] variables, [nC] ordinary constraints, [m] complementarity
    pairs; [b] box multipliers come first.  No LCQPow code. *)
Record exchanged_qp (n b nC m : Z) (c d : qp_call T) : Prop := mkExQP {
  xq_solver : qc_solver d = qc_solver c; xq_initial : qc_initial d = qc_initial c;
  xq_H : qc_H d = qc_H c; xq_A : exchanged_rows n nC m (qc_A c) (qc_A d); xq_g : qc_g d = qc_g c;
  xq_lbA : exchanged nC m (qc_lbA c) (qc_lbA d); xq_ubA : exchanged nC m (qc_ubA c) (qc_ubA d);
  xq_lb : qc_lb d = qc_lb c; xq_ub : qc_ub d = qc_ub c;
  xq_x0 : qc_x0 d = qc_x0 c; xq_y0 : exchanged_opt (b + nC) m (qc_y0 c) (qc_y0 d) }.
(** The same answer up to the order of the multipliers.  No LCQPow code. *)
Record exchanged_answer (n b nC m : Z) (a a' : qp_raw T) : Prop := mkExAns {
  xa_ret : q_ret a' = q_ret a; xa_iter : q_iter a' = q_iter a; xa_status : q_status a' = q_status a; xa_work : q_work a' = q_work a;
  xa_wsx : q_wsx_fails a' = q_wsx_fails a; xa_wsy : q_wsy_fails a' = q_wsy_fails a;
  xa_x : forall i, 0 <= i < n -> q_x a' i = q_x a i;
  xa_y : forall k, 0 <= k < b + nC + 2 * m -> q_y a' k = q_y a (other (b + nC) m k) }.
(** A QP library indifferent to the order of constraints: [orc'] answers the exchanged QPs as [orc] answers the original ones.
    No LCQPow code. *)
Definition indifferent (n b nC m : Z) (orc orc' : oracle T) : Prop :=
  forall h h', Forall2 (exchanged_qp n b nC m) h h' -> exchanged_answer n b nC m (orc h) (orc' h').

(** The vectors of the exchanged problem; [y0]: its dual guess.  No LCQPow code. *)
Definition swap_vec (y0 : option (list T)) (u : uvec T) : uvec T :=
  mkUvec (u_nV u) (u_nC u) (u_nComp u) (u_g u) (u_lbR u) (u_ubR u) (u_lbL u) (u_ubL u) (u_lbA u) (u_ubA u) (u_lb u) (u_ub u) (u_x0 u) y0.
(** The exchanged problem: x'R'Lx instead of x'L'Rx.  No LCQPow code. *)
Definition swap_dense (y0 : option (list T)) (u : udense T) : udense T :=
  mkUdense (swap_vec y0 (ud_v u)) (ud_Q u) (ud_R u) (ud_L u) (ud_A u).

(** The same with sparse matrices.  No LCQPow code. *)
Definition swap_sparse (y0 : option (list T)) (u : usparse T) : usparse T :=
  mkUsparse (swap_vec y0 (us_v u)) (us_Q u) (us_R u) (us_L u) (us_A u).

(** Two runs that differ in the order of constraints and multipliers only: same undefined behaviour, or same code,
    same statistics, same primal solution (and status), QPs with exchanged rows, and after success exchanged
    multipliers.  No LCQPow code. *)
Definition exchanged_runs (n b nC m : Z) (r1 r2 : res (ReturnValue * lcqp T)) : Prop :=
  match r1, r2 with
  | Ok (r, o), Ok (r', o') =>
      r' = r /\ getOutputStatistics o' = getOutputStatistics o /\
      (forall buf, getPrimalSolution buf o' = getPrimalSolution buf o) /\
      Forall2 (exchanged_qp n b nC m) (s_calls (it o)) (s_calls (it o')) /\
      (r = SUCCESSFUL_RETURN -> exists s y y', exchanged (b + nC) m y y' /\
         forall buf : arr T, len buf = b + nC + 2 * m ->
           getDualSolution (Some buf) o = Ok (s, Some (lift y)) /\ getDualSolution (Some buf) o' = Ok (s, Some (lift y')))
  | UB u, UB u' => u = u'
  | _, _ => False
  end.
End Swap.
