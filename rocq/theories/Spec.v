(** * Spec: vocabulary for statements about whole runs, in terms of API calls and their results (not LCQPow code). *)
From Verif Require Import Base Arith Codes Utilities Options Stats FileIO Subsolver State LCQProblem Loops SpecRun.

Section Spec.
Context {T : Type} `{Arith T}.
Implicit Types (orc : oracle T) (d : pdata T) (s : iter T) (o : lcqp T) (st : stats T).

(** Running sums (specification) *)
Fixpoint prefix_sums (acc : Z) (l : list Z) : list Z :=
  match l with [] => [] | x :: r => (acc + x) :: prefix_sums (acc + x) r end.

(** All ten tracking vectors have [n] entries and the accumulated counts are running sums. *)
Record tracked st (n : Z) : Prop := {
  tr_x : len (st_xSteps st) = n;
  tr_inner : len (st_innerIters st) = n;
  tr_sub : len (st_subproblemIters st) = n;
  tr_accu : st_accuSubproblemIters st = prefix_sums 0 (st_subproblemIters st);
  tr_sl : len (st_stepLength st) = n;
  tr_ss : len (st_stepSize st) = n;
  tr_stat : len (st_statVals st) = n;
  tr_obj : len (st_objVals st) = n;
  tr_phi : len (st_phiVals st) = n;
  tr_merit : len (st_meritVals st) = n
}.

(** No step was recorded *)
Definition untracked st : Prop :=
  st_xSteps st = [] /\ st_innerIters st = [] /\ st_subproblemIters st = [] /\ st_accuSubproblemIters st = [] /\
  st_stepLength st = [] /\ st_stepSize st = [] /\ st_statVals st = [] /\ st_objVals st = [] /\ st_phiVals st = [] /\
  st_meritVals st = [].

(** The values [x] delivers for the first [n] coordinates *)
Definition holds (x : ptr T) (n : Z) (l : list T) : Prop :=
  len l = Z.max 0 n /\ forall i, 0 <= i < n -> exists a, x = Some a /\ rd a i = Ok (at_ a_zero l i).

(** The run reached the QP solver: at least one QP library call was made *)
Definition started o o' : Prop := s_calls (it o') <> s_calls (it o).

(** The documented penalty sequence: initial value times the update factor, [k] times *)
Definition rho_seq o (k : nat) : T :=
  Nat.iter k (fun r => (r * o_penaltyUpdateFactor (d_options (pd o)))%num) (o_initialPenaltyParameter (d_options (pd o))).

(** [r] is [m] after at most two penalty updates *)
Definition two_more o (m r : T) : Prop :=
  let f x := (x * o_penaltyUpdateFactor (d_options (pd o)))%num in r = m \/ r = f m \/ r = f (f m).

(** The last [n] elements *)
Definition last_n (n : Z) (l : list T) : list T := skipn (length l - Z.to_nat n) l.

(** The complementarity values of the passes since the last penalty update, oldest first (specification) *)
Inductive since orc rand o d : iter T -> list T -> Prop :=
| Since_first o1 s1 : initializeSolver o = Ok (SUCCESSFUL_RETURN, o1) -> d = pd o1 ->
    first_solve orc d (it o1) = Ok (s1, None) -> since orc rand o d s1 []
| Since_next s s' s1 vs v : since orc rand o d s vs -> pass orc rand d s = Ok (s', None) ->
    updateStep d s = Ok s1 -> getPhi d s1 = Ok v ->
    since orc rand o d s' (if s_outerIter s' =? s_outerIter s then vs ++ [v] else []).

(** The selected QP solver's format differs from that of the loaded data *)
Definition mismatch o : Prop :=
  match o_qpSolver (d_options (pd o)) with
  | QPOASES_DENSE => d_sparseSolver (pd o) = true
  | QPOASES_SPARSE => d_sparseSolver (pd o) = false
  | OSQP_SPARSE => d_sparseSolver (pd o) = false /\ d_lb (pd o) = None /\ d_ub (pd o) = None
  end.

(** The object with other statistics *)
Definition with_stats st o : lcqp T := mkLcqp (pd o) (set_stats st (it o)).

End Spec.
