(** * SpecPrint: what a call prints, and objects before their first run (specification, no LCQPow code). *)
From Verif Require Import Base Arith Codes Utilities Options Stats FileIO Subsolver State LCQProblem.

Section Print.
Context {T : Type} `{Arith T}.

(** What the calls on the object have printed, newest first.  No LCQPow code. *)
Definition printed (o : lcqp T) : list (print_event T) := s_log (it o).
(** A call that prints nothing if it succeeds and otherwise exactly the message of its return value.  No LCQPow code. *)
Definition reported (o : lcqp T) (r : ReturnValue) (o' : lcqp T) : Prop :=
  printed o' = if is_success r then printed o else EvMessage r :: printed o.
(** The values of one pass that the iteration table can show.  No LCQPow code. *)
Record row : Type := mkRow { rw_outer : Z; rw_inner : Z; rw_stat : T; rw_compl : T; rw_rho : T; rw_step : T; rw_alpha : T; rw_qp : Z }.
(** The lines printed for a pass: nothing at level NONE; at level OUTER_LOOP_ITERATES one line for the first pass after a penalty update, with a
    header at every tenth outer iterate; at level INNER_LOOP_ITERATES one line for every pass, with a header at every tenth inner iterate.
    No LCQPow code. *)
Definition shown (lvl : PrintLevel) (v : row) : list (print_event T) :=
  match lvl with
  | PL_NONE => []
  | OUTER_LOOP_ITERATES =>
      if 0 <? rw_inner v then [] else
      (if rw_outer v mod 10 =? 0 then [EvHeader] else []) ++
      [EvIter (rw_outer v) (rw_stat v) (rw_compl v) (rw_rho v) (rw_step v) None]
  | INNER_LOOP_ITERATES =>
      (if rw_inner v mod 10 =? 0 then [EvHeader] else []) ++
      [EvIter (rw_outer v) (rw_stat v) (rw_compl v) (rw_rho v) (rw_step v) (Some (rw_inner v, rw_alpha v, rw_qp v))]
  end.
(** The first line of a run.  No LCQPow code. *)
Definition opening (lvl : PrintLevel) : list (print_event T) := match lvl with PL_NONE => [] | _ => [EvNewline] end.
(** The last line of a run: the kind of solution on success, nothing when a limit was reached, otherwise the message of the return value.
    No LCQPow code. *)
Definition closing (lvl : PrintLevel) (r : ReturnValue) (a : AlgorithmStatus) : list (print_event T) :=
  match r, lvl with
  | SUCCESSFUL_RETURN, PL_NONE => []
  | SUCCESSFUL_RETURN, _ => [EvSolution a]
  | MAX_ITERATIONS_REACHED, _ | MAX_PENALTY_REACHED, _ => []
  | _, _ => [EvMessage r]
  end.
(** Successive rows: the inner iterates are counted, or the penalty was updated once or twice and they start again.  No LCQPow code. *)
Definition next_row (a : Z * Z) (b : Z * Z) : Prop :=
  (fst b = fst a /\ snd b = snd a + 1) \/ (fst a < fst b <= fst a + 2 /\ snd b = 0).
(** Rows counted from the given iterates on.  No LCQPow code. *)
Fixpoint counted (from : Z * Z) (rows : list row) : Prop :=
  match rows with [] => True | v :: rows => next_row from (rw_outer v, rw_inner v) /\ counted (rw_outer v, rw_inner v) rows end.
(** The rows of a run: one per pass, counted from outer and inner iterate 0, the penalty column being the initial penalty multiplied once per
    outer iterate, and the other columns what the statistics record.  No LCQPow code. *)
Record table (opt : options T) (st : stats T) (rows : list row) : Prop := mkTable {
  tb_len : Z.of_nat (length rows) = st_iterTotal st;
  tb_count : counted (0, -1) rows;
  tb_rho : Forall (fun v => rw_rho v = Nat.iter (Z.to_nat (rw_outer v)) (fun p => p * o_penaltyUpdateFactor opt)%num (o_initialPenaltyParameter opt)) rows;
  tb_last : rw_outer (last rows (mkRow 0 0 a_zero a_zero a_zero a_zero a_zero 0)) <= st_iterOuter st;
  tb_recorded : o_storeSteps opt = true ->
    map rw_inner rows = st_innerIters st /\ map rw_stat rows = st_statVals st /\ map rw_compl rows = st_phiVals st /\
    map rw_step rows = st_stepSize st /\ map rw_alpha rows = st_stepLength st /\ map rw_qp rows = st_subproblemIters st }.
(** Everything a run prints, oldest first.  No LCQPow code. *)
Definition run_text (opt : options T) (rows : list row) (r : ReturnValue) (st : stats T) : list (print_event T) :=
  opening (o_printLevel opt) ++ flat_map (shown (o_printLevel opt)) rows ++ closing (o_printLevel opt) r (st_status st).
(** An object that was constructed, loaded, switched and given options in any order, but not run.  No LCQPow code. *)
Inductive not_run : lcqp T -> Prop :=
| NR_new nV nC nComp o : LCQProblem_ctor nV nC nComp = Ok o -> not_run o
| NR_options opt o : not_run o -> not_run (setOptions opt o)
| NR_dense Q g L R lbL ubL lbR ubR A lbA ubA lb ub x0 y0 o r o' : not_run o ->
    loadLCQP Q g L R lbL ubL lbR ubR A lbA ubA lb ub x0 y0 o = Ok (r, o') -> not_run o'
| NR_sparse Q g L R lbL ubL lbR ubR A lbA ubA lb ub x0 y0 o r o' : not_run o ->
    loadLCQP_csc Q g L R lbL ubL lbR ubR A lbA ubA lb ub x0 y0 o = Ok (r, o') -> not_run o'
| NR_files Q g L R lbL ubL lbR ubR A lbA ubA lb ub x0 y0 o r o' : not_run o ->
    loadLCQP_files Q g L R lbL ubL lbR ubR A lbA ubA lb ub x0 y0 o = Ok (r, o') -> not_run o'
| NR_to_sparse o r o' : not_run o -> switchToSparseMode o = Ok (r, o') -> not_run o'
| NR_to_dense o r o' : not_run o -> switchToDenseMode o = Ok (r, o') -> not_run o'.

End Print.
Arguments row T : clear implicits.
