(** * Pure: the solver loop of src/LCQProblem.cpp on plain vectors (no LCQPow code of its own).

    This is an intermediate specification, not part of the model: Refine.v proves that the model behaves exactly like it,
    in dense and in sparse mode.  Vectors are lists, the two storage formats are hidden behind the operations of [ops].
    The only undefined behaviour left here is integer overflow of the counters. *)
From Verif Require Import Base Arith Codes Utilities Options Stats FileIO Subsolver State LCQProblem Tactics Loops Kernels.

(** A problem: sizes, vectors and the linear maps the loop uses; [K] is the type of penalised Hessians *)
Record ops (T K : Type) : Type := mkOps {
  p_opt : options T;
  p_solver : QPSolver;
  p_nV : Z;
  p_nC : Z;
  p_nComp : Z;
  p_off : Z;                      (* position of the first constraint multiplier *)
  p_box : bool;                   (* box multipliers exist *)
  p_g : list T;
  p_gphi : option (list T);
  p_pc : T;
  p_matH : qp_mat T;              (* what the QP library gets *)
  p_matA : qp_mat T;
  p_lbA : list T;
  p_ubA : list T;
  p_lb : option (list T);
  p_ub : option (list T);
  p_setH : T -> K;                (* Q + rho C *)
  p_updH : T -> K -> K;           (* update after the penalty has become rho *)
  p_affH : K -> list T -> list T -> list T;      (* H x + c *)
  p_quadH : K -> list T -> T;
  p_affC : T -> list T -> list T -> list T;      (* rho C x + c *)
  p_quadC : list T -> T;
  p_quadQ : list T -> T;
  p_tA : list T -> list T;        (* A' y *)
  p_mulL : list T -> list T;
  p_mulR : list T -> list T }.
Arguments p_opt {T K}. Arguments p_solver {T K}. Arguments p_nV {T K}. Arguments p_nC {T K}. Arguments p_nComp {T K}.
Arguments p_off {T K}. Arguments p_box {T K}. Arguments p_g {T K}. Arguments p_gphi {T K}. Arguments p_pc {T K}.
Arguments p_matH {T K}. Arguments p_matA {T K}. Arguments p_lbA {T K}. Arguments p_ubA {T K}. Arguments p_lb {T K}.
Arguments p_ub {T K}. Arguments p_setH {T K}. Arguments p_updH {T K}. Arguments p_affH {T K}. Arguments p_quadH {T K}.
Arguments p_affC {T K}. Arguments p_quadC {T K}. Arguments p_quadQ {T K}. Arguments p_tA {T K}. Arguments p_mulL {T K}.
Arguments p_mulR {T K}.

Section Pure.
Context {T : Type} `{Arith T} {K : Type}.

(** The state of the loop *)
Record vst : Type := mkV {
  v_rho : T;
  v_alpha : T;
  v_gt : list T;
  v_gk : list T;
  v_x : list T;
  v_y : list T;
  v_yA : list T;
  v_p : list T;
  v_stat : list T;
  v_h : K;
  v_outer : Z;
  v_inner : Z;
  v_total : Z;
  v_qpit : option Z;
  v_flag : option Z;
  v_algo : option AlgorithmStatus;
  v_hist : list T;
  v_stats : stats T;
  v_work : bool;
  v_calls : list (qp_call T);
  v_rnd : nat }.

(** Field updates *)
Definition w_rho (x : T) (v : vst) : vst :=
  mkV x (v_alpha v) (v_gt v) (v_gk v) (v_x v) (v_y v) (v_yA v) (v_p v) (v_stat v) (v_h v) (v_outer v) (v_inner v) (v_total v) (v_qpit v) (v_flag v) (v_algo v) (v_hist v) (v_stats v) (v_work v) (v_calls v) (v_rnd v).
(** Assignment to one component. No LCQPow code. *)
Definition w_alpha (x : T) (v : vst) : vst :=
  mkV (v_rho v) x (v_gt v) (v_gk v) (v_x v) (v_y v) (v_yA v) (v_p v) (v_stat v) (v_h v) (v_outer v) (v_inner v) (v_total v) (v_qpit v) (v_flag v) (v_algo v) (v_hist v) (v_stats v) (v_work v) (v_calls v) (v_rnd v).
(** Assignment to one component. No LCQPow code. *)
Definition w_gt (x : list T) (v : vst) : vst :=
  mkV (v_rho v) (v_alpha v) x (v_gk v) (v_x v) (v_y v) (v_yA v) (v_p v) (v_stat v) (v_h v) (v_outer v) (v_inner v) (v_total v) (v_qpit v) (v_flag v) (v_algo v) (v_hist v) (v_stats v) (v_work v) (v_calls v) (v_rnd v).
(** Assignment to one component. No LCQPow code. *)
Definition w_gk (x : list T) (v : vst) : vst :=
  mkV (v_rho v) (v_alpha v) (v_gt v) x (v_x v) (v_y v) (v_yA v) (v_p v) (v_stat v) (v_h v) (v_outer v) (v_inner v) (v_total v) (v_qpit v) (v_flag v) (v_algo v) (v_hist v) (v_stats v) (v_work v) (v_calls v) (v_rnd v).
(** Assignment to one component. No LCQPow code. *)
Definition w_x (x : list T) (v : vst) : vst :=
  mkV (v_rho v) (v_alpha v) (v_gt v) (v_gk v) x (v_y v) (v_yA v) (v_p v) (v_stat v) (v_h v) (v_outer v) (v_inner v) (v_total v) (v_qpit v) (v_flag v) (v_algo v) (v_hist v) (v_stats v) (v_work v) (v_calls v) (v_rnd v).
(** Assignment to one component. No LCQPow code. *)
Definition w_y (x : list T) (v : vst) : vst :=
  mkV (v_rho v) (v_alpha v) (v_gt v) (v_gk v) (v_x v) x (v_yA v) (v_p v) (v_stat v) (v_h v) (v_outer v) (v_inner v) (v_total v) (v_qpit v) (v_flag v) (v_algo v) (v_hist v) (v_stats v) (v_work v) (v_calls v) (v_rnd v).
(** Assignment to one component. No LCQPow code. *)
Definition w_yA (x : list T) (v : vst) : vst :=
  mkV (v_rho v) (v_alpha v) (v_gt v) (v_gk v) (v_x v) (v_y v) x (v_p v) (v_stat v) (v_h v) (v_outer v) (v_inner v) (v_total v) (v_qpit v) (v_flag v) (v_algo v) (v_hist v) (v_stats v) (v_work v) (v_calls v) (v_rnd v).
(** Assignment to one component. No LCQPow code. *)
Definition w_p (x : list T) (v : vst) : vst :=
  mkV (v_rho v) (v_alpha v) (v_gt v) (v_gk v) (v_x v) (v_y v) (v_yA v) x (v_stat v) (v_h v) (v_outer v) (v_inner v) (v_total v) (v_qpit v) (v_flag v) (v_algo v) (v_hist v) (v_stats v) (v_work v) (v_calls v) (v_rnd v).
(** Assignment to one component. No LCQPow code. *)
Definition w_stat (x : list T) (v : vst) : vst :=
  mkV (v_rho v) (v_alpha v) (v_gt v) (v_gk v) (v_x v) (v_y v) (v_yA v) (v_p v) x (v_h v) (v_outer v) (v_inner v) (v_total v) (v_qpit v) (v_flag v) (v_algo v) (v_hist v) (v_stats v) (v_work v) (v_calls v) (v_rnd v).
(** Assignment to one component. No LCQPow code. *)
Definition w_h (x : K) (v : vst) : vst :=
  mkV (v_rho v) (v_alpha v) (v_gt v) (v_gk v) (v_x v) (v_y v) (v_yA v) (v_p v) (v_stat v) x (v_outer v) (v_inner v) (v_total v) (v_qpit v) (v_flag v) (v_algo v) (v_hist v) (v_stats v) (v_work v) (v_calls v) (v_rnd v).
(** Assignment to one component. No LCQPow code. *)
Definition w_outer (x : Z) (v : vst) : vst :=
  mkV (v_rho v) (v_alpha v) (v_gt v) (v_gk v) (v_x v) (v_y v) (v_yA v) (v_p v) (v_stat v) (v_h v) x (v_inner v) (v_total v) (v_qpit v) (v_flag v) (v_algo v) (v_hist v) (v_stats v) (v_work v) (v_calls v) (v_rnd v).
(** Assignment to one component. No LCQPow code. *)
Definition w_inner (x : Z) (v : vst) : vst :=
  mkV (v_rho v) (v_alpha v) (v_gt v) (v_gk v) (v_x v) (v_y v) (v_yA v) (v_p v) (v_stat v) (v_h v) (v_outer v) x (v_total v) (v_qpit v) (v_flag v) (v_algo v) (v_hist v) (v_stats v) (v_work v) (v_calls v) (v_rnd v).
(** Assignment to one component. No LCQPow code. *)
Definition w_total (x : Z) (v : vst) : vst :=
  mkV (v_rho v) (v_alpha v) (v_gt v) (v_gk v) (v_x v) (v_y v) (v_yA v) (v_p v) (v_stat v) (v_h v) (v_outer v) (v_inner v) x (v_qpit v) (v_flag v) (v_algo v) (v_hist v) (v_stats v) (v_work v) (v_calls v) (v_rnd v).
(** Assignment to one component. No LCQPow code. *)
Definition w_qpit (x : option Z) (v : vst) : vst :=
  mkV (v_rho v) (v_alpha v) (v_gt v) (v_gk v) (v_x v) (v_y v) (v_yA v) (v_p v) (v_stat v) (v_h v) (v_outer v) (v_inner v) (v_total v) x (v_flag v) (v_algo v) (v_hist v) (v_stats v) (v_work v) (v_calls v) (v_rnd v).
(** Assignment to one component. No LCQPow code. *)
Definition w_flag (x : option Z) (v : vst) : vst :=
  mkV (v_rho v) (v_alpha v) (v_gt v) (v_gk v) (v_x v) (v_y v) (v_yA v) (v_p v) (v_stat v) (v_h v) (v_outer v) (v_inner v) (v_total v) (v_qpit v) x (v_algo v) (v_hist v) (v_stats v) (v_work v) (v_calls v) (v_rnd v).
(** Assignment to one component. No LCQPow code. *)
Definition w_algo (x : option AlgorithmStatus) (v : vst) : vst :=
  mkV (v_rho v) (v_alpha v) (v_gt v) (v_gk v) (v_x v) (v_y v) (v_yA v) (v_p v) (v_stat v) (v_h v) (v_outer v) (v_inner v) (v_total v) (v_qpit v) (v_flag v) x (v_hist v) (v_stats v) (v_work v) (v_calls v) (v_rnd v).
(** Assignment to one component. No LCQPow code. *)
Definition w_hist (x : list T) (v : vst) : vst :=
  mkV (v_rho v) (v_alpha v) (v_gt v) (v_gk v) (v_x v) (v_y v) (v_yA v) (v_p v) (v_stat v) (v_h v) (v_outer v) (v_inner v) (v_total v) (v_qpit v) (v_flag v) (v_algo v) x (v_stats v) (v_work v) (v_calls v) (v_rnd v).
(** Assignment to one component. No LCQPow code. *)
Definition w_stats (x : stats T) (v : vst) : vst :=
  mkV (v_rho v) (v_alpha v) (v_gt v) (v_gk v) (v_x v) (v_y v) (v_yA v) (v_p v) (v_stat v) (v_h v) (v_outer v) (v_inner v) (v_total v) (v_qpit v) (v_flag v) (v_algo v) (v_hist v) x (v_work v) (v_calls v) (v_rnd v).
(** Assignment to one component. No LCQPow code. *)
Definition w_work (x : bool) (v : vst) : vst :=
  mkV (v_rho v) (v_alpha v) (v_gt v) (v_gk v) (v_x v) (v_y v) (v_yA v) (v_p v) (v_stat v) (v_h v) (v_outer v) (v_inner v) (v_total v) (v_qpit v) (v_flag v) (v_algo v) (v_hist v) (v_stats v) x (v_calls v) (v_rnd v).
(** Assignment to one component. No LCQPow code. *)
Definition w_calls (x : list (qp_call T)) (v : vst) : vst :=
  mkV (v_rho v) (v_alpha v) (v_gt v) (v_gk v) (v_x v) (v_y v) (v_yA v) (v_p v) (v_stat v) (v_h v) (v_outer v) (v_inner v) (v_total v) (v_qpit v) (v_flag v) (v_algo v) (v_hist v) (v_stats v) (v_work v) x (v_rnd v).
(** Assignment to one component. No LCQPow code. *)
Definition w_rnd (x : nat) (v : vst) : vst :=
  mkV (v_rho v) (v_alpha v) (v_gt v) (v_gk v) (v_x v) (v_y v) (v_yA v) (v_p v) (v_stat v) (v_h v) (v_outer v) (v_inner v) (v_total v) (v_qpit v) (v_flag v) (v_algo v) (v_hist v) (v_stats v) (v_work v) (v_calls v) x.

Variable p : ops T K.
Let nV := p_nV p.
Let nC := p_nC p.
Let nComp := p_nComp p.
(** Number of rows of the stacked constraint matrix. *)
Definition p_nA : Z := p_nC p + 2 * p_nComp p.
(** Number of dual variables. *)
Definition p_nD : Z := p_off p + p_nA.

(** rho C x + g_tilde *)
Definition v_lin (v : vst) : vst := w_gk (p_affC p (v_rho v) (v_x v) (v_gt v)) v.

(** One QP: return value, iteration count, exit flag, workspace, answer, calls *)
Definition v_call (initial : bool) (x0 : list T) (y0 : option (list T)) (g : list T) : qp_call T :=
  mkCall (p_solver p) initial (p_matH p) (p_matA p) g (p_lbA p) (p_ubA p) (p_lb p) (p_ub p)
    (if initial then Some x0 else None) (if initial then y0 else None).
(** List-level counterpart of Subsolver::solve, src/Subsolver.cpp, with the library answer given by the oracle *)
Definition v_sub (orc : oracle T) (initial : bool) (y0 : option (list T)) (v : vst) : sub_result T :=
  let calls := v_call initial (v_x v) y0 (v_gk v) :: v_calls v in
  let a := orc calls in
  match p_solver p with
  | OSQP_SPARSE =>
      let work := if initial then q_work a else v_work v in
      if initial && q_wsx_fails a then mkSubRes OSQP_INITIAL_PRIMAL_GUESS_FAILED None None work None calls else
      if initial && notNull y0 && q_wsy_fails a then mkSubRes OSQP_INITIAL_DUAL_GUESS_FAILED None None work None calls else
      if negb work then mkSubRes OSQP_WORKSPACE_NOT_SET_UP None None work None calls else
      let ret := if negb (q_ret a =? 0) || (q_status a <=? 0) then SUBPROBLEM_SOLVER_ERROR else SUCCESSFUL_RETURN in
      mkSubRes ret (Some (q_iter a)) (Some (q_status a)) work (Some a) calls
  | _ =>
      let ret := if q_ret a =? 0 then SUCCESSFUL_RETURN else SUBPROBLEM_SOLVER_ERROR in
      mkSubRes ret (Some (q_iter a)) (Some (q_ret a)) (v_work v) (Some a) calls
  end.
(** What Subsolver::solve leaves in the object: call history, workspace, iteration count, exit flag. *)
Definition v_record (r : sub_result T) (v : vst) : vst :=
  let v := w_calls (sr_calls r) (w_work (sr_work r) v) in
  let v := match sr_iter r with Some k => w_qpit (Some k) v | None => v end in
  match sr_flag r with Some k => w_flag (Some k) v | None => v end.
(** The solution delivered by the library *)
Definition a_x (a : qp_raw T) : list T := tab nV (q_x a).
(** The dual vector delivered by the library; OSQP duals are negated. *)
Definition a_y (a : qp_raw T) : list T :=
  tab p_nD (match p_solver p with OSQP_SPARSE => fun i => (- q_y a i)%num | _ => q_y a end).
(** List-level counterpart of [solveQPSubproblem], src/LCQProblem.cpp:1115-1148 *)
Definition v_solve (orc : oracle T) (initial : bool) (y0 : option (list T)) (v : vst) : res (ReturnValue * vst) :=
  let r := v_sub orc initial y0 v in
  let v := v_record r v in
  let! k := get (v_qpit v) in
  let! '(_, st) := updateSubproblemIter k (v_stats v) in
  let! f := get (v_flag v) in
  let v := w_stats (updateQPSolverExitFlag f st) v in
  if negb (is_success (sr_ret r)) then Ok (sr_ret r, v) else
  let! raw := get (sr_raw r) in
  let y := a_y raw in
  Ok (SUCCESSFUL_RETURN,
      w_p (wadd a_one (a_x raw) a_mone (v_x v) nV) (w_yA (tab p_nA (fun i => at_ a_zero y (p_off p + i))) (w_y y v))).

(** List-level counterpart of [getObj], src/LCQProblem.cpp:1161-1169 *)
Definition v_obj (v : vst) : T := (dot (p_g p) (v_x v) nV + p_quadQ p (v_x v) / a_two)%num.
(** List-level counterpart of [getPhi], src/LCQProblem.cpp:1172-1185 *)
Definition v_phi (v : vst) : T :=
  ((p_pc p + match p_gphi p with None => a_zero | Some gp => (a_zero + dot gp (v_x v) nV)%num end)
   + p_quadC p (v_x v) / a_two)%num.
(** List-level counterpart of [getMerit], src/LCQProblem.cpp:1188-1196 *)
Definition v_merit (v : vst) : T := (dot (p_g p) (v_x v) nV + p_quadH p (v_h v) (v_x v) / a_two)%num.
(** List-level counterpart of [stationarityCheck], src/LCQProblem.cpp:1151-1153 *)
Definition v_statOK (v : vst) : bool := a_lt (maxabs (v_stat v) nV) (o_stationarityTolerance (p_opt p)).
(** List-level counterpart of [complementarityCheck], src/LCQProblem.cpp:1156-1158 *)
Definition v_complOK (v : vst) : bool := a_lt (v_phi v) (o_complementarityTolerance (p_opt p)).

(** List-level counterpart of [updatePenalty], src/LCQProblem.cpp:1199-1214 *)
Definition v_penalty (v : vst) : vst :=
  let v := if 0 <? o_nDynamicPenalty (p_opt p) then w_hist [] v else v in
  let v := w_rho (v_rho v * o_penaltyUpdateFactor (p_opt p))%num v in
  let v := w_stats (snd (updateRhoOpt (v_rho v) (v_stats v))) v in
  let v := w_h (p_updH p (v_rho v) (v_h v)) v in
  match p_gphi p with
  | None => v
  | Some gp => w_gt (wadd a_one (p_g p) (v_rho v) gp nV) v
  end.

(** List-level counterpart of [getOptimalStepLength], src/LCQProblem.cpp:1217-1237 *)
Definition v_steplen (v : vst) : vst :=
  let qk := p_quadH p (v_h v) (v_p v) in
  let lk := dot (v_p v) (p_affH p (v_h v) (v_x v) (v_gt v)) nV in
  w_alpha (if a_lt a_zero qk && a_lt lk a_zero then std_min ((- lk) / qk)%num a_one else a_one) v.

(** List-level counterpart of [updateStep], src/LCQProblem.cpp:1240-1243 *)
Definition v_step (v : vst) : vst := w_x (wadd a_one (v_x v) (v_alpha v) (v_p v) nV) v.

(** H x + g_tilde - A' y_A - y_box *)
Definition v_station (v : vst) : vst :=
  let st := wadd a_one (p_affH p (v_h v) (v_x v) (v_gt v)) a_mone (p_tA p (v_yA v)) nV in
  w_stat (if p_box p then wadd a_one st a_mone (v_y v) nV else st) v.

(** List-level counterpart of [leyfferCheckPositive], src/LCQProblem.cpp:1275-1313 *)
Definition v_leyffer (v : vst) : bool * vst :=
  let n := to_size_t (o_nDynamicPenalty (p_opt p)) in
  if n <=? 0 then (false, v) else
  let h := v_hist v in
  if len h <? n then (false, w_hist (h ++ [v_phi v]) v) else
  let v' := w_hist (tl h ++ [v_phi v]) v in
  if v_complOK v then (false, v') else
  (negb (existsb (fun x => a_lt (v_phi v) (o_etaDynamicPenalty (p_opt p) * x)%num) (firstn (Z.to_nat n) h)), v').

(** List-level counterpart of [updateOuterIter], src/LCQProblem.cpp:1329-1332 *)
Definition v_outerIter (v : vst) : res vst :=
  let! n := chk_int (v_outer v + 1) in
  let! '(_, st) := updateIterOuter 1 (v_stats v) in
  Ok (w_stats st (w_outer n v)).
(** List-level counterpart of [updateTotalIter], src/LCQProblem.cpp:1335-1338 *)
Definition v_totalIter (v : vst) : res vst :=
  let! n := chk_int (v_total v + 1) in
  let! '(_, st) := updateIterTotal 1 (v_stats v) in
  Ok (w_stats st (w_total n v)).
(** List-level counterpart of [penaltyStep], src/LCQProblem.cpp:500-504 *)
Definition v_penaltyStep (v : vst) : res vst :=
  let! v := v_outerIter (v_penalty v) in
  Ok (w_inner 0 v).

(** List-level counterpart of [perturbStep], src/LCQProblem.cpp:1353-1362 *)
Definition v_perturb (rand : nat -> Z) (v : vst) : vst :=
  w_rnd (v_rnd v + Z.to_nat nV)%nat
    (w_x (tab nV (fun i => (at_ a_zero (v_x v) i + a_of_Z (rand (v_rnd v + Z.to_nat i)%nat mod 3 - 1) * EPS)%num)) v).

(** List-level counterpart of [storeSteps], src/LCQProblem.cpp:1365-1378 *)
Definition v_store (v : vst) : res vst :=
  let! k := get (v_qpit v) in
  let! st := updateTrackingVectors (Some (lift (v_x v))) (v_inner v) k (v_alpha v) (maxabs (v_p v) nV)
               (maxabs (v_stat v) nV) (v_obj v) (v_phi v) (v_merit v) nV (v_stats v) in
  Ok (w_stats st v).

(** printIteration reads qpIterk in one mode *)
Definition v_print (v : vst) : res vst :=
  match o_printLevel (p_opt p) with
  | INNER_LOOP_ITERATES => let! _ := get (v_qpit v) in Ok v
  | _ => Ok v
  end.

(** List-level counterpart of [pass_head], src/LCQProblem.cpp:479-508 *)
Definition v_head (v : vst) : res vst :=
  let v := v_station (v_step v) in
  let! v := v_print v in
  let! v := if o_storeSteps (p_opt p) then v_store v else Ok v in
  let! v := v_totalIter v in
  let! n := chk_int (v_inner v + 1) in
  let '(b, v) := v_leyffer (w_inner n v) in
  let! v := if b then v_penaltyStep v else Ok v in
  Ok (v_lin v).

(** Transformed duals *)
Definition v_duals (v : vst) : vst :=
  let sub k off M y := if (off <=? k) && (k <? off + nComp) then (y - v_rho v * at_ a_zero (M (v_x v)) (k - off))%num else y in
  w_y (tab p_nD (fun k =>
    sub k (p_off p + nC + nComp) (p_mulL p) (sub k (p_off p + nC) (p_mulR p) (at_ a_zero (v_y v) k)))) v.
(** List-level counterpart of [getWeakComplementarities], src/LCQProblem.cpp:1456-1482 *)
Definition v_weak (v : vst) : list Z :=
  let tol := o_complementarityTolerance (p_opt p) in
  filter (fun i => a_le (at_ a_zero (p_mulL p (v_x v)) i) tol && a_le (at_ a_zero (p_mulR p (v_x v)) i) tol) (tab nComp (fun i => i)).
(** List-level counterpart of [classify], src/LCQProblem.cpp:1416-1452 *)
Fixpoint v_classify (tol : T) (yA : list T) (w : list Z) (s_st m_st : bool) : AlgorithmStatus :=
  match w with
  | [] => if s_st then S_STATIONARY_SOLUTION else if m_st then M_STATIONARY_SOLUTION else C_STATIONARY_SOLUTION
  | i :: w =>
      let a := at_ a_zero yA (nC + i) in
      let b := at_ a_zero yA (nC + nComp + i) in
      let s_st := if a_lt (std_min a b) a_zero then false else s_st in
      if a_le tol (a_abs (a * b)%num) && a_le (std_min a b) a_zero then
        if a_le (a * b)%num tol then W_STATIONARY_SOLUTION else v_classify tol yA w s_st false
      else v_classify tol yA w s_st m_st
  end.
(** List-level counterpart of [finish], src/LCQProblem.cpp:514-526 *)
Definition v_finish (v : vst) : vst :=
  let v := v_duals v in
  let a := v_classify (o_complementarityTolerance (p_opt p)) (v_yA v) (v_weak v) true true in
  w_stats (updateSolutionStatus a (v_stats v)) (w_algo (Some a) v).

(** List-level counterpart of [pass_tail], src/LCQProblem.cpp:537-558 *)
Definition v_tail (orc : oracle T) (rand : nat -> Z) (v : vst) : res (vst * option ReturnValue) :=
  if o_maxIterations (p_opt p) <? v_total v then Ok (v, Some MAX_ITERATIONS_REACHED) else
  if a_lt (o_maxPenaltyParameter (p_opt p)) (v_rho v) then Ok (v, Some MAX_PENALTY_REACHED) else
  let! '(r, v) := v_solve orc false None (v_lin v) in
  if negb (is_success r) then Ok (v, Some r) else
  Ok (v_steplen (if o_perturbStep (p_opt p) then v_perturb rand v else v), None).

(** List-level counterpart of [pass], src/LCQProblem.cpp:476-559 *)
Definition v_pass (orc : oracle T) (rand : nat -> Z) (v : vst) : res (vst * option ReturnValue) :=
  let! v := v_head v in
  if v_statOK v then
    if v_complOK v then Ok (v_finish v, Some SUCCESSFUL_RETURN)
    else let! v := v_penaltyStep v in v_tail orc rand v
  else v_tail orc rand v.

(** List-level counterpart of [loop], src/LCQProblem.cpp:476 *)
Fixpoint v_loop (fuel : nat) (orc : oracle T) (rand : nat -> Z) (v : vst) : res (ReturnValue * vst) :=
  match fuel with
  | O => UB OutOfFuel
  | S fuel =>
      let! '(v, e) := v_pass orc rand v in
      match e with
      | Some r => Ok (r, v)
      | None => v_loop fuel orc rand v
      end
  end.

(** List-level counterpart of [first_solve], src/LCQProblem.cpp:451-473 *)
Definition v_first (orc : oracle T) (y0 : option (list T)) (v : vst) : res (vst * option ReturnValue) :=
  let v := if o_solveZeroPenaltyFirst (p_opt p) then w_gk (p_g p) v else v_lin v in
  let! '(r, v) := v_solve orc true y0 v in
  if negb (is_success r) then Ok (v, Some r) else
  let v := w_h (p_setH p (v_rho v)) v in
  Ok (w_stats (snd (updateRhoOpt (v_rho v) (v_stats v))) v, None).

(** State after initialisation of a fresh object *)
Definition v_init (x0 : list T) : vst :=
  let zeros n := tab n (fun _ => a_zero) in
  mkV (o_initialPenaltyParameter (p_opt p)) a_one (p_g p) (zeros nV) x0 [] (zeros p_nA) (zeros nV) (zeros nV)
    (p_setH p a_zero) 0 0 0 None None (Some PROBLEM_NOT_SOLVED) [] stats_reset false [] O.

(** List-level counterpart of [runSolver_fuel], src/LCQProblem.cpp:444-560 *)
Definition v_run (fuel : nat) (orc : oracle T) (rand : nat -> Z) (y0 : option (list T)) (v : vst) : res (ReturnValue * vst) :=
  let! '(v, e) := v_first orc y0 v in
  match e with
  | Some r => Ok (r, v)
  | None => v_loop fuel orc rand v
  end.

End Pure.
Arguments vst T K : clear implicits.
