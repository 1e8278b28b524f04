(** * Subsolver: model of src/Subsolver.cpp, src/SubsolverQPOASES.cpp, src/SubsolverOSQP.cpp.

    The QP libraries themselves are an oracle. *)
From Verif Require Import Base Arith Codes Utilities.

Section Sub.
Context {T : Type} `{Arith T}.

(** A matrix as the QP library sees it. *)
Inductive qp_mat : Type :=
| MDense (v : list T)
| MSparse (m n : Z) (p i : list Z) (x : list T).

(** One use of the QP library: matrices it works with, vectors passed, warm start. *)
Record qp_call : Type := mkCall {
  qc_solver : QPSolver;
  qc_initial : bool;
  qc_H : qp_mat;
  qc_A : qp_mat;
  qc_g : list T;
  qc_lbA : list T;
  qc_ubA : list T;
  qc_lb : option (list T);
  qc_ub : option (list T);
  qc_x0 : option (list T);     (* primal warm start, initial call only *)
  qc_y0 : option (list T) }.   (* dual warm start, initial call only *)

(** What the library answers. *)
Record qp_raw : Type := mkRaw {
  q_ret : Z;          (* qpOASES return value / osqp_solve error flag *)
  q_iter : Z;         (* nWSR on exit / work->info->iter *)
  q_status : Z;       (* work->info->status_val (OSQP) *)
  q_work : bool;      (* osqp_setup produced a workspace *)
  q_wsx_fails : bool; (* osqp_warm_start_x returned an error *)
  q_wsy_fails : bool; (* osqp_warm_start_y returned an error *)
  q_x : Z -> T;       (* primal solution *)
  q_y : Z -> T }.     (* dual solution *)

(** The library may use everything it has been told so far (newest call first). *)
Definition oracle : Type := list qp_call -> qp_raw.

(** The data a Subsolver object holds. *)
Inductive sub_data : Type :=
| SDense (Q A : arr T)
| SSparse (Q A : csc T).

(** Members of class Subsolver, include/Subsolver.hpp *)
Record subsolver : Type := mkSub {
  sub_qpSolver : QPSolver;
  sub_nV : Z;
  sub_nC : Z;
  sub_mats : sub_data }.

(** Dense constructors of [SubsolverQPOASES] and [Subsolver],
    src/SubsolverQPOASES.cpp:32-46, src/Subsolver.cpp:36-43 (the further copies by operator= are identical) *)
Definition Subsolver_dense (nV nC : Z) (Q A : ptr T) : res subsolver :=
  let! Q' := alloc (nV * nV) in
  let! A' := alloc (nC * nV) in
  let! Q' := memcpy_ptr Q' Q (nV * nV) in
  let! A' := memcpy_ptr A' A (nC * nV) in
  Ok (mkSub QPOASES_DENSE nV nC (SDense Q' A')).

(** Copy of one matrix into the index/value arrays of SubsolverQPOASES, src/SubsolverQPOASES.cpp:79-93 *)
Definition copy_csc_qpoases (nR nV : Z) (M : csc T) : res (csc T) :=
  let! nnz := csc_p M nV in
  let! ci := alloc nnz in
  let! cx := alloc nnz in
  let! cp := alloc (nV + 1) in
  let! cp := for_ 0 (nV + 1) (fun k a => let! v := csc_p M k in wr a k v) cp in
  let! ci := for_ 0 nnz (fun k a => let! v := csc_i M k in wr a k v) ci in
  let! cx := memcpy_ptr cx (c_x M) nnz in
  Ok (mkCsc nR nV (Some cp) (Some ci) (Some cx) nnz).

(** Sparse constructors of [SubsolverQPOASES], src/SubsolverQPOASES.cpp:49-99, and [SubsolverOSQP],
    src/SubsolverOSQP.cpp:37-46, as selected by src/Subsolver.cpp:46-64 (the abort branch is unreachable: the third
    enumerator never reaches this constructor, LCQProblem.cpp:926, 959) *)
Definition Subsolver_sparse (nV nC : Z) (Q A : option (csc T)) (solver : QPSolver) : res subsolver :=
  match solver with
  | OSQP_SPARSE =>
      let! Qm := deref Q in
      let! Am := deref A in
      let! Q' := copyCSC_upper Q in
      let! A' := copyCSC A in
      Ok (mkSub OSQP_SPARSE (c_n Qm) (c_m Am) (SSparse Q' A'))
  | _ =>
      let! Qm := deref Q in
      let! Am := deref A in
      let! Q' := copy_csc_qpoases nV nV Qm in
      let! A' := copy_csc_qpoases nC nV Am in
      Ok (mkSub QPOASES_SPARSE nV nC (SSparse Q' A'))
  end.

(** The library reads a csc matrix. *)
Definition rd_csc (M : csc T) : res qp_mat :=
  let! cp := deref (c_p M) in
  let! cp := rd_list cp (Z.to_nat (c_n M + 1)) in
  let nnz := last cp 0 in
  let! ci := deref (c_i M) in
  let! ci := rd_list ci (Z.to_nat nnz) in
  let! cx := deref (c_x M) in
  let! cx := rd_list cx (Z.to_nat nnz) in
  Ok (MSparse (c_m M) (c_n M) cp ci cx).

(** The matrices handed to the QP library, by value at the time of the call. *)
Definition rd_mats (s : subsolver) : res (qp_mat * qp_mat) :=
  match sub_mats s with
  | SDense Q A =>
      let! q := rd_list Q (Z.to_nat (sub_nV s * sub_nV s)) in
      let! a := rd_list A (Z.to_nat (sub_nC s * sub_nV s)) in
      Ok (MDense q, MDense a)
  | SSparse Q A =>
      let! q := rd_csc Q in
      let! a := rd_csc A in
      Ok (q, a)
  end.

(** Reading an optional vector of length [n]. *)
Definition rd_opt (p : ptr T) (n : Z) : res (option (list T)) :=
  match p with
  | None => Ok None
  | Some a => let! l := rd_list a (Z.to_nat n) in Ok (Some l)
  end.

(** The first n entries of an array handed to the QP library. *)
Definition rd_vec (p : ptr T) (n : Z) : res (list T) :=
  if n =? 0 then Ok [] else let! a := deref p in rd_list a (Z.to_nat n).

(** The result of one [Subsolver::solve]: the return value, the values written to the reference parameters
    ([None]: left untouched), the updated workspace flag, the library's answer and the extended call history. *)
Record sub_result : Type := mkSubRes {
  sr_ret : ReturnValue;
  sr_iter : option Z;
  sr_flag : option Z;
  sr_work : bool;
  sr_raw : option qp_raw;
  sr_calls : list qp_call }.

(** [SubsolverQPOASES::solve], src/SubsolverQPOASES.cpp:134-169 *)
Definition solve_qpOASES (orc : oracle) (s : subsolver) (calls : list qp_call) (work initialSolve : bool)
    (g lbA ubA x0 y0 lb ub : ptr T) : res sub_result :=
  let! '(H, A) := rd_mats s in
  let! gl := rd_vec g (sub_nV s) in
  let! lbAl := rd_vec lbA (sub_nC s) in
  let! ubAl := rd_vec ubA (sub_nC s) in
  let! lbl := rd_opt lb (sub_nV s) in
  let! ubl := rd_opt ub (sub_nV s) in
  let! x0l := if initialSolve then rd_opt x0 (sub_nV s) else Ok None in
  let! y0l := if initialSolve then rd_opt y0 (sub_nV s + sub_nC s) else Ok None in
  let calls' := mkCall (sub_qpSolver s) initialSolve H A gl lbAl ubAl lbl ubl x0l y0l :: calls in
  let a := orc calls' in
  let ret := if q_ret a =? 0 then SUCCESSFUL_RETURN else SUBPROBLEM_SOLVER_ERROR in
  Ok (mkSubRes ret (Some (q_iter a)) (Some (q_ret a)) work (Some a) calls').

(** [SubsolverOSQP::solve], src/SubsolverOSQP.cpp:124-185 *)
Definition solve_OSQP (orc : oracle) (s : subsolver) (calls : list qp_call) (work initialSolve : bool)
    (g lbA ubA x0 y0 lb ub : ptr T) : res sub_result :=
  if notNull lb || notNull ub then Ok (mkSubRes INVALID_OSQP_BOX_CONSTRAINTS None None work None calls) else
  let! '(H, A) := rd_mats s in
  let! lbAl := rd_vec lbA (sub_nC s) in
  let! ubAl := rd_vec ubA (sub_nC s) in
  let! gl := rd_vec g (sub_nV s) in
  let! x0l := if initialSolve then rd_opt x0 (sub_nV s) else Ok None in
  let! y0l := if initialSolve then rd_opt y0 (sub_nC s) else Ok None in
  let calls' := mkCall (sub_qpSolver s) initialSolve H A gl lbAl ubAl None None x0l y0l :: calls in
  let a := orc calls' in
  let work' := if initialSolve then q_work a else work in
  if initialSolve && notNull x0 && q_wsx_fails a then
    Ok (mkSubRes OSQP_INITIAL_PRIMAL_GUESS_FAILED None None work' None calls')
  else if initialSolve && notNull y0 && q_wsy_fails a then
    Ok (mkSubRes OSQP_INITIAL_DUAL_GUESS_FAILED None None work' None calls')
  else if negb work' then
    Ok (mkSubRes OSQP_WORKSPACE_NOT_SET_UP None None work' None calls')
  else
  let ret := if negb (q_ret a =? 0) || (q_status a <=? 0) then SUBPROBLEM_SOLVER_ERROR else SUCCESSFUL_RETURN in
  Ok (mkSubRes ret (Some (q_iter a)) (Some (q_status a)) work' (Some a) calls').

(** [Subsolver::solve], src/Subsolver.cpp:94-110 *)
Definition sub_solve (orc : oracle) (s : subsolver) (calls : list qp_call) (work initialSolve : bool)
    (g lbA ubA x0 y0 lb ub : ptr T) : res sub_result :=
  match sub_qpSolver s with
  | OSQP_SPARSE => solve_OSQP orc s calls work initialSolve g lbA ubA x0 y0 lb ub
  | _ => solve_qpOASES orc s calls work initialSolve g lbA ubA x0 y0 lb ub
  end.

(** [Subsolver::getSolution], src/Subsolver.cpp:84-91, src/SubsolverQPOASES.cpp:172-181,
    src/SubsolverOSQP.cpp:188-200 (after a successful solve the libraries deliver all entries) *)
Definition sub_getSolution (s : subsolver) (a : qp_raw) (x y : ptr T) : res (ptr T * ptr T) :=
  match sub_qpSolver s with
  | OSQP_SPARSE =>
      let! x := deref x in
      let! x := for_ 0 (sub_nV s) (fun i x => wr x i (q_x a i)) x in
      let! y := deref y in
      let! y := for_ 0 (sub_nC s) (fun i y => wr y i (- (q_y a i))%num) y in
      Ok (Some x, Some y)
  | _ =>
      let! x := deref x in
      let! x := for_ 0 (sub_nV s) (fun i x => wr x i (q_x a i)) x in
      let! y := deref y in
      let! y := for_ 0 (sub_nV s + sub_nC s) (fun i y => wr y i (q_y a i)) y in
      Ok (Some x, Some y)
  end.

End Sub.
Arguments qp_mat T : clear implicits.
Arguments qp_call T : clear implicits.
Arguments qp_raw T : clear implicits.
Arguments oracle T : clear implicits.
Arguments sub_data T : clear implicits.
Arguments subsolver T : clear implicits.
Arguments sub_result T : clear implicits.
