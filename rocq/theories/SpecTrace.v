(** * SpecTrace: the sequence of iterates of a run on rational data (no LCQPow code).

    A run is described by a list of frames, newest first.  Each frame is one QP: the point where it was posed, its answer,
    and the step taken towards it. *)
From Coq Require Import QArith Qcanon.
From Verif Require Import Base Arith Codes Utilities Options Stats Subsolver Loops SpecMath SpecExact SpecRun.
Open Scope Z_scope.

(** One QP and the step after it.  No LCQPow code. *)
Record frame : Type := mkFrame {
  f_k : nat;              (* penalty updates done so far *)
  f_prev : list Qc;       (* iterate at which the QP was posed *)
  f_base : list Qc;       (* the same after the optional perturbation *)
  f_z : list Qc;          (* primal answer *)
  f_y : list Qc;          (* dual answer *)
  f_a : Qc }.             (* step length *)

Section Trace.
Variable e : qdata.
Variable r0 fac : Qc.              (* initial penalty, factor *)
Variable off : Z.                  (* number of box multipliers *)
Variable zeroFirst perturb : bool. (* options solveZeroPenaltyFirst, perturbStep *)
Variable solver : QPSolver.
Variable x0 : list Qc.             (* initial guess *)
Let n := e_nV e.

(** Penalty parameter after [k] updates.  No LCQPow code. *)
Definition t_rho (k : nat) : Qc := (r0 * fac ^ k)%Qc.
(** Linear term of the penalised objective as used by the code: the part rho * g_phi is missing before the first update.
    No LCQPow code. *)
Definition t_lin (k : nat) (i : Z) : Qc :=
  match k with O => qat (e_g e) i | S _ => (qat (e_g e) i + t_rho k * e_gphi e i)%Qc end.
(** The penalised objective of the code.  No LCQPow code. *)
Definition t_obj (k : nat) (x : list Qc) : Qc :=
  (qsum n (fun i => t_lin k i * qat x i) + qform (e_H e (t_rho k)) n x * qhalf)%Qc.
(** Slope and curvature of it along [d] at [x].  No LCQPow code. *)
Definition t_slope (k : nat) (x d : list Qc) : Qc :=
  qsum n (fun i => qat d i * (mv (e_H e (t_rho k)) n x i + t_lin k i))%Qc.
(** Curvature along d at the k-th penalty value. No LCQPow code. *)
Definition t_curv (k : nat) (d : list Qc) : Qc := qform (e_H e (t_rho k)) n d.
(** The step length.  No LCQPow code. *)
Definition t_len (k : nat) (x d : list Qc) : Qc :=
  if Qc_ltb 0 (t_curv k d) && Qc_ltb (t_slope k x d) 0 then
    let q := (- t_slope k x d / t_curv k d)%Qc in if Qc_ltb 1 q then 1%Qc else q
  else 1%Qc.

(** Direction and new iterate.  No LCQPow code. *)
Definition f_d (f : frame) : list Qc := tab n (fun i => qat (f_z f) i - qat (f_prev f) i)%Qc.
(** The point reached by the step. No LCQPow code. *)
Definition f_x (f : frame) : list Qc := tab n (fun i => qat (f_base f) i + f_a f * qat (f_d f) i)%Qc.
(** Multipliers of A, L, R.  No LCQPow code. *)
Definition f_yA (f : frame) : list Qc := tab (e_nA e) (fun i => qat (f_y f) (off + i)).
(** Residual of the stationarity condition of the penalised problem.  No LCQPow code. *)
Definition f_res (f : frame) : list Qc :=
  tab n (fun j => mv (e_H e (t_rho (f_k f))) n (f_x f) j + t_lin (f_k f) j - tv (e_rows e) (e_nA e) (f_yA f) j
                  - (if 0 <? off then qat (f_y f) j else 0))%Qc.
(** Multipliers of the LCQP computed from those of the penalised problem.  No LCQPow code. *)
Definition f_duals (f : frame) : list Qc :=
  let rho := t_rho (f_k f) in
  let sL := off + e_nC e in
  let sR := sL + e_nComp e in
  tab (off + e_nA e) (fun k =>
    qat (f_y f) k - (if (sL <=? k) && (k <? sL + e_nComp e) then rho * mv (e_R e) n (f_x f) (k - sL) else 0)
                  - (if (sR <=? k) && (k <? sR + e_nComp e) then rho * mv (e_L e) n (f_x f) (k - sR) else 0))%Qc.

(** [a] is the answer stored in [f]; OSQP's multipliers have the opposite sign.  No LCQPow code. *)
Definition f_answer (f : frame) (a : qp_raw xq) : Prop :=
  len (f_z f) = n /\ (forall i, 0 <= i < n -> q_x a i = Fin (qat (f_z f) i)) /\
  len (f_y f) = off + e_nA e /\
  (forall i, 0 <= i < off + e_nA e ->
     q_y a i = Fin (match solver with OSQP_SPARSE => - qat (f_y f) i | _ => qat (f_y f) i end)%Qc).

(** [x'] is [x] with each coordinate moved by -EPS, 0 or EPS.  No LCQPow code. *)
Definition perturbed (x x' : list Qc) : Prop :=
  exists s : Z -> Z, (forall i, s i = -1 \/ s i = 0 \/ s i = 1) /\
    x' = tab n (fun i => qat x i + Q2Qc (inject_Z (s i)) * Qc_lit 2221 (-19))%Qc.

(** The frames of a run, with the QPs and the raw answers, newest first.  No LCQPow code. *)
Inductive trace : list frame -> list (qp_call xq * qp_raw xq) -> Prop :=
| tr_first f c a :
    f_k f = O -> f_prev f = x0 -> f_base f = x0 -> f_a f = 1%Qc -> f_answer f a -> qp_error c a = None ->
    qc_g c = fins (tab n (fun i => if zeroFirst then qat (e_g e) i else t_rho 0 * mv (e_C e) n x0 i + qat (e_g e) i)%Qc) ->
    trace [f] [(c, a)]
| tr_next f tr cs f' c a :
    trace (f :: tr) cs ->
    (f_k f <= f_k f' <= f_k f + 2)%nat -> f_prev f' = f_x f ->
    (if perturb then perturbed (f_x f) (f_base f') else f_base f' = f_x f) ->
    f_a f' = t_len (f_k f') (f_base f') (f_d f') -> f_answer f' a -> qp_error c a = None ->
    qc_g c = fins (tab n (fun i => t_rho (f_k f') * mv (e_C e) n (f_x f) i + t_lin (f_k f') i)%Qc) ->
    trace (f' :: f :: tr) ((c, a) :: cs).

End Trace.
