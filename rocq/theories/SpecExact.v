(** * SpecExact: LCQPs with rational data, and what solving one means mathematically (no LCQPow code). *)
From Coq Require Import QArith Qcanon.
From Verif Require Import Base Arith Codes Utilities Options Stats FileIO Subsolver State LCQProblem Loops SpecSparse SpecMath SpecLoad.
Open Scope Z_scope.

(** Matrix-vector products and quadratic forms for matrices given by their entries. *)
Definition mv (M : Z -> Z -> Qc) (n : Z) (x : list Qc) (i : Z) : Qc := qsum n (fun j => M i j * qat x j)%Qc.
(** Entry j of M'y. No LCQPow code. *)
Definition tv (M : Z -> Z -> Qc) (m : Z) (y : list Qc) (j : Z) : Qc := qsum m (fun i => M i j * qat y i)%Qc.
(** x'M x. No LCQPow code. *)
Definition qform (M : Z -> Z -> Qc) (n : Z) (x : list Qc) : Qc := qsum n (fun i => qat x i * mv M n x i)%Qc.
(** One half. *)
Definition qhalf : Qc := Q2Qc (1 # 2).

(** The mathematical problem: minimise x'Qx/2 + g'x under A, box and complementarity constraints; entries of the matrices
    as functions of row and column. *)
Record qdata : Type := mkQdata {
  e_nV : Z; e_nC : Z; e_nComp : Z;
  e_Q : Z -> Z -> Qc; e_L : Z -> Z -> Qc; e_R : Z -> Z -> Qc; e_A : Z -> Z -> Qc;
  e_g : list Qc; e_lbL : option (list Qc); e_lbR : option (list Qc) }.

(** A bound that defaults to zero. *)
Definition lo (l : option (list Qc)) (i : Z) : Qc := match l with Some l => qat l i | None => 0%Qc end.
(** Number of rows of the stacked constraints. *)
Definition e_nA (e : qdata) : Z := e_nC e + 2 * e_nComp e.
(** C = L'R + R'L. *)
Definition e_C (e : qdata) (i j : Z) : Qc := qsum (e_nComp e) (fun k => e_L e k i * e_R e k j + e_R e k i * e_L e k j)%Qc.
(** A over L over R. *)
Definition e_rows (e : qdata) (i j : Z) : Qc :=
  if i <? e_nC e then e_A e i j else if i <? e_nC e + e_nComp e then e_L e (i - e_nC e) j else e_R e (i - e_nC e - e_nComp e) j.
(** The objective. *)
Definition e_obj (e : qdata) (x : list Qc) : Qc := (qdot (e_nV e) (e_g e) x + qform (e_Q e) (e_nV e) x * qhalf)%Qc.
(** The complementarity violation (Lx - lbL)'(Rx - lbR). *)
Definition e_phi (e : qdata) (x : list Qc) : Qc :=
  qsum (e_nComp e) (fun k => (mv (e_L e) (e_nV e) x k - lo (e_lbL e) k) * (mv (e_R e) (e_nV e) x k - lo (e_lbR e) k))%Qc.
(** Gradient of the penalty at 0: -(R'lbL + L'lbR).  No LCQPow code. *)
Definition e_gphi (e : qdata) (j : Z) : Qc :=
  (- (qsum (e_nComp e) (fun k => e_R e k j * lo (e_lbL e) k) + qsum (e_nComp e) (fun k => e_L e k j * lo (e_lbR e) k)))%Qc.
(** Q + rho C.  No LCQPow code. *)
Definition e_H (e : qdata) (rho : Qc) (i j : Z) : Qc := (e_Q e i j + rho * e_C e i j)%Qc.
(** Component [j] of Qx + g - A'y_A - L'y_L - R'y_R - y_box, the gradient of the Lagrangian of the LCQP; [y] lists the box
    multipliers ([off] of them, none if [off] is 0) and then the multipliers of A, L and R. *)
Definition e_lagrangian (e : qdata) (off : Z) (x y : list Qc) (j : Z) : Qc :=
  (mv (e_Q e) (e_nV e) x j + qat (e_g e) j
   - qsum (e_nC e) (fun i => e_A e i j * qat y (off + i))
   - qsum (e_nComp e) (fun i => e_L e i j * qat y (off + e_nC e + i))
   - qsum (e_nComp e) (fun i => e_R e i j * qat y (off + e_nC e + e_nComp e + i))
   - (if 0 <? off then qat y j else 0))%Qc.

(** Symmetric Q. *)
Definition e_symmetric (e : qdata) : Prop := forall i j, 0 <= i < e_nV e -> 0 <= j < e_nV e -> e_Q e i j = e_Q e j i.
(** No entry of C lies between 0 and 1e-25 in absolute value (such entries are dropped in sparse mode). *)
Definition no_tiny (e : qdata) : Prop := forall i j, 0 <= i < e_nV e -> 0 <= j < e_nV e ->
  e_C e i j = 0%Qc \/ (Qc_lit 1 (-25) < e_C e i j)%Qc \/ (e_C e i j < - Qc_lit 1 (-25))%Qc.

(** ** What a user passes, with rational data (bounds may be infinite) *)
Record qvec : Type := mkQvec {
  qv_nV : Z; qv_nC : Z; qv_nComp : Z;
  qv_g : list Qc; qv_lbL : option (list Qc); qv_ubL : option (list xq); qv_lbR : option (list Qc); qv_ubR : option (list xq);
  qv_lbA : option (list xq); qv_ubA : option (list xq); qv_lb : option (list xq); qv_ub : option (list xq);
  qv_x0 : option (list Qc); qv_y0 : option (list Qc) }.
(** Dense: matrices row by row. *)
Record qdense : Type := mkQdense { qd_v : qvec; qd_Q : list Qc; qd_L : list Qc; qd_R : list Qc; qd_A : list Qc }.
(** Sparse: columns of (row, value) entries. *)
Record qsparse : Type := mkQsparse { qs_v : qvec; qs_Q : list (list (Z * Qc)); qs_L : list (list (Z * Qc)); qs_R : list (list (Z * Qc));
  qs_A : option (list (list (Z * Qc))) }.

(** The arguments of the calls. *)
Definition to_vec (v : qvec) : uvec xq :=
  mkUvec (qv_nV v) (qv_nC v) (qv_nComp v) (fins (qv_g v)) (option_map fins (qv_lbL v)) (qv_ubL v) (option_map fins (qv_lbR v)) (qv_ubR v)
    (qv_lbA v) (qv_ubA v) (qv_lb v) (qv_ub v) (option_map fins (qv_x0 v)) (option_map fins (qv_y0 v)).
(** Exact data passed as the dense arguments. No LCQPow code. *)
Definition to_dense (u : qdense) : udense xq := mkUdense (to_vec (qd_v u)) (fins (qd_Q u)) (fins (qd_L u)) (fins (qd_R u)) (fins (qd_A u)).
(** Exact data passed as the sparse arguments. No LCQPow code. *)
Definition to_sparse (u : qsparse) : usparse xq :=
  mkUsparse (to_vec (qs_v u)) (fincols (qs_Q u)) (fincols (qs_L u)) (fincols (qs_R u)) (option_map fincols (qs_A u)).

(** The mathematical problem they describe. *)
Definition dense_data (u : qdense) : qdata :=
  let v := qd_v u in let n := qv_nV v in
  mkQdata n (qv_nC v) (qv_nComp v) (qent (qd_Q u) n) (qent (qd_L u) n) (qent (qd_R u) n) (qent (qd_A u) n) (qv_g v) (qv_lbL v) (qv_lbR v).
(** The mathematical problem of sparse arguments. No LCQPow code. *)
Definition sparse_data (u : qsparse) : qdata :=
  let v := qs_v u in
  mkQdata (qv_nV v) (qv_nC v) (qv_nComp v) (qentry (qs_Q u)) (qentry (qs_L u)) (qentry (qs_R u))
    (match qs_A u with Some c => qentry c | None => fun _ _ => 0%Qc end) (qv_g v) (qv_lbL v) (qv_lbR v).

(** Rational penalty parameters: initial value and factor.  No LCQPow code. *)
Definition finite_penalty (opt : options xq) (r0 fac : Qc) : Prop :=
  o_initialPenaltyParameter opt = Fin r0 /\ o_penaltyUpdateFactor opt = Fin fac /\ fac <> 0%Qc.
(** An answer of the QP library whose first [n] primal and [m] dual values are finite.  No LCQPow code. *)
Definition finite_answer (n m : Z) (a : qp_raw xq) : Prop :=
  (forall i, 0 <= i < n -> exists q, q_x a i = Fin q) /\ (forall i, 0 <= i < m -> exists q, q_y a i = Fin q).
