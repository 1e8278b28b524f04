(** * State: the members of class LCQProblem (generated record and field updates).

    [pdata] holds what is constant while the solver loop runs, [iter] what it modifies. *)
From Verif Require Import Base Arith Codes Utilities Options Stats Subsolver.

Section State.
Context {T : Type} `{Arith T}.

Local Set Primitive Projections.
(** Problem data, include/LCQProblem.hpp:462-489, 518-524, 530; field [d_x] is member [x] *)
Record pdata : Type := mkPdata {
  d_options : options T;      (* include/Options.hpp *)
  d_nV : option Z;      (* nV; None = never assigned *)
  d_nC : option Z;
  d_nComp : option Z;
  d_nDuals : option Z;
  d_boxDualOffset : option Z;
  d_Q : ptr T;
  d_g : ptr T;
  d_lb : ptr T;
  d_ub : ptr T;
  d_lb_tmp : ptr T;
  d_ub_tmp : ptr T;
  d_A : ptr T;
  d_lbA : ptr T;
  d_ubA : ptr T;
  d_L : ptr T;
  d_R : ptr T;
  d_C : ptr T;
  d_lbL : ptr T;
  d_ubL : ptr T;
  d_lbR : ptr T;
  d_ubR : ptr T;
  d_g_phi : ptr T;
  d_phi_const : T;
  d_sparseSolver : bool;
  d_Q_sparse : option (csc T);
  d_A_sparse : option (csc T);
  d_L_sparse : option (csc T);
  d_R_sparse : option (csc T);
  d_C_sparse : option (csc T);
  d_subsolver : option (subsolver T)      (* None = default constructed *)
}.

(** Assignment to the member [options], include/LCQProblem.hpp:385 *)
Definition set_d_options (v : options T) (s : pdata) : pdata :=
  mkPdata v (d_nV s) (d_nC s) (d_nComp s) (d_nDuals s) (d_boxDualOffset s) (d_Q s) (d_g s) (d_lb s) (d_ub s) (d_lb_tmp s) (d_ub_tmp s) (d_A s) (d_lbA s) (d_ubA s) (d_L s) (d_R s) (d_C s) (d_lbL s) (d_ubL s) (d_lbR s) (d_ubR s) (d_g_phi s) (d_phi_const s) (d_sparseSolver s) (d_Q_sparse s) (d_A_sparse s) (d_L_sparse s) (d_R_sparse s) (d_C_sparse s) (d_subsolver s).
(** Assignment to the member [nV], include/LCQProblem.hpp:462 *)
Definition set_d_nV (v : option Z) (s : pdata) : pdata :=
  mkPdata (d_options s) v (d_nC s) (d_nComp s) (d_nDuals s) (d_boxDualOffset s) (d_Q s) (d_g s) (d_lb s) (d_ub s) (d_lb_tmp s) (d_ub_tmp s) (d_A s) (d_lbA s) (d_ubA s) (d_L s) (d_R s) (d_C s) (d_lbL s) (d_ubL s) (d_lbR s) (d_ubR s) (d_g_phi s) (d_phi_const s) (d_sparseSolver s) (d_Q_sparse s) (d_A_sparse s) (d_L_sparse s) (d_R_sparse s) (d_C_sparse s) (d_subsolver s).
(** Assignment to the member [nC], include/LCQProblem.hpp:463 *)
Definition set_d_nC (v : option Z) (s : pdata) : pdata :=
  mkPdata (d_options s) (d_nV s) v (d_nComp s) (d_nDuals s) (d_boxDualOffset s) (d_Q s) (d_g s) (d_lb s) (d_ub s) (d_lb_tmp s) (d_ub_tmp s) (d_A s) (d_lbA s) (d_ubA s) (d_L s) (d_R s) (d_C s) (d_lbL s) (d_ubL s) (d_lbR s) (d_ubR s) (d_g_phi s) (d_phi_const s) (d_sparseSolver s) (d_Q_sparse s) (d_A_sparse s) (d_L_sparse s) (d_R_sparse s) (d_C_sparse s) (d_subsolver s).
(** Assignment to the member [nComp], include/LCQProblem.hpp:464 *)
Definition set_d_nComp (v : option Z) (s : pdata) : pdata :=
  mkPdata (d_options s) (d_nV s) (d_nC s) v (d_nDuals s) (d_boxDualOffset s) (d_Q s) (d_g s) (d_lb s) (d_ub s) (d_lb_tmp s) (d_ub_tmp s) (d_A s) (d_lbA s) (d_ubA s) (d_L s) (d_R s) (d_C s) (d_lbL s) (d_ubL s) (d_lbR s) (d_ubR s) (d_g_phi s) (d_phi_const s) (d_sparseSolver s) (d_Q_sparse s) (d_A_sparse s) (d_L_sparse s) (d_R_sparse s) (d_C_sparse s) (d_subsolver s).
(** Assignment to the member [nDuals], include/LCQProblem.hpp:465 *)
Definition set_d_nDuals (v : option Z) (s : pdata) : pdata :=
  mkPdata (d_options s) (d_nV s) (d_nC s) (d_nComp s) v (d_boxDualOffset s) (d_Q s) (d_g s) (d_lb s) (d_ub s) (d_lb_tmp s) (d_ub_tmp s) (d_A s) (d_lbA s) (d_ubA s) (d_L s) (d_R s) (d_C s) (d_lbL s) (d_ubL s) (d_lbR s) (d_ubR s) (d_g_phi s) (d_phi_const s) (d_sparseSolver s) (d_Q_sparse s) (d_A_sparse s) (d_L_sparse s) (d_R_sparse s) (d_C_sparse s) (d_subsolver s).
(** Assignment to the member [boxDualOffset], include/LCQProblem.hpp:466 *)
Definition set_d_boxDualOffset (v : option Z) (s : pdata) : pdata :=
  mkPdata (d_options s) (d_nV s) (d_nC s) (d_nComp s) (d_nDuals s) v (d_Q s) (d_g s) (d_lb s) (d_ub s) (d_lb_tmp s) (d_ub_tmp s) (d_A s) (d_lbA s) (d_ubA s) (d_L s) (d_R s) (d_C s) (d_lbL s) (d_ubL s) (d_lbR s) (d_ubR s) (d_g_phi s) (d_phi_const s) (d_sparseSolver s) (d_Q_sparse s) (d_A_sparse s) (d_L_sparse s) (d_R_sparse s) (d_C_sparse s) (d_subsolver s).
(** Assignment to the member [Q], include/LCQProblem.hpp:468 *)
Definition set_d_Q (v : ptr T) (s : pdata) : pdata :=
  mkPdata (d_options s) (d_nV s) (d_nC s) (d_nComp s) (d_nDuals s) (d_boxDualOffset s) v (d_g s) (d_lb s) (d_ub s) (d_lb_tmp s) (d_ub_tmp s) (d_A s) (d_lbA s) (d_ubA s) (d_L s) (d_R s) (d_C s) (d_lbL s) (d_ubL s) (d_lbR s) (d_ubR s) (d_g_phi s) (d_phi_const s) (d_sparseSolver s) (d_Q_sparse s) (d_A_sparse s) (d_L_sparse s) (d_R_sparse s) (d_C_sparse s) (d_subsolver s).
(** Assignment to the member [g], include/LCQProblem.hpp:470 *)
Definition set_d_g (v : ptr T) (s : pdata) : pdata :=
  mkPdata (d_options s) (d_nV s) (d_nC s) (d_nComp s) (d_nDuals s) (d_boxDualOffset s) (d_Q s) v (d_lb s) (d_ub s) (d_lb_tmp s) (d_ub_tmp s) (d_A s) (d_lbA s) (d_ubA s) (d_L s) (d_R s) (d_C s) (d_lbL s) (d_ubL s) (d_lbR s) (d_ubR s) (d_g_phi s) (d_phi_const s) (d_sparseSolver s) (d_Q_sparse s) (d_A_sparse s) (d_L_sparse s) (d_R_sparse s) (d_C_sparse s) (d_subsolver s).
(** Assignment to the member [lb], include/LCQProblem.hpp:472 *)
Definition set_d_lb (v : ptr T) (s : pdata) : pdata :=
  mkPdata (d_options s) (d_nV s) (d_nC s) (d_nComp s) (d_nDuals s) (d_boxDualOffset s) (d_Q s) (d_g s) v (d_ub s) (d_lb_tmp s) (d_ub_tmp s) (d_A s) (d_lbA s) (d_ubA s) (d_L s) (d_R s) (d_C s) (d_lbL s) (d_ubL s) (d_lbR s) (d_ubR s) (d_g_phi s) (d_phi_const s) (d_sparseSolver s) (d_Q_sparse s) (d_A_sparse s) (d_L_sparse s) (d_R_sparse s) (d_C_sparse s) (d_subsolver s).
(** Assignment to the member [ub], include/LCQProblem.hpp:473 *)
Definition set_d_ub (v : ptr T) (s : pdata) : pdata :=
  mkPdata (d_options s) (d_nV s) (d_nC s) (d_nComp s) (d_nDuals s) (d_boxDualOffset s) (d_Q s) (d_g s) (d_lb s) v (d_lb_tmp s) (d_ub_tmp s) (d_A s) (d_lbA s) (d_ubA s) (d_L s) (d_R s) (d_C s) (d_lbL s) (d_ubL s) (d_lbR s) (d_ubR s) (d_g_phi s) (d_phi_const s) (d_sparseSolver s) (d_Q_sparse s) (d_A_sparse s) (d_L_sparse s) (d_R_sparse s) (d_C_sparse s) (d_subsolver s).
(** Assignment to the member [lb_tmp], include/LCQProblem.hpp:474 *)
Definition set_d_lb_tmp (v : ptr T) (s : pdata) : pdata :=
  mkPdata (d_options s) (d_nV s) (d_nC s) (d_nComp s) (d_nDuals s) (d_boxDualOffset s) (d_Q s) (d_g s) (d_lb s) (d_ub s) v (d_ub_tmp s) (d_A s) (d_lbA s) (d_ubA s) (d_L s) (d_R s) (d_C s) (d_lbL s) (d_ubL s) (d_lbR s) (d_ubR s) (d_g_phi s) (d_phi_const s) (d_sparseSolver s) (d_Q_sparse s) (d_A_sparse s) (d_L_sparse s) (d_R_sparse s) (d_C_sparse s) (d_subsolver s).
(** Assignment to the member [ub_tmp], include/LCQProblem.hpp:475 *)
Definition set_d_ub_tmp (v : ptr T) (s : pdata) : pdata :=
  mkPdata (d_options s) (d_nV s) (d_nC s) (d_nComp s) (d_nDuals s) (d_boxDualOffset s) (d_Q s) (d_g s) (d_lb s) (d_ub s) (d_lb_tmp s) v (d_A s) (d_lbA s) (d_ubA s) (d_L s) (d_R s) (d_C s) (d_lbL s) (d_ubL s) (d_lbR s) (d_ubR s) (d_g_phi s) (d_phi_const s) (d_sparseSolver s) (d_Q_sparse s) (d_A_sparse s) (d_L_sparse s) (d_R_sparse s) (d_C_sparse s) (d_subsolver s).
(** Assignment to the member [A], include/LCQProblem.hpp:477 *)
Definition set_d_A (v : ptr T) (s : pdata) : pdata :=
  mkPdata (d_options s) (d_nV s) (d_nC s) (d_nComp s) (d_nDuals s) (d_boxDualOffset s) (d_Q s) (d_g s) (d_lb s) (d_ub s) (d_lb_tmp s) (d_ub_tmp s) v (d_lbA s) (d_ubA s) (d_L s) (d_R s) (d_C s) (d_lbL s) (d_ubL s) (d_lbR s) (d_ubR s) (d_g_phi s) (d_phi_const s) (d_sparseSolver s) (d_Q_sparse s) (d_A_sparse s) (d_L_sparse s) (d_R_sparse s) (d_C_sparse s) (d_subsolver s).
(** Assignment to the member [lbA], include/LCQProblem.hpp:478 *)
Definition set_d_lbA (v : ptr T) (s : pdata) : pdata :=
  mkPdata (d_options s) (d_nV s) (d_nC s) (d_nComp s) (d_nDuals s) (d_boxDualOffset s) (d_Q s) (d_g s) (d_lb s) (d_ub s) (d_lb_tmp s) (d_ub_tmp s) (d_A s) v (d_ubA s) (d_L s) (d_R s) (d_C s) (d_lbL s) (d_ubL s) (d_lbR s) (d_ubR s) (d_g_phi s) (d_phi_const s) (d_sparseSolver s) (d_Q_sparse s) (d_A_sparse s) (d_L_sparse s) (d_R_sparse s) (d_C_sparse s) (d_subsolver s).
(** Assignment to the member [ubA], include/LCQProblem.hpp:479 *)
Definition set_d_ubA (v : ptr T) (s : pdata) : pdata :=
  mkPdata (d_options s) (d_nV s) (d_nC s) (d_nComp s) (d_nDuals s) (d_boxDualOffset s) (d_Q s) (d_g s) (d_lb s) (d_ub s) (d_lb_tmp s) (d_ub_tmp s) (d_A s) (d_lbA s) v (d_L s) (d_R s) (d_C s) (d_lbL s) (d_ubL s) (d_lbR s) (d_ubR s) (d_g_phi s) (d_phi_const s) (d_sparseSolver s) (d_Q_sparse s) (d_A_sparse s) (d_L_sparse s) (d_R_sparse s) (d_C_sparse s) (d_subsolver s).
(** Assignment to the member [L], include/LCQProblem.hpp:481 *)
Definition set_d_L (v : ptr T) (s : pdata) : pdata :=
  mkPdata (d_options s) (d_nV s) (d_nC s) (d_nComp s) (d_nDuals s) (d_boxDualOffset s) (d_Q s) (d_g s) (d_lb s) (d_ub s) (d_lb_tmp s) (d_ub_tmp s) (d_A s) (d_lbA s) (d_ubA s) v (d_R s) (d_C s) (d_lbL s) (d_ubL s) (d_lbR s) (d_ubR s) (d_g_phi s) (d_phi_const s) (d_sparseSolver s) (d_Q_sparse s) (d_A_sparse s) (d_L_sparse s) (d_R_sparse s) (d_C_sparse s) (d_subsolver s).
(** Assignment to the member [R], include/LCQProblem.hpp:482 *)
Definition set_d_R (v : ptr T) (s : pdata) : pdata :=
  mkPdata (d_options s) (d_nV s) (d_nC s) (d_nComp s) (d_nDuals s) (d_boxDualOffset s) (d_Q s) (d_g s) (d_lb s) (d_ub s) (d_lb_tmp s) (d_ub_tmp s) (d_A s) (d_lbA s) (d_ubA s) (d_L s) v (d_C s) (d_lbL s) (d_ubL s) (d_lbR s) (d_ubR s) (d_g_phi s) (d_phi_const s) (d_sparseSolver s) (d_Q_sparse s) (d_A_sparse s) (d_L_sparse s) (d_R_sparse s) (d_C_sparse s) (d_subsolver s).
(** Assignment to the member [C], include/LCQProblem.hpp:483 *)
Definition set_d_C (v : ptr T) (s : pdata) : pdata :=
  mkPdata (d_options s) (d_nV s) (d_nC s) (d_nComp s) (d_nDuals s) (d_boxDualOffset s) (d_Q s) (d_g s) (d_lb s) (d_ub s) (d_lb_tmp s) (d_ub_tmp s) (d_A s) (d_lbA s) (d_ubA s) (d_L s) (d_R s) v (d_lbL s) (d_ubL s) (d_lbR s) (d_ubR s) (d_g_phi s) (d_phi_const s) (d_sparseSolver s) (d_Q_sparse s) (d_A_sparse s) (d_L_sparse s) (d_R_sparse s) (d_C_sparse s) (d_subsolver s).
(** Assignment to the member [lbL], include/LCQProblem.hpp:484 *)
Definition set_d_lbL (v : ptr T) (s : pdata) : pdata :=
  mkPdata (d_options s) (d_nV s) (d_nC s) (d_nComp s) (d_nDuals s) (d_boxDualOffset s) (d_Q s) (d_g s) (d_lb s) (d_ub s) (d_lb_tmp s) (d_ub_tmp s) (d_A s) (d_lbA s) (d_ubA s) (d_L s) (d_R s) (d_C s) v (d_ubL s) (d_lbR s) (d_ubR s) (d_g_phi s) (d_phi_const s) (d_sparseSolver s) (d_Q_sparse s) (d_A_sparse s) (d_L_sparse s) (d_R_sparse s) (d_C_sparse s) (d_subsolver s).
(** Assignment to the member [ubL], include/LCQProblem.hpp:485 *)
Definition set_d_ubL (v : ptr T) (s : pdata) : pdata :=
  mkPdata (d_options s) (d_nV s) (d_nC s) (d_nComp s) (d_nDuals s) (d_boxDualOffset s) (d_Q s) (d_g s) (d_lb s) (d_ub s) (d_lb_tmp s) (d_ub_tmp s) (d_A s) (d_lbA s) (d_ubA s) (d_L s) (d_R s) (d_C s) (d_lbL s) v (d_lbR s) (d_ubR s) (d_g_phi s) (d_phi_const s) (d_sparseSolver s) (d_Q_sparse s) (d_A_sparse s) (d_L_sparse s) (d_R_sparse s) (d_C_sparse s) (d_subsolver s).
(** Assignment to the member [lbR], include/LCQProblem.hpp:486 *)
Definition set_d_lbR (v : ptr T) (s : pdata) : pdata :=
  mkPdata (d_options s) (d_nV s) (d_nC s) (d_nComp s) (d_nDuals s) (d_boxDualOffset s) (d_Q s) (d_g s) (d_lb s) (d_ub s) (d_lb_tmp s) (d_ub_tmp s) (d_A s) (d_lbA s) (d_ubA s) (d_L s) (d_R s) (d_C s) (d_lbL s) (d_ubL s) v (d_ubR s) (d_g_phi s) (d_phi_const s) (d_sparseSolver s) (d_Q_sparse s) (d_A_sparse s) (d_L_sparse s) (d_R_sparse s) (d_C_sparse s) (d_subsolver s).
(** Assignment to the member [ubR], include/LCQProblem.hpp:487 *)
Definition set_d_ubR (v : ptr T) (s : pdata) : pdata :=
  mkPdata (d_options s) (d_nV s) (d_nC s) (d_nComp s) (d_nDuals s) (d_boxDualOffset s) (d_Q s) (d_g s) (d_lb s) (d_ub s) (d_lb_tmp s) (d_ub_tmp s) (d_A s) (d_lbA s) (d_ubA s) (d_L s) (d_R s) (d_C s) (d_lbL s) (d_ubL s) (d_lbR s) v (d_g_phi s) (d_phi_const s) (d_sparseSolver s) (d_Q_sparse s) (d_A_sparse s) (d_L_sparse s) (d_R_sparse s) (d_C_sparse s) (d_subsolver s).
(** Assignment to the member [g_phi], include/LCQProblem.hpp:488 *)
Definition set_d_g_phi (v : ptr T) (s : pdata) : pdata :=
  mkPdata (d_options s) (d_nV s) (d_nC s) (d_nComp s) (d_nDuals s) (d_boxDualOffset s) (d_Q s) (d_g s) (d_lb s) (d_ub s) (d_lb_tmp s) (d_ub_tmp s) (d_A s) (d_lbA s) (d_ubA s) (d_L s) (d_R s) (d_C s) (d_lbL s) (d_ubL s) (d_lbR s) (d_ubR s) v (d_phi_const s) (d_sparseSolver s) (d_Q_sparse s) (d_A_sparse s) (d_L_sparse s) (d_R_sparse s) (d_C_sparse s) (d_subsolver s).
(** Assignment to the member [phi_const], include/LCQProblem.hpp:489 *)
Definition set_d_phi_const (v : T) (s : pdata) : pdata :=
  mkPdata (d_options s) (d_nV s) (d_nC s) (d_nComp s) (d_nDuals s) (d_boxDualOffset s) (d_Q s) (d_g s) (d_lb s) (d_ub s) (d_lb_tmp s) (d_ub_tmp s) (d_A s) (d_lbA s) (d_ubA s) (d_L s) (d_R s) (d_C s) (d_lbL s) (d_ubL s) (d_lbR s) (d_ubR s) (d_g_phi s) v (d_sparseSolver s) (d_Q_sparse s) (d_A_sparse s) (d_L_sparse s) (d_R_sparse s) (d_C_sparse s) (d_subsolver s).
(** Assignment to the member [sparseSolver], include/LCQProblem.hpp:518 *)
Definition set_d_sparseSolver (v : bool) (s : pdata) : pdata :=
  mkPdata (d_options s) (d_nV s) (d_nC s) (d_nComp s) (d_nDuals s) (d_boxDualOffset s) (d_Q s) (d_g s) (d_lb s) (d_ub s) (d_lb_tmp s) (d_ub_tmp s) (d_A s) (d_lbA s) (d_ubA s) (d_L s) (d_R s) (d_C s) (d_lbL s) (d_ubL s) (d_lbR s) (d_ubR s) (d_g_phi s) (d_phi_const s) v (d_Q_sparse s) (d_A_sparse s) (d_L_sparse s) (d_R_sparse s) (d_C_sparse s) (d_subsolver s).
(** Assignment to the member [Q_sparse], include/LCQProblem.hpp:520 *)
Definition set_d_Q_sparse (v : option (csc T)) (s : pdata) : pdata :=
  mkPdata (d_options s) (d_nV s) (d_nC s) (d_nComp s) (d_nDuals s) (d_boxDualOffset s) (d_Q s) (d_g s) (d_lb s) (d_ub s) (d_lb_tmp s) (d_ub_tmp s) (d_A s) (d_lbA s) (d_ubA s) (d_L s) (d_R s) (d_C s) (d_lbL s) (d_ubL s) (d_lbR s) (d_ubR s) (d_g_phi s) (d_phi_const s) (d_sparseSolver s) v (d_A_sparse s) (d_L_sparse s) (d_R_sparse s) (d_C_sparse s) (d_subsolver s).
(** Assignment to the member [A_sparse], include/LCQProblem.hpp:521 *)
Definition set_d_A_sparse (v : option (csc T)) (s : pdata) : pdata :=
  mkPdata (d_options s) (d_nV s) (d_nC s) (d_nComp s) (d_nDuals s) (d_boxDualOffset s) (d_Q s) (d_g s) (d_lb s) (d_ub s) (d_lb_tmp s) (d_ub_tmp s) (d_A s) (d_lbA s) (d_ubA s) (d_L s) (d_R s) (d_C s) (d_lbL s) (d_ubL s) (d_lbR s) (d_ubR s) (d_g_phi s) (d_phi_const s) (d_sparseSolver s) (d_Q_sparse s) v (d_L_sparse s) (d_R_sparse s) (d_C_sparse s) (d_subsolver s).
(** Assignment to the member [L_sparse], include/LCQProblem.hpp:522 *)
Definition set_d_L_sparse (v : option (csc T)) (s : pdata) : pdata :=
  mkPdata (d_options s) (d_nV s) (d_nC s) (d_nComp s) (d_nDuals s) (d_boxDualOffset s) (d_Q s) (d_g s) (d_lb s) (d_ub s) (d_lb_tmp s) (d_ub_tmp s) (d_A s) (d_lbA s) (d_ubA s) (d_L s) (d_R s) (d_C s) (d_lbL s) (d_ubL s) (d_lbR s) (d_ubR s) (d_g_phi s) (d_phi_const s) (d_sparseSolver s) (d_Q_sparse s) (d_A_sparse s) v (d_R_sparse s) (d_C_sparse s) (d_subsolver s).
(** Assignment to the member [R_sparse], include/LCQProblem.hpp:523 *)
Definition set_d_R_sparse (v : option (csc T)) (s : pdata) : pdata :=
  mkPdata (d_options s) (d_nV s) (d_nC s) (d_nComp s) (d_nDuals s) (d_boxDualOffset s) (d_Q s) (d_g s) (d_lb s) (d_ub s) (d_lb_tmp s) (d_ub_tmp s) (d_A s) (d_lbA s) (d_ubA s) (d_L s) (d_R s) (d_C s) (d_lbL s) (d_ubL s) (d_lbR s) (d_ubR s) (d_g_phi s) (d_phi_const s) (d_sparseSolver s) (d_Q_sparse s) (d_A_sparse s) (d_L_sparse s) v (d_C_sparse s) (d_subsolver s).
(** Assignment to the member [C_sparse], include/LCQProblem.hpp:524 *)
Definition set_d_C_sparse (v : option (csc T)) (s : pdata) : pdata :=
  mkPdata (d_options s) (d_nV s) (d_nC s) (d_nComp s) (d_nDuals s) (d_boxDualOffset s) (d_Q s) (d_g s) (d_lb s) (d_ub s) (d_lb_tmp s) (d_ub_tmp s) (d_A s) (d_lbA s) (d_ubA s) (d_L s) (d_R s) (d_C s) (d_lbL s) (d_ubL s) (d_lbR s) (d_ubR s) (d_g_phi s) (d_phi_const s) (d_sparseSolver s) (d_Q_sparse s) (d_A_sparse s) (d_L_sparse s) (d_R_sparse s) v (d_subsolver s).
(** Assignment to the member [subsolver], include/LCQProblem.hpp:530 *)
Definition set_d_subsolver (v : option (subsolver T)) (s : pdata) : pdata :=
  mkPdata (d_options s) (d_nV s) (d_nC s) (d_nComp s) (d_nDuals s) (d_boxDualOffset s) (d_Q s) (d_g s) (d_lb s) (d_ub s) (d_lb_tmp s) (d_ub_tmp s) (d_A s) (d_lbA s) (d_ubA s) (d_L s) (d_R s) (d_C s) (d_lbL s) (d_ubL s) (d_lbR s) (d_ubR s) (d_g_phi s) (d_phi_const s) (d_sparseSolver s) (d_Q_sparse s) (d_A_sparse s) (d_L_sparse s) (d_R_sparse s) (d_C_sparse s) v.

(** Iteration data, include/LCQProblem.hpp:491-516, 525-528, 532; field [s_x] is member [x].  The last four fields are the
    state of the environment.  The scalars rho, alphak and the counters are uninitialised in C++ until initializeSolver
    assigns them (src/LCQProblem.cpp:999-1003); nothing reads them before, so they carry a dummy value here. *)
Record iter : Type := mkIter {
  s_rho : T;
  s_g_tilde : ptr T;
  s_gk : ptr T;
  s_xk : ptr T;
  s_yk : ptr T;
  s_yk_A : ptr T;
  s_xnew : ptr T;
  s_pk : ptr T;
  s_alphak : T;
  s_lk_tmp : ptr T;
  s_Qk : ptr T;
  s_statk : ptr T;
  s_constr_statk : ptr T;
  s_box_statk : ptr T;
  s_outerIter : Z;
  s_innerIter : Z;
  s_totalIter : Z;
  s_qpIterk : option Z;      (* None = never assigned *)
  s_qpSolverExitFlag : option Z;
  s_algoStat : option AlgorithmStatus;
  s_Qk_sparse : option (csc T);
  s_Qk_indices_of_C : list Z;
  s_complHistory : list T;      (* front first *)
  s_stats : stats T;
  s_work : bool;      (* workspace of the OSQP subsolver is set up *)
  s_calls : list (qp_call T);      (* calls of the QP library, newest first *)
  s_rnd : nat;      (* numbers drawn from rand() so far *)
  s_log : list (print_event T)      (* console output, newest first *)
}.

(** Assignment to the member [rho], include/LCQProblem.hpp:491 *)
Definition set_rho (v : T) (s : iter) : iter :=
  mkIter v (s_g_tilde s) (s_gk s) (s_xk s) (s_yk s) (s_yk_A s) (s_xnew s) (s_pk s) (s_alphak s) (s_lk_tmp s) (s_Qk s) (s_statk s) (s_constr_statk s) (s_box_statk s) (s_outerIter s) (s_innerIter s) (s_totalIter s) (s_qpIterk s) (s_qpSolverExitFlag s) (s_algoStat s) (s_Qk_sparse s) (s_Qk_indices_of_C s) (s_complHistory s) (s_stats s) (s_work s) (s_calls s) (s_rnd s) (s_log s).
(** Assignment to the member [g_tilde], include/LCQProblem.hpp:493 *)
Definition set_g_tilde (v : ptr T) (s : iter) : iter :=
  mkIter (s_rho s) v (s_gk s) (s_xk s) (s_yk s) (s_yk_A s) (s_xnew s) (s_pk s) (s_alphak s) (s_lk_tmp s) (s_Qk s) (s_statk s) (s_constr_statk s) (s_box_statk s) (s_outerIter s) (s_innerIter s) (s_totalIter s) (s_qpIterk s) (s_qpSolverExitFlag s) (s_algoStat s) (s_Qk_sparse s) (s_Qk_indices_of_C s) (s_complHistory s) (s_stats s) (s_work s) (s_calls s) (s_rnd s) (s_log s).
(** Assignment to the member [gk], include/LCQProblem.hpp:494 *)
Definition set_gk (v : ptr T) (s : iter) : iter :=
  mkIter (s_rho s) (s_g_tilde s) v (s_xk s) (s_yk s) (s_yk_A s) (s_xnew s) (s_pk s) (s_alphak s) (s_lk_tmp s) (s_Qk s) (s_statk s) (s_constr_statk s) (s_box_statk s) (s_outerIter s) (s_innerIter s) (s_totalIter s) (s_qpIterk s) (s_qpSolverExitFlag s) (s_algoStat s) (s_Qk_sparse s) (s_Qk_indices_of_C s) (s_complHistory s) (s_stats s) (s_work s) (s_calls s) (s_rnd s) (s_log s).
(** Assignment to the member [xk], include/LCQProblem.hpp:496 *)
Definition set_xk (v : ptr T) (s : iter) : iter :=
  mkIter (s_rho s) (s_g_tilde s) (s_gk s) v (s_yk s) (s_yk_A s) (s_xnew s) (s_pk s) (s_alphak s) (s_lk_tmp s) (s_Qk s) (s_statk s) (s_constr_statk s) (s_box_statk s) (s_outerIter s) (s_innerIter s) (s_totalIter s) (s_qpIterk s) (s_qpSolverExitFlag s) (s_algoStat s) (s_Qk_sparse s) (s_Qk_indices_of_C s) (s_complHistory s) (s_stats s) (s_work s) (s_calls s) (s_rnd s) (s_log s).
(** Assignment to the member [yk], include/LCQProblem.hpp:497 *)
Definition set_yk (v : ptr T) (s : iter) : iter :=
  mkIter (s_rho s) (s_g_tilde s) (s_gk s) (s_xk s) v (s_yk_A s) (s_xnew s) (s_pk s) (s_alphak s) (s_lk_tmp s) (s_Qk s) (s_statk s) (s_constr_statk s) (s_box_statk s) (s_outerIter s) (s_innerIter s) (s_totalIter s) (s_qpIterk s) (s_qpSolverExitFlag s) (s_algoStat s) (s_Qk_sparse s) (s_Qk_indices_of_C s) (s_complHistory s) (s_stats s) (s_work s) (s_calls s) (s_rnd s) (s_log s).
(** Assignment to the member [yk_A], include/LCQProblem.hpp:498 *)
Definition set_yk_A (v : ptr T) (s : iter) : iter :=
  mkIter (s_rho s) (s_g_tilde s) (s_gk s) (s_xk s) (s_yk s) v (s_xnew s) (s_pk s) (s_alphak s) (s_lk_tmp s) (s_Qk s) (s_statk s) (s_constr_statk s) (s_box_statk s) (s_outerIter s) (s_innerIter s) (s_totalIter s) (s_qpIterk s) (s_qpSolverExitFlag s) (s_algoStat s) (s_Qk_sparse s) (s_Qk_indices_of_C s) (s_complHistory s) (s_stats s) (s_work s) (s_calls s) (s_rnd s) (s_log s).
(** Assignment to the member [xnew], include/LCQProblem.hpp:499 *)
Definition set_xnew (v : ptr T) (s : iter) : iter :=
  mkIter (s_rho s) (s_g_tilde s) (s_gk s) (s_xk s) (s_yk s) (s_yk_A s) v (s_pk s) (s_alphak s) (s_lk_tmp s) (s_Qk s) (s_statk s) (s_constr_statk s) (s_box_statk s) (s_outerIter s) (s_innerIter s) (s_totalIter s) (s_qpIterk s) (s_qpSolverExitFlag s) (s_algoStat s) (s_Qk_sparse s) (s_Qk_indices_of_C s) (s_complHistory s) (s_stats s) (s_work s) (s_calls s) (s_rnd s) (s_log s).
(** Assignment to the member [pk], include/LCQProblem.hpp:500 *)
Definition set_pk (v : ptr T) (s : iter) : iter :=
  mkIter (s_rho s) (s_g_tilde s) (s_gk s) (s_xk s) (s_yk s) (s_yk_A s) (s_xnew s) v (s_alphak s) (s_lk_tmp s) (s_Qk s) (s_statk s) (s_constr_statk s) (s_box_statk s) (s_outerIter s) (s_innerIter s) (s_totalIter s) (s_qpIterk s) (s_qpSolverExitFlag s) (s_algoStat s) (s_Qk_sparse s) (s_Qk_indices_of_C s) (s_complHistory s) (s_stats s) (s_work s) (s_calls s) (s_rnd s) (s_log s).
(** Assignment to the member [alphak], include/LCQProblem.hpp:502 *)
Definition set_alphak (v : T) (s : iter) : iter :=
  mkIter (s_rho s) (s_g_tilde s) (s_gk s) (s_xk s) (s_yk s) (s_yk_A s) (s_xnew s) (s_pk s) v (s_lk_tmp s) (s_Qk s) (s_statk s) (s_constr_statk s) (s_box_statk s) (s_outerIter s) (s_innerIter s) (s_totalIter s) (s_qpIterk s) (s_qpSolverExitFlag s) (s_algoStat s) (s_Qk_sparse s) (s_Qk_indices_of_C s) (s_complHistory s) (s_stats s) (s_work s) (s_calls s) (s_rnd s) (s_log s).
(** Assignment to the member [lk_tmp], include/LCQProblem.hpp:503 *)
Definition set_lk_tmp (v : ptr T) (s : iter) : iter :=
  mkIter (s_rho s) (s_g_tilde s) (s_gk s) (s_xk s) (s_yk s) (s_yk_A s) (s_xnew s) (s_pk s) (s_alphak s) v (s_Qk s) (s_statk s) (s_constr_statk s) (s_box_statk s) (s_outerIter s) (s_innerIter s) (s_totalIter s) (s_qpIterk s) (s_qpSolverExitFlag s) (s_algoStat s) (s_Qk_sparse s) (s_Qk_indices_of_C s) (s_complHistory s) (s_stats s) (s_work s) (s_calls s) (s_rnd s) (s_log s).
(** Assignment to the member [Qk], include/LCQProblem.hpp:505 *)
Definition set_Qk (v : ptr T) (s : iter) : iter :=
  mkIter (s_rho s) (s_g_tilde s) (s_gk s) (s_xk s) (s_yk s) (s_yk_A s) (s_xnew s) (s_pk s) (s_alphak s) (s_lk_tmp s) v (s_statk s) (s_constr_statk s) (s_box_statk s) (s_outerIter s) (s_innerIter s) (s_totalIter s) (s_qpIterk s) (s_qpSolverExitFlag s) (s_algoStat s) (s_Qk_sparse s) (s_Qk_indices_of_C s) (s_complHistory s) (s_stats s) (s_work s) (s_calls s) (s_rnd s) (s_log s).
(** Assignment to the member [statk], include/LCQProblem.hpp:506 *)
Definition set_statk (v : ptr T) (s : iter) : iter :=
  mkIter (s_rho s) (s_g_tilde s) (s_gk s) (s_xk s) (s_yk s) (s_yk_A s) (s_xnew s) (s_pk s) (s_alphak s) (s_lk_tmp s) (s_Qk s) v (s_constr_statk s) (s_box_statk s) (s_outerIter s) (s_innerIter s) (s_totalIter s) (s_qpIterk s) (s_qpSolverExitFlag s) (s_algoStat s) (s_Qk_sparse s) (s_Qk_indices_of_C s) (s_complHistory s) (s_stats s) (s_work s) (s_calls s) (s_rnd s) (s_log s).
(** Assignment to the member [constr_statk], include/LCQProblem.hpp:507 *)
Definition set_constr_statk (v : ptr T) (s : iter) : iter :=
  mkIter (s_rho s) (s_g_tilde s) (s_gk s) (s_xk s) (s_yk s) (s_yk_A s) (s_xnew s) (s_pk s) (s_alphak s) (s_lk_tmp s) (s_Qk s) (s_statk s) v (s_box_statk s) (s_outerIter s) (s_innerIter s) (s_totalIter s) (s_qpIterk s) (s_qpSolverExitFlag s) (s_algoStat s) (s_Qk_sparse s) (s_Qk_indices_of_C s) (s_complHistory s) (s_stats s) (s_work s) (s_calls s) (s_rnd s) (s_log s).
(** Assignment to the member [box_statk], include/LCQProblem.hpp:508 *)
Definition set_box_statk (v : ptr T) (s : iter) : iter :=
  mkIter (s_rho s) (s_g_tilde s) (s_gk s) (s_xk s) (s_yk s) (s_yk_A s) (s_xnew s) (s_pk s) (s_alphak s) (s_lk_tmp s) (s_Qk s) (s_statk s) (s_constr_statk s) v (s_outerIter s) (s_innerIter s) (s_totalIter s) (s_qpIterk s) (s_qpSolverExitFlag s) (s_algoStat s) (s_Qk_sparse s) (s_Qk_indices_of_C s) (s_complHistory s) (s_stats s) (s_work s) (s_calls s) (s_rnd s) (s_log s).
(** Assignment to the member [outerIter], include/LCQProblem.hpp:510 *)
Definition set_outerIter (v : Z) (s : iter) : iter :=
  mkIter (s_rho s) (s_g_tilde s) (s_gk s) (s_xk s) (s_yk s) (s_yk_A s) (s_xnew s) (s_pk s) (s_alphak s) (s_lk_tmp s) (s_Qk s) (s_statk s) (s_constr_statk s) (s_box_statk s) v (s_innerIter s) (s_totalIter s) (s_qpIterk s) (s_qpSolverExitFlag s) (s_algoStat s) (s_Qk_sparse s) (s_Qk_indices_of_C s) (s_complHistory s) (s_stats s) (s_work s) (s_calls s) (s_rnd s) (s_log s).
(** Assignment to the member [innerIter], include/LCQProblem.hpp:511 *)
Definition set_innerIter (v : Z) (s : iter) : iter :=
  mkIter (s_rho s) (s_g_tilde s) (s_gk s) (s_xk s) (s_yk s) (s_yk_A s) (s_xnew s) (s_pk s) (s_alphak s) (s_lk_tmp s) (s_Qk s) (s_statk s) (s_constr_statk s) (s_box_statk s) (s_outerIter s) v (s_totalIter s) (s_qpIterk s) (s_qpSolverExitFlag s) (s_algoStat s) (s_Qk_sparse s) (s_Qk_indices_of_C s) (s_complHistory s) (s_stats s) (s_work s) (s_calls s) (s_rnd s) (s_log s).
(** Assignment to the member [totalIter], include/LCQProblem.hpp:512 *)
Definition set_totalIter (v : Z) (s : iter) : iter :=
  mkIter (s_rho s) (s_g_tilde s) (s_gk s) (s_xk s) (s_yk s) (s_yk_A s) (s_xnew s) (s_pk s) (s_alphak s) (s_lk_tmp s) (s_Qk s) (s_statk s) (s_constr_statk s) (s_box_statk s) (s_outerIter s) (s_innerIter s) v (s_qpIterk s) (s_qpSolverExitFlag s) (s_algoStat s) (s_Qk_sparse s) (s_Qk_indices_of_C s) (s_complHistory s) (s_stats s) (s_work s) (s_calls s) (s_rnd s) (s_log s).
(** Assignment to the member [qpIterk], include/LCQProblem.hpp:514 *)
Definition set_qpIterk (v : option Z) (s : iter) : iter :=
  mkIter (s_rho s) (s_g_tilde s) (s_gk s) (s_xk s) (s_yk s) (s_yk_A s) (s_xnew s) (s_pk s) (s_alphak s) (s_lk_tmp s) (s_Qk s) (s_statk s) (s_constr_statk s) (s_box_statk s) (s_outerIter s) (s_innerIter s) (s_totalIter s) v (s_qpSolverExitFlag s) (s_algoStat s) (s_Qk_sparse s) (s_Qk_indices_of_C s) (s_complHistory s) (s_stats s) (s_work s) (s_calls s) (s_rnd s) (s_log s).
(** Assignment to the member [qpSolverExitFlag], include/LCQProblem.hpp:515 *)
Definition set_qpSolverExitFlag (v : option Z) (s : iter) : iter :=
  mkIter (s_rho s) (s_g_tilde s) (s_gk s) (s_xk s) (s_yk s) (s_yk_A s) (s_xnew s) (s_pk s) (s_alphak s) (s_lk_tmp s) (s_Qk s) (s_statk s) (s_constr_statk s) (s_box_statk s) (s_outerIter s) (s_innerIter s) (s_totalIter s) (s_qpIterk s) v (s_algoStat s) (s_Qk_sparse s) (s_Qk_indices_of_C s) (s_complHistory s) (s_stats s) (s_work s) (s_calls s) (s_rnd s) (s_log s).
(** Assignment to the member [algoStat], include/LCQProblem.hpp:516 *)
Definition set_algoStat (v : option AlgorithmStatus) (s : iter) : iter :=
  mkIter (s_rho s) (s_g_tilde s) (s_gk s) (s_xk s) (s_yk s) (s_yk_A s) (s_xnew s) (s_pk s) (s_alphak s) (s_lk_tmp s) (s_Qk s) (s_statk s) (s_constr_statk s) (s_box_statk s) (s_outerIter s) (s_innerIter s) (s_totalIter s) (s_qpIterk s) (s_qpSolverExitFlag s) v (s_Qk_sparse s) (s_Qk_indices_of_C s) (s_complHistory s) (s_stats s) (s_work s) (s_calls s) (s_rnd s) (s_log s).
(** Assignment to the member [Qk_sparse], include/LCQProblem.hpp:525 *)
Definition set_Qk_sparse (v : option (csc T)) (s : iter) : iter :=
  mkIter (s_rho s) (s_g_tilde s) (s_gk s) (s_xk s) (s_yk s) (s_yk_A s) (s_xnew s) (s_pk s) (s_alphak s) (s_lk_tmp s) (s_Qk s) (s_statk s) (s_constr_statk s) (s_box_statk s) (s_outerIter s) (s_innerIter s) (s_totalIter s) (s_qpIterk s) (s_qpSolverExitFlag s) (s_algoStat s) v (s_Qk_indices_of_C s) (s_complHistory s) (s_stats s) (s_work s) (s_calls s) (s_rnd s) (s_log s).
(** Assignment to the member [Qk_indices_of_C], include/LCQProblem.hpp:526 *)
Definition set_Qk_indices_of_C (v : list Z) (s : iter) : iter :=
  mkIter (s_rho s) (s_g_tilde s) (s_gk s) (s_xk s) (s_yk s) (s_yk_A s) (s_xnew s) (s_pk s) (s_alphak s) (s_lk_tmp s) (s_Qk s) (s_statk s) (s_constr_statk s) (s_box_statk s) (s_outerIter s) (s_innerIter s) (s_totalIter s) (s_qpIterk s) (s_qpSolverExitFlag s) (s_algoStat s) (s_Qk_sparse s) v (s_complHistory s) (s_stats s) (s_work s) (s_calls s) (s_rnd s) (s_log s).
(** Assignment to the member [complHistory], include/LCQProblem.hpp:528 *)
Definition set_complHistory (v : list T) (s : iter) : iter :=
  mkIter (s_rho s) (s_g_tilde s) (s_gk s) (s_xk s) (s_yk s) (s_yk_A s) (s_xnew s) (s_pk s) (s_alphak s) (s_lk_tmp s) (s_Qk s) (s_statk s) (s_constr_statk s) (s_box_statk s) (s_outerIter s) (s_innerIter s) (s_totalIter s) (s_qpIterk s) (s_qpSolverExitFlag s) (s_algoStat s) (s_Qk_sparse s) (s_Qk_indices_of_C s) v (s_stats s) (s_work s) (s_calls s) (s_rnd s) (s_log s).
(** Assignment to the member [stats], include/LCQProblem.hpp:532 *)
Definition set_stats (v : stats T) (s : iter) : iter :=
  mkIter (s_rho s) (s_g_tilde s) (s_gk s) (s_xk s) (s_yk s) (s_yk_A s) (s_xnew s) (s_pk s) (s_alphak s) (s_lk_tmp s) (s_Qk s) (s_statk s) (s_constr_statk s) (s_box_statk s) (s_outerIter s) (s_innerIter s) (s_totalIter s) (s_qpIterk s) (s_qpSolverExitFlag s) (s_algoStat s) (s_Qk_sparse s) (s_Qk_indices_of_C s) (s_complHistory s) v (s_work s) (s_calls s) (s_rnd s) (s_log s).
(** Whether the OSQP workspace pointer is non-NULL, src/SubsolverOSQP.cpp. *)
Definition set_work (v : bool) (s : iter) : iter :=
  mkIter (s_rho s) (s_g_tilde s) (s_gk s) (s_xk s) (s_yk s) (s_yk_A s) (s_xnew s) (s_pk s) (s_alphak s) (s_lk_tmp s) (s_Qk s) (s_statk s) (s_constr_statk s) (s_box_statk s) (s_outerIter s) (s_innerIter s) (s_totalIter s) (s_qpIterk s) (s_qpSolverExitFlag s) (s_algoStat s) (s_Qk_sparse s) (s_Qk_indices_of_C s) (s_complHistory s) (s_stats s) v (s_calls s) (s_rnd s) (s_log s).
(** Ghost component: history of QP library calls. No LCQPow code. *)
Definition set_calls (v : list (qp_call T)) (s : iter) : iter :=
  mkIter (s_rho s) (s_g_tilde s) (s_gk s) (s_xk s) (s_yk s) (s_yk_A s) (s_xnew s) (s_pk s) (s_alphak s) (s_lk_tmp s) (s_Qk s) (s_statk s) (s_constr_statk s) (s_box_statk s) (s_outerIter s) (s_innerIter s) (s_totalIter s) (s_qpIterk s) (s_qpSolverExitFlag s) (s_algoStat s) (s_Qk_sparse s) (s_Qk_indices_of_C s) (s_complHistory s) (s_stats s) (s_work s) v (s_rnd s) (s_log s).
(** Ghost component: number of calls of rand() so far. No LCQPow code. *)
Definition set_rnd (v : nat) (s : iter) : iter :=
  mkIter (s_rho s) (s_g_tilde s) (s_gk s) (s_xk s) (s_yk s) (s_yk_A s) (s_xnew s) (s_pk s) (s_alphak s) (s_lk_tmp s) (s_Qk s) (s_statk s) (s_constr_statk s) (s_box_statk s) (s_outerIter s) (s_innerIter s) (s_totalIter s) (s_qpIterk s) (s_qpSolverExitFlag s) (s_algoStat s) (s_Qk_sparse s) (s_Qk_indices_of_C s) (s_complHistory s) (s_stats s) (s_work s) (s_calls s) v (s_log s).
(** Ghost component: printed output, newest first. No LCQPow code. *)
Definition set_log (v : list (print_event T)) (s : iter) : iter :=
  mkIter (s_rho s) (s_g_tilde s) (s_gk s) (s_xk s) (s_yk s) (s_yk_A s) (s_xnew s) (s_pk s) (s_alphak s) (s_lk_tmp s) (s_Qk s) (s_statk s) (s_constr_statk s) (s_box_statk s) (s_outerIter s) (s_innerIter s) (s_totalIter s) (s_qpIterk s) (s_qpSolverExitFlag s) (s_algoStat s) (s_Qk_sparse s) (s_Qk_indices_of_C s) (s_complHistory s) (s_stats s) (s_work s) (s_calls s) (s_rnd s) v.

(** An LCQProblem object *)
Record lcqp : Type := mkLcqp { pd : pdata; it : iter }.

End State.
Arguments pdata T : clear implicits.
Arguments iter T : clear implicits.
Arguments lcqp T : clear implicits.
