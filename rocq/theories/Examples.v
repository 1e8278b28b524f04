(** * Examples: a concrete LCQP and a concrete QP solver, used to show that hypotheses of theorems are met.

    minimise  x1^2 + x2^2 - 2 x1 - 4 x2  subject to  0 <= x1, 0 <= x2, x1 x2 = 0;
    solutions (1,0) and (0,2).  Not LCQPow code. *)
From Coq Require Import QArith Qcanon.
From Verif Require Import Base Arith Codes Utilities Options Stats FileIO Subsolver State LCQProblem.

Section Ex.
Context {T : Type} `{Arith T}.

(** Vector of integers as an input array *)
Definition zvec (l : list Z) : ptr T := Some (lift (map a_of_Z l)).

(** Exact solver of the QPs  min x'x + g'x, x >= 0  that the example produces: x = max(0,-g/2), dual max(0,g).
    Reports one iteration per call. *)
Definition ex_answer (g : list T) : qp_raw T :=
  let gi i := nth (Z.to_nat i) g a_zero in
  let pos v := if a_lt a_zero v then v else a_zero in
  mkRaw 0 1 1 true false false
    (fun i => pos ((- gi i) / a_of_Z 2)%num)
    (fun i => if i <? 2 then a_zero else pos (gi (i - 2))).
(** A QP library solving the example QPs. No LCQPow code. *)
Definition ex_oracle : oracle T := fun calls => match calls with [] => ex_answer [] | c :: _ => ex_answer (qc_g c) end.

(** Same for OSQP: no box duals, opposite sign *)
Definition ex_oracle_osqp : oracle T := fun calls =>
  match calls with
  | [] => ex_answer []
  | c :: _ => let a := ex_answer (qc_g c) in
      mkRaw (q_ret a) (q_iter a) (q_status a) (q_work a) (q_wsx_fails a) (q_wsy_fails a) (q_x a)
        (fun i => (- q_y a (i + 2))%num)
  end.

(** A solver that fails from the [n]-th call on *)
Definition failing (n : nat) (orc : oracle T) : oracle T := fun calls =>
  let a := orc calls in
  if (length calls <? n)%nat then a
  else mkRaw 7 3 (-3) (q_work a) (q_wsx_fails a) (q_wsy_fails a) (q_x a) (q_y a).

(** Example options. No LCQPow code. *)
Definition ex_options (qs : QPSolver) : options T :=
  let o := setToDefault in
  let o := snd (setPerturbStep false o) in
  let o := snd (setPrintLevel 0 o) in
  let o := snd (setStoreSteps true o) in
  let o := snd (setInitialPenaltyParameter a_one o) in
  snd (setQPSolver_enum qs o).

(** Dense load of the example on a given object *)
Definition ex_load (o : lcqp T) : res (ReturnValue * lcqp T) :=
  loadLCQP (zvec [2;0;0;2]) (zvec [-2;-4]) (zvec [1;0]) (zvec [0;1]) None None None None None None None None None None None o.

(** Example object with dense data. No LCQPow code. *)
Definition ex_obj (opt : options T) : res (lcqp T) :=
  let! o := LCQProblem_ctor 2 0 1 in
  let! '(_, o) := ex_load (setOptions opt o) in
  Ok o.

(** CSC matrix from lists *)
Definition zcsc (m n : Z) (p i x : list Z) : option (csc T) :=
  Some (mkCsc m n (Some (lift p)) (Some (lift i)) (Some (lift (map a_of_Z x))) (Z.of_nat (length i))).

(** Example load with sparse data. No LCQPow code. *)
Definition ex_load_csc (o : lcqp T) : res (ReturnValue * lcqp T) :=
  loadLCQP_csc (zcsc 2 2 [0;1;2] [0;1] [2;2]) (zvec [-2;-4]) (zcsc 1 2 [0;1;1] [0] [1]) (zcsc 1 2 [0;0;1] [0] [1])
    None None None None None None None None None None None o.

(** Example object with sparse data. No LCQPow code. *)
Definition ex_obj_csc (opt : options T) : res (lcqp T) :=
  let! o := LCQProblem_ctor 2 0 1 in
  let! '(_, o) := ex_load_csc (setOptions opt o) in
  Ok o.

(** A constant rand(). No LCQPow code. *)
Definition no_rand : nat -> Z := fun _ => 0.

(** Observables of a run *)
Definition ex_run (orc : oracle T) (o : res (lcqp T)) : res (ReturnValue * lcqp T) :=
  let! o := o in runSolver orc no_rand o.
(** What the getters return. No LCQPow code. *)
Definition observe (r : res (ReturnValue * lcqp T)) :=
  let! '(rv, o) := r in
  Ok (rv, s_xk (it o), s_yk (it o), st_status (s_stats (it o)), (st_iterTotal (s_stats (it o)), st_iterOuter (s_stats (it o)), st_subproblemIter (s_stats (it o))), st_rhoOpt (s_stats (it o)), length (s_calls (it o))).
End Ex.

(** ** The example run in exact arithmetic *)
Definition ok_or {A} (d : A) (r : res A) : A := match r with Ok a => a | UB _ => d end.

(** The loaded object, dense or sparse, for given options *)
Definition ex_o (qs : QPSolver) : lcqp xq :=
  ok_or LCQProblem_default (match qs with QPOASES_DENSE => ex_obj (ex_options qs) | _ => ex_obj_csc (ex_options qs) end).
(** The example QP library per solver. No LCQPow code. *)
Definition ex_orc (qs : QPSolver) : oracle xq := match qs with OSQP_SPARSE => ex_oracle_osqp | _ => ex_oracle end.
(** The object after the run *)
Definition ex_done (orc : oracle xq) (o : lcqp xq) : lcqp xq :=
  snd (ok_or (SUCCESSFUL_RETURN, LCQProblem_default) (runSolver orc no_rand o)).

Lemma ex_runs qs : runSolver (ex_orc qs) no_rand (ex_o qs) = Ok (SUCCESSFUL_RETURN, ex_done (ex_orc qs) (ex_o qs)).
Proof. destruct qs; vm_compute; reflexivity. Qed.

Lemma ex_fails : runSolver (failing 2 ex_oracle) no_rand (ex_o QPOASES_DENSE) =
  Ok (SUBPROBLEM_SOLVER_ERROR, ex_done (failing 2 ex_oracle) (ex_o QPOASES_DENSE)).
Proof. vm_compute; reflexivity. Qed.
