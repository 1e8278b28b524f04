(** * ExamplesInterfaces: concrete calls of the interfaces (no LCQPow code). *)
From Coq Require Import String QArith Qcanon.
From Verif Require Import Base Arith Codes Utilities Options Stats FileIO Subsolver State LCQProblem Loops SpecSparse SpecMath SpecLoad SpecExact SpecOptions OwnOptions SpecOwn
  Matlab Python Printf SpecInterfaces Examples ExamplesKernels ExamplesExact.
Local Open Scope string_scope.
Local Open Scope list_scope.
Local Open Scope Z_scope.

(** (int) of an exact number: the fraction is cut off; undefined if it does not fit.  No LCQPow code. *)
Definition xq_to_int (v : xq) : res Z :=
  match v with
  | Fin q => let z := Z.quot (Qnum q) (Zpos (Qden q)) in if (- INT_MAX - 1 <=? z) && (z <=? INT_MAX) then Ok z else UB IntOverflow
  | _ => UB IntOverflow
  end.
(** The example problem with matrices as functions.  No LCQPow code. *)
Definition exi_u : umat xq :=
  mkUmat (to_vec (exq_v true)) (fun i j => if i =? j then a_of_Z 2 else a_of_Z 0) (fun _ j => if j =? 0 then a_of_Z 1 else a_of_Z 0)
    (fun _ j => if j =? 1 then a_of_Z 1 else a_of_Z 0) (fun _ _ => a_of_Z 1).
(** The same without initial guess.  No LCQPow code. *)
Definition exi_u0 : umat xq :=
  let v := um_v exi_u in
  mkUmat (mkUvec (u_nV v) (u_nC v) (u_nComp v) (u_g v) (u_lbL v) (u_ubL v) (u_lbR v) (u_ubR v) (u_lbA v) (u_ubA v) (u_lb v) (u_ub v) None None)
    (um_Q exi_u) (um_L exi_u) (um_R exi_u) (um_A exi_u).
Lemma exi_rows : rows_of exi_u = to_dense (exq_d true).
Proof. vm_compute. reflexivity. Qed.
Lemma exi_wf : wf_dense (rows_of exi_u).
Proof. rewrite exi_rows. apply exq_wf_d. Qed.
Lemma exi_wf0 : wf_dense (rows_of exi_u0).
Proof. constructor; [constructor; vm_compute; try reflexivity; try discriminate; exact I|reflexivity..]. Qed.
Lemma exi_sym : symmetric exi_u /\ symmetric exi_u0.
Proof. split; intros i j; cbn; rewrite Z.eqb_sym; reflexivity. Qed.
Lemma exi_cons : cons_args (um_v exi_u) /\ cons_args (um_v exi_u0).
Proof. split; intros C; discriminate C. Qed.

(** A scalar of the params struct.  No LCQPow code. *)
Definition mx1 (z : Z) : mxArray xq := MxDense 1 1 [a_of_Z z].
(** Parameters: initial guess, penalty, silent, no perturbation.  No LCQPow code. *)
Definition exi_params (store : bool) (qs : Z) : list (string * mxArray xq) :=
  [ ("x0", MxDense 2 1 [a_of_Z 1; a_of_Z 1]); ("initialPenaltyParameter", mx1 1); ("maxPenaltyParameter", mx1 1000); ("printLevel", mx1 0); ("maxIterations", mx1 50);
    ("storeSteps", MxLogical 1 1 store); ("perturbStep", MxLogical 1 1 false); ("qpSolver", mx1 qs) ].
Lemma exi_full store qs : full_fields (exi_params store qs).
Proof.
  intros n a. unfold exi_params, lookup. repeat match goal with |- (if ?c then _ else _) = _ -> _ => destruct c; [intros E; injection E as <-; split; reflexivity|] end. discriminate.
Qed.
Lemma exi_whole store qs : whole_max_penalty xq_to_int a_of_Z (exi_params store qs).
Proof. intros v E. exists 1000. assert (Ev : a_of_Z 1000 = v) by (apply (f_equal (fun o => match o with Some w => w | None => v end)) in E; exact E). subst v. split; vm_compute; reflexivity. Qed.
(** The call from MATLAB.  No LCQPow code. *)
Definition exi_args (store : bool) (qs : Z) : list (mxArray xq) := ml_args exi_u ++ [MxStruct (exi_params store qs)].
(** The outcome of the call with three outputs.  No LCQPow code. *)
Definition exi_mex (store : bool) (qs : Z) : mex (mex_out xq) :=
  mexFunction xq_to_int a_of_Z (exq_orc QPOASES_DENSE) no_rand (Fin 0) 3 (exi_args store qs).
(** Statistics struct and object of a call.  No LCQPow code. *)
Definition mex_stats (m : mex (mex_out xq)) : list (string * stat_value xq) := match m with Ok (inr (Output _ _ (Some s) _)) => s | _ => [] end.
(** The object behind a MEX call. No LCQPow code. *)
Definition mex_obj (m : mex (mex_out xq)) : lcqp xq := match m with Ok (inr (Output _ _ _ o)) => o | _ => LCQProblem_default end.
(** Primal and dual solution of a call.  No LCQPow code. *)
Definition mex_x (m : mex (mex_out xq)) : arr xq := match m with Ok (inr (Output x _ _ _)) => x | _ => [] end.
(** The dual output of a MEX call. No LCQPow code. *)
Definition mex_y (m : mex (mex_out xq)) : option (list xq) := match m with Ok (inr (Output _ y _ _)) => y | _ => None end.
(** The loaded object of a call.  No LCQPow code. *)
Definition mex_loaded (prhs : list (mxArray xq)) : Z * Z * Z * options xq * Z * lcqp xq :=
  match mexLoad xq_to_int a_of_Z prhs with Ok (inr r) => r | _ => (0, 0, 0, setToDefault, 1, LCQProblem_default) end.
Lemma exi_run store : exi_mex store 0 = Ok (inr (Output (mex_x (exi_mex store 0)) (mex_y (exi_mex store 0)) (Some (mex_stats (exi_mex store 0))) (mex_obj (exi_mex store 0)))).
Proof. destruct store; vm_compute; reflexivity. Qed.
Lemma exi_run_mex : mexFunction xq_to_int a_of_Z (exq_orc QPOASES_DENSE) no_rand (Fin 0) 3 (exi_args true 0) =
  Ok (inr (Output (mex_x (exi_mex true 0)) (mex_y (exi_mex true 0)) (Some (mex_stats (exi_mex true 0))) (mex_obj (exi_mex true 0)))).
Proof. vm_compute. reflexivity. Qed.
Lemma all_len {X} n (l : list (list X)) : forallb (fun x => len x =? n) l = true -> forall x, In x l -> len x = n.
Proof. intros E x Hx. rewrite forallb_forall in E. apply Z.eqb_eq, E, Hx. Qed.
Lemma exi_tracked : let st := getOutputStatistics (mex_obj (exi_mex true 0)) in 0 < st_iterTotal st /\ tracked 2 st.
Proof.
  split; [vm_compute; reflexivity|]. unfold tracked. split; [vm_compute; reflexivity|]. split; [apply all_len; vm_compute; reflexivity|]. repeat (split; [vm_compute; reflexivity|]). vm_compute. reflexivity.
Qed.
Lemma exi_load store : mexLoad xq_to_int a_of_Z (exi_args store 0) = Ok (inr (mex_loaded (exi_args store 0))).
Proof. destruct store; vm_compute; reflexivity. Qed.

(** A call with two complementarity pairs but only one lower bound for them.  No LCQPow code. *)
Definition exi_short : list (mxArray xq) :=
  let m := ml_mat 2 2 (fun i j => if i =? j then a_of_Z 1 else a_of_Z 0) in let e := MxDense 0 0 [] in
  [m; MxDense 2 1 [a_of_Z 1; a_of_Z 1]; m; m; mx1 0; e; MxDense 2 1 [a_of_Z 0; a_of_Z 0]; e].
(** A program with two Options objects: the second is a copy of the first, then the first is changed and destroyed.  No LCQPow code. *)
Definition exi_prog : list (op xq Z Z) := [ONew; OSet 0 (SStat (a_of_Z 1)); ONewCopy 0; OSetOsqp 0 (ACaller 5); OWrite 1 7; OSetOsqp 1 (AGet 0); OAssign 0 1; ODelete 0].
