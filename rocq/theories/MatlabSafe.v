(** * MatlabSafe: loading from MATLAB stays within the arguments (no LCQPow code). *)
From Coq Require Import String.
From Verif Require Import Base Arith Codes Utilities Options Stats FileIO Subsolver State LCQProblem Loops Tactics SpecSparse SpecLoad Messages SpecOptions Matlab Python Printf
  SpecInterfaces InterfaceFacts MatlabFacts SpecMatlab Kernels CscKernels CscBuild LoadLoops LoadDense LoadSparse LoadFacts Pure Refine StartDense NoUB Spec RunFacts Safety ApiFacts FileLoadFacts MatlabForms MatlabProps.
Local Open Scope list_scope.
Local Open Scope Z_scope.

Section MatlabSafe.
Context {T : Type} `{Arith T}.
Variables (dtoi : T -> res Z) (itod : Z -> T).

(** Anything but undefined behaviour.  No LCQPow code. *)
Definition total {X} (m : mex X) : Prop := exists r, m = Ok r.
Lemma total_bind {X Y} (m : mex X) (k : X -> mex Y) : total m -> (forall x, m = Ok (inr x) -> total (k x)) -> total (mbind m k).
Proof. intros ([e|x] & ->) K; [exists (inl e); reflexivity|]. exact (K x eq_refl). Qed.
Lemma total_ret {X} (x : X) : total (mret x). Proof. eexists. reflexivity. Qed.
Lemma total_check (a : mxArray T) m n name e : total (checkDouble a m n name e).
Proof. unfold checkDouble. repeat match goal with |- total (if ?c then _ else _) => destruct c end; eexists; reflexivity. Qed.
Lemma total_dbl (s : list (string * mxArray T)) name k o : full_fields s -> (forall v, scalar (lookup name s) = Some v -> total (k v o)) -> total (dbl_field (MxStruct s) name k o).
Proof.
  intros F K. unfold dbl_field. cbn [mxGetField]. destruct (lookup name s) as [f|] eqn:L; [|apply total_ret]. apply total_bind; [apply total_check|]. intros [] C.
  destruct (F _ _ L) as (Fs & Fw). unfold checkDouble in C. cbn [andb] in C. destruct f as [m n l| | | |]; try discriminate. cbn [mxIsDouble negb mxGetM mxGetN wf_mx] in *.
  destruct (Z.eqb_spec m 1) as [->|]; [|discriminate]. destruct (Z.eqb_spec n 1) as [->|]; [|discriminate].
  destruct l as [|x [|y l]]; [change (len (@nil T)) with 0 in Fw; lia| |rewrite !len_cons in Fw; pose proof (len_nonneg l); lia].
  cbn. apply K. reflexivity.
Qed.
Lemma total_num (s : list (string * mxArray T)) name f o : full_fields s -> total (dbl_field (MxStruct s) name (fun v o => mret (via f v o)) o).
Proof. intros F. apply total_dbl; [exact F|]. intros v _. apply total_ret. Qed.
Lemma total_int (s : list (string * mxArray T)) name f o : full_fields s -> (forall v, scalar (lookup name s) = Some v -> exists i, dtoi v = Ok i) -> total (dbl_field (MxStruct s) name (by_int dtoi f) o).
Proof. intros F K. apply total_dbl; [exact F|]. intros v L. destruct (K v L) as (i & E). unfold by_int. rewrite E. apply total_ret. Qed.
Lemma total_lgl (s : list (string * mxArray T)) name f o : total (lgl_field (MxStruct s) name f o).
Proof.
  unfold lgl_field. cbn [mxGetField]. destruct (lookup name s) as [f'|]; [|apply total_ret]. apply total_bind; [|intros; apply total_ret].
  unfold checkBool. repeat match goal with |- total (if ?c then _ else _) => destruct c end; eexists; reflexivity.
Qed.
Lemma solver_num (s : list (string * mxArray T)) name f o o' : full_fields s -> (forall v, o_qpSolver (via f v o) = o_qpSolver o) ->
  dbl_field (MxStruct s) name (fun v o => mret (via f v o)) o = Ok (inr o') -> o_qpSolver o' = o_qpSolver o.
Proof. intros F K E. destruct (dbl_inv _ _ _ _ _ F E) as [(L & ->)|(v & L & Kv)]; [reflexivity|]. injection Kv as <-. apply K. Qed.
Lemma solver_int (s : list (string * mxArray T)) name f o o' : full_fields s -> (forall v, o_qpSolver (via f v o) = o_qpSolver o) ->
  dbl_field (MxStruct s) name (by_int dtoi f) o = Ok (inr o') -> o_qpSolver o' = o_qpSolver o.
Proof.
  intros F K E. destruct (dbl_inv _ _ _ _ _ F E) as [(L & ->)|(v & L & Kv)]; [reflexivity|]. apply mbind_ok in Kv. destruct Kv as (i & K1 & K2). injection K2 as <-. apply K.
Qed.
Lemma solver_lgl (s : list (string * mxArray T)) name f o o' : (forall v, o_qpSolver (via f v o) = o_qpSolver o) ->
  lgl_field (MxStruct s) name (via f) o = Ok (inr o') -> o_qpSolver o' = o_qpSolver o.
Proof. intros K E. destruct (lgl_inv _ _ _ _ _ E) as [(L & ->)|(v & L & ->)]; [reflexivity|]. apply K. Qed.
Ltac keeps := intros; unfold via; unfold setStationarityTolerance, setComplementarityTolerance, setInitialPenaltyParameter, setPenaltyUpdateFactor, setSolveZeroPenaltyFirst, setMaxIterations, setNDynamicPenalty, setEtaDynamicPenalty, setPrintLevel, setStoreSteps, setPerturbStep; repeat match goal with |- context [if ?c then _ else _] => destruct c end; reflexivity.

Lemma params_total s nV nComp nC : ml_safe_params dtoi s -> total (readParams dtoi itod (MxStruct s) nV nComp nC).
Proof.
  intros (F & I & _). unfold readParams. cbn [mxGetField]. apply total_bind; [destruct (lookup "x0" s); [apply total_bind; [apply total_check|intros; apply total_ret]|apply total_ret]|]. intros x0 _.
  assert (I' : forall name, In name ["maxIterations"; "maxPenaltyParameter"; "nDynamicPenalty"; "printLevel"; "qpSolver"]%string -> forall v, scalar (lookup name s) = Some v -> exists i, dtoi v = Ok i) by (intros; eauto).
  do 4 (apply total_bind; [apply total_num; exact F|intros ? _]). apply total_bind; [apply total_lgl|intros ? _].
  do 3 (apply total_bind; [apply total_int; [exact F|apply I'; cbn; tauto]|intros ? _]). apply total_bind; [apply total_num; exact F|intros ? _].
  apply total_bind; [apply total_int; [exact F|apply I'; cbn; tauto]|intros ? _]. apply total_bind; [apply total_lgl|intros ? _]. apply total_bind; [apply total_int; [exact F|apply I'; cbn; tauto]|intros ? _].
  apply total_bind; [apply total_lgl|intros ? _]. apply total_bind; [destruct (lookup "y0" s); [apply total_bind; [apply total_check|intros; apply total_ret]|apply total_ret]|intros; apply total_ret].
Qed.
Lemma params_solver s nV nComp nC pm : full_fields s -> (forall v, scalar (lookup "qpSolver" s) = Some v -> dtoi v <> Ok 2) -> readParams dtoi itod (MxStruct s) nV nComp nC = Ok (inr pm) -> o_qpSolver (pm_options pm) <> OSQP_SPARSE.
Proof.
  intros F N E. unfold readParams in E. cbn [mxGetField] in E.
  apply mbind_ok in E. destruct E as (x0 & Ex & E).
  apply mbind_ok in E. destruct E as (o1 & E1 & E). apply solver_num in E1; [|exact F|keeps].
  apply mbind_ok in E. destruct E as (o2 & E2 & E). apply solver_num in E2; [|exact F|keeps].
  apply mbind_ok in E. destruct E as (o3 & E3 & E). apply solver_num in E3; [|exact F|keeps].
  apply mbind_ok in E. destruct E as (o4 & E4 & E). apply solver_num in E4; [|exact F|keeps].
  apply mbind_ok in E. destruct E as (o5 & E5 & E). apply solver_lgl in E5; [|keeps].
  apply mbind_ok in E. destruct E as (o6 & E6 & E). apply solver_int in E6; [|exact F|keeps].
  apply mbind_ok in E. destruct E as (o7 & E7 & E). apply solver_int in E7; [|exact F|intros; unfold via, setMaxPenaltyParameter; repeat match goal with |- context [if ?c then _ else _] => destruct c end; reflexivity].
  apply mbind_ok in E. destruct E as (o8 & E8 & E). apply solver_int in E8; [|exact F|keeps].
  apply mbind_ok in E. destruct E as (o9 & E9 & E). apply solver_num in E9; [|exact F|keeps].
  apply mbind_ok in E. destruct E as (o10 & E10 & E). apply solver_int in E10; [|exact F|keeps].
  apply mbind_ok in E. destruct E as (o11 & E11 & E). apply solver_lgl in E11; [|keeps].
  apply mbind_ok in E. destruct E as (o12 & E12 & E). 
  apply mbind_ok in E. destruct E as (o13 & E13 & E). apply solver_lgl in E13; [|keeps].
  apply mbind_ok in E. destruct E as (y0 & Ey & E). injection E as <-. cbn [pm_options]. rewrite E13.
  assert (E0 : o_qpSolver o11 = QPOASES_DENSE) by (rewrite E11, E10, E9, E8, E7, E6, E5, E4, E3, E2, E1; reflexivity).
  destruct (dbl_inv _ _ _ _ _ F E12) as [(L & ->)|(v & L & Kv)]; [rewrite E0; discriminate|]. apply mbind_ok in Kv. destruct Kv as (i & K1 & K2). apply mlift_ok in K1. injection K2 as <-.
  specialize (N v L). assert (Hi : i <> 2) by congruence. unfold via, setQPSolver. cbn [qs_code].
  destruct (Z.ltb_spec i 0); [cbn; rewrite E0; discriminate|]. destruct (Z.ltb_spec 2 i); [cbn; rewrite E0; discriminate|]. cbn. unfold qs_of_code. destruct (i =? 0) eqn:B0; [discriminate|]. destruct (i =? 1) eqn:B1; [discriminate|]. lia.
Qed.

(** ** From arguments back to a problem *)
(** The entries of a full array.  No LCQPow code. *)
Definition entries (a : mxArray T) : list T := match a with MxDense _ _ l => l | _ => [] end.
(** The vector an argument stands for.  No LCQPow code. *)
Definition opt_of (a : mxArray T) : option (list T) := if mxIsEmpty a then None else Some (entries a).
(** The matrix an argument stands for.  No LCQPow code. *)
Definition mat_of (a : mxArray T) : Z -> Z -> T := fun i j => at_ a_zero (entries a) (j * mxGetM a + i).
Lemma opt_ok n a : ml_full a -> (mxIsEmpty a = true \/ mxGetM a = n /\ mxGetN a = 1) -> ml_opt n (opt_of a) a /\ fits n (opt_of a).
Proof.
  intros (m & k & l & -> & Hm & Hk & Hl) S. unfold opt_of. cbn [entries]. destruct (mxIsEmpty (MxDense m k l)) eqn:E.
  - cbn [ml_opt fits]. split; [|exact I]. unfold mxIsEmpty in E. cbn [mxGetM mxGetN] in E. exists m, k. split; [|lia]. f_equal. assert (len l = 0) by nia. destruct l; [reflexivity|]. rewrite len_cons in *. pose proof (len_nonneg l). lia.
  - destruct S as [S|(S1 & S2)]; [discriminate|]. cbn [mxGetM mxGetN] in *. subst. split; [reflexivity|]. cbn. lia.
Qed.
Lemma mat_ok m n a : 0 < m -> ml_full a -> mxGetM a = m -> mxGetN a = n -> ml_mat m n (mat_of a) = a.
Proof.
  intros Hm (m' & n' & l & -> & Hm' & Hn & Hl) E1 E2. cbn [mxGetM mxGetN] in E1, E2. subst m' n'. unfold ml_mat, mat_of. cbn [mxGetM entries]. f_equal.
  apply (list_eq a_zero); [rewrite len_cols by lia; lia|]. intros k Hk. rewrite len_cols in Hk by lia. unfold col_major. rewrite at_tab by lia. f_equal. rewrite (Z.div_mod k m) at 3 by lia. lia.
Qed.
(** The facts established by the checks of the interface.  No LCQPow code. *)
Definition fine (nV nComp nC : Z) (f : ml_form) (l : list (mxArray T)) : Prop :=
  let sh i m n := mxGetM (ml_arg l i) = m /\ mxGetN (ml_arg l i) = n in
  let op i m n := mxIsEmpty (ml_arg l i) = true \/ sh i m n in
  0 < nV /\ 0 < nComp /\ 0 <= nC /\ sh 0%nat nV nV /\ sh 1%nat nV 1 /\ sh 2%nat nComp nV /\ sh 3%nat nComp nV /\
  match f with
  | FPlain => nC = 0
  | FBox => nC = 0 /\ op 8%nat nV 1 /\ op 9%nat nV 1
  | FCons => (if nC =? 0 then mxIsEmpty (ml_arg l 8) = true else sh 8%nat nC nV) /\ op 9%nat nC 1 /\ op 10%nat nC 1
  | FBoth => (if nC =? 0 then mxIsEmpty (ml_arg l 8) = true else sh 8%nat nC nV) /\ op 9%nat nC 1 /\ op 10%nat nC 1 /\ op 11%nat nV 1 /\ op 12%nat nV 1
  end.
(** The number of arguments of a form.  No LCQPow code. *)
Definition form_len (f : ml_form) : nat := match f with FPlain => 8 | FBox => 10 | FCons => 11 | FBoth => 13 end.
(** The problem an argument list stands for.  No LCQPow code. *)
Definition args_vec (nV nComp nC : Z) (f : ml_form) (l : list (mxArray T)) : uvec T :=
  let o i := opt_of (ml_arg l i) in
  let c := match f with FCons | FBoth => true | _ => false end in
  mkUvec nV nC nComp (entries (ml_arg l 1)) (o 4%nat) (o 5%nat) (o 6%nat) (o 7%nat) (if c then o 9%nat else None) (if c then o 10%nat else None)
    (match f with FBox => o 8%nat | FBoth => o 11%nat | _ => None end) (match f with FBox => o 9%nat | FBoth => o 12%nat | _ => None end) None None.
(** The matrices of a MATLAB call. No LCQPow code. *)
Definition args_mat (nV nComp nC : Z) (f : ml_form) (l : list (mxArray T)) : umat T :=
  mkUmat (args_vec nV nComp nC f l) (mat_of (ml_arg l 0)) (mat_of (ml_arg l 2)) (mat_of (ml_arg l 3)) (mat_of (ml_arg l 8)).
Lemma args_ok nV nComp nC f l : length l = form_len f -> Forall ml_full l -> ml_pair_bounds l -> ml_small l -> fine nV nComp nC f l ->
  wf_dense (rows_of (args_mat nV nComp nC f l)) /\ ml_dense_call f (args_mat nV nComp nC f l) l.
Proof.
  intros HL Fl Pb (S1 & S2 & S3) (HV & HK & HC & (A1 & A2) & (B1 & B2) & (C1 & C2) & (D1 & D2) & Ff).
  assert (Fu : forall i, ml_full (ml_arg l i)).
  { intros i. unfold ml_arg. destruct (Nat.lt_ge_cases i (length l)) as [Hi|Hi]; [rewrite Forall_forall in Fl; apply Fl, nth_In, Hi|rewrite nth_overflow by exact Hi]. exists 0, 0, []. split; [reflexivity|]. repeat split; reflexivity || lia. }
  assert (N0 : nC = 0 -> mxIsEmpty (ml_arg l 8) = true -> True) by auto.
  assert (Z0 : forall a, nC = 0 -> ml_full a -> mxIsEmpty a = true \/ mxGetM a = nC /\ mxGetN a = 1 -> opt_of a = None).
  { intros a E0 Fa [E|(E & _)]; unfold opt_of; [rewrite E; reflexivity|]. unfold mxIsEmpty. rewrite E, E0. reflexivity. }
  assert (HC' : nC = 0 \/ mxGetM (ml_arg l 8) = nC).
  { destruct f; try (left; tauto); destruct (Z.eqb_spec nC 0); [left; assumption|right; tauto|left; assumption|right; tauto]. }
  destruct (Fu 8%nat) as (m8 & n8 & l8 & E8 & Hm8 & _).
  assert (Hc0 : 0 <= mxGetM (ml_arg l 8)) by (rewrite E8; exact Hm8). clear m8 n8 l8 E8 Hm8.
  rewrite A1, C1 in S1, S3. rewrite A1 in S2.
  destruct (opt_ok nComp _ (Fu 4%nat)) as (O4 & F4); [destruct (Pb 4%nat) as [?|(? & ?)]; [lia|left; assumption|right; split; [congruence|assumption]]|].
  destruct (opt_ok nComp _ (Fu 5%nat)) as (O5 & F5); [destruct (Pb 5%nat) as [?|(? & ?)]; [lia|left; assumption|right; split; [congruence|assumption]]|].
  destruct (opt_ok nComp _ (Fu 6%nat)) as (O6 & F6); [destruct (Pb 6%nat) as [?|(? & ?)]; [lia|left; assumption|right; split; [congruence|assumption]]|].
  destruct (opt_ok nComp _ (Fu 7%nat)) as (O7 & F7); [destruct (Pb 7%nat) as [?|(? & ?)]; [lia|left; assumption|right; split; [congruence|assumption]]|].
  assert (G : ml_arg l 1 = MxDense nV 1 (entries (ml_arg l 1)) /\ len (entries (ml_arg l 1)) = nV).
  { destruct (Fu 1%nat) as (m & n & e & E & _ & _ & He). rewrite E in *. cbn [mxGetM mxGetN entries] in *. subst. split; [reflexivity|lia]. }
  destruct G as (G1 & G2).
  pose proof (mat_ok nV nV _ HV (Fu 0%nat) A1 A2) as MQ. pose proof (mat_ok nComp nV _ HK (Fu 2%nat) C1 C2) as ML. pose proof (mat_ok nComp nV _ HK (Fu 3%nat) D1 D2) as MR.
  assert (WV : wf_vec (args_vec nV nComp nC f l) /\ ml_form_fits f (args_vec nV nComp nC f l)).
  { destruct f.
    - split; [constructor; unfold u_nA; cbn [args_vec u_nV u_nC u_nComp u_g u_lbL u_ubL u_lbR u_ubR u_lbA u_ubA u_lb u_ub u_x0 u_y0 fits]; auto; try nia|]. split; [intros _; split; reflexivity|]. split; [exact Ff|split; reflexivity].
    - destruct Ff as (E0 & P8 & P9). split; [constructor; unfold u_nA; cbn [args_vec u_nV u_nC u_nComp u_g u_lbL u_ubL u_lbR u_ubR u_lbA u_ubA u_lb u_ub u_x0 u_y0 fits]; auto; try nia; [apply (opt_ok nV _ (Fu 8%nat) P8)|apply (opt_ok nV _ (Fu 9%nat) P9)]|]. split; [intros _; split; reflexivity|]. split; [exact E0|exact I].
    - destruct Ff as (P8 & P9 & P10). split; [constructor; unfold u_nA; cbn [args_vec u_nV u_nC u_nComp u_g u_lbL u_ubL u_lbR u_ubR u_lbA u_ubA u_lb u_ub u_x0 u_y0 fits]; auto; try nia; [apply (opt_ok nC _ (Fu 9%nat) P9)|apply (opt_ok nC _ (Fu 10%nat) P10)]|]. split; [intros E0; split; cbn; apply Z0; auto|]. split; [exact I|split; reflexivity].
    - destruct Ff as (P8 & P9 & P10 & P11 & P12). split; [constructor; unfold u_nA; cbn [args_vec u_nV u_nC u_nComp u_g u_lbL u_ubL u_lbR u_ubR u_lbA u_ubA u_lb u_ub u_x0 u_y0 fits]; auto; try nia; [apply (opt_ok nC _ (Fu 9%nat) P9)|apply (opt_ok nC _ (Fu 10%nat) P10)|apply (opt_ok nV _ (Fu 11%nat) P11)|apply (opt_ok nV _ (Fu 12%nat) P12)]|].
      split; [intros E0; split; cbn; apply Z0; auto|]. split; [exact I|exact I]. }
  destruct WV as (WV & FF). split.
  { constructor; [exact WV|..]; cbn; unfold row_major; rewrite len_tab by nia; reflexivity. }
  split; [exact FF|]. clear WV FF.
  assert (EL : l = map (ml_arg l) (seq 0 (form_len f))).
  { rewrite <- HL. apply nth_ext with (d := MxDense 0 0 []) (d' := ml_arg l 0); [rewrite map_length, seq_length; reflexivity|]. intros i Hi. rewrite (map_nth (ml_arg l) (seq 0 (length l)) 0%nat i). rewrite seq_nth by exact Hi. reflexivity. }
  assert (PA : (if nC =? 0 then mxIsEmpty (ml_arg l 8) = true else mxGetM (ml_arg l 8) = nC /\ mxGetN (ml_arg l 8) = nV) ->
    if nC =? 0 then ml_none (ml_arg l 8) else ml_mat nC nV (mat_of (ml_arg l 8)) = ml_arg l 8).
  { destruct (Z.eqb_spec nC 0) as [E0|E0]; [|intros (P1 & P2); apply mat_ok; auto; lia]. intros P8. destruct (opt_ok 0 _ (Fu 8%nat) (or_introl P8)) as (O8 & _). unfold opt_of in O8. rewrite P8 in O8. exact O8. }
  cbn [args_mat um_v um_Q um_L um_R um_A]. cut (forall ps, Forall2 (fun p a => p a) ps (map (ml_arg l) (seq 0 (form_len f))) -> Forall2 (fun (p : mxArray T -> Prop) a => p a) ps l); [intros K; apply K|intros ps K; rewrite <- EL in K; exact K].
  clear EL. destruct f; cbn [ml_form_args app args_vec u_nV u_nC u_nComp u_g u_lbL u_ubL u_lbR u_ubR u_lbA u_ubA u_lb u_ub form_len seq map].
  - repeat first [apply Forall2_nil | apply Forall2_cons; [first [assumption | exact G1]|]].
  - destruct Ff as (E0 & P8 & P9). pose proof (proj1 (opt_ok nV _ (Fu 8%nat) P8)). pose proof (proj1 (opt_ok nV _ (Fu 9%nat) P9)).
    repeat first [apply Forall2_nil | apply Forall2_cons; [first [assumption | exact G1]|]].
  - destruct Ff as (P8 & P9 & P10). pose proof (PA P8). pose proof (proj1 (opt_ok nC _ (Fu 9%nat) P9)). pose proof (proj1 (opt_ok nC _ (Fu 10%nat) P10)).
    repeat first [apply Forall2_nil | apply Forall2_cons; [first [assumption | exact G1]|]].
  - destruct Ff as (P8 & P9 & P10 & P11 & P12). pose proof (PA P8). pose proof (proj1 (opt_ok nC _ (Fu 9%nat) P9)). pose proof (proj1 (opt_ok nC _ (Fu 10%nat) P10)). pose proof (proj1 (opt_ok nV _ (Fu 11%nat) P11)). pose proof (proj1 (opt_ok nV _ (Fu 12%nat) P12)).
    repeat first [apply Forall2_nil | apply Forall2_cons; [first [assumption | exact G1]|]].
Qed.

Lemma total_err {X} e : total (merr e : mex X). Proof. eexists. reflexivity. Qed.
Lemma total_struct (a : mxArray T) e : total (checkStruct a e). Proof. unfold checkStruct. destruct (mxIsStruct a); eexists; reflexivity. Qed.
Lemma chk_inv (a : mxArray T) m n name e : checkDouble a m n name e = Ok (inr tt) -> e = true /\ mxIsEmpty a = true \/ mxIsDouble a = true /\ mxGetM a = m /\ mxGetN a = n.
Proof.
  unfold checkDouble. destruct (e && mxIsEmpty a) eqn:B; [intros _; left; destruct e; [split; [reflexivity|exact B]|discriminate]|].
  destruct (mxIsDouble a); [|discriminate]. cbn [negb]. destruct (Z.eqb_spec (mxGetM a) m); [|discriminate]. destruct (Z.eqb_spec (mxGetN a) n); [|discriminate]. auto.
Qed.
Lemma full_type (a : mxArray T) : ml_full a -> mxIsDouble a = true /\ mxIsStruct a = false /\ 0 <= mxGetM a.
Proof. intros (m & n & l & -> & Hm & _). auto. Qed.
Ltac do_args := repeat match goal with |- context [arg ?l ?i] =>
  let a := eval cbv [nth_error Z.to_nat Pos.to_nat Pos.iter_op Init.Nat.add] in (nth_error l (Z.to_nat i)) in
  lazymatch a with Some ?a => change (arg l i) with (mret a : mex (mxArray T)) end end.
Ltac tot := repeat first [apply total_ret | apply total_err | apply total_check | apply total_struct | apply total_bind; [|intros ? _] | match goal with |- total (if ?c then _ else _) => destruct c end | match goal with |- total (when ?c _) => unfold when at 1 end].

(** An error message, or the load of a problem with correctly sized data. No LCQPow code. *)
Definition outcome (f : ml_form) (args extra : list (mxArray T)) : Prop :=
  (exists e, mexLoad dtoi itod (args ++ extra) = Ok (inl e)) \/ exists nV nComp nC, fine nV nComp nC f args.
Lemma args_outcome f args extra : length args = form_len f -> Forall ml_full args -> extra = [] \/ (exists s, extra = [MxStruct s]) -> outcome f args extra.
Proof.
  intros HL Fl Ex. unfold outcome.
  assert (TE : exists L, L = args ++ extra) by eauto. destruct TE as (L & EL). rewrite <- EL.
  assert (HN : 8 <= Z.of_nat (length L) <= 14).
  { subst L. rewrite app_length, HL. destruct Ex as [->|(s & ->)]; destruct f; cbn; lia. }
  destruct (mexDims L (Z.of_nat (length L))) as [[e|[[nV nComp] nC]]|u] eqn:D.
  - left. exists e. unfold mexLoad. replace ((Z.of_nat (length L) <? 8) || (14 <? Z.of_nat (length L))) with false by lia. rewrite D. reflexivity.
  - destruct (mexChecks L (Z.of_nat (length L)) nV nComp nC) as [[e|[]]|u] eqn:C.
    + left. exists e. unfold mexLoad. replace ((Z.of_nat (length L) <? 8) || (14 <? Z.of_nat (length L))) with false by lia. rewrite D. cbn [mbind bind]. rewrite C. reflexivity.
    + right. exists nV, nComp, nC. subst L. clear HN.
      destruct f; cbn [form_len] in HL.
      all: repeat (destruct args as [|? args]; [discriminate HL|]; apply eq_add_S in HL). all: destruct args; [|discriminate HL].
      all: repeat match goal with F : Forall _ (_ :: _) |- _ => inversion F; clear F; subst end.
      all: repeat match goal with F : ml_full ?a |- _ => apply full_type in F; let x := fresh "Td" in let y := fresh "Ts" in let z := fresh "Tn" in destruct F as (x & y & z) end.
      all: destruct Ex as [->|(s & ->)]; cbn [app] in *; revert D C; 
        match goal with |- context [Z.of_nat (length ?l)] => let n := eval vm_compute in (Z.of_nat (length l)) in change (Z.of_nat (length l)) with n end.
      all: unfold mexDims, mexChecks, when; do_args; cbn [mbind mret bind Z.eqb Pos.eqb Z.ltb Z.leb Z.compare Pos.compare Pos.compare_cont mxIsStruct mxIsDouble orb andb negb].
      all: repeat match goal with E : mxIsStruct ?a = false |- context [mxIsStruct ?a] => rewrite E end.
      all: repeat match goal with E : mxIsDouble ?a = true |- context [mxIsDouble ?a] => rewrite E end.
      all: cbn [negb mbind mret bind]; rewrite ?orb_false_r; intros D C.
      all: repeat match type of D with (if ?c then _ else _) = _ => let B := fresh "B" in destruct c eqn:B; [discriminate D|] end.
      all: try (destruct (mxIsEmpty m7) eqn:B8; cbn [mbind mret bind] in D).
      all: apply (f_equal (fun e => match e with Ok (inr z) => z | _ => (0, 0, 0) end)) in D; cbn in D; injection D as <- <- <-.
      all: repeat match goal with C : mbind _ _ = Ok (inr _) |- _ => apply mbind_ok in C; let c := fresh "C" in destruct C as ([] & c & C) end.
      all: repeat match goal with C : checkDouble _ _ _ _ _ = Ok (inr tt) |- _ => apply chk_inv in C end.
      all: assert (Bm : 0 < mxGetM m) by (unfold mxIsEmpty in B; lia). all: assert (Bk : 0 < mxGetM m1) by (unfold mxIsEmpty in B0; lia).
      all: repeat match goal with C : false = true /\ _ \/ _ |- _ => destruct C as [(C & _)|(_ & ? & ?)]; [discriminate C|] end.
      all: repeat match goal with C : true = true /\ ?a \/ _ /\ ?b |- _ => assert (a \/ b) by (destruct C as [(_ & C)|(_ & C)]; [left; exact C|right; exact C]); clear C end.
      all: try (assert (Bc : 0 < mxGetM m7) by (unfold mxIsEmpty in B8; lia)).
      all: unfold fine, ml_arg; cbn [nth]; repeat (split; [first [assumption|lia|split; first [assumption|reflexivity]]|]); try assumption; try lia.
      all: try (change (0 =? 0) with true; cbv iota). all: try (replace (mxGetM m7 =? 0) with false by lia).
      all: repeat split; try assumption; try reflexivity. all: match goal with C : mxIsEmpty _ = true \/ _ |- _ => destruct C as [C|(_ & C)]; [congruence|exact C] end.
    + exfalso. assert (TC : total (mexChecks L (Z.of_nat (length L)) nV nComp nC)); [|destruct TC as (r & TC); congruence].
    clear C D HN. subst L. destruct f; cbn [form_len] in HL.
    all: repeat (destruct args as [|? args]; [discriminate HL|]; apply eq_add_S in HL). all: destruct args; [|discriminate HL].
    all: destruct Ex as [->|(s & ->)]; cbn [app] in *;
        match goal with |- context [Z.of_nat (length ?l)] => let n := eval vm_compute in (Z.of_nat (length l)) in change (Z.of_nat (length l)) with n end.
    all: unfold mexChecks, when; do_args; cbn [mbind mret bind Z.eqb Pos.eqb Z.ltb Z.leb Z.compare Pos.compare Pos.compare_cont mxIsStruct mxIsDouble orb andb negb]; tot.
  - exfalso. assert (TC : total (mexDims L (Z.of_nat (length L)))); [|destruct TC as (r & TC); congruence].
    clear D HN. subst L. destruct f; cbn [form_len] in HL.
    all: repeat (destruct args as [|? args]; [discriminate HL|]; apply eq_add_S in HL). all: destruct args; [|discriminate HL].
    all: destruct Ex as [->|(s & ->)]; cbn [app] in *;
        match goal with |- context [Z.of_nat (length ?l)] => let n := eval vm_compute in (Z.of_nat (length l)) in change (Z.of_nat (length l)) with n end.
    all: unfold mexDims, when; do_args; cbn [mbind mret bind Z.eqb Pos.eqb Z.ltb Z.leb Z.compare Pos.compare Pos.compare_cont mxIsStruct mxIsDouble orb andb negb]; tot.
Qed.

Lemma err_bind {X Y} (m : mex X) (k : X -> mex Y) : total m -> (forall x, m = Ok (inr x) -> exists e, k x = Ok (inl e)) -> exists e, mbind m k = Ok (inl e).
Proof. intros ([e|x] & ->) K; [exists e; reflexivity|]. exact (K x eq_refl). Qed.
Lemma args_wrong args extra : In (length args) [9; 12; 14]%nat -> Forall ml_full args -> extra = [] \/ (exists s, extra = [MxStruct s]) -> exists e, mexLoad dtoi itod (args ++ extra) = Ok (inl e).
Proof.
  intros HL Fl Ex. assert (TE : exists L, L = args ++ extra) by eauto. destruct TE as (L & EL). rewrite <- EL.
  destruct ((Z.of_nat (length L) <? 8) || (14 <? Z.of_nat (length L))) eqn:HN; [exists "nrhs"%string; unfold mexLoad; rewrite HN; reflexivity|].
  unfold mexLoad. rewrite HN. apply err_bind.
  - clear HN. subst L. destruct HL as [HL|[HL|[HL|[]]]]; symmetry in HL.
    all: repeat (destruct args as [|? args]; [discriminate HL|]; apply eq_add_S in HL). all: destruct args; [|discriminate HL].
    all: destruct Ex as [->|(s & ->)]; cbn [app] in *;
        match goal with |- context [Z.of_nat (length ?l)] => let n := eval vm_compute in (Z.of_nat (length l)) in change (Z.of_nat (length l)) with n end.
    all: unfold mexDims, when; do_args; cbn [mbind mret bind Z.eqb Pos.eqb Z.ltb Z.leb Z.compare Pos.compare Pos.compare_cont mxIsStruct mxIsDouble orb andb negb]; tot.
  - intros [[nV nComp] nC] _. apply err_bind.
    + clear HN. subst L. destruct HL as [HL|[HL|[HL|[]]]]; symmetry in HL.
      all: repeat (destruct args as [|? args]; [discriminate HL|]; apply eq_add_S in HL). all: destruct args; [|discriminate HL].
      all: destruct Ex as [->|(s & ->)]; cbn [app] in *;
        match goal with |- context [Z.of_nat (length ?l)] => let n := eval vm_compute in (Z.of_nat (length l)) in change (Z.of_nat (length l)) with n end.
      all: unfold mexChecks, when; do_args; cbn [mbind mret bind Z.eqb Pos.eqb Z.ltb Z.leb Z.compare Pos.compare Pos.compare_cont mxIsStruct mxIsDouble orb andb negb]; tot.
    + intros [] C. exfalso. subst L. destruct HL as [HL|[HL|[HL|[]]]]; symmetry in HL.
      all: repeat (destruct args as [|? args]; [discriminate HL|]; apply eq_add_S in HL). all: destruct args; [|discriminate HL].
      all: repeat match goal with F : Forall _ (_ :: _) |- _ => inversion F; clear F; subst end.
      all: repeat match goal with F : ml_full ?a |- _ => apply full_type in F; let x := fresh "Td" in let y := fresh "Ts" in let z := fresh "Tn" in destruct F as (x & y & z) end.
      all: destruct Ex as [->|(s & ->)]; cbn [app] in *; revert C HN;
        match goal with |- context [Z.of_nat (length ?l)] => let n := eval vm_compute in (Z.of_nat (length l)) in change (Z.of_nat (length l)) with n end.
      all: unfold mexChecks, when, checkStruct; do_args; cbn [mbind mret bind Z.eqb Pos.eqb Z.ltb Z.leb Z.compare Pos.compare Pos.compare_cont mxIsStruct mxIsDouble orb andb negb]; intros C HN; try discriminate HN.
      all: repeat match goal with E : mxIsStruct ?a = false, C : context [mxIsStruct ?a] |- _ => rewrite E in C end.
      all: repeat match goal with C : mbind _ _ = Ok (inr _) |- _ => apply mbind_ok in C; let c := fresh "C" in destruct C as ([] & c & C) end.
      all: try match goal with C : merr _ = Ok _ |- _ => discriminate C end.
      all: match goal with C : checkDouble (MxStruct _) _ _ _ _ = Ok (inr tt) |- _ => discriminate C end.
Qed.

(** Loading with given guesses *)
Definition with_guess (u : udense T) (x0 y0 : option (list T)) : udense T :=
  let v := ud_v u in
  mkUdense (mkUvec (u_nV v) (u_nC v) (u_nComp v) (u_g v) (u_lbL v) (u_ubL v) (u_lbR v) (u_ubR v) (u_lbA v) (u_ubA v) (u_lb v) (u_ub v) x0 y0) (ud_Q u) (ud_L u) (ud_R u) (ud_A u).
Lemma load_from_total u (o : lcqp T) x0 y0 : wf_dense u -> dims (ud_v u) (pd o) -> fits (u_nV (ud_v u)) x0 -> fits (u_nV (ud_v u) + u_nA (ud_v u)) y0 ->
  exists r, load_dense_from u (ptr_of x0) (ptr_of y0) o = Ok r.
Proof.
  intros W D Fx Fy. change (load_dense_from u (ptr_of x0) (ptr_of y0) o) with (load_dense (with_guess u x0 y0) o).
  assert (W' : wf_dense (with_guess u x0 y0)) by (destruct W as [[] ]; constructor; [constructor; assumption|assumption..]).
  destruct (fin_lower_dec (ud_v (with_guess u x0 y0))) as [Fl|Fl].
  - rewrite load_dense_ok by assumption. eauto.
  - destruct (load_dense_bad (with_guess u x0 y0) o W' D Fl) as (o' & ->). eauto.
Qed.

(** What loading does: an error, or the load of a well-formed problem.  No LCQPow code. *)
Lemma load_cases args extra : (8 <= length args)%nat -> Forall ml_full args -> ml_pair_bounds args -> ml_small args -> ml_extra dtoi extra ->
  (exists e, mexLoad dtoi itod (args ++ extra) = Ok (inl e)) \/
  exists u opt r o, wf_dense u /\ (mxIsEmpty (ml_arg args 4) = mxIsEmpty (ml_arg args 6) -> paired (ud_v u)) /\
    load_dense u (fresh (ud_v u) opt) = Ok (r, o) /\
    mexLoad dtoi itod (args ++ extra) = Ok (inr (u_nV (ud_v u), u_nComp (ud_v u), u_nC (ud_v u), opt, ml_code r, o)).
Proof.
  intros HL Fl Pb Sm Ex. assert (Ex' : extra = [] \/ exists s, extra = [MxStruct s]) by (destruct Ex as [->|(s & -> & _)]; eauto).
  destruct (Nat.lt_ge_cases 14 (length args)) as [G|G].
  { left. exists "nrhs"%string. unfold mexLoad. assert (G' : 14 <? Z.of_nat (length (args ++ extra)) = true) by (apply Z.ltb_lt; rewrite app_length; lia). rewrite G', orb_true_r. reflexivity. }
  assert (Cs : (exists f, length args = form_len f) \/ In (length args) [9; 12; 14]%nat).
  { assert (K : In (length args) (seq 8 7)) by (apply in_seq; lia). cbn [seq In] in K. cbn [In].
    repeat (destruct K as [K|K]; [first [right; rewrite <- K; first [left; reflexivity|right; left; reflexivity|right; right; left; reflexivity] | left; rewrite <- K; first [exists FPlain; reflexivity | exists FBox; reflexivity | exists FCons; reflexivity | exists FBoth; reflexivity]]|]). destruct K. }
  destruct Cs as [(f & Cs)|Cs]; [|left; exact (args_wrong args extra Cs Fl Ex')].
  destruct (args_outcome f args extra Cs Fl Ex') as [E|(nV & nComp & nC & Fi)]; [left; exact E|].
  destruct (args_ok nV nComp nC f args Cs Fl Pb Sm Fi) as (W & M).
  assert (Pa : mxIsEmpty (ml_arg args 4) = mxIsEmpty (ml_arg args 6) -> (u_lbL (args_vec nV nComp nC f args) = None <-> u_lbR (args_vec nV nComp nC f args) = None)).
  { intros E. cbn [args_vec u_lbL u_lbR]. unfold opt_of. rewrite E. destruct (mxIsEmpty (ml_arg args 6)); split; congruence. }
  set (u := args_mat nV nComp nC f args) in *. pose proof (wu_v _ W) as V. cbn [rows_of ud_v] in V.
  assert (W2 : wf_dense (rows_of (flip_Q u))).
  { destruct W as [W1 W2 W3 W4 W5]. constructor; try assumption. cbn [rows_of ud_v ud_Q flip_Q um_v um_Q] in *. unfold row_major in *. rewrite len_tab in * by (pose proof (wv_nV _ V); nia). exact W2. }
  assert (Fin : forall opt x y, fits (u_nV (um_v u)) x -> fits (u_nV (um_v u) + u_nA (um_v u)) y ->
    (let! '(r, o) := load_dense_from (rows_of (flip_Q u)) (ptr_of x) (ptr_of y) (fresh (um_v u) opt) in Ok (inr (u_nV (um_v u), u_nComp (um_v u), u_nC (um_v u), opt, ml_code r, o))) = mexLoad dtoi itod (args ++ extra) ->
    exists u opt r o, wf_dense u /\ (mxIsEmpty (ml_arg args 4) = mxIsEmpty (ml_arg args 6) -> paired (ud_v u)) /\ load_dense u (fresh (ud_v u) opt) = Ok (r, o) /\
    mexLoad dtoi itod (args ++ extra) = Ok (inr (u_nV (ud_v u), u_nComp (ud_v u), u_nC (ud_v u), opt, ml_code r, o))).
  { intros opt x y Fx Fy E. destruct (load_from_total (rows_of (flip_Q u)) (fresh (um_v u) opt) x y W2 (fresh_dims _ _) Fx Fy) as ([r o] & El).
    exists (with_guess (rows_of (flip_Q u)) x y), opt, r, o. split; [destruct W2 as [[] ]; constructor; [constructor; assumption|assumption..]|]. split; [exact Pa|]. rewrite El in E. split; [exact El|]. symmetry. exact E. }
  destruct Ex as [->|(s & -> & Sf)].
  - right. rewrite (mex_dense dtoi itod f u args [] _ V M (or_introl (conj eq_refl eq_refl))) in *. cbn [mbind mret bind pm_options pm_x0 pm_y0] in *. rewrite new_object_ok in * by exact V. cbn [bind] in *.
    apply (Fin setToDefault None None I I). reflexivity.
  - rewrite (mex_dense dtoi itod f u args [MxStruct s] _ V M (or_intror (ex_intro _ s (conj eq_refl eq_refl)))) in *.
    destruct (params_total s (u_nV (um_v u)) (u_nComp (um_v u)) (u_nC (um_v u)) Sf) as ([e|pm] & P); rewrite P in *; [left; eexists; reflexivity|right]. cbn [mbind bind] in *. rewrite new_object_ok in * by exact V. cbn [bind] in *.
    destruct Sf as (F & _ & Os). destruct (params_guess dtoi itod s _ _ _ pm (wv_nV _ V) (wv_nC _ V) (wv_nComp _ V) F P) as ((x & Ex0 & Fx) & Y). rewrite Ex0 in *.
    assert (Y' : exists y, pm_y0 pm = ptr_of y /\ fits (u_nV (um_v u) + u_nA (um_v u)) y).
    { destruct Y as [(_ & ->)|(Yn & y & -> & Hy)]; [exists None; split; [reflexivity|exact I]|]. exists (Some y). split; [reflexivity|]. cbn [fits]. rewrite Hy. destruct Os as [Os|Os]; [contradiction|].
      pose proof (params_solver s _ _ _ pm F Os P). unfold u_nA. destruct (o_qpSolver (pm_options pm)); [lia|lia|congruence]. }
    destruct Y' as (y & Ey & Fy). rewrite Ey in *. apply (Fin (pm_options pm) x y Fx Fy). reflexivity.
Qed.
Lemma p_C60_load args extra : (8 <= length args)%nat -> Forall ml_full args -> ml_pair_bounds args -> ml_small args -> ml_extra dtoi extra ->
  exists r, mexLoad dtoi itod (args ++ extra) = Ok r.
Proof. intros. destruct (load_cases args extra) as [(e & E)|(u & opt & r & o & _ & _ & _ & E)]; try assumption; eauto. Qed.

(** ** The whole call with one or two outputs *)
Lemma p_C60_call orc rand elapsed nlhs args extra B : nlhs <= 2 -> (8 <= length args)%nat -> Forall ml_full args -> ml_pair_bounds args -> ml_small args -> ml_extra dtoi extra ->
  mxIsEmpty (ml_arg args 4) = mxIsEmpty (ml_arg args 6) ->
  (forall nV nComp nC opt o, mexLoad dtoi itod (args ++ extra) = Ok (inr (nV, nComp, nC, opt, 0, o)) -> o_qpSolver opt = QPOASES_DENSE /\ small_counts opt orc B) ->
  (exists r, mexFunction dtoi itod orc rand elapsed nlhs (args ++ extra) = Ok r) \/
  nlhs = 2 /\ exists nV nComp nC opt o r o', mexLoad dtoi itod (args ++ extra) = Ok (inr (nV, nComp, nC, opt, 0, o)) /\ runSolver orc rand o = Ok (r, o') /\ r <> SUCCESSFUL_RETURN.
Proof.
  intros Hn HL Fl Pb Sm Ex Pa K. unfold mexFunction. destruct ((nlhs <? 1) || (3 <? nlhs)) eqn:N; [left; eexists; reflexivity|].
  destruct (load_cases args extra) as [(e & E)|(u & opt & r & o & W & P & El & E)]; try assumption; rewrite E; [left; eexists; reflexivity|]. cbn [mbind bind].
  destruct (is_success r) eqn:Sr; unfold ml_code in *; rewrite Sr in *; [|left; eexists; reflexivity]. cbn [Z.eqb negb].
  destruct (K _ _ _ _ _ E) as (Q & SC). specialize (P Pa). pose proof (wu_v _ W) as V. pose proof (wv_nV _ V) as HV. pose proof (wv_nC _ V) as HC. pose proof (wv_nComp _ V) as HK.
  destruct (thm_dense_safe u opt orc rand B W P Q SC) as (r' & o' & R).
  assert (F : fin_lower (ud_v u)).
  { destruct (fin_lower_dec (ud_v u)) as [F|F]; [exact F|]. destruct (load_dense_bad u (fresh (ud_v u) opt) W (fresh_dims _ _) F) as (o2 & E2). rewrite E2 in El. injection El as <- _. discriminate Sr. }
  pose proof (dense_getters u opt orc rand r' o' W P F Q R) as ((x & Gx) & Gy).
  assert (R' : runSolver orc rand o = Ok (r', o')) by (unfold solve_dense in R; rewrite new_object_ok in R by exact V; cbn [bind] in R; rewrite El in R; cbn [bind] in R; rewrite Sr in R; exact R).
  destruct Gx as (Hx & a & Gx). pose proof (wv_int _ V) as HI. rewrite alloc_init_ok by lia. cbn [mlift mbind bind].
  destruct (1 <? nlhs) eqn:N1.
  - assert (nlhs = 2) by lia. subst nlhs. cbn [Z.ltb Z.compare Pos.compare Pos.compare_cont].
    assert (D : r' = SUCCESSFUL_RETURN \/ r' <> SUCCESSFUL_RETURN) by (destruct r'; (left; reflexivity) || (right; discriminate)).
    destruct D as [D|D]; [left|right; split; [reflexivity|do 7 eexists; split; [reflexivity|split; [exact R'|exact D]]]].
    destruct (Gy D) as (y & Hy & G1 & b & G2). unfold u_nA in Hy.
    rewrite alloc_ok by lia. cbn [mlift mbind mret bind]. rewrite R'. cbn [mlift mbind mret bind].
    rewrite Gx by (rewrite len_lift, len_repeat; lia). cbn [mlift mbind mret bind deref]. rewrite G2 by (rewrite len_repeat; lia). cbn [mlift mbind mret bind deref]. rewrite G1. cbn [mlift mbind mret bind].
    destruct (len y <=? 0); [eexists; reflexivity|]. 
    destruct (for_total (fun _ (_ : list T) => True) (fun i l => let! v := rd (lift y) i in Ok (l ++ [v])) 0 (len y) []) as (l' & El' & _); [pose proof (len_nonneg y); lia|exact I| |].
    { intros i l Hi _. rewrite rd_vec_ by lia. cbn [bind]. eauto. }
    rewrite El'. cbn [mlift mbind mret bind]. eexists. reflexivity.
  - left. cbn [mlift mbind mret bind]. rewrite R'. cbn [mlift mbind mret bind]. rewrite Gx by (rewrite len_lift, len_repeat; lia). cbn [mlift mbind mret bind deref].
    replace (2 <? nlhs) with false by lia. eexists. reflexivity.
Qed.
End MatlabSafe.
