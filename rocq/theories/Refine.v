(** * Refine: the model of the solver loop behaves like [Pure] (no LCQPow code). *)
From Verif Require Import Base Arith Codes Utilities Options Stats FileIO Subsolver State LCQProblem Tactics Loops Kernels Pure.

(** Two computations with related outcomes *)
Definition sim {A B} (R : A -> B -> Prop) (a : res A) (b : res B) : Prop :=
  match a, b with Ok x, Ok y => R x y | UB u, UB w => u = w | _, _ => False end.
Lemma sim_bind {A B A' B'} (R : A -> B -> Prop) (R' : A' -> B' -> Prop) a b (f : A -> res A') (g : B -> res B') :
  sim R a b -> (forall x y, R x y -> sim R' (f x) (g y)) -> sim R' (bind a f) (bind b g).
Proof. destruct a, b; simpl; intros; subst; auto; contradiction. Qed.
Lemma sim_ok {A B} (R : A -> B -> Prop) a x y : a = Ok x -> R x y -> sim R a (Ok y).
Proof. intros ->; auto. Qed.
Lemma sim_refl {A} (r : res A) : sim eq r r.
Proof. destruct r; reflexivity. Qed.
Lemma sim_bind_same {A A' B'} (R' : A' -> B' -> Prop) (a : res A) (f : A -> res A') (g : A -> res B') :
  (forall x, sim R' (f x) (g x)) -> sim R' (bind a f) (bind a g).
Proof. destruct a; simpl; auto. Qed.

Section Refine.
Context {T : Type} `{Arith T} {K : Type}.
Variables (p : ops T K) (KR : K -> ptr T -> option (csc T) -> list Z -> Prop).

(** The pointer holds exactly this list. No LCQPow code. *)
Definition vec (n : Z) (q : ptr T) (l : list T) : Prop := q = Some (lift l) /\ len l = n.
(** The pointer holds an array of this size. No LCQPow code. *)
Definition room (n : Z) (q : ptr T) : Prop := exists a, q = Some a /\ len a = n.
(** NULL, or exactly this list. No LCQPow code. *)
Definition optvec (n : Z) (q : ptr T) (o : option (list T)) : Prop :=
  match o with None => q = None | Some l => vec n q l end.

(** The matrix kernels in the mode selected by [d] *)
Definition dAffC (d : pdata T) (rho : T) (x c D : arr T) (n : Z) : res (arr T) :=
  if d_sparseSolver d then let! C := deref (d_C_sparse d) in AffineLinearTransformation_csc rho C x c D n
  else let! C := deref (d_C d) in AffineLinearTransformation rho C x c D n n.
(** Choice between dense and csc product, as at each use in src/LCQProblem.cpp. *)
Definition dQuad (d : pdata T) (M : ptr T) (Ms : option (csc T)) (x : arr T) (n : Z) : res T :=
  if d_sparseSolver d then let! C := deref Ms in QuadraticFormProduct_csc C x n
  else let! C := deref M in QuadraticFormProduct C x n.
(** Choice between dense and csc product. *)
Definition dAffH (d : pdata T) (M : ptr T) (Ms : option (csc T)) (x c D : arr T) (n : Z) : res (arr T) :=
  if d_sparseSolver d then let! C := deref Ms in AffineLinearTransformation_csc a_one C x c D n
  else let! C := deref M in AffineLinearTransformation a_one C x c D n n.
(** Choice between dense and csc product. *)
Definition dTA (d : pdata T) (y cs : arr T) : res (arr T) :=
  if d_sparseSolver d then let! A := deref (d_A_sparse d) in TransponsedMatrixMultiplication_csc A y cs
  else let! nC := get (d_nC d) in let! nComp := get (d_nComp d) in let! nV := get (d_nV d) in
       let! A := deref (d_A d) in TransponsedMatrixMultiplication A y cs (nC + 2 * nComp) nV 1.
(** Choice between dense and csc product. *)
Definition dMul (d : pdata T) (M : ptr T) (Ms : option (csc T)) (x tmp : arr T) (m n : Z) : res (arr T) :=
  if d_sparseSolver d then let! M := deref Ms in MatrixMultiplication_csc M x tmp
  else let! M := deref M in MatrixMultiplication M x tmp m n 1.

(** [d] holds the problem [p] *)
Record wfd (d : pdata T) : Prop := mkWfd {
  wd_opt : d_options d = p_opt p;
  wd_nV : d_nV d = Some (p_nV p);
  wd_nC : d_nC d = Some (p_nC p);
  wd_nComp : d_nComp d = Some (p_nComp p);
  wd_nD : d_nDuals d = Some (p_nD p);
  wd_off : d_boxDualOffset d = Some (p_off p);
  wd_pos : 0 < p_nV p /\ 0 <= p_nC p /\ 0 < p_nComp p /\ 0 <= p_off p /\ p_nComp p <= INT_MAX /\ p_nD p <= INT_MAX;
  wd_solver : match p_solver p with OSQP_SPARSE => p_off p = 0 /\ p_box p = false | _ => p_off p = p_nV p end;
  wd_lb : optvec (p_nV p) (d_lb d) (p_lb p);
  wd_ub : optvec (p_nV p) (d_ub d) (p_ub p);
  wd_box : notNull (p_lb p) || notNull (p_ub p) = p_box p;
  wd_g : vec (p_nV p) (d_g d) (p_g p);
  wd_gphi : optvec (p_nV p) (d_g_phi d) (p_gphi p);
  wd_pc : d_phi_const d = p_pc p;
  wd_lbA : vec (p_nA p) (d_lbA d) (p_lbA p);
  wd_ubA : vec (p_nA p) (d_ubA d) (p_ubA p);
  wd_sub : exists sub, d_subsolver d = Some sub /\ sub_qpSolver sub = p_solver p /\ sub_nV sub = p_nV p /\
             sub_nC sub = p_nA p /\ rd_mats sub = Ok (p_matH p, p_matA p);
  wd_affC : forall rho x c D, len x = p_nV p -> len c = p_nV p -> len D = p_nV p ->
    dAffC d rho (lift x) (lift c) D (p_nV p) = Ok (lift (p_affC p rho x c)) /\ len (p_affC p rho x c) = p_nV p;
  wd_quadC : forall x, len x = p_nV p -> dQuad d (d_C d) (d_C_sparse d) (lift x) (p_nV p) = Ok (p_quadC p x);
  wd_quadQ : forall x, len x = p_nV p -> dQuad d (d_Q d) (d_Q_sparse d) (lift x) (p_nV p) = Ok (p_quadQ p x);
  wd_tA : forall y cs, len y = p_nA p -> len cs = p_nV p ->
    dTA d (lift y) cs = Ok (lift (p_tA p y)) /\ len (p_tA p y) = p_nV p;
  wd_L : forall x tmp, len x = p_nV p -> len tmp = p_nComp p ->
    dMul d (d_L d) (d_L_sparse d) (lift x) tmp (p_nComp p) (p_nV p) = Ok (lift (p_mulL p x)) /\ len (p_mulL p x) = p_nComp p;
  wd_R : forall x tmp, len x = p_nV p -> len tmp = p_nComp p ->
    dMul d (d_R d) (d_R_sparse d) (lift x) tmp (p_nComp p) (p_nV p) = Ok (lift (p_mulR p x)) /\ len (p_mulR p x) = p_nComp p;
  wd_affH : forall h M Ms ix x c D, KR h M Ms ix -> len x = p_nV p -> len c = p_nV p -> len D = p_nV p ->
    dAffH d M Ms (lift x) (lift c) D (p_nV p) = Ok (lift (p_affH p h x c)) /\ len (p_affH p h x c) = p_nV p;
  wd_quadH : forall h M Ms ix x, KR h M Ms ix -> len x = p_nV p -> dQuad d M Ms (lift x) (p_nV p) = Ok (p_quadH p h x);
  wd_updH : forall h s, KR h (s_Qk s) (s_Qk_sparse s) (s_Qk_indices_of_C s) ->
    exists q m, updateQk d s = Ok (set_Qk q (set_Qk_sparse m s)) /\ KR (p_updH p (s_rho s) h) q m (s_Qk_indices_of_C s) }.

(** A state before the penalised Hessian is set up *)
Definition noH (d : pdata T) (s : iter T) : Prop :=
  exists q m i, setQk d s = Ok (set_Qk q (set_Qk_sparse m (set_Qk_indices_of_C i s))) /\ KR (p_setH p (s_rho s)) q m i.

(** State of the model and of [Pure], without multipliers and Hessian *)
Record relB (s : iter T) (v : vst T K) : Prop := mkRelB {
  rb_rho : s_rho s = v_rho v;
  rb_alpha : s_alphak s = v_alpha v;
  rb_gt : vec (p_nV p) (s_g_tilde s) (v_gt v);
  rb_gk : vec (p_nV p) (s_gk s) (v_gk v);
  rb_x : vec (p_nV p) (s_xk s) (v_x v);
  rb_yA : vec (p_nA p) (s_yk_A s) (v_yA v);
  rb_p : vec (p_nV p) (s_pk s) (v_p v);
  rb_stat : vec (p_nV p) (s_statk s) (v_stat v);
  rb_outer : s_outerIter s = v_outer v;
  rb_inner : s_innerIter s = v_inner v;
  rb_total : s_totalIter s = v_total v;
  rb_qpit : s_qpIterk s = v_qpit v;
  rb_flag : s_qpSolverExitFlag s = v_flag v;
  rb_algo : s_algoStat s = v_algo v;
  rb_hist : s_complHistory s = v_hist v;
  rb_stats : s_stats s = v_stats v;
  rb_work : s_work s = v_work v;
  rb_calls : s_calls s = v_calls v;
  rb_rnd : s_rnd s = v_rnd v;
  rb_lk : room (p_nV p) (s_lk_tmp s);
  rb_cs : room (p_nV p) (s_constr_statk s);
  rb_bs : room (p_nV p) (s_box_statk s);
  rb_xnew : room (p_nV p) (s_xnew s) }.

(** Simulation relation between object and list-level state, before the first QP. No LCQPow code. *)
Record rel (s : iter T) (v : vst T K) : Prop := mkRel {
  rl_B : relB s v;
  rl_y : vec (p_nD p) (s_yk s) (v_y v);
  rl_h : KR (v_h v) (s_Qk s) (s_Qk_sparse s) (s_Qk_indices_of_C s) }.

Variable (d : pdata T).
Hypothesis (W : wfd d).
Let nV := p_nV p.
Let nC := p_nC p.
Let nComp := p_nComp p.

Lemma nA_pos : 0 <= p_nA p /\ 0 <= p_nD p.
Proof. destruct (wd_pos d W) as (? & ? & ? & ? & ?). unfold p_nD, p_nA. lia. Qed.

Ltac posn := pose proof (wd_pos d W) as (?Hv & ?Hc & ?Hk & ?Ho & ?Hki & ?Hdi); pose proof nA_pos as (?Ha & ?Hd).

Lemma updateLinearization_ref s v : relB s v -> exists gk, updateLinearization d s = Ok (set_gk gk s) /\ relB (set_gk gk s) (v_lin p v).
Proof.
  intros R. unfold updateLinearization. rewrite (wd_nV d W). cbn [get bind].
  destruct (rb_x _ _ R) as [Ex Lx], (rb_gt _ _ R) as [Eg Lg], (rb_gk _ _ R) as [Ek Lk].
  rewrite Ex, Eg, Ek. cbn [deref bind].
  destruct (wd_affC d W (s_rho s) (v_x v) (v_gt v) (lift (v_gk v))) as [E L]; auto; [rewrite len_lift; auto|].
  unfold dAffC in E. rewrite E. cbn [bind]. exists (Some (lift (p_affC p (s_rho s) (v_x v) (v_gt v)))). split; [reflexivity|].
  destruct R; constructor; simpl; auto. rewrite <- rb_rho0. split; auto.
Qed.

Lemma rd_list_vec (q : ptr T) n l : vec n q l -> rd_vec q n = Ok l.
Proof.
  intros [-> L]. unfold rd_vec. pose proof (len_nonneg l). destruct (Z.eqb_spec n 0) as [->|].
  - destruct l; [reflexivity|]. rewrite len_cons in L. pose proof (len_nonneg l). lia.
  - cbn [deref bind]. rewrite rd_list_lift by (unfold len in *; lia). rewrite firstn_all2 by (unfold len in *; lia). reflexivity.
Qed.
Lemma rd_opt_vec (q : ptr T) n o : optvec n q o -> rd_opt q n = Ok o.
Proof.
  unfold optvec, rd_opt. destruct o as [l|]; [|intros ->; reflexivity]. intros [-> L].
  rewrite rd_list_lift by (unfold len in *; lia). rewrite firstn_all2 by (unfold len in *; lia). reflexivity.
Qed.
Lemma optvec_null n q o : optvec n q o -> notNull q = notNull o.
Proof. destruct o; [intros [-> _]|intros ->]; reflexivity. Qed.

Lemma osqp_nobox : p_solver p = OSQP_SPARSE -> p_lb p = None /\ p_ub p = None /\ p_off p = 0 /\ p_nD p = p_nA p.
Proof.
  intros E. pose proof (wd_solver d W) as S. rewrite E in S. destruct S as [S1 S2].
  pose proof (wd_box d W) as B. rewrite S2 in B. apply orb_false_iff in B.
  destruct (p_lb p), (p_ub p); simpl in B; destruct B; try discriminate. unfold p_nD. repeat split; auto. lia.
Qed.
Lemma qpoases_nD : p_solver p <> OSQP_SPARSE -> p_off p = p_nV p /\ p_nD p = p_nV p + p_nA p.
Proof. intros E. pose proof (wd_solver d W) as S. unfold p_nD. destruct (p_solver p); try congruence; rewrite S; auto. Qed.

(** The QP call *)
Lemma sub_solve_ref orc sub initial y0 yq s v : d_subsolver d = Some sub -> sub_qpSolver sub = p_solver p -> sub_nV sub = p_nV p ->
  sub_nC sub = p_nA p -> rd_mats sub = Ok (p_matH p, p_matA p) -> relB s v -> (initial = true -> optvec (p_nD p) yq y0) ->
  sub_solve orc sub (s_calls s) (s_work s) initial (s_gk s) (d_lbA d) (d_ubA d) (s_xk s) yq (d_lb d) (d_ub d) =
    Ok (v_sub p orc initial y0 v).
Proof.
  intros ES Eq En Ec Em R Hy. unfold sub_solve, v_sub. rewrite Eq.
  assert (Q : p_solver p <> OSQP_SPARSE ->
    solve_qpOASES orc sub (s_calls s) (s_work s) initial (s_gk s) (d_lbA d) (d_ubA d) (s_xk s) yq (d_lb d) (d_ub d) =
    Ok (let calls := v_call p initial (v_x v) y0 (v_gk v) :: v_calls v in let a := orc calls in
        mkSubRes (if q_ret a =? 0 then SUCCESSFUL_RETURN else SUBPROBLEM_SOLVER_ERROR) (Some (q_iter a)) (Some (q_ret a)) (v_work v) (Some a) calls)).
  { intros Hs. destruct (qpoases_nD Hs) as [Eo ED].
    unfold solve_qpOASES. rewrite Em. cbn [bind]. rewrite En, Ec, Eq.
    rewrite (rd_list_vec _ _ _ (rb_gk _ _ R)). cbn [bind]. rewrite (rd_list_vec _ _ _ (wd_lbA d W)). cbn [bind].
    rewrite (rd_list_vec _ _ _ (wd_ubA d W)). cbn [bind]. rewrite (rd_opt_vec _ _ _ (wd_lb d W)). cbn [bind].
    rewrite (rd_opt_vec _ _ _ (wd_ub d W)). cbn [bind].
    replace (if initial then rd_opt (s_xk s) (p_nV p) else Ok None) with (Ok (if initial then Some (v_x v) else None)).
    2: { destruct initial; auto. rewrite (rd_opt_vec (s_xk s) (p_nV p) (Some (v_x v))); auto. apply (rb_x _ _ R). }
    cbn [bind].
    replace (if initial then rd_opt yq (p_nV p + p_nA p) else Ok None) with (Ok (if initial then y0 else None)).
    2: { destruct initial; auto. rewrite (rd_opt_vec _ _ y0); auto. rewrite <- ED. auto. }
    cbn [bind]. rewrite (rb_calls _ _ R), (rb_work _ _ R). unfold v_call. reflexivity. }
  destruct (p_solver p) eqn:Sv; try (apply Q; discriminate). clear Q.
  destruct (osqp_nobox Sv) as (Elb & Eub & Eo & ED).
  unfold solve_OSQP. pose proof (wd_lb d W) as Wl. pose proof (wd_ub d W) as Wu. rewrite Elb in Wl. rewrite Eub in Wu.
  simpl in Wl, Wu. rewrite Wl, Wu. cbn [notNull isNull negb orb]. rewrite Em. cbn [bind]. rewrite En, Ec, Eq.
  rewrite (rd_list_vec _ _ _ (wd_lbA d W)). cbn [bind]. rewrite (rd_list_vec _ _ _ (wd_ubA d W)). cbn [bind].
  rewrite (rd_list_vec _ _ _ (rb_gk _ _ R)). cbn [bind].
  replace (if initial then rd_opt (s_xk s) (p_nV p) else Ok None) with (Ok (if initial then Some (v_x v) else None)).
  2: { destruct initial; auto. rewrite (rd_opt_vec (s_xk s) (p_nV p) (Some (v_x v))); auto. apply (rb_x _ _ R). }
  cbn [bind].
  replace (if initial then rd_opt yq (p_nA p) else Ok None) with (Ok (if initial then y0 else None)).
  2: { destruct initial; auto. rewrite (rd_opt_vec _ _ y0); auto. rewrite <- ED. auto. }
  cbn [bind]. rewrite (rb_calls _ _ R), (rb_work _ _ R).
  assert (EX : notNull (s_xk s) = true) by (destruct (rb_x _ _ R) as [-> _]; reflexivity). rewrite EX, andb_true_r.
  assert (EY : initial && notNull yq = initial && notNull y0)
    by (destruct initial; auto; simpl; apply (optvec_null (p_nD p)); auto).
  rewrite EY. unfold v_call. rewrite Sv, Elb, Eub.
  repeat match goal with |- context [if ?b then _ else _] => destruct b; try reflexivity end.
Qed.

(** State after recording the outcome of a QP *)
Lemma record_ref r s v : relB s v -> relB (sqp_record r s) (v_record r v).
Proof.
  intros []. unfold sqp_record, v_record. destruct (sr_iter r), (sr_flag r); constructor; simpl; auto.
Qed.
Lemma record_yk (r : sub_result T) (s : iter T) : s_yk (sqp_record r s) = s_yk s /\ s_Qk (sqp_record r s) = s_Qk s /\ s_Qk_sparse (sqp_record r s) = s_Qk_sparse s /\
  s_Qk_indices_of_C (sqp_record r s) = s_Qk_indices_of_C s /\ s_rho (sqp_record r s) = s_rho s.
Proof. unfold sqp_record. destruct (sr_iter r), (sr_flag r); simpl; auto 10. Qed.
Lemma record_v (r : sub_result T) (v : vst T K) : v_y (v_record r v) = v_y v /\ v_h (v_record r v) = v_h v.
Proof. unfold v_record. destruct (sr_iter r), (sr_flag r); simpl; auto. Qed.

Lemma fill_all (f : Z -> T) n (a : arr T) (body : Z -> arr T -> res (arr T)) : 0 <= n -> len a = n ->
  (forall i C, 0 <= i < n -> len C = len a -> body i C = wr C i (f i)) -> for_ 0 n body a = Ok (lift (tab n f)).
Proof.
  intros Hn L Hb. rewrite (for_fill1 body f n a); try lia.
  - rewrite drop_all, app_nil_r by lia. reflexivity.
  - intros i C Hi HC _. rewrite Hb by auto. apply wr_ok. lia.
Qed.

(** Outcome of solveQPSubproblem: on failure the multipliers stay untouched unless they did not exist *)
Definition relQ (s0 : iter T) (v0 : vst T K) (a : ReturnValue * iter T) (b : ReturnValue * vst T K) : Prop :=
  fst a = fst b /\ relB (snd a) (snd b) /\
  s_Qk (snd a) = s_Qk s0 /\ s_Qk_sparse (snd a) = s_Qk_sparse s0 /\ s_Qk_indices_of_C (snd a) = s_Qk_indices_of_C s0 /\
  s_rho (snd a) = s_rho s0 /\ v_h (snd b) = v_h v0 /\
  (if is_success (fst a) then vec (p_nD p) (s_yk (snd a)) (v_y (snd b))
   else v_y (snd b) = v_y v0 /\ (s_yk s0 <> None -> s_yk (snd a) = s_yk s0)).

Lemma solveQP_ref orc initial y0 s v : relB s v ->
  (match s_yk s with Some y => len y = p_nD p | None => True end) ->
  (initial = true -> optvec (p_nD p) (s_yk s) y0) ->
  sim (relQ s v) (solveQPSubproblem orc d initial s) (v_solve p orc initial y0 v).
Proof.
  intros R Ly Hy. posn. destruct (wd_sub d W) as (sub & ES & Eq & En & Ec & Em).
  unfold solveQPSubproblem, v_solve. rewrite ES. cbn [get bind].
  rewrite (sub_solve_ref orc sub initial y0 (s_yk s) s v) by auto. cbn [bind].
  set (r := v_sub p orc initial y0 v).
  pose proof (record_ref r s v R) as R1. destruct (record_yk r s) as (Y1 & Q1 & M1 & I1 & RH1). destruct (record_v r v) as (VY1 & VH1).
  set (s1 := sqp_record r s) in *. set (v1 := v_record r v) in *.
  rewrite (rb_qpit _ _ R1), (rb_stats _ _ R1). apply sim_bind_same. intros k. apply sim_bind_same. intros [r0 st].
  rewrite (rb_flag _ _ R1). apply sim_bind_same. intros f.
  rewrite (wd_nV d W), (wd_nD d W). cbn [get bind].
  set (s2 := set_stats (updateQPSolverExitFlag f st) s1). set (v2 := w_stats (updateQPSolverExitFlag f st) v1).
  assert (R2 : relB s2 v2) by (destruct R1; constructor; simpl; auto).
  destruct (rb_x _ _ R2) as [Ex Lx]. rewrite Ex. cbn [bind].
  assert (A : exists s3, (match s_yk s2 with None => let! a := alloc (p_nD p) in Ok (set_yk (Some a) s2) | Some _ => Ok s2 end) = Ok s3 /\
     s3 = set_yk (s_yk s3) s2 /\ room (p_nD p) (s_yk s3) /\ (s_yk s <> None -> s_yk s3 = s_yk s)).
  { replace (s_yk s2) with (s_yk s) by (rewrite <- Y1; reflexivity). destruct (s_yk s) as [y|] eqn:EY.
    - exists s2. assert (Y2 : s_yk s2 = Some y) by (rewrite <- Y1; reflexivity). split; [reflexivity|]. split; [reflexivity|].
      rewrite Y2. split; [exists y; auto|auto].
    - rewrite alloc_ok by lia. cbn [bind]. eexists. split; [reflexivity|]. split; [reflexivity|]. cbn. split; [|congruence].
      eexists. split; [reflexivity|]. rewrite repeat_tab, len_tab by lia. reflexivity. }
  destruct A as (s3 & E3 & D3 & (y3 & EY3 & LY3) & KY3). rewrite E3. cbn [bind].
  assert (R3 : relB s3 v2) by (rewrite D3; destruct R2; constructor; simpl; auto).
  assert (F3 : s_Qk s3 = s_Qk s /\ s_Qk_sparse s3 = s_Qk_sparse s /\ s_Qk_indices_of_C s3 = s_Qk_indices_of_C s /\ s_rho s3 = s_rho s)
    by (rewrite D3; cbn; auto).
  destruct F3 as (Q3 & M3 & I3 & RH3).
  destruct (is_success (sr_ret r)) eqn:SR; cbn [negb].
  2: { cbn [sim]. unfold relQ. cbn [fst snd]. rewrite SR. split; [reflexivity|]. split; [exact R3|]. split; [auto|]. split; [auto|].
       split; [auto|]. split; [auto|]. split; [exact VH1|]. split; [exact VY1|]. exact KY3. }
  apply sim_bind_same. intros raw.
  destruct (rb_xnew _ _ R3) as (xn & EXn & LXn).
  assert (G : sub_getSolution sub raw (s_xnew s3) (s_yk s3) = Ok (Some (lift (a_x p raw)), Some (lift (a_y p raw)))).
  { unfold sub_getSolution. rewrite Eq, En, Ec, EXn, EY3.
    destruct (p_solver p) eqn:Sv.
    1,2: cbn [deref bind]; rewrite (fill_all (q_x raw)) by (auto; lia); cbn [bind]; cbn [deref bind];
         destruct qpoases_nD as [Eo ED]; [congruence|]; rewrite (fill_all (q_y raw)) by (auto; lia); cbn [bind];
         unfold a_x, a_y; rewrite Sv, ED; reflexivity.
    destruct (osqp_nobox Sv) as (Elb & Eub & Eo & ED).
    cbn [deref bind]; rewrite (fill_all (q_x raw)) by (auto; lia); cbn [bind]; cbn [deref bind].
    rewrite (fill_all (fun i => (- q_y raw i)%num)) by (auto; lia); cbn [bind]. unfold a_x, a_y. rewrite Sv, ED. reflexivity. }
  rewrite G. cbn [bind]. rewrite (wd_nC d W), (wd_nComp d W), (wd_off d W). cbn [get bind].
  cbn [s_yk_A s_yk set_yk set_xnew].
  destruct (rb_yA _ _ R3) as [EA LA]. rewrite EA. cbn [deref bind].
  assert (LY : len (a_y p raw) = p_nD p) by (unfold a_y; rewrite len_tab; lia).
  fold (p_nA p).
  rewrite (fill_all (fun i => at_ a_zero (a_y p raw) (p_off p + i))) with (a := lift (v_yA v2)); auto; [|rewrite len_lift; auto|].
  2: { intros i C Hi HC. rewrite rd_vec_ by (rewrite LY; unfold p_nD; lia). reflexivity. }
  cbn [bind]. cbn [s_xnew s_xk s_pk set_yk_A set_yk set_xnew deref bind]. destruct (rb_x _ _ R3) as [Ex3 Lx3], (rb_p _ _ R3) as [Ep3 Lp3].
  rewrite Ex3, Ep3. cbn [deref bind].
  assert (LX : len (a_x p raw) = p_nV p) by (unfold a_x; rewrite len_tab; lia).
  rewrite (WeightedVectorAdd_ok a_one (Ext (lift (a_x p raw))) (a_x p raw) a_mone (Ext (lift (v_x v2))) (v_x v2) (lift (v_p v2)) (v_p v2)); try lia;
    [|constructor|constructor|intros [?|?]; discriminate|rewrite len_lift; lia].
  rewrite drop_all, app_nil_r by (rewrite len_lift; lia). cbn [bind sim]. unfold relQ. cbn [fst snd is_success].
  split; [reflexivity|]. split.
  - destruct R3; constructor; cbn; auto.
    + split; auto. rewrite len_tab; lia.
    + split; auto. unfold wadd. rewrite len_tab; lia.
    + exists (lift (a_x p raw)). split; auto. rewrite len_lift. auto.
  - cbn. split; [auto|]. split; [auto|]. split; [auto|]. split; [auto|]. split; [exact VH1|]. split; auto.
Qed.

(** Values at the iterate *)
Lemma getPhi_ref s v : relB s v -> getPhi d s = Ok (v_phi p v).
Proof.
  intros R. posn. unfold getPhi, v_phi. rewrite (wd_nV d W). cbn [get bind]. destruct (rb_x _ _ R) as [Ex Lx]. rewrite Ex. cbn [deref bind].
  assert (E : match d_g_phi d with
     | None => Ok a_zero
     | Some gp => let! u := DotProduct gp (lift (v_x v)) (p_nV p) in Ok (a_zero + u)%num
     end = Ok (match p_gphi p with None => a_zero | Some gp => (a_zero + dot gp (v_x v) (p_nV p))%num end)).
  { pose proof (wd_gphi d W) as G. destruct (p_gphi p) as [gp|]; simpl in G.
    - destruct G as [-> Lg]. rewrite DotProduct_ok by lia. reflexivity.
    - rewrite G. reflexivity. }
  rewrite E. cbn [bind]. pose proof (wd_quadC d W (v_x v) Lx) as Q. unfold dQuad in Q. rewrite Q. cbn [bind].
  rewrite (wd_pc d W). reflexivity.
Qed.
Lemma getObj_ref s v : relB s v -> getObj d s = Ok (v_obj p v).
Proof.
  intros R. posn. unfold getObj, v_obj. rewrite (wd_nV d W). cbn [get bind]. destruct (rb_x _ _ R) as [Ex Lx], (wd_g d W) as [Eg Lg].
  rewrite Ex, Eg. cbn [deref bind]. rewrite DotProduct_ok by lia. cbn [bind].
  pose proof (wd_quadQ d W (v_x v) Lx) as Q. unfold dQuad in Q. rewrite Q. reflexivity.
Qed.
Lemma getMerit_ref s v : rel s v -> getMerit d s = Ok (v_merit p v).
Proof.
  intros [R _ Rh]. posn. unfold getMerit, v_merit. rewrite (wd_nV d W). cbn [get bind].
  destruct (rb_x _ _ R) as [Ex Lx], (wd_g d W) as [Eg Lg].
  rewrite Ex, Eg. cbn [deref bind]. rewrite DotProduct_ok by lia. cbn [bind].
  pose proof (wd_quadH d W _ _ _ _ (v_x v) Rh Lx) as Q. unfold dQuad in Q. rewrite Q. reflexivity.
Qed.
Lemma complementarityCheck_ref s v : relB s v -> complementarityCheck d s = Ok (v_complOK p v).
Proof. intros R. unfold complementarityCheck. rewrite (getPhi_ref s v R). cbn [bind]. rewrite (wd_opt d W). reflexivity. Qed.
Lemma stationarityCheck_ref s v : relB s v -> stationarityCheck d s = Ok (v_statOK p v).
Proof.
  intros R. posn. unfold stationarityCheck. rewrite (wd_nV d W). cbn [get bind]. destruct (rb_stat _ _ R) as [-> L].
  cbn [deref bind]. rewrite MaxAbs_ok by lia. cbn [bind]. rewrite (wd_opt d W). reflexivity.
Qed.

Ltac wvadd alpha A la beta B lb c lc :=
  rewrite (WeightedVectorAdd_ok alpha A la beta B lb c lc); try lia;
  [rewrite drop_all, app_nil_r by (rewrite ?len_lift; lia)|constructor|constructor| |rewrite ?len_lift; lia].

Lemma updatePenalty_ref s v : rel s v -> exists s', updatePenalty d s = Ok s' /\ rel s' (v_penalty p v).
Proof.
  intros [R Ry Rh]. posn. unfold updatePenalty, v_penalty. rewrite (wd_opt d W).
  set (s1 := if 0 <? o_nDynamicPenalty (p_opt p) then set_complHistory [] s else s).
  set (v1 := if 0 <? o_nDynamicPenalty (p_opt p) then w_hist [] v else v).
  assert (R1 : rel s1 v1).
  { unfold s1, v1. destruct (0 <? o_nDynamicPenalty (p_opt p)); [|constructor; auto]. destruct R; constructor; simpl; auto. constructor; simpl; auto. }
  clearbody s1 v1. clear R Ry Rh s v.
  cbv zeta. rewrite (rb_rho _ _ (rl_B _ _ R1)). set (rho := (v_rho v1 * o_penaltyUpdateFactor (p_opt p))%num).
  assert (Es : s_stats (set_rho rho s1) = v_stats v1) by (apply (rb_stats _ _ (rl_B _ _ R1))). rewrite Es.
  set (st := snd (updateRhoOpt rho (v_stats v1))).
  change (s_rho (set_rho rho s1)) with rho. fold st.
  change (v_rho (w_rho rho v1)) with rho. change (v_stats (w_rho rho v1)) with (v_stats v1). fold st.
  set (s2 := set_stats st (set_rho rho s1)). set (v2 := w_stats st (w_rho rho v1)).
  assert (R2 : rel s2 v2).
  { destruct R1 as [R Ry Rh]. destruct R. constructor; simpl; auto. constructor; simpl; auto. }
  destruct (wd_updH d W (v_h v2) s2 (rl_h _ _ R2)) as (q & m & E & KRq). rewrite E. cbn [bind].
  change (s_rho s2) with rho in KRq.
  set (s3 := set_Qk q (set_Qk_sparse m s2)). set (v3 := w_h (p_updH p (v_rho v2) (v_h v2)) v2).
  assert (R3 : rel s3 v3).
  { destruct R2 as [R Ry Rh]. destruct R. constructor; simpl; auto. constructor; simpl; auto. }
  pose proof (wd_gphi d W) as G. destruct (p_gphi p) as [gp|]; simpl in G.
  - destruct G as [-> Lg]. rewrite (wd_nV d W). cbn [get bind]. destruct (wd_g d W) as [-> Lg0]. cbn [deref bind].
    destruct (rb_gt _ _ (rl_B _ _ R3)) as [Et Lt]. rewrite Et. cbn [deref bind].
    wvadd a_one (Ext (lift (p_g p))) (p_g p) (s_rho s3) (Ext (lift gp)) gp (lift (v_gt v3)) (v_gt v3); [|intros [?|?]; discriminate].
    cbn [bind]. eexists. split; [reflexivity|]. destruct R3 as [R Ry Rh]. destruct R. constructor; simpl; auto. constructor; simpl; auto.
    split; auto. unfold wadd. rewrite len_tab; lia.
  - rewrite G. exists s3. split; auto.
Qed.

Lemma getOptimalStepLength_ref s v : rel s v -> exists s', getOptimalStepLength d s = Ok s' /\ rel s' (v_steplen p v).
Proof.
  intros [R Ry Rh]. posn. unfold getOptimalStepLength, v_steplen. rewrite (wd_nV d W). cbn [get bind].
  destruct (rb_p _ _ R) as [Ep Lp], (rb_x _ _ R) as [Ex Lx], (rb_gt _ _ R) as [Et Lt], (rb_lk _ _ R) as (lk & El & Ll).
  rewrite Ep, Ex, Et, El. cbn [deref bind].
  pose proof (wd_quadH d W _ _ _ _ (v_p v) Rh Lp) as Q1. unfold dQuad in Q1.
  destruct (wd_affH d W _ _ _ _ (v_x v) (v_gt v) lk Rh Lx Lt Ll) as [Q2 L2]. unfold dAffH in Q2.
  set (lk2 := p_affH p (v_h v) (v_x v) (v_gt v)) in *. set (qk := p_quadH p (v_h v) (v_p v)) in *.
  match goal with |- exists s', bind ?e _ = _ /\ _ => assert (E : e = Ok (qk, lift lk2)) end.
  { destruct (d_sparseSolver d).
    - destruct (s_Qk_sparse s); cbn [deref bind] in *; [|discriminate]. rewrite Q1. cbn [bind]. rewrite Q2. reflexivity.
    - destruct (s_Qk s); cbn [deref bind] in *; [|discriminate]. rewrite Q1. cbn [bind]. rewrite Q2. reflexivity. }
  rewrite E. cbn [bind]. rewrite DotProduct_ok by lia. cbn [bind]. eexists. split; [reflexivity|].
  destruct R. constructor; cbn; auto. constructor; cbn; auto. exists (lift lk2). rewrite len_lift. auto.
Qed.

Lemma updateStep_ref s v : rel s v -> exists s', updateStep d s = Ok s' /\ rel s' (v_step p v).
Proof.
  intros [R Ry Rh]. posn. unfold updateStep, v_step. rewrite (wd_nV d W). cbn [get bind].
  destruct (rb_p _ _ R) as [Ep Lp], (rb_x _ _ R) as [Ex Lx]. rewrite Ep, Ex. cbn [deref bind].
  wvadd a_one (@Same T) (v_x v) (s_alphak s) (Ext (lift (v_p v))) (v_p v) (lift (v_x v)) (v_x v); [|auto].
  cbn [bind]. eexists. split; [reflexivity|]. rewrite (rb_alpha _ _ R). destruct R. constructor; cbn; auto. constructor; cbn; auto.
  split; auto. unfold wadd. rewrite len_tab; lia.
Qed.

Lemma updateStationarity_ref s v : rel s v -> exists s', updateStationarity d s = Ok s' /\ rel s' (v_station p v).
Proof.
  intros [R Ry Rh]. posn. unfold updateStationarity, v_station. rewrite (wd_nV d W). cbn [get bind].
  destruct (rb_x _ _ R) as [Ex Lx], (rb_gt _ _ R) as [Et Lt], (rb_stat _ _ R) as [Es Ls], (rb_yA _ _ R) as [Ey Ly], (rb_cs _ _ R) as (cs & Ec & Lc).
  rewrite Ex, Et, Es. cbn [deref bind].
  destruct (wd_affH d W _ _ _ _ (v_x v) (v_gt v) (lift (v_stat v)) Rh Lx Lt) as [Q2 L2]; [rewrite len_lift; auto|].
  unfold dAffH in Q2. rewrite Q2. cbn [bind]. rewrite Ey, Ec. cbn [deref bind].
  destruct (wd_tA d W (v_yA v) cs Ly Lc) as [Q3 L3].
  match goal with |- exists s', bind ?e _ = _ /\ _ => assert (E : e = Ok (lift (p_tA p (v_yA v)))) end.
  { rewrite <- Q3. unfold dTA. rewrite (wd_nV d W). reflexivity. }
  rewrite E. cbn [bind]. set (h := p_affH p (v_h v) (v_x v) (v_gt v)) in *. set (t := p_tA p (v_yA v)) in *.
  wvadd a_one (@Same T) h a_mone (Ext (lift t)) t (lift h) h; [|auto]. cbn [bind].
  set (st := wadd a_one h a_mone t (p_nV p)). assert (Lst : len st = p_nV p) by (unfold st, wadd; rewrite len_tab; lia).
  assert (B : notNull (d_lb d) || notNull (d_ub d) = p_box p).
  { rewrite (optvec_null _ _ _ (wd_lb d W)), (optvec_null _ _ _ (wd_ub d W)). apply (wd_box d W). }
  rewrite B. destruct (p_box p) eqn:Bx.
  - cbn [s_box_statk s_yk set_constr_statk]. destruct (rb_bs _ _ R) as (bs & Eb & Lb). destruct Ry as [Eyk Lyk]. rewrite Eb, Eyk. cbn [deref bind].
    assert (OD : p_off p = p_nV p /\ p_nD p = p_nV p + p_nA p).
    { apply qpoases_nD. intros C. pose proof (wd_solver d W) as Sv. rewrite C in Sv. destruct Sv; congruence. }
    rewrite (fill_all (at_ a_zero (v_y v))) with (a := bs); auto; [|lia|].
    2: { intros i C Hi HC. rewrite rd_vec_ by lia. reflexivity. }
    cbn [bind]. set (yb := tab (p_nV p) (at_ a_zero (v_y v))). assert (Lyb : len yb = p_nV p) by (unfold yb; rewrite len_tab; lia).
    wvadd a_one (@Same T) st a_mone (Ext (lift yb)) yb (lift st) st; [|auto]. cbn [bind].
    assert (Ew : wadd a_one st a_mone yb (p_nV p) = wadd a_one st a_mone (v_y v) (p_nV p)).
    { unfold wadd. apply tab_ext. intros i Hi. unfold yb. rewrite at_tab by lia. reflexivity. }
    rewrite Ew. eexists. split; [reflexivity|]. destruct R. constructor; cbn; auto; [|split; auto]. constructor; cbn; auto.
    + split; auto. unfold wadd. rewrite len_tab; lia.
    + exists (lift t). rewrite len_lift. auto.
    + exists (lift yb). rewrite len_lift. auto.
  - eexists. split; [reflexivity|]. destruct R. constructor; cbn; auto. constructor; cbn; auto.
    + split; auto.
    + exists (lift t). rewrite len_lift. auto.
Qed.

Lemma forb_all (g : T -> bool) (h : list T) n : 0 <= n <= len h ->
  forb 0 n (fun i (_ : unit) => let! hi := vrd h i in if g hi then Ok (inr tt) else Ok (inl tt)) tt =
  Ok (if existsb g (firstn (Z.to_nat n) h) then inr tt else inl tt).
Proof.
  intros Hn. destruct (existsb g (firstn (Z.to_nat n) h)) eqn:E.
  - (* least index *)
    assert (X : exists k, 0 <= k < n /\ g (at_ a_zero h k) = true /\ forall i, 0 <= i < k -> g (at_ a_zero h i) = false).
    { unfold at_, len in *. assert (Hm : (Z.to_nat n <= length h)%nat) by lia.
      assert (G : forall m (h : list T), (m <= length h)%nat -> existsb g (firstn m h) = true ->
        exists k, (k < m)%nat /\ g (nth k h a_zero) = true /\ forall i, (i < k)%nat -> g (nth i h a_zero) = false).
      { clear. induction m; intros h Hm E; [discriminate|]. destruct h as [|x h]; [simpl in *; lia|]. simpl in E.
        destruct (g x) eqn:Gx; [exists O; repeat split; auto; intros; lia|]. simpl in E, Hm.
        destruct (IHm h) as (k & Hk & Gk & Mk); [lia|auto|]. exists (S k). split; [lia|]. split; [auto|].
        intros [|i] Hi; simpl; auto. apply Mk. lia. }
      destruct (G _ _ Hm E) as (k & Hk & Gk & Mk). exists (Z.of_nat k). split; [lia|]. rewrite Nat2Z.id. split; auto.
      intros i Hi. apply Mk. lia. }
    destruct X as (k & Hk & Gk & Mk).
    apply (forb_exit _ (fun _ => tt) 0 n k tt Hk).
    + intros i Hi. rewrite (vrd_ok a_zero) by lia. cbn [bind]. rewrite Mk by lia. reflexivity.
    + rewrite (vrd_ok a_zero) by lia. cbn [bind]. rewrite Gk. reflexivity.
  - apply (forb_seq _ (fun _ => tt) 0 n); [lia|]. intros i Hi. rewrite (vrd_ok a_zero) by lia. cbn [bind].
    replace (g (at_ a_zero h i)) with false; auto. symmetry.
    assert (G : forall x, In x (firstn (Z.to_nat n) h) -> g x = false).
    { intros x Hx. destruct (g x) eqn:Gx; auto. rewrite <- E. symmetry. apply existsb_exists. eauto. }
    apply G. unfold at_. assert (N : nth (Z.to_nat i) h a_zero = nth (Z.to_nat i) (firstn (Z.to_nat n) h) a_zero).
    { symmetry. apply (at_take a_zero h n i). lia. }
    rewrite N. apply nth_In. rewrite firstn_length. unfold len in *. lia.
Qed.

Lemma leyffer_ref s v : rel s v ->
  exists s', leyfferCheckPositive d s = Ok (fst (v_leyffer p v), s') /\ rel s' (snd (v_leyffer p v)).
Proof.
  intros RR. pose proof (rl_B _ _ RR) as R. unfold leyfferCheckPositive, v_leyffer. rewrite (wd_opt d W). cbv zeta.
  set (n := to_size_t (o_nDynamicPenalty (p_opt p))).
  destruct (Z.leb_spec n 0); [exists s; auto|]. rewrite (getPhi_ref s v R). cbn [bind]. rewrite (rb_hist _ _ R).
  fold (len (v_hist v)). destruct (Z.ltb_spec (len (v_hist v)) n).
  - eexists. split; [reflexivity|]. destruct RR as [[] Ry Rh]. constructor; cbn; auto. constructor; cbn; auto.
  - rewrite (complementarityCheck_ref s v R). cbn [bind].
    assert (R' : rel (set_complHistory (tl (v_hist v) ++ [v_phi p v]) s) (w_hist (tl (v_hist v) ++ [v_phi p v]) v)).
    { destruct RR as [[] Ry Rh]. constructor; cbn; auto. constructor; cbn; auto. }
    destruct (v_complOK p v); [eexists; split; [reflexivity|exact R']|].
    rewrite (forb_all (fun hi => a_lt (v_phi p v) (o_etaDynamicPenalty (p_opt p) * hi)%num)) by lia. cbn [bind].
    eexists. split; [|exact R']. cbn [fst]. destruct (existsb _ _); reflexivity.
Qed.

Lemma outerIter_ref s v : rel s v -> sim rel (updateOuterIter s) (v_outerIter v).
Proof.
  intros [R Ry Rh]. unfold updateOuterIter, v_outerIter. rewrite (rb_outer _ _ R), (rb_stats _ _ R). apply sim_bind_same. intros n.
  apply sim_bind_same. intros [r st]. simpl. destruct R. constructor; cbn; auto. constructor; cbn; auto.
Qed.
Lemma totalIter_ref s v : rel s v -> sim rel (updateTotalIter s) (v_totalIter v).
Proof.
  intros [R Ry Rh]. unfold updateTotalIter, v_totalIter. rewrite (rb_total _ _ R), (rb_stats _ _ R). apply sim_bind_same. intros n.
  apply sim_bind_same. intros [r st]. simpl. destruct R. constructor; cbn; auto. constructor; cbn; auto.
Qed.
Lemma penaltyStep_ref s v : rel s v -> sim rel (penaltyStep d s) (v_penaltyStep p v).
Proof.
  intros R. unfold penaltyStep, v_penaltyStep. destruct (updatePenalty_ref s v R) as (s' & -> & R'). cbn [bind].
  eapply sim_bind; [apply outerIter_ref; exact R'|]. intros x y [[] Ry Rh]. constructor; cbn; auto. constructor; cbn; auto.
Qed.

Lemma perturbStep_ref rand s v : rel s v -> exists s', perturbStep rand d s = Ok s' /\ rel s' (v_perturb p rand v).
Proof.
  intros [R Ry Rh]. posn. unfold perturbStep, v_perturb. rewrite (wd_nV d W). cbn [get bind].
  destruct (rb_x _ _ R) as [Ex Lx]. rewrite Ex. cbn [deref bind].
  set (F := fun i => (at_ a_zero (v_x v) i + a_of_Z (rand (v_rnd v + Z.to_nat i)%nat mod 3 - 1) * EPS)%num).
  pose (st := fun i => (lift (tab i F) ++ drop i (lift (v_x v)), (v_rnd v + Z.to_nat i)%nat)).
  rewrite (rb_rnd _ _ R).
  replace (lift (v_x v), v_rnd v) with (st 0) by (unfold st; rewrite tab_0, drop_0, Nat.add_0_r; reflexivity).
  match goal with |- context [for_ 0 (p_nV p) ?b (st 0)] => rewrite (for_seq b st 0 (p_nV p)) end; [|lia|].
  - cbn [bind]. unfold st. rewrite drop_all, app_nil_r by (rewrite len_lift; lia). eexists. split; [reflexivity|].
    destruct R. constructor; cbn; auto. constructor; cbn; auto. split; auto. rewrite len_tab; lia.
  - intros i Hi. unfold st at 1.
    rewrite (rd_some _ i (at_ a_zero (v_x v) i)).
    + cbn [bind]. rewrite wr_ok by (rewrite len_fill; rewrite len_lift; lia). cbn [bind]. unfold st.
      rewrite (upd_fill F) by (rewrite len_lift; lia). replace (Z.to_nat (i + 1)) with (S (Z.to_nat i)) by lia. rewrite Nat.add_succ_r. reflexivity.
    + rewrite len_fill; rewrite len_lift; lia.
    + rewrite at_fill_r by lia. apply at_lift. lia.
Qed.

Lemma storeSteps_ref s v : rel s v -> sim rel (storeSteps d s) (v_store p v).
Proof.
  intros RR. pose proof (rl_B _ _ RR) as R. posn. unfold storeSteps, v_store. rewrite (wd_nV d W). cbn [get bind].
  rewrite (rb_qpit _ _ R). apply sim_bind_same. intros k. destruct (rb_p _ _ R) as [Ep Lp], (rb_stat _ _ R) as [Es Ls], (rb_x _ _ R) as [Ex Lx].
  rewrite Ep. cbn [deref bind]. rewrite MaxAbs_ok by lia. cbn [bind]. rewrite Es. cbn [deref bind]. rewrite MaxAbs_ok by lia. cbn [bind].
  rewrite (getObj_ref s v R), (getPhi_ref s v R), (getMerit_ref s v RR). cbn [bind]. rewrite Ex, (rb_inner _ _ R), (rb_alpha _ _ R), (rb_stats _ _ R).
  apply sim_bind_same. intros st. destruct RR as [R0 Ry Rh]. destruct R0. constructor; cbn; auto. constructor; cbn; auto.
Qed.

Lemma log_rel e s v : rel s v -> rel (logI e s) v.
Proof. intros [[] Ry Rh]. constructor; cbn; auto. constructor; cbn; auto. Qed.
Lemma log_relB e s v : relB s v -> relB (logI e s) v.
Proof. intros []. constructor; cbn; auto. Qed.

Lemma printIteration_ref s v : rel s v -> v_qpit v <> None -> sim rel (printIteration d s) (v_print p v).
Proof.
  intros RR Hq. pose proof (rl_B _ _ RR) as R. posn. unfold printIteration, v_print. rewrite (wd_opt d W).
  assert (M : forall s0, relB s0 v -> forall inner : bool, exists e,
    (let! nV0 := get (d_nV d) in let! statk := deref (s_statk s0) in let! stat := MaxAbs statk nV0 in let! phi := getPhi d s0 in
     let! pk := deref (s_pk s0) in let! step := MaxAbs pk nV0 in
     let! more := if inner then let! k := get (s_qpIterk s0) in Ok (Some (s_innerIter s0, s_alphak s0, k)) else Ok None in
     Ok (logI (EvIter (s_outerIter s0) stat phi (s_rho s0) step more) s0)) = Ok (logI e s0)).
  { intros s0 R0 inner. rewrite (wd_nV d W). cbn [get bind]. destruct (rb_stat _ _ R0) as [-> Ls]. cbn [deref bind]. rewrite MaxAbs_ok by lia. cbn [bind].
    rewrite (getPhi_ref s0 v R0). cbn [bind]. destruct (rb_p _ _ R0) as [-> Lp]. cbn [deref bind]. rewrite MaxAbs_ok by lia. cbn [bind].
    rewrite (rb_qpit _ _ R0). destruct (v_qpit v); [|congruence]. destruct inner; eexists; reflexivity. }
  assert (Q : exists k, v_qpit v = Some k) by (destruct (v_qpit v); [eauto|congruence]). destruct Q as [k Ek].
  destruct (o_printLevel (p_opt p)); [exact RR| |].
  - cbv zeta. destruct (negb false && (0 <? s_innerIter s)); [exact RR|].
    destruct (s_outerIter s mod 10 =? 0).
    + destruct (M _ (log_relB EvHeader _ _ R) false) as (e & Me). refine (eq_ind_r (fun t => sim rel t (Ok v)) _ Me). apply log_rel, log_rel, RR.
    + destruct (M _ R false) as (e & Me). refine (eq_ind_r (fun t => sim rel t (Ok v)) _ Me). apply log_rel, RR.
  - cbv zeta. cbn [negb andb]. rewrite Ek. cbn [get bind].
    destruct (s_innerIter s mod 10 =? 0).
    + destruct (M _ (log_relB EvHeader _ _ R) true) as (e & Me). refine (eq_ind_r (fun t => sim rel t (Ok v)) _ Me). apply log_rel, log_rel, RR.
    + destruct (M _ R true) as (e & Me). refine (eq_ind_r (fun t => sim rel t (Ok v)) _ Me). apply log_rel, RR.
Qed.

(** The duals on success *)
Lemma transform_part_ref M Ms mul off0 tmp s v : (forall x tmp, len x = p_nV p -> len tmp = p_nComp p ->
    dMul d M Ms (lift x) tmp (p_nComp p) (p_nV p) = Ok (lift (mul x)) /\ len (mul x) = p_nComp p) ->
  rel s v -> len tmp = p_nComp p -> 0 <= off0 -> off0 + p_nComp p <= p_nD p ->
  let y := tab (p_nD p) (fun k => if (off0 <=? k) && (k <? off0 + p_nComp p)
     then (at_ a_zero (v_y v) k - v_rho v * at_ a_zero (mul (v_x v)) (k - off0))%num else at_ a_zero (v_y v) k) in
  transform_part d M Ms off0 tmp s = Ok (lift (mul (v_x v)), set_yk (Some (lift y)) s).
Proof.
  intros Hm [R Ry Rh] Lt Ho Hb y. posn. unfold transform_part. rewrite (wd_nV d W), (wd_nComp d W). cbn [get bind].
  destruct (rb_x _ _ R) as [Ex Lx]. rewrite Ex. cbn [deref bind]. destruct (Hm (v_x v) tmp Lx Lt) as [E L]. unfold dMul in E. rewrite E.
  cbn [bind]. destruct Ry as [Ey Ly]. rewrite Ey. cbn [deref bind]. rewrite (rb_rho _ _ R).
  pose (F := fun t k => if (off0 <=? k) && (k <? off0 + t)
     then (at_ a_zero (v_y v) k - v_rho v * at_ a_zero (mul (v_x v)) (k - off0))%num else at_ a_zero (v_y v) k).
  pose (st := fun t => lift (tab (p_nD p) (F t))).
  replace (lift (v_y v)) with (st 0).
  2: { unfold st. f_equal. apply (list_eq a_zero); rewrite len_tab by lia; [lia|]. intros i Hi. rewrite at_tab by lia. unfold F.
       replace ((off0 <=? i) && (i <? off0 + 0)) with false; auto. symmetry. apply andb_false_iff.
       destruct (Z.leb_spec off0 i); [right; lia|left; auto]. }
  match goal with |- context [for_ 0 (p_nComp p) ?b (st 0)] => rewrite (for_seq b st 0 (p_nComp p)) end; [reflexivity|lia|].
  intros i Hi. unfold st. rewrite rd_vec_ by (rewrite len_tab; lia). cbn [bind]. rewrite rd_vec_ by lia. cbn [bind].
  rewrite at_tab by lia. rewrite wr_lift by (rewrite len_tab; lia). apply (f_equal (fun t => Ok (lift t))).
  apply (list_eq a_zero); rewrite len_upd, ?len_tab by lia; [lia|]. intros k Hk'. rewrite at_upd by (rewrite ?len_tab; lia). rewrite !at_tab by lia.
  unfold F. destruct (Z.eqb_spec (off0 + i) k) as [<-|Ne].
  - replace ((off0 <=? off0 + i) && (off0 + i <? off0 + i)) with false by (symmetry; apply andb_false_iff; right; lia).
    replace ((off0 <=? off0 + i) && (off0 + i <? off0 + (i + 1))) with true by (symmetry; apply andb_true_iff; lia).
    replace (off0 + i - off0) with i by lia. reflexivity.
  - replace ((off0 <=? k) && (k <? off0 + (i + 1))) with ((off0 <=? k) && (k <? off0 + i)); [reflexivity|].
    destruct (Z.leb_spec off0 k); simpl; auto. destruct (Z.ltb_spec k (off0 + i)), (Z.ltb_spec k (off0 + (i + 1))); auto; lia.
Qed.

Lemma transformDuals_ref s v : rel s v -> exists s', transformDuals d s = Ok s' /\ rel s' (v_duals p v).
Proof.
  intros RR. posn. unfold transformDuals. rewrite (wd_nC d W), (wd_nComp d W), (wd_off d W). cbn [get bind]. rewrite alloc_ok by lia. cbn [bind].
  assert (LD : p_nD p = p_off p + p_nC p + 2 * p_nComp p) by (unfold p_nD, p_nA; lia).
  rewrite (transform_part_ref (d_R d) (d_R_sparse d) (p_mulR p) (p_off p + p_nC p) _ s v (wd_R d W) RR); try lia.
  2: { rewrite repeat_tab, len_tab; lia. }
  cbn [bind].
  set (F1 := fun k => if (p_off p + p_nC p <=? k) && (k <? p_off p + p_nC p + p_nComp p)
     then (at_ a_zero (v_y v) k - v_rho v * at_ a_zero (p_mulR p (v_x v)) (k - (p_off p + p_nC p)))%num else at_ a_zero (v_y v) k).
  set (y1 := tab (p_nD p) F1).
  assert (R1 : rel (set_yk (Some (lift y1)) s) (w_y y1 v)).
  { destruct RR as [[] Ry Rh]. constructor; cbn; auto. constructor; cbn; auto. split; auto. unfold y1. rewrite len_tab; lia. }
  destruct (rb_x _ _ (rl_B _ _ RR)) as [_ Lx].
  destruct (wd_R d W (v_x v) (repeat None (Z.to_nat (p_nComp p))) Lx) as [_ LR]; [rewrite repeat_tab, len_tab; lia|].
  rewrite (transform_part_ref (d_L d) (d_L_sparse d) (p_mulL p) (p_off p + p_nC p + p_nComp p) _ _ _ (wd_L d W) R1); try lia.
  2: { rewrite len_lift. auto. }
  cbn [bind]. eexists. split; [reflexivity|]. destruct RR as [[] Ry Rh]. constructor; [constructor; cbn; auto| |cbn; auto].
  split; [|cbn [v_y w_y v_duals]; rewrite len_tab; lia]. apply (f_equal (fun t => Some (lift t))). apply tab_ext. intros k Hk'. cbn [v_y w_y v_rho v_x]. unfold y1. rewrite at_tab by lia. reflexivity.
Qed.

Lemma weak_ref s v : relB s v -> getWeakComplementarities d s = Ok (v_weak p v).
Proof.
  intros R. posn. unfold getWeakComplementarities. rewrite (wd_nV d W), (wd_nComp d W). cbn [get bind]. rewrite alloc_ok by lia. cbn [bind].
  destruct (rb_x _ _ R) as [Ex Lx]. rewrite Ex. cbn [deref bind].
  assert (LT : len (repeat (@None T) (Z.to_nat (p_nComp p))) = p_nComp p) by (rewrite repeat_tab, len_tab; lia).
  destruct (wd_L d W (v_x v) _ Lx LT) as [EL LL], (wd_R d W (v_x v) _ Lx LT) as [ER LR].
  match goal with |- bind ?e _ = _ => assert (E : e = Ok (lift (p_mulL p (v_x v)), lift (p_mulR p (v_x v)))) end.
  { unfold dMul in EL, ER. destruct (d_sparseSolver d).
    - destruct (deref (d_L_sparse d)); cbn [bind] in *; [|discriminate]. rewrite EL. cbn [bind].
      destruct (deref (d_R_sparse d)); cbn [bind] in *; [|discriminate]. rewrite ER. reflexivity.
    - destruct (deref (d_L d)); cbn [bind] in *; [|discriminate]. rewrite EL. cbn [bind].
      destruct (deref (d_R d)); cbn [bind] in *; [|discriminate]. rewrite ER. reflexivity. }
  rewrite E. cbn [bind]. rewrite (wd_opt d W). unfold v_weak. set (tol := o_complementarityTolerance (p_opt p)).
  set (f := fun i => a_le (at_ a_zero (p_mulL p (v_x v)) i) tol && a_le (at_ a_zero (p_mulR p (v_x v)) i) tol).
  pose (st := fun t => filter f (tab t (fun i => i))).
  change (@nil Z) with (st 0).
  apply (for_seq _ st 0 (p_nComp p)); [lia|]. intros i Hi. rewrite rd_vec_ by lia. cbn [bind]. unfold st. rewrite tab_succ, filter_app by lia. cbn [filter].
  change (f i) with (a_le (at_ a_zero (p_mulL p (v_x v)) i) tol && a_le (at_ a_zero (p_mulR p (v_x v)) i) tol).
  destruct (a_le (at_ a_zero (p_mulL p (v_x v)) i) tol); cbn [andb]; [|rewrite app_nil_r; reflexivity]. rewrite rd_vec_ by lia. cbn [bind].
  destruct (a_le (at_ a_zero (p_mulR p (v_x v)) i) tol); [reflexivity|rewrite app_nil_r; reflexivity].
Qed.

Lemma classify_ref tol yA w : len yA = p_nA p -> (forall i, In i w -> 0 <= i < p_nComp p) -> forall b1 b2,
  classify tol (p_nC p) (p_nComp p) (lift yA) w b1 b2 = Ok (v_classify p tol yA w b1 b2).
Proof.
  intros L. posn. unfold p_nA in *. induction w as [|i w IH]; intros Hw b1 b2; [reflexivity|]. cbn [classify v_classify].
  assert (Hi := Hw i (or_introl eq_refl)). rewrite rd_vec_ by lia. cbn [bind]. rewrite rd_vec_ by lia. cbn [bind].
  assert (Hw' : forall j, In j w -> 0 <= j < p_nComp p) by (intros; apply Hw; right; auto).
  destruct (_ && _); [destruct (a_le _ tol); [reflexivity|]|]; apply IH; auto.
Qed.

Lemma finish_ref s v : rel s v -> exists s', finish d s = Ok s' /\ rel s' (v_finish p v).
Proof.
  intros RR. posn. unfold finish. destruct (transformDuals_ref s v RR) as (s1 & -> & R1). cbn [bind].
  pose proof (rl_B _ _ R1) as B1. unfold determineStationarityType. rewrite (weak_ref s1 _ B1). cbn [bind].
  rewrite (wd_nC d W), (wd_nComp d W). cbn [get bind]. destruct (rb_yA _ _ B1) as [Ey Ly]. rewrite Ey. cbn [deref bind].
  rewrite (wd_opt d W), (classify_ref _ _ _ Ly).
  2: { unfold v_weak. intros i Hi. apply filter_In in Hi. destruct Hi as [Hi _]. unfold tab in Hi. apply in_map_iff in Hi.
       destruct Hi as (k & <- & Hk'). apply in_seq in Hk'. lia. }
  cbn [bind]. unfold v_finish. set (a := v_classify _ _ _ _ _ _). cbn [get bind].
  assert (R2 : rel (set_stats (updateSolutionStatus a (s_stats (set_algoStat (Some a) s1))) (set_algoStat (Some a) s1))
     (w_stats (updateSolutionStatus a (v_stats (v_duals p v))) (w_algo (Some a) (v_duals p v)))).
  { destruct R1 as [[] Ry Rh]. constructor; cbn; auto. constructor; cbn; auto. rewrite rb_stats0. reflexivity. }
  change (s_algoStat (set_algoStat (Some a) s1)) with (Some a). cbn [get bind].
  eexists. split; [reflexivity|]. destruct (o_printLevel (p_opt p)); try apply log_rel; exact R2.
Qed.

(** The QP was solved at least once: the iteration count has a value *)
Definition relI (s : iter T) (v : vst T K) : Prop := rel s v /\ v_qpit v <> None.

Lemma sim_more {A B} (R : A -> B -> Prop) a b : sim R a b -> sim (fun x y => R x y /\ b = Ok y) a b.
Proof. destruct a, b; simpl; auto. Qed.

Lemma qp_print v v' : v_print p v = Ok v' -> v_qpit v' = v_qpit v.
Proof. unfold v_print. intros E. inv_ok; reflexivity. Qed.
Lemma qp_store v v' : v_store p v = Ok v' -> v_qpit v' = v_qpit v.
Proof. unfold v_store. intros E. inv_ok; simpl; congruence. Qed.
Lemma qp_outer (v v' : vst T K) : v_outerIter v = Ok v' -> v_qpit v' = v_qpit v.
Proof. unfold v_outerIter. intros E. apply bind_ok in E. destruct E as (n & _ & E). apply bind_ok in E. destruct E as ([r st] & _ & E). injection E as <-. reflexivity. Qed.
Lemma qp_total (v v' : vst T K) : v_totalIter v = Ok v' -> v_qpit v' = v_qpit v.
Proof. unfold v_totalIter. intros E. apply bind_ok in E. destruct E as (n & _ & E). apply bind_ok in E. destruct E as ([r st] & _ & E). injection E as <-. reflexivity. Qed.
Lemma qp_penalty v : v_qpit (v_penalty p v) = v_qpit v.
Proof. unfold v_penalty. destruct (p_gphi p), (0 <? o_nDynamicPenalty (p_opt p)); reflexivity. Qed.
Lemma qp_penaltyStep v v' : v_penaltyStep p v = Ok v' -> v_qpit v' = v_qpit v.
Proof.
  unfold v_penaltyStep. intros E. apply bind_ok in E. destruct E as (w & E1 & E). injection E as <-. apply qp_outer in E1.
  rewrite <- (qp_penalty v), <- E1. reflexivity.
Qed.
Lemma qp_leyffer v : v_qpit (snd (v_leyffer p v)) = v_qpit v.
Proof. unfold v_leyffer. cbv zeta. destruct (_ <=? 0); [reflexivity|]. destruct (_ <? _); [reflexivity|]. destruct (v_complOK p v); reflexivity. Qed.
Lemma qp_solve orc b y0 v r v' : v_solve p orc b y0 v = Ok (r, v') -> v_qpit v' <> None.
Proof.
  unfold v_solve. intros E. apply bind_ok in E. destruct E as (k & Ek & E). apply bind_ok in E. destruct E as ([r0 st] & _ & E).
  apply bind_ok in E. destruct E as (f & _ & E).
  assert (N : v_qpit (v_record (v_sub p orc b y0 v) v) <> None) by (destruct (v_qpit (v_record (v_sub p orc b y0 v) v)); discriminate).
  destruct (negb _); [injection E as _ <-; exact N|]. apply bind_ok in E. destruct E as (raw & _ & E). injection E as _ <-. exact N.
Qed.

Lemma pass_head_ref s v : relI s v -> sim relI (pass_head d s) (v_head p v).
Proof.
  intros [R Q]. unfold pass_head, v_head. destruct (updateStep_ref s v R) as (s1 & -> & R1). cbn [bind].
  destruct (updateStationarity_ref s1 _ R1) as (s2 & -> & R2). cbn [bind].
  set (v2 := v_station p (v_step p v)) in *. assert (Q2 : v_qpit v2 <> None) by exact Q. clearbody v2. clear v R Q R1 s1 s.
  eapply sim_bind; [apply sim_more, (printIteration_ref s2 v2 R2 Q2)|]. intros s3 v3 [R3 E3]. apply qp_print in E3.
  eapply sim_bind with (R := relI).
  { rewrite (wd_opt d W). destruct (o_storeSteps (p_opt p)); [|split; [exact R3|congruence]].
    pose proof (sim_more _ _ _ (storeSteps_ref s3 v3 R3)) as S. destruct (storeSteps d s3), (v_store p v3) eqn:E; simpl in *; auto.
    destruct S as [S _]. split; auto. apply qp_store in E. congruence. }
  intros s4 v4 [R4 Q4]. eapply sim_bind; [apply sim_more, (totalIter_ref s4 v4 R4)|]. intros s5 v5 [R5 E5]. apply qp_total in E5.
  rewrite (rb_inner _ _ (rl_B _ _ R5)). apply sim_bind_same. intros n.
  assert (R6 : rel (set_innerIter n s5) (w_inner n v5)) by (destruct R5 as [[] Ry Rh]; constructor; cbn; auto; constructor; cbn; auto).
  destruct (leyffer_ref _ _ R6) as (s7 & -> & R7). cbn [bind]. pose proof (qp_leyffer (w_inner n v5)) as Q7.
  destruct (v_leyffer p (w_inner n v5)) as [b v7]. cbn [fst snd] in *.
  eapply sim_bind with (R := relI).
  { destruct b; [|split; [exact R7|rewrite Q7; cbn; congruence]].
    pose proof (sim_more _ _ _ (penaltyStep_ref s7 v7 R7)) as S. destruct (penaltyStep d s7), (v_penaltyStep p v7) eqn:E; simpl in *; auto.
    destruct S as [S _]. split; auto. apply qp_penaltyStep in E. rewrite E, Q7. cbn. congruence. }
  intros s8 v8 [R8 Q8]. destruct (updateLinearization_ref s8 v8 (rl_B _ _ R8)) as (gk & -> & RB). split; [|exact Q8].
  destruct R8 as [_ Ry Rh]. constructor; auto.
Qed.

(** Outcome of a pass: same end marker, related states *)
Definition relE (a : iter T * option ReturnValue) (b : vst T K * option ReturnValue) : Prop :=
  relI (fst a) (fst b) /\ snd a = snd b.

Lemma pass_tail_ref orc rand s v : relI s v -> sim relE (pass_tail orc rand d s) (v_tail p orc rand v).
Proof.
  intros [R Q]. unfold pass_tail, v_tail. rewrite (wd_opt d W), (rb_total _ _ (rl_B _ _ R)), (rb_rho _ _ (rl_B _ _ R)).
  destruct (_ <? _); [split; [split|]; auto|]. destruct (a_lt _ _); [split; [split|]; auto|].
  destruct (updateLinearization_ref s v (rl_B _ _ R)) as (gk & -> & RB). cbn [bind].
  assert (Ly : match s_yk (set_gk gk s) with Some y => len y = p_nD p | None => True end).
  { destruct (rl_y _ _ R) as [Ey Lyy]. cbn. rewrite Ey, len_lift. exact Lyy. }
  pose proof (sim_more _ _ _ (solveQP_ref orc false None (set_gk gk s) (v_lin p v) RB Ly ltac:(discriminate))) as S.
  eapply sim_bind; [exact S|]. intros [r s1] [r' v1] [(Er & RB1 & Q1 & M1 & I1 & _ & VH1 & Y1) E1]. cbn [fst snd] in *. subst r'.
  apply qp_solve in E1.
  assert (R1 : rel s1 v1).
  { constructor; auto.
    - destruct (is_success r); auto. destruct Y1 as [-> Y2]. rewrite Y2 by (cbn; destruct (rl_y _ _ R) as [Ey _]; rewrite Ey; discriminate). apply (rl_y _ _ R).
    - rewrite VH1, Q1, M1, I1. apply (rl_h _ _ R). }
  destruct (is_success r); cbn [negb]; [|split; [split; [apply log_rel; auto|auto]|auto]].
  assert (P : exists s2, (if o_perturbStep (p_opt p) then perturbStep rand d s1 else Ok s1) = Ok s2 /\
     rel s2 (if o_perturbStep (p_opt p) then v_perturb p rand v1 else v1)).
  { destruct (o_perturbStep (p_opt p)); [apply perturbStep_ref; auto|eauto]. }
  destruct P as (s2 & -> & R2). cbn [bind]. destruct (getOptimalStepLength_ref s2 _ R2) as (s3 & -> & R3). split; [split|]; auto.
  cbn [fst]. destruct (o_perturbStep (p_opt p)); exact E1.
Qed.

Lemma pass_ref orc rand s v : relI s v -> sim relE (pass orc rand d s) (v_pass p orc rand v).
Proof.
  intros R. unfold pass, v_pass. eapply sim_bind; [apply pass_head_ref; exact R|]. intros s1 v1 [R1 Q1].
  rewrite (stationarityCheck_ref s1 v1 (rl_B _ _ R1)). cbn [bind]. destruct (v_statOK p v1); [|apply pass_tail_ref; split; auto].
  rewrite (complementarityCheck_ref s1 v1 (rl_B _ _ R1)). cbn [bind]. destruct (v_complOK p v1).
  - destruct (finish_ref s1 v1 R1) as (s2 & -> & R2). split; [split|]; auto.
  - pose proof (sim_more _ _ _ (penaltyStep_ref s1 v1 R1)) as S. eapply sim_bind; [exact S|]. intros s2 v2 [R2 E2]. apply qp_penaltyStep in E2.
    apply pass_tail_ref. split; auto. congruence.
Qed.

(** Equal return values and related states. No LCQPow code. *)
Definition relR (a : ReturnValue * iter T) (b : ReturnValue * vst T K) : Prop := fst a = fst b /\ relI (snd a) (snd b).

Lemma loop_ref fuel orc rand s v : relI s v -> sim relR (loop fuel orc rand d s) (v_loop p fuel orc rand v).
Proof.
  revert s v. induction fuel as [|fuel IH]; intros s v R; [reflexivity|]. cbn [loop v_loop].
  eapply sim_bind; [apply pass_ref; exact R|]. intros [s1 e] [v1 e'] [R1 E]. cbn [fst snd] in *. subst e'.
  destruct e; [split; auto|apply IH; auto].
Qed.

(** The first QP; on failure no multipliers are delivered *)
Definition relF (a : iter T * option ReturnValue) (b : vst T K * option ReturnValue) : Prop :=
  snd a = snd b /\ relB (fst a) (fst b) /\ v_qpit (fst b) <> None /\
  match snd a with None => relI (fst a) (fst b) | Some r => r <> SUCCESSFUL_RETURN end.

Lemma first_ref orc y0 s v : relB s v -> optvec (p_nD p) (s_yk s) y0 ->
  (forall s', s_rho s' = s_rho s -> s_Qk s' = s_Qk s -> s_Qk_sparse s' = s_Qk_sparse s -> s_Qk_indices_of_C s' = s_Qk_indices_of_C s -> noH d s') ->
  sim relF (first_solve orc d s) (v_first p orc y0 v).
Proof.
  intros R Hy HH. posn. unfold first_solve, v_first. rewrite (wd_opt d W).
  assert (G : exists gk v1, (if o_solveZeroPenaltyFirst (p_opt p)
       then let! n := get (d_nV d) in let! gk := deref (s_gk s) in let! gk := memcpy_ptr gk (d_g d) n in Ok (set_gk (Some gk) s)
       else updateLinearization d s) = Ok (set_gk gk s) /\
     v1 = (if o_solveZeroPenaltyFirst (p_opt p) then w_gk (p_g p) v else v_lin p v) /\ relB (set_gk gk s) v1).
  { destruct (o_solveZeroPenaltyFirst (p_opt p)).
    - rewrite (wd_nV d W). cbn [get bind]. destruct (rb_gk _ _ R) as [Eg Lg], (wd_g d W) as [Ed Ld]. rewrite Eg, Ed. cbn [deref bind].
      assert (M : memcpy_ptr (lift (v_gk v)) (Some (lift (p_g p))) (p_nV p) = Ok (lift (p_g p))).
      { unfold memcpy_ptr. destruct (Z.eqb_spec (p_nV p) 0); [lia|]. cbn [deref bind].
        rewrite memcpy_all_ok by (rewrite len_lift; lia). rewrite take_all, drop_all, app_nil_r by (rewrite len_lift; lia). reflexivity. }
      rewrite M. cbn [bind]. do 2 eexists. split; [reflexivity|]. split; [reflexivity|].
      destruct R. constructor; cbn; auto. split; auto.
    - destruct (updateLinearization_ref s v R) as (gk & -> & RB). do 2 eexists. split; [reflexivity|]. split; [reflexivity|]. exact RB. }
  destruct G as (gk & v1 & -> & E1 & R1). cbn [bind]. rewrite <- E1. clear E1.
  assert (Ly : match s_yk (set_gk gk s) with Some y => len y = p_nD p | None => True end).
  { cbn. destruct y0; simpl in Hy; [destruct Hy as [-> L]; rewrite len_lift; auto|rewrite Hy; auto]. }
  eapply sim_bind; [apply sim_more, (solveQP_ref orc true y0 (set_gk gk s) v1 R1 Ly); intros _; exact Hy|].
  intros [r s2] [r' v2] [(Er & RB2 & Q2 & M2 & I2 & RH2 & VH2 & Y2) E2]. cbn [fst snd] in *. subst r'. apply qp_solve in E2.
  destruct (is_success r) eqn:Sr; cbn [negb].
  2: { split; [reflexivity|]. split; [apply log_relB; auto|]. split; [auto|]. cbn. intros ->. discriminate. }
  destruct (HH s2) as (q & m & i & E & KRq); auto. rewrite E. cbn [bind sim].
  assert (B3 : relB (set_Qk q (set_Qk_sparse m (set_Qk_indices_of_C i s2))) (w_h (p_setH p (v_rho v2)) v2))
    by (destruct RB2; constructor; cbn; auto).
  assert (R4 : relI (set_stats (snd (updateRhoOpt (s_rho s2) (s_stats s2))) (set_Qk q (set_Qk_sparse m (set_Qk_indices_of_C i s2))))
     (w_stats (snd (updateRhoOpt (v_rho v2) (v_stats v2))) (w_h (p_setH p (v_rho v2)) v2))).
  { split; [|exact E2]. rewrite (rb_rho _ _ RB2), (rb_stats _ _ RB2). constructor; cbn; auto; [destruct B3; constructor; cbn; auto|].
    rewrite <- (rb_rho _ _ RB2). exact KRq. }
  split; [reflexivity|]. split; [apply (rl_B _ _ (proj1 R4))|]. split; [exact E2|]. exact R4.
Qed.

(** The whole run after initialisation *)
Definition run_after (fuel : nat) (orc : oracle T) (rand : nat -> Z) (s : iter T) : res (ReturnValue * iter T) :=
  let! '(s, e) := first_solve orc d s in
  match e with Some r => Ok (r, s) | None => loop fuel orc rand d s end.

(** Related results of a QP solve. No LCQPow code. *)
Definition relT (a : ReturnValue * iter T) (b : ReturnValue * vst T K) : Prop :=
  fst a = fst b /\ relB (snd a) (snd b) /\ (fst a = SUCCESSFUL_RETURN -> relI (snd a) (snd b)).

Lemma run_ref fuel orc rand y0 s v : relB s v -> optvec (p_nD p) (s_yk s) y0 ->
  (forall s', s_rho s' = s_rho s -> s_Qk s' = s_Qk s -> s_Qk_sparse s' = s_Qk_sparse s -> s_Qk_indices_of_C s' = s_Qk_indices_of_C s -> noH d s') ->
  sim relT (run_after fuel orc rand s) (v_run p fuel orc rand y0 v).
Proof.
  intros R Hy HH. unfold run_after, v_run. eapply sim_bind; [apply first_ref; eauto|].
  intros [s1 e] [v1 e'] (Ee & RB & Q & M). cbn [fst snd] in *. subst e'. destruct e as [r|].
  - split; [reflexivity|]. split; [auto|]. cbn. intros ->. congruence.
  - pose proof (loop_ref fuel orc rand s1 v1 M) as L.
    destruct (loop fuel orc rand d s1), (v_loop p fuel orc rand v1); simpl in *; auto. destruct L as [L1 L2].
    split; auto. split; [apply (rl_B _ _ (proj1 L2))|auto].
Qed.

End Refine.
