(** * MatlabQPFacts: the option structs of the QP solvers (proofs, no LCQPow code). *)
From Coq Require Import String.
From Verif Require Import Base Arith Codes Utilities Options Matlab MatlabQP SpecMatlabQP.
Local Open Scope string_scope.
Local Open Scope list_scope.
Local Open Scope Z_scope.

Section MatlabQPFacts.
Context {T : Type} `{Arith T}.
Variables dtoi conv : T -> res Z.

(** The conversion that belongs to a type.  No LCQPow code. *)
Definition conv_of (k : okind) : T -> res (ovalue T) :=
  match k with KNum => as_num | KInt => as_int conv | KRange lo hi => as_clamped conv lo hi | KString => as_num end.
(** A list of options, one after the other.  No LCQPow code. *)
Fixpoint all_options (p : mxArray T) (l : list (string * okind)) (r : settings T * list warning) : res (settings T * list warning) :=
  match l with
  | [] => Ok r
  | (n, k) :: l =>
      let! r := match k with KString => string_option p n r | _ => option_value p n (conv_of k) r end in
      all_options p l r
  end.

(** Ranges make sense.  No LCQPow code. *)
Definition ranges (l : list (string * okind)) : Prop := Forall (fun nk => match snd nk with KRange lo hi => lo <= hi | _ => True end) l.

Lemma conv_means k v x : k <> KString -> match k with KRange lo hi => lo <= hi | _ => True end -> means conv k v x -> conv_of k v = Ok x.
Proof.
  intros N R M. destruct k; cbn [means conv_of] in *; [subst; reflexivity|..|congruence].
  - destruct M as (z & E & ->). unfold as_int. rewrite E. reflexivity.
  - destruct M as (z & E & ->). unfold as_clamped. rewrite E. cbn [bind]. f_equal. f_equal.
    destruct (z <? lo) eqn:E1; [apply Z.ltb_lt in E1|apply Z.ltb_ge in E1].
    + destruct (hi <? lo) eqn:E2; [apply Z.ltb_lt in E2|apply Z.ltb_ge in E2]; lia.
    + destruct (hi <? z) eqn:E2; [apply Z.ltb_lt in E2|apply Z.ltb_ge in E2]; lia.
Qed.

Lemma means_fun k v x y : means conv k v x -> means conv k v y -> x = y.
Proof. destruct k; cbn [means]; [congruence|intros (z & E & ->) (z' & E' & ->); congruence..|tauto]. Qed.

(** One option *)
Lemma value_step (p : mxArray T) n k r : k <> KString -> match k with KRange lo hi => lo <= hi | _ => True end -> lacks p n \/ (exists v x, gives p n v /\ means conv k v x) ->
  exists s', option_value p n (conv_of k) r = Ok (s', snd r ++ remark p (n, k)) /\
    (forall m, m <> n -> s' m = fst r m) /\ (forall v, gives p n v -> means conv k v (s' n)) /\ ((forall v, ~ gives p n v) -> s' n = fst r n).
Proof.
  intros N R [L|(v & x & G & M)]; unfold option_value, hasOptionsValue, remark.
  - destruct (mxGetField p n) as [f|] eqn:E.
    + assert (E2 : (mxGetM f =? 1) && (mxGetN f =? 1) = false) by (destruct (L f E); lia). unfold mxIsScalar. rewrite E2, andb_false_r.
      exists (fst r). split; [destruct k; congruence || reflexivity|]. split; [reflexivity|]. split; [|reflexivity].
      intros v G. unfold gives in G. rewrite E in G. injection G as ->. discriminate.
    + exists (fst r). split; [reflexivity|]. split; [reflexivity|]. split; [|reflexivity]. intros v G. unfold gives in G. congruence.
  - pose proof G as E. unfold gives in E. rewrite E. cbn [mxIsEmpty mxIsScalar mxGetM mxGetN mxGetPr Z.eqb orb andb negb lift map].
    unfold rd. cbn. rewrite (conv_means k v x N R M). cbn [bind]. exists (assign n x (fst r)). split; [destruct k; try congruence; rewrite ?app_nil_r; reflexivity|].
    split; [|split].
    + intros m Hm. unfold assign. destruct (String.eqb_spec n m); congruence.
    + intros v' G'. unfold gives in G'. assert (v' = v) by congruence. subst v'. unfold assign. rewrite String.eqb_refl. exact M.
    + intros C. destruct (C v G).
Qed.

Lemma string_step (p : mxArray T) n r : string_option p n r = Ok (fst r, snd r ++ remark p (n, KString)).
Proof.
  unfold string_option, hasOptionsString, remark. destruct (mxGetField p n) as [f|]; [|reflexivity].
  destruct (negb (mxIsEmpty f) && match f with MxOther _ _ => true | _ => false end); reflexivity.
Qed.

Lemma options_ok (p : mxArray T) l : NoDup (map fst l) -> ranges l -> proper conv l p -> forall r,
  exists s', all_options p l r = Ok (s', snd r ++ concat (map (remark p) l)) /\
    (forall n k v, In (n, k) l -> k <> KString -> gives p n v -> means conv k v (s' n)) /\
    (forall n, (forall k v, ~ (In (n, k) l /\ k <> KString /\ gives p n v)) -> s' n = fst r n).
Proof.
  induction l as [|[n k] l IH]; intros D R P r.
  { exists (fst r). cbn. rewrite app_nil_r, <- surjective_pairing. split; [reflexivity|]. split; [intros ? ? ? []|reflexivity]. }
  inversion D as [|? ? D1 D2]; subst. inversion R as [|? ? R1 R2]; subst. cbn [snd] in R1.
  assert (P' : proper conv l p) by (intros m k' Hi; apply P; right; exact Hi).
  assert (NI : forall m k', In (m, k') l -> m <> n) by (intros m k' Hi ->; apply D1; apply (in_map fst) in Hi; exact Hi).
  assert (S : exists s1, match k with KString => string_option p n r | _ => option_value p n (conv_of k) r end = Ok (s1, snd r ++ remark p (n, k)) /\
    (forall m, m <> n -> s1 m = fst r m) /\ (k <> KString -> forall v, gives p n v -> means conv k v (s1 n)) /\ ((k <> KString -> forall v, ~ gives p n v) -> s1 n = fst r n)).
  { assert (K : k = KString \/ k <> KString) by (destruct k; [right; discriminate..|left; reflexivity]). destruct K as [->|K].
    - exists (fst r). split; [apply string_step|]. split; [reflexivity|]. split; [congruence|reflexivity].
    - destruct (value_step p n k r K R1 (P n k (or_introl eq_refl) K)) as (s1 & E & A & B & C). exists s1.
      split; [destruct k; congruence || exact E|]. split; [exact A|]. split; [intros _; exact B|intros G; apply C; apply (G K)]. }
  destruct S as (s1 & E & A & B & C). destruct (IH D2 R2 P' (s1, snd r ++ remark p (n, k))) as (s2 & E2 & A2 & B2).
  exists s2. cbn [all_options]. rewrite E. cbn [bind]. rewrite E2. cbn [snd map concat]. rewrite <- app_assoc. split; [reflexivity|]. cbn [fst] in B2.
  assert (Bn : s2 n = s1 n) by (apply B2; intros k' v (Hi & _); apply (NI n k' Hi); reflexivity).
  split.
  - intros m k' v [Q|Hi] Nk G; [|apply (A2 m k' v Hi Nk G)]. injection Q as <- <-. rewrite Bn. apply (B Nk v G).
  - intros m Hm. destruct (String.eqb_spec n m) as [<-|Nm].
    + rewrite Bn. apply C. intros Nk v G. apply (Hm k v). split; [left; reflexivity|]. auto.
    + rewrite B2 by (intros k' v (Hi & Q); apply (Hm k' v); split; [right; exact Hi|exact Q]). apply A. congruence.
Qed.
End MatlabQPFacts.

Section Both.
Context {T : Type} `{Arith T}.
Variables dtoi dtol : T -> res Z.

Lemma qpoases_nodup : NoDup (map fst qpoases_known) /\ NoDup (map fst osqp_known).
Proof. split; repeat (apply NoDup_cons; [cbn; intros C; repeat (destruct C as [C|C]; [discriminate|]); exact C|]); apply NoDup_nil. Qed.
Lemma known_ranges : ranges qpoases_known /\ ranges osqp_known.
Proof. split; repeat (apply Forall_cons; [cbn; try exact Logic.I; discriminate|]); apply Forall_nil. Qed.

Lemma obeys_of (conv : T -> res Z) known count s p r0 : NoDup (map fst known) -> ranges known -> proper conv known p ->
  r0 = all_options conv p known (s, if negb (mxGetNumberOfFields p =? count) then [WFields] else []) -> obeys conv known count s p r0.
Proof.
  intros D R P ->. destruct (options_ok conv p known D R P (s, if negb (mxGetNumberOfFields p =? count) then [WFields] else [])) as (s' & E & A & B).
  eexists s', _. split; [exact E|]. split; [exact A|]. split; [exact B|]. cbn [snd]. destruct (mxGetNumberOfFields p =? count); reflexivity.
Qed.

Lemma p_C71_qpoases s (p : mxArray T) : proper dtoi qpoases_known p -> obeys dtoi qpoases_known 31 s p (setupqpOASESOptions dtoi s p).
Proof. intros P. apply obeys_of; [apply qpoases_nodup|apply known_ranges|exact P|]. unfold setupqpOASESOptions, qpoases_known. cbn [all_options conv_of]. reflexivity. Qed.
Lemma p_C71_osqp s (p : mxArray T) : proper dtol osqp_known p -> obeys dtol osqp_known 22 s p (setupOSQPOptions dtol s p).
Proof. intros P. apply obeys_of; [apply qpoases_nodup|apply known_ranges|exact P|]. unfold setupOSQPOptions, osqp_known. cbn [all_options conv_of]. reflexivity. Qed.

Lemma p_C71_none lib (params : mxArray T) :
  (mxGetField params "qpOASES_options" = None -> paramsQPOASES dtoi lib params = Ok (defaultQPOASES lib, [])) /\
  (mxGetField params "OSQP_options" = None -> paramsOSQP dtol lib params = Ok (defaultOSQP lib, [])).
Proof. unfold paramsQPOASES, paramsOSQP. split; intros ->; reflexivity. Qed.

(** A scalar that is not a double *)
Lemma flag_ub (conv : T -> res Z) (p : mxArray T) n k b l : In (n, k) l -> k <> KString -> mxGetField p n = Some (MxLogical 1 1 b) ->
  forall r, exists u, all_options conv p l r = UB u.
Proof.
  intros Hi N E. induction l as [|[m k'] l IH]; intros r; [destruct Hi|]. cbn [all_options].
  destruct Hi as [Q|Hi].
  - injection Q as -> ->. assert (X : option_value p n (conv_of conv k) r = UB NullDeref) by (unfold option_value, hasOptionsValue; rewrite E; reflexivity).
    destruct k; rewrite ?X; [eexists; reflexivity..|congruence].
  - match goal with |- exists u, bind ?q _ = _ => destruct q as [r'|u]; cbn [bind] end; [apply (IH Hi)|eexists; reflexivity].
Qed.
Lemma p_C71_flag s (p : mxArray T) n k b : k <> KString -> mxGetField p n = Some (MxLogical 1 1 b) ->
  (In (n, k) qpoases_known -> exists u, setupqpOASESOptions dtoi s p = UB u) /\ (In (n, k) osqp_known -> exists u, setupOSQPOptions dtol s p = UB u).
Proof. intros N E. split; intros Hi; [exact (flag_ub dtoi p n k b _ Hi N E _)|exact (flag_ub dtol p n k b _ Hi N E _)]. Qed.

(** An empty struct *)
Lemma p_C71_reset lib : lib "printLevel" <> OInt 0 -> lib "verbose" <> OInt 0 ->
  (exists s w, paramsQPOASES dtoi lib (MxStruct [("qpOASES_options", MxStruct [])]) = Ok (s, w) /\ s "printLevel" <> defaultQPOASES lib "printLevel") /\
  (exists s w, paramsOSQP dtol lib (MxStruct [("OSQP_options", MxStruct [])]) = Ok (s, w) /\ s "verbose" <> defaultOSQP lib "verbose").
Proof.
  assert (L : forall n : string, lacks (MxStruct (@nil (string * mxArray T))) n) by (intros n f E; discriminate).
  intros A B. split.
  - destruct (p_C71_qpoases lib (MxStruct []) (fun n k _ _ => or_introl (L n))) as (s & w & E & _ & F & _). exists s, w. split; [exact E|].
    rewrite F; [exact A|]. intros k v (_ & _ & C). discriminate.
  - destruct (p_C71_osqp lib (MxStruct []) (fun n k _ _ => or_introl (L n))) as (s & w & E & _ & F & _). exists s, w. split; [exact E|].
    rewrite F; [exact B|]. intros k v (_ & _ & C). discriminate.
Qed.

Lemma p_C71_replaces lib (params field : mxArray T) :
  (mxGetField params "qpOASES_options" = Some field -> proper dtoi qpoases_known field -> obeys dtoi qpoases_known 31 lib field (paramsQPOASES dtoi lib params)) /\
  (mxGetField params "OSQP_options" = Some field -> proper dtol osqp_known field -> obeys dtol osqp_known 22 lib field (paramsOSQP dtol lib params)).
Proof. unfold paramsQPOASES, paramsOSQP. split; intros -> P; [apply p_C71_qpoases|apply p_C71_osqp]; exact P. Qed.
End Both.
