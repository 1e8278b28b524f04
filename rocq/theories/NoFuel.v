(** * NoFuel: no function of the model other than the main loop can report [OutOfFuel]. *)
From Verif Require Import Base Arith Codes Utilities Options Stats FileIO Subsolver State LCQProblem Tactics.

Section NF.
Context {T : Type} `{Arith T}.
Implicit Types (orc : oracle T) (d : pdata T) (o : lcqp T) (k : Z).

Ltac unf := intros; cbv beta zeta delta -[nofuel for_ forb bind rd wr alloc alloc_init deref get memcpy_all rd_list chk_int vrd].

Lemma nf_memcpy_ptr {X} (a : arr X) b n : nofuel (memcpy_ptr a b n).
Proof. unfold memcpy_ptr. nf. Qed.
Hint Resolve nf_memcpy_ptr : nf.

Lemma nf_rd_src (s : @src T) (o : arr T) i : nofuel (rd_src s o i).
Proof. unfold rd_src; nf. Qed.
Hint Resolve nf_rd_src : nf.
Lemma nf_csc_p (S : csc T) j : nofuel (csc_p S j).
Proof. unfold csc_p; nf. Qed.
Lemma nf_csc_i (S : csc T) j : nofuel (csc_i S j).
Proof. unfold csc_i; nf. Qed.
Lemma nf_csc_x (S : csc T) j : nofuel (csc_x S j).
Proof. unfold csc_x; nf. Qed.
Hint Resolve nf_csc_p nf_csc_i nf_csc_x : nf.
Lemma nf_for_col {St} (S : csc T) j (f : Z -> St -> res St) s : (forall i s, nofuel (f i s)) -> nofuel (for_col S j f s).
Proof. intros; unfold for_col; nf. Qed.

Ltac nf1 := repeat first [ nf_step | apply nf_for_col; intros ? ? ].

Lemma nf_MatrixMultiplication A B C m n p : nofuel (MatrixMultiplication A B C m n p).
Proof. unfold MatrixMultiplication; nf1. Qed.
Lemma nf_TransponsedMatrixMultiplication A B C m n p : nofuel (TransponsedMatrixMultiplication A B C m n p).
Proof. unfold TransponsedMatrixMultiplication; nf1. Qed.
Lemma nf_AddTransponsedMatrixMultiplication A B C m n p : nofuel (AddTransponsedMatrixMultiplication A B C m n p).
Proof. unfold AddTransponsedMatrixMultiplication; nf1. Qed.
Lemma nf_AffineLinearTransformation a A b c (d : arr T) m n : nofuel (AffineLinearTransformation a A b c d m n).
Proof. unfold AffineLinearTransformation; nf1. Qed.
Lemma nf_WeightedMatrixAdd a A b B C m n : nofuel (WeightedMatrixAdd a A b B C m n).
Proof. unfold WeightedMatrixAdd; nf1. Qed.
Lemma nf_WeightedVectorAdd a A b B C m : nofuel (WeightedVectorAdd a A b B C m).
Proof. apply nf_WeightedMatrixAdd. Qed.
Lemma nf_QuadraticFormProduct (Q : arr T) p m : nofuel (QuadraticFormProduct Q p m).
Proof. unfold QuadraticFormProduct; nf1. Qed.
Lemma nf_DotProduct a b m : nofuel (DotProduct a b m).
Proof. unfold DotProduct; nf1. Qed.
Lemma nf_MaxAbs a m : nofuel (MaxAbs a m).
Proof. unfold MaxAbs; nf1. Qed.
Lemma nf_copyCSC (M : option (csc T)) : nofuel (copyCSC M).
Proof. unfold copyCSC; nf1. Qed.
Lemma nf_copyCSC_upper (M : option (csc T)) : nofuel (copyCSC_upper M).
Proof. unfold copyCSC_upper; nf1. Qed.
Lemma nf_MatrixMultiplication_csc A b c : nofuel (MatrixMultiplication_csc A b c).
Proof. unfold MatrixMultiplication_csc; nf1. Qed.
Lemma nf_TransponsedMatrixMultiplication_csc A b c : nofuel (TransponsedMatrixMultiplication_csc A b c).
Proof. unfold TransponsedMatrixMultiplication_csc; nf1. Qed.
Lemma nf_AddTransponsedMatrixMultiplication_csc A b c : nofuel (AddTransponsedMatrixMultiplication_csc A b c).
Proof. unfold AddTransponsedMatrixMultiplication_csc; nf1. Qed.
Lemma nf_AffineLinearTransformation_csc a S b c (d : arr T) m : nofuel (AffineLinearTransformation_csc a S b c d m).
Proof. unfold AffineLinearTransformation_csc; nf1. Qed.
Lemma nf_QuadraticFormProduct_csc S p m : nofuel (QuadraticFormProduct_csc S p m).
Proof. unfold QuadraticFormProduct_csc; nf1. Qed.
Hint Resolve nf_MatrixMultiplication nf_TransponsedMatrixMultiplication nf_AddTransponsedMatrixMultiplication
  nf_AffineLinearTransformation nf_WeightedMatrixAdd nf_WeightedVectorAdd nf_QuadraticFormProduct nf_DotProduct
  nf_MaxAbs nf_copyCSC nf_copyCSC_upper nf_MatrixMultiplication_csc nf_TransponsedMatrixMultiplication_csc
  nf_AddTransponsedMatrixMultiplication_csc nf_AffineLinearTransformation_csc nf_QuadraticFormProduct_csc : nf.

Lemma nf_copy_csc_qpoases a b (M : csc T) : nofuel (copy_csc_qpoases a b M).
Proof. unfold copy_csc_qpoases; nf1. Qed.
Hint Resolve nf_copy_csc_qpoases : nf.
Lemma nf_Subsolver_dense a b (Q A : ptr T) : nofuel (Subsolver_dense a b Q A).
Proof. unfold Subsolver_dense; nf1. Qed.
Lemma nf_Subsolver_sparse a b (Q A : option (csc T)) q : nofuel (Subsolver_sparse a b Q A q).
Proof. unfold Subsolver_sparse; nf1. Qed.
Lemma nf_rd_mats (s : subsolver T) : nofuel (rd_mats s).
Proof. unfold rd_mats, rd_csc; nf1. Qed.
Lemma nf_rd_opt (p : ptr T) n : nofuel (rd_opt p n).
Proof. unfold rd_opt; nf1. Qed.
Lemma nf_rd_vec (p : ptr T) n : nofuel (rd_vec p n).
Proof. unfold rd_vec; nf1. Qed.
Hint Resolve nf_Subsolver_dense nf_Subsolver_sparse nf_rd_mats nf_rd_opt nf_rd_vec : nf.
Lemma nf_sub_solve orc (s : subsolver T) c w i (g : ptr T) lbA ubA x0 y0 lb ub : nofuel (sub_solve orc s c w i g lbA ubA x0 y0 lb ub).
Proof. unfold sub_solve, solve_OSQP, solve_qpOASES; destruct sub_qpSolver; nf1. Qed.
Lemma nf_sub_getSolution (s : subsolver T) a (x y : ptr T) : nofuel (sub_getSolution s a x y).
Proof. unfold sub_getSolution; nf1. Qed.
Hint Resolve nf_sub_solve nf_sub_getSolution : nf.

Lemma nf_fill_loop (d : arr T) (v : T) n : nofuel (fill_loop d v n).
Proof. unfold fill_loop; nf1. Qed.
Hint Resolve nf_fill_loop : nf.
Lemma nf_setLB (p:ptr T) o : nofuel (setLB p o).
Proof. unfold setLB, box_vec; nf1. Qed.
Lemma nf_setUB (p:ptr T) o : nofuel (setUB p o).
Proof. unfold setUB, box_vec; nf1. Qed.
Hint Resolve nf_setLB nf_setUB : nf.
Lemma nf_and_then_quiet r (k : lcqp T -> _) : nofuel r -> (forall o, nofuel (k o)) -> nofuel (and_then_quiet r k).
Proof. intros; unfold and_then_quiet; nf1; auto. Qed.
Lemma nf_init_subsolver o : nofuel (init_subsolver o).
Proof.
  unfold init_subsolver; nf1; repeat (apply nf_and_then_quiet; [nf1|intros]; nf1).
Qed.
Lemma nf_init_phi a b d : nofuel (init_phi a b d).
Proof. unfold init_phi; nf1. Qed.
Hint Resolve nf_init_subsolver nf_init_phi : nf.
Lemma nf_initializeSolver o : nofuel (initializeSolver o).
Proof. unfold initializeSolver; apply nf_and_then_quiet; [nf1|intros]. nf1. Qed.

Lemma nf_updateLinearization d s : nofuel (updateLinearization d s).
Proof. unfold updateLinearization; nf1. Qed.
Lemma nf_updateSubproblemIter k (s : stats T) : nofuel (updateSubproblemIter k s).
Proof. unfold updateSubproblemIter; nf1. Qed.
Lemma nf_updateIterOuter k (s : stats T) : nofuel (updateIterOuter k s).
Proof. unfold updateIterOuter; nf1. Qed.
Lemma nf_updateIterTotal k (s : stats T) : nofuel (updateIterTotal k s).
Proof. unfold updateIterTotal; nf1. Qed.
Hint Resolve nf_updateLinearization nf_updateSubproblemIter nf_updateIterOuter nf_updateIterTotal : nf.
Lemma nf_solveQPSubproblem orc d b s : nofuel (solveQPSubproblem orc d b s).
Proof. unfold solveQPSubproblem; nf1. Qed.
Lemma nf_stationarityCheck d s : nofuel (stationarityCheck d s).
Proof. unfold stationarityCheck; nf1. Qed.
Lemma nf_getObj d s : nofuel (getObj d s).
Proof. unfold getObj; nf1. Qed.
Lemma nf_getPhi d s : nofuel (getPhi d s).
Proof. unfold getPhi; nf1. Qed.
Lemma nf_getMerit d s : nofuel (getMerit d s).
Proof. unfold getMerit; nf1. Qed.
Hint Resolve nf_solveQPSubproblem nf_stationarityCheck nf_getObj nf_getPhi nf_getMerit : nf.
Lemma nf_complementarityCheck d s : nofuel (complementarityCheck d s).
Proof. unfold complementarityCheck; nf1. Qed.
Hint Resolve nf_complementarityCheck : nf.

(** The merge loop of setQk always has enough fuel. *)
Lemma nf_merge_col fuel (Q C : csc T) rho j pQ pC : forall iQ iC st,
  (Z.to_nat (pQ - iQ) + Z.to_nat (pC - iC) <= fuel)%nat ->
  nofuel (merge_col fuel Q C rho j pQ pC iQ iC st).
Proof.
  induction fuel; intros iQ iC st Hf; simpl.
  - destruct ((iQ <? pQ) || (iC <? pC)) eqn:E; [|unfold nofuel; discriminate].
    apply orb_true_iff in E. rewrite !Z.ltb_lt in E. lia.
  - destruct ((iQ <? pQ) || (iC <? pC)) eqn:E; [|unfold nofuel; discriminate].
    apply orb_true_iff in E. rewrite !Z.ltb_lt in E.
    destruct st as [[[data row] p] idx]. nf1.
    all: try (apply IHfuel; try match goal with H : (_ && _)%bool = true |- _ => apply andb_true_iff in H end;
              rewrite ?Z.ltb_lt, ?Z.leb_le in *; try lia).
    all: repeat match goal with
         | H : (_ && _)%bool = false |- _ => apply andb_false_iff in H
         end; rewrite ?Z.ltb_ge, ?Z.leb_gt in *; lia.
Qed.
Lemma nf_setQk d s : nofuel (setQk d s).
Proof. unfold setQk, setQk_sparse; nf1. apply nf_merge_col; lia. Qed.
Lemma nf_updateQk d s : nofuel (updateQk d s).
Proof. unfold updateQk; nf1. Qed.
Hint Resolve nf_setQk nf_updateQk : nf.
Lemma nf_updatePenalty d s : nofuel (updatePenalty d s).
Proof. unfold updatePenalty; nf1. Qed.
Lemma nf_getOptimalStepLength d s : nofuel (getOptimalStepLength d s).
Proof. unfold getOptimalStepLength; nf1. Qed.
Lemma nf_updateStep d s : nofuel (updateStep d s).
Proof. unfold updateStep; nf1. Qed.
Lemma nf_updateStationarity d s : nofuel (updateStationarity d s).
Proof. unfold updateStationarity; nf1. Qed.
Lemma nf_leyffer d s : nofuel (leyfferCheckPositive d s).
Proof. unfold leyfferCheckPositive; nf1. Qed.
Lemma nf_updateOuterIter (s : iter T) : nofuel (updateOuterIter s).
Proof. unfold updateOuterIter; nf1. Qed.
Lemma nf_updateTotalIter (s : iter T) : nofuel (updateTotalIter s).
Proof. unfold updateTotalIter; nf1. Qed.
Lemma nf_perturbStep r d s : nofuel (perturbStep r d s).
Proof. unfold perturbStep; nf1. Qed.
Lemma nf_storeSteps d s : nofuel (storeSteps d s).
Proof. unfold storeSteps, updateTrackingVectors; nf1. Qed.
Hint Resolve nf_updatePenalty nf_getOptimalStepLength nf_updateStep nf_updateStationarity nf_leyffer nf_updateOuterIter
  nf_updateTotalIter nf_perturbStep nf_storeSteps : nf.
Lemma nf_transformDuals d s : nofuel (transformDuals d s).
Proof. unfold transformDuals, transform_part; nf1. Qed.
Lemma nf_getWeak d s : nofuel (getWeakComplementarities d s).
Proof. unfold getWeakComplementarities; nf1. Qed.
Lemma nf_classify (tol : T) a b (y : arr T) w : forall s m, nofuel (classify tol a b y w s m).
Proof. induction w; intros; cbn [classify]; nf1; apply IHw. Qed.
Hint Resolve nf_transformDuals nf_getWeak nf_classify : nf.
Lemma nf_determine d s : nofuel (determineStationarityType d s).
Proof. unfold determineStationarityType; nf1. Qed.
Lemma nf_printIteration d s : nofuel (printIteration d s).
Proof. unfold printIteration; nf1. Qed.
Lemma nf_penaltyStep d s : nofuel (penaltyStep d s).
Proof. unfold penaltyStep; nf1. Qed.
Hint Resolve nf_determine nf_printIteration nf_penaltyStep : nf.
Lemma nf_pass_head d s : nofuel (pass_head d s).
Proof. unfold pass_head; nf1. Qed.
Lemma nf_finish d s : nofuel (finish d s).
Proof. unfold finish; nf1. Qed.
Lemma nf_pass_tail orc r d s : nofuel (pass_tail orc r d s).
Proof. unfold pass_tail; nf1. Qed.
Hint Resolve nf_pass_head nf_finish nf_pass_tail : nf.
Lemma nf_pass orc r d s : nofuel (pass orc r d s).
Proof. unfold pass; nf1. Qed.
Lemma nf_first_solve orc d s : nofuel (first_solve orc d s).
Proof. unfold first_solve; nf1. Qed.

End NF.
#[export] Hint Resolve nf_initializeSolver nf_pass nf_first_solve : nf.
