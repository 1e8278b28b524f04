(** * LCQProblem: model of src/LCQProblem.cpp and include/LCQProblem.ipp. *)
From Verif Require Import Base Arith Codes Utilities Options Stats FileIO Subsolver State.

Section LCQP.
Context {T : Type} `{Arith T}.

(** The literal -1 passed as a double *)
Definition a_mone : T := (- a_one)%num.
(** The literal 2.0 *)
Definition a_two : T := a_of_Z 2.

(** Console output (printf), newest first *)
Definition logI (e : print_event T) (s : iter T) : iter T := set_log (e :: s_log s) s.
(** The same on the whole object. *)
Definition logL (e : print_event T) (o : lcqp T) : lcqp T := mkLcqp (pd o) (logI e (it o)).

(** [return MessageHandler::PrintMessage( ret, ERROR )], src/MessageHandler.cpp:26-211 (returns its argument) *)
Definition fail_msg (r : ReturnValue) (o : lcqp T) : res (ReturnValue * lcqp T) := Ok (r, logL (EvMessage r) o).

(** Default constructor, src/LCQProblem.cpp:40, with the member initialisers of include/LCQProblem.hpp:462-532 *)
Definition pdata0 : pdata T :=
  mkPdata setToDefault None None None None None None None None None None None None None None None None None
    None None None None None a_zero false None None None None None None.
(** Members written by a run, as constructed, include/LCQProblem.hpp:462-532; the three counters are uninitialised there and are always assigned in initializeSolver before being read *)
Definition iter0 : iter T :=
  mkIter a_zero None None None None None None None a_zero None None None None None 0 0 0 None None None
    None [] [] stats_reset false [] O [].
(** The object after the default constructor, src/LCQProblem.cpp:40 *)
Definition LCQProblem_default : lcqp T := mkLcqp pdata0 iter0.

(** Constructor, src/LCQProblem.cpp:43-79; on invalid arguments nothing is assigned *)
Definition LCQProblem_ctor (nV nC nComp : Z) : res (lcqp T) :=
  if nV <=? 0 then Ok (logL (EvMessage INVALID_NUMBER_OF_OPTIM_VARS) LCQProblem_default) else
  if nComp <=? 0 then Ok (logL (EvMessage INVALID_NUMBER_OF_OPTIM_VARS) LCQProblem_default) else
  if nC <? 0 then Ok (logL (EvMessage INVALID_NUMBER_OF_CONSTRAINT_VARS) LCQProblem_default) else
  let d := set_d_nComp (Some nComp) (set_d_nC (Some nC) (set_d_nV (Some nV) pdata0)) in
  let! Qk := alloc_init (nV * nV) a_zero in
  let! gk := alloc_init nV a_zero in
  let! xnew := alloc_init nV a_zero in
  let! yk_A := alloc_init (nC + 2 * nComp) a_zero in
  let! pk := alloc_init nV a_zero in
  let! statk := alloc_init nV a_zero in
  let! constr_statk := alloc_init nV a_zero in
  let! box_statk := alloc_init nV a_zero in
  let! lk_tmp := alloc_init nV a_zero in
  let s := set_Qk (Some Qk) (set_gk (Some gk) (set_xnew (Some xnew) (set_yk_A (Some yk_A) (set_pk (Some pk)
           (set_statk (Some statk) (set_constr_statk (Some constr_statk) (set_box_statk (Some box_statk)
           (set_lk_tmp (Some lk_tmp) iter0)))))))) in
  Ok (mkLcqp d s).

(** [setOptions], include/LCQProblem.ipp:161-164 *)
Definition setOptions (opt : options T) (o : lcqp T) : lcqp T :=
  mkLcqp (set_d_options (copyOptions opt) (pd o)) (it o).

(** ** Loading (src/LCQProblem.cpp:87-441) *)

(** [setQ] (dense), include/LCQProblem.ipp:27-36 *)
Definition setQ (Q_new : ptr T) (o : lcqp T) : res (ReturnValue * lcqp T) :=
  let! nV := get (d_nV (pd o)) in
  if nV <=? 0 then Ok (LCQPOBJECT_NOT_SETUP, o) else
  let! Q := alloc (nV * nV) in
  let! Q := memcpy_ptr Q Q_new (nV * nV) in
  Ok (SUCCESSFUL_RETURN, mkLcqp (set_d_Q (Some Q) (pd o)) (it o)).

(** [setG], include/LCQProblem.ipp:39-51 *)
Definition setG (g_new : ptr T) (o : lcqp T) : res (ReturnValue * lcqp T) :=
  let! nV := get (d_nV (pd o)) in
  if nV =? 0 then Ok (LCQPOBJECT_NOT_SETUP, o) else
  if isNull g_new then Ok (INVALID_OBJECTIVE_LINEAR_TERM, o) else
  let! g := alloc nV in
  let! g := memcpy_ptr g g_new nV in
  Ok (SUCCESSFUL_RETURN, mkLcqp (set_d_g (Some g) (pd o)) (it o)).

(** Copy of the box bounds to lb_tmp / ub_tmp, src/LCQProblem.cpp:113-121, 314-324, 428-436 *)
Definition copy_box (lb ub : ptr T) (o : lcqp T) : res (lcqp T) :=
  let! nV := get (d_nV (pd o)) in
  let! o :=
    if notNull lb then
      let! t := alloc nV in
      let! t := memcpy_ptr t lb nV in
      Ok (mkLcqp (set_d_lb_tmp (Some t) (pd o)) (it o))
    else Ok o in
  if notNull ub then
    let! t := alloc nV in
    let! t := memcpy_ptr t ub nV in
    Ok (mkLcqp (set_d_ub_tmp (Some t) (pd o)) (it o))
  else Ok o.

(** Loop [for i < n: dst[off + i] = src[i]] (src dereferenced in the loop body) *)
Definition copy_loop (dst : arr T) (off : Z) (src : ptr T) (n : Z) : res (arr T) :=
  for_ 0 n (fun i dst => let! a := deref src in let! v := rd a i in wr dst (off + i) v) dst.

(** Loop [for i < n: dst[i] = v] *)
Definition fill_loop (dst : arr T) (v : T) (n : Z) : res (arr T) :=
  for_ 0 n (fun i dst => wr dst i v) dst.

(** First nC entries of the constraint bounds, src/LCQProblem.cpp:585-608 and 691-714 *)
Definition init_bounds (nC n : Z) (b_new : ptr T) (dflt : T) : res (arr T) :=
  let! b := alloc n in
  if notNull b_new then copy_loop b 0 b_new nC else fill_loop b dflt nC.

(** [setConstraints] (dense), src/LCQProblem.cpp:563-626 *)
Definition setConstraints (L_new R_new A_new lbA_new ubA_new : ptr T) (o : lcqp T) : res (ReturnValue * lcqp T) :=
  let! nV := get (d_nV (pd o)) in
  let! nC := get (d_nC (pd o)) in
  let! nComp := get (d_nComp (pd o)) in
  if (nV =? 0) || (nComp =? 0) then Ok (LCQPOBJECT_NOT_SETUP, o) else
  if isNull A_new && (0 <? nC) then Ok (INVALID_CONSTRAINT_MATRIX, o) else
  let! A := alloc ((nC + 2 * nComp) * nV) in
  let! A := copy_loop A 0 A_new (nC * nV) in
  let! A := copy_loop A (nC * nV) L_new (nComp * nV) in
  let! A := copy_loop A (nC * nV + nComp * nV) R_new (nComp * nV) in
  let o := mkLcqp (set_d_A (Some A) (pd o)) (it o) in
  let! lbA := init_bounds nC (nC + 2 * nComp) lbA_new a_ninf in
  let! ubA := init_bounds nC (nC + 2 * nComp) ubA_new a_pinf in
  let o := mkLcqp (set_d_ubA (Some ubA) (set_d_lbA (Some lbA) (pd o))) (it o) in
  if isNull L_new || isNull R_new then Ok (INVALID_COMPLEMENTARITY_MATRIX, o) else
  let! L := alloc (nComp * nV) in
  let! R := alloc (nComp * nV) in
  let! L := copy_loop L 0 L_new (nComp * nV) in
  let! R := copy_loop R 0 R_new (nComp * nV) in
  let! C := alloc (nV * nV) in
  let! C := MatrixSymmetrizationProduct L R C nComp nV in
  Ok (SUCCESSFUL_RETURN, mkLcqp (set_d_C (Some C) (set_d_R (Some R) (set_d_L (Some L) (pd o)))) (it o)).

(** One of the three inner loops of the csc [setConstraints]: append column [i] of [M] with row offset [off],
    src/LCQProblem.cpp:662-667, 671-676, 679-684 *)
Definition append_col (M : csc T) (i off : Z) (st : arr T * arr Z * arr Z * Z) : res (arr T * arr Z * arr Z * Z) :=
  for_col M i (fun j '(data, rows, p, idx) =>
    let! x := csc_x M j in
    let! data := wr data idx x in
    let! r := csc_i M j in
    let! r := chk_int (off + r) in
    let! rows := wr rows idx r in
    let! q := rd p (i + 1) in
    let! p := wr p (i + 1) (q + 1) in
    Ok (data, rows, p, idx + 1)) st.

(** [setConstraints] (csc), src/LCQProblem.cpp:629-723 *)
Definition setConstraints_csc (L_new R_new A_new : option (csc T)) (lbA_new ubA_new : ptr T) (o : lcqp T)
    : res (ReturnValue * lcqp T) :=
  let! L := copyCSC L_new in
  let! R := copyCSC R_new in
  let! nV := get (d_nV (pd o)) in
  let! nC := get (d_nC (pd o)) in
  let! nComp := get (d_nComp (pd o)) in
  let! pL := csc_p L nV in
  let! pR := csc_p R nV in
  let! pA :=
    match A_new with
    | Some A => match c_p A with Some _ => csc_p A nV | None => Ok 0 end
    | None => Ok 0
    end in
  let! nnx := chk_int (pL + pR + pA) in
  let! data := alloc nnx in
  let! rows := alloc nnx in
  let! p := alloc (nV + 1) in
  let! p := wr p 0 0 in
  let! '(data, rows, p, _) :=
    for_ 0 nV (fun i '(data, rows, p, idx) =>
      let! pi := rd p i in
      let! p := wr p (i + 1) pi in
      let! st := match A_new with Some A => append_col A i 0 (data, rows, p, idx) | None => Ok (data, rows, p, idx) end in
      let! st := append_col L i nC st in
      append_col R i (nC + nComp) st) (data, rows, p, 0) in
  let A := createCSC (nC + 2 * nComp) nV nnx data rows p in
  let! lbA := init_bounds nC (nC + 2 * nComp) lbA_new a_ninf in
  let! ubA := init_bounds nC (nC + 2 * nComp) ubA_new a_pinf in
  let! C := MatrixSymmetrizationProduct_csc L R in
  let d := set_d_C_sparse C (set_d_ubA (Some ubA) (set_d_lbA (Some lbA)
             (set_d_A_sparse (Some A) (set_d_R_sparse (Some R) (set_d_L_sparse (Some L) (pd o)))))) in
  Ok (if isNull C then FAILED_SYM_COMPLEMENTARITY_MATRIX else SUCCESSFUL_RETURN, mkLcqp d (it o)).

(** One of the two loops of [setComplementarityBounds], src/LCQProblem.cpp:745-762 and 765-782: [off] is the row offset,
    (lbX, ubX) the member arrays; leaves early at a lower bound of -infinity. *)
Definition compl_bound_loop (off nComp : Z) (lb_new ub_new : ptr T) (st : ptr T * ptr T * ptr T * ptr T)
    : res ((ptr T * ptr T * ptr T * ptr T) + (ptr T * ptr T * ptr T * ptr T)) :=
  forb 0 nComp (fun i '(lbX, ubX, lbA, ubA) =>
    let! o :=
      match lb_new with
      | Some l =>
          let! v := rd l i in
          if a_le v a_ninf then Ok (inr (lbX, ubX, lbA, ubA)) else
          let! x := deref lbX in
          let! x := wr x i v in
          let! a := deref lbA in
          let! a := wr a (off + i) v in
          Ok (inl (Some x, Some a))
      | None =>
          let! a := deref lbA in
          let! a := wr a (off + i) a_zero in
          Ok (inl (lbX, Some a))
      end in
    match o with
    | inr e => Ok (inr e)
    | inl (lbX, lbA) =>
        match ub_new with
        | Some u =>
            let! v := rd u i in
            let! x := deref ubX in
            let! x := wr x i v in
            let! a := deref ubA in
            let! a := wr a (off + i) v in
            Ok (inl (lbX, Some x, lbA, Some a))
        | None =>
            let! a := deref ubA in
            let! a := wr a (off + i) a_pinf in
            Ok (inl (lbX, ubX, lbA, Some a))
        end
    end) st.

(** [setComplementarityBounds], src/LCQProblem.cpp:726-785 *)
Definition setComplementarityBounds (lbL_new ubL_new lbR_new ubR_new : ptr T) (o : lcqp T)
    : res (ReturnValue * lcqp T) :=
  let! nC := get (d_nC (pd o)) in
  let! nComp := get (d_nComp (pd o)) in
  let new_if (b : ptr T) (old : ptr T) : res (ptr T) :=
    if notNull b then let! a := alloc nComp in Ok (Some a) else Ok old in
  let! lbL := new_if lbL_new (d_lbL (pd o)) in
  let! ubL := new_if ubL_new (d_ubL (pd o)) in
  let! lbR := new_if lbR_new (d_lbR (pd o)) in
  let! ubR := new_if ubR_new (d_ubR (pd o)) in
  let upd_ lbL ubL lbR ubR lbA ubA :=
    mkLcqp (set_d_ubA ubA (set_d_lbA lbA (set_d_ubR ubR (set_d_lbR lbR (set_d_ubL ubL (set_d_lbL lbL (pd o))))))) (it o) in
  let! r1 := compl_bound_loop nC nComp lbL_new ubL_new (lbL, ubL, d_lbA (pd o), d_ubA (pd o)) in
  match r1 with
  | inr (lbL, ubL, lbA, ubA) => Ok (INVALID_LOWER_COMPLEMENTARITY_BOUND, upd_ lbL ubL lbR ubR lbA ubA)
  | inl (lbL, ubL, lbA, ubA) =>
      let! r2 := compl_bound_loop (nC + nComp) nComp lbR_new ubR_new (lbR, ubR, lbA, ubA) in
      match r2 with
      | inr (lbR, ubR, lbA, ubA) => Ok (INVALID_LOWER_COMPLEMENTARITY_BOUND, upd_ lbL ubL lbR ubR lbA ubA)
      | inl (lbR, ubR, lbA, ubA) => Ok (SUCCESSFUL_RETURN, upd_ lbL ubL lbR ubR lbA ubA)
      end
  end.

(** [setInitialGuess], include/LCQProblem.ipp:133-158 *)
Definition setInitialGuess (x0 y0 : ptr T) (o : lcqp T) : res (ReturnValue * lcqp T) :=
  let! nV := get (d_nV (pd o)) in
  let! nC := get (d_nC (pd o)) in
  let! nComp := get (d_nComp (pd o)) in
  if (nV =? 0) || (nComp =? 0) then Ok (LCQPOBJECT_NOT_SETUP, o) else
  let! xk := alloc_init nV a_zero in
  let! xk := if notNull x0 then memcpy_ptr xk x0 nV else Ok xk in
  let! yk :=
    if notNull y0 then
      let! yk := alloc (nV + nC + 2 * nComp) in
      let! yk := copy_loop yk 0 y0 (nV + nC + 2 * nComp) in
      Ok (Some yk)
    else Ok None in
  Ok (SUCCESSFUL_RETURN, mkLcqp (pd o) (set_yk yk (set_xk (Some xk) (it o)))).

(** Sequencing of setup steps: a failing step is reported and returned, src/LCQProblem.cpp:103-104 etc. *)
Definition and_then (r : res (ReturnValue * lcqp T)) (k : lcqp T -> res (ReturnValue * lcqp T))
    : res (ReturnValue * lcqp T) :=
  let! '(ret, o) := r in
  if is_success ret then k o else fail_msg ret o.

(** [loadLCQP] (dense arrays), src/LCQProblem.cpp:87-144 *)
Definition loadLCQP (Q g L R lbL ubL lbR ubR A lbA ubA lb ub x0 y0 : ptr T) (o : lcqp T)
    : res (ReturnValue * lcqp T) :=
  let! nV := get (d_nV (pd o)) in
  if nV <=? 0 then fail_msg LCQPOBJECT_NOT_SETUP o else
  let! nComp := get (d_nComp (pd o)) in
  if nComp <=? 0 then fail_msg LCQPOBJECT_NOT_SETUP o else
  and_then (setQ Q o) (fun o =>
  and_then (setG g o) (fun o =>
  let! o := copy_box lb ub o in
  and_then (setConstraints L R A lbA ubA o) (fun o =>
  and_then (setComplementarityBounds lbL ubL lbR ubR o) (fun o =>
  and_then (setInitialGuess x0 y0 o) (fun o =>
  Ok (SUCCESSFUL_RETURN, mkLcqp (set_d_sparseSolver false (pd o)) (it o))))))).

(** [setQ] (csc), src/LCQProblem.cpp:788-796 *)
Definition setQ_csc (Q_new : option (csc T)) (o : lcqp T) : res (ReturnValue * lcqp T) :=
  let! nV := get (d_nV (pd o)) in
  if nV <=? 0 then Ok (LCQPOBJECT_NOT_SETUP, o) else
  let! Q := copyCSC Q_new in
  Ok (SUCCESSFUL_RETURN, mkLcqp (set_d_Q_sparse (Some Q) (pd o)) (it o)).

(** [loadLCQP] (csc), src/LCQProblem.cpp:390-441 *)
Definition loadLCQP_csc (Q : option (csc T)) (g : ptr T) (L R : option (csc T)) (lbL ubL lbR ubR : ptr T)
    (A : option (csc T)) (lbA ubA lb ub x0 y0 : ptr T) (o : lcqp T) : res (ReturnValue * lcqp T) :=
  and_then (setQ_csc Q o) (fun o =>
  and_then (setG g o) (fun o =>
  and_then (setConstraints_csc L R A lbA ubA o) (fun o =>
  and_then (setComplementarityBounds lbL ubL lbR ubR o) (fun o =>
  and_then (setInitialGuess x0 y0 o) (fun o =>
  let! o := copy_box lb ub o in
  Ok (SUCCESSFUL_RETURN, mkLcqp (set_d_sparseSolver true (pd o)) (it o))))))).

(** The contents of a file as [fopen]/[fscanf] deliver it; the outer option is the file name pointer *)
Definition file : Type := option (list (token T)).

(** Reading a mandatory data file into a fresh array, src/LCQProblem.cpp:158-184 *)
Definition read_file (n : Z) (f : file) (o : lcqp T) (k : ptr T -> res (ReturnValue * lcqp T))
    : res (ReturnValue * lcqp T) :=
  let! a := alloc n in
  let! '(ret, a) := readFromFile a n f in
  if is_success ret then k (Some a) else fail_msg ret o.

(** Reading an optional data file, src/LCQProblem.cpp:186-297; [None] is a NULL file name *)
Definition read_opt_file (n : Z) (f : option file) (o : lcqp T) (k : ptr T -> res (ReturnValue * lcqp T))
    : res (ReturnValue * lcqp T) :=
  match f with
  | None => k None
  | Some f => read_file n f o k
  end.

(** [loadLCQP] (files), src/LCQProblem.cpp:147-387 *)
Definition loadLCQP_files (Q g L R : file) (lbL ubL lbR ubR A lbA ubA lb ub x0 y0 : option file) (o : lcqp T)
    : res (ReturnValue * lcqp T) :=
  let! nV := get (d_nV (pd o)) in
  let! nC := get (d_nC (pd o)) in
  let! nComp := get (d_nComp (pd o)) in
  read_file (nV * nV) Q o (fun Q =>
  read_file nV g o (fun g =>
  read_file (nComp * nV) L o (fun L =>
  read_file (nComp * nV) R o (fun R =>
  read_opt_file nComp lbL o (fun lbL =>
  read_opt_file nComp ubL o (fun ubL =>
  read_opt_file nComp lbR o (fun lbR =>
  read_opt_file nComp ubR o (fun ubR =>
  read_opt_file (nC * nV) A o (fun A =>
  read_opt_file nC lbA o (fun lbA =>
  read_opt_file nC ubA o (fun ubA =>
  read_opt_file nV lb o (fun lb =>
  read_opt_file nV ub o (fun ub =>
  read_opt_file nV x0 o (fun x0 =>
  read_opt_file (nC + 2 * nComp) y0 o (fun y0 =>
  and_then (setQ Q o) (fun o =>
  and_then (setG g o) (fun o =>
  let! o := copy_box lb ub o in
  and_then (setConstraints L R A lbA ubA o) (fun o =>
  and_then (setComplementarityBounds lbL ubL lbR ubR o) (fun o =>
  and_then (setInitialGuess x0 y0 o) (fun o =>
  Ok (SUCCESSFUL_RETURN, mkLcqp (set_d_sparseSolver false (pd o)) (it o)))))))))))))))))))))).

(** ** Mode switches *)

(** [switchToSparseMode], src/LCQProblem.cpp:1037-1068 ([dns_to_csc] never returns NULL) *)
Definition switchToSparseMode (o : lcqp T) : res (ReturnValue * lcqp T) :=
  let d := pd o in
  if d_sparseSolver d then Ok (SUCCESSFUL_RETURN, o) else
  let! nV := get (d_nV d) in
  let! Qs := dns_to_csc (d_Q d) nV nV in
  let! nC := get (d_nC d) in
  let! nComp := get (d_nComp d) in
  let! As := dns_to_csc (d_A d) (nC + 2 * nComp) nV in
  let! Ls := dns_to_csc (d_L d) nComp nV in
  let! Rs := dns_to_csc (d_R d) nComp nV in
  let! Cs := dns_to_csc (d_C d) nV nV in
  let d := set_d_C_sparse (Some Cs) (set_d_R_sparse (Some Rs) (set_d_L_sparse (Some Ls)
             (set_d_A_sparse (Some As) (set_d_Q_sparse (Some Qs) d)))) in
  let d := set_d_C None (set_d_R None (set_d_L None (set_d_A None (set_d_Q None d)))) in
  Ok (SUCCESSFUL_RETURN, mkLcqp (set_d_sparseSolver true d) (it o)).

(** [switchToDenseMode], src/LCQProblem.cpp:1071-1102 *)
Definition switchToDenseMode (o : lcqp T) : res (ReturnValue * lcqp T) :=
  let d := pd o in
  if negb (d_sparseSolver d) then Ok (SUCCESSFUL_RETURN, o) else
  let! Q := csc_to_dns (d_Q_sparse d) in
  let! A := csc_to_dns (d_A_sparse d) in
  let! L := csc_to_dns (d_L_sparse d) in
  let! R := csc_to_dns (d_R_sparse d) in
  let! C := csc_to_dns (d_C_sparse d) in
  let d := set_d_C C (set_d_R R (set_d_L L (set_d_A A (set_d_Q Q d)))) in
  if isNull Q || isNull A || isNull L || isNull R || isNull C then Ok (FAILED_SWITCH_TO_DENSE, mkLcqp d (it o)) else
  let d := set_d_C_sparse None (set_d_R_sparse None (set_d_L_sparse None
             (set_d_A_sparse None (set_d_Q_sparse None d)))) in
  Ok (SUCCESSFUL_RETURN, mkLcqp (set_d_sparseSolver false d) (it o)).

(** ** Initialisation of a run *)

(** [setLB] / [setUB] (vectors), include/LCQProblem.ipp:54-73 and 93-112 *)
Definition box_vec (nV : Z) (b_new : ptr T) (dflt : T) : res (arr T) :=
  let! b := alloc nV in
  if notNull b_new then memcpy_ptr b b_new nV else fill_loop b dflt nV.

(** setLB( const double* ), include/LCQProblem.ipp:54-73 *)
Definition setLB (lb_new : ptr T) (o : lcqp T) : res (ReturnValue * lcqp T) :=
  let! nV := get (d_nV (pd o)) in
  if nV =? 0 then Ok (LCQPOBJECT_NOT_SETUP, o) else
  let! b := box_vec nV lb_new a_ninf in
  Ok (SUCCESSFUL_RETURN, mkLcqp (set_d_lb (Some b) (pd o)) (it o)).

(** setUB( const double* ), include/LCQProblem.ipp:93-112 *)
Definition setUB (ub_new : ptr T) (o : lcqp T) : res (ReturnValue * lcqp T) :=
  let! nV := get (d_nV (pd o)) in
  if nV =? 0 then Ok (LCQPOBJECT_NOT_SETUP, o) else
  let! b := box_vec nV ub_new a_pinf in
  Ok (SUCCESSFUL_RETURN, mkLcqp (set_d_ub (Some b) (pd o)) (it o)).

(** [setLB(int,double)], include/LCQProblem.ipp:76-90 (not called by the library) *)
Definition setLB_at (number : Z) (value : T) (o : lcqp T) : res (ReturnValue * lcqp T) :=
  let! nV := get (d_nV (pd o)) in
  if nV =? 0 then Ok (LCQPOBJECT_NOT_SETUP, o) else
  if (0 <=? number) && (number <? nV) then
    let! b := deref (d_lb (pd o)) in
    let! b := wr b number value in
    Ok (SUCCESSFUL_RETURN, mkLcqp (set_d_lb (Some b) (pd o)) (it o))
  else Ok (INDEX_OUT_OF_BOUNDS, o).

(** [setUB(int,double)], include/LCQProblem.ipp:115-130 (not called by the library) *)
Definition setUB_at (number : Z) (value : T) (o : lcqp T) : res (ReturnValue * lcqp T) :=
  let! nV := get (d_nV (pd o)) in
  if nV =? 0 then Ok (LCQPOBJECT_NOT_SETUP, o) else
  if (0 <=? number) && (number <? nV) then
    let! b := deref (d_ub (pd o)) in
    let! b := wr b number value in
    Ok (SUCCESSFUL_RETURN, mkLcqp (set_d_ub (Some b) (pd o)) (it o))
  else Ok (INDEX_OUT_OF_BOUNDS, o).

(** Sequencing inside initializeSolver: a failing step is returned without message, src/LCQProblem.cpp:898-899 *)
Definition and_then_quiet (r : res (ReturnValue * lcqp T)) (k : lcqp T -> res (ReturnValue * lcqp T))
    : res (ReturnValue * lcqp T) :=
  let! '(ret, o) := r in
  if is_success ret then k o else Ok (ret, o).

(** Solver-dependent first part of [initializeSolver], src/LCQProblem.cpp:887-963.  The fourth branch
    (NOT_YET_IMPLEMENTED) is unreachable: the enumeration has three values. *)
Definition init_subsolver (o : lcqp T) : res (ReturnValue * lcqp T) :=
  let d := pd o in
  match o_qpSolver (d_options d) with
  | OSQP_SPARSE =>
      if notNull (d_lb d) || notNull (d_ub d) then Ok (INVALID_OSQP_BOX_CONSTRAINTS, o) else
      let! nV := get (d_nV d) in
      let! nC := get (d_nC d) in
      let! nComp := get (d_nComp d) in
      let nDuals := nC + 2 * nComp in
      let d := set_d_boxDualOffset (Some 0) (set_d_nDuals (Some nDuals) d) in
      let! yk :=
        match s_yk (it o) with
        | None => Ok None
        | Some yk =>
            let! tmp := alloc nDuals in
            let! tmp := for_ 0 nDuals (fun i tmp => let! v := rd yk (nV + i) in wr tmp i v) tmp in
            let! y := alloc nDuals in
            (* memcpy(yk, yk_tmp, nDuals): nDuals BYTES; a partially copied double is indeterminate *)
            let! y := memcpy_all y tmp (nDuals / 8) in
            Ok (Some y)
        end in
      let o := mkLcqp d (set_yk yk (it o)) in
      if negb (d_sparseSolver d) then Ok (DENSE_SPARSE_MISSMATCH, o) else
      if notNull (d_lb_tmp d) || notNull (d_ub_tmp d) then Ok (INVALID_OSQP_BOX_CONSTRAINTS, o) else
      let! sub := Subsolver_sparse nV nDuals (d_Q_sparse d) (d_A_sparse d) OSQP_SPARSE in
      Ok (SUCCESSFUL_RETURN, mkLcqp (set_d_subsolver (Some sub) (pd o)) (it o))
  | solver =>
      let! nV := get (d_nV d) in
      let! nC := get (d_nC d) in
      let! nComp := get (d_nComp d) in
      let d := set_d_boxDualOffset (Some nV) (set_d_nDuals (Some (nV + nC + 2 * nComp)) d) in
      let o := mkLcqp d (it o) in
      if (match solver with QPOASES_DENSE => d_sparseSolver d | _ => negb (d_sparseSolver d) end)
      then Ok (DENSE_SPARSE_MISSMATCH, o) else
      and_then_quiet (setLB (d_lb_tmp d) o) (fun o =>
      and_then_quiet (setUB (d_ub_tmp (pd o)) o) (fun o =>
      let! sub :=
        match solver with
        | QPOASES_DENSE => Subsolver_dense nV (nC + 2 * nComp) (d_Q (pd o)) (d_A (pd o))
        | _ => Subsolver_sparse nV (nC + 2 * nComp) (d_Q_sparse (pd o)) (d_A_sparse (pd o)) solver
        end in
      Ok (SUCCESSFUL_RETURN, mkLcqp (set_d_subsolver (Some sub) (pd o)) (it o))))
  end.

(** phi_const and g_phi, src/LCQProblem.cpp:969-996 *)
Definition init_phi (nV nComp : Z) (d : pdata T) : res (pdata T) :=
  if notNull (d_lbL d) || notNull (d_lbR d) then
    let! pc :=
      for_ 0 nComp (fun i ret =>
        let! a := deref (d_lbL d) in let! x := rd a i in
        let! b := deref (d_lbR d) in let! y := rd b i in
        Ok (ret + x * y)%num) a_zero in
    let! gp := alloc_init nV a_zero in
    let! gp :=
      match d_lbL d with
      | None => Ok gp
      | Some lbL =>
          if d_sparseSolver d then
            let! Rs := deref (d_R_sparse d) in AddTransponsedMatrixMultiplication_csc Rs lbL gp
          else
            let! R := deref (d_R d) in AddTransponsedMatrixMultiplication R lbL gp nComp nV 1
      end in
    let! gp :=
      match d_lbR d with
      | None => Ok gp
      | Some lbR =>
          if d_sparseSolver d then
            let! Ls := deref (d_L_sparse d) in AddTransponsedMatrixMultiplication_csc Ls lbR gp
          else
            let! L := deref (d_L d) in AddTransponsedMatrixMultiplication L lbR gp nComp nV 1
      end in
    let! gp := for_ 0 nV (fun i gp => let! v := rd gp i in wr gp i (- v)%num) gp in
    Ok (set_d_g_phi (Some gp) (set_d_phi_const pc d))
  else Ok d.

(** [initializeSolver], src/LCQProblem.cpp:885-1034 (srand: the random stream is arbitrary anyway) *)
Definition initializeSolver (o : lcqp T) : res (ReturnValue * lcqp T) :=
  and_then_quiet (init_subsolver o) (fun o =>
  let d := pd o in
  let! nV := get (d_nV d) in
  let! nComp := get (d_nComp d) in
  let! gt := alloc nV in
  let! gt := memcpy_ptr gt (d_g d) nV in
  let! d := init_phi nV nComp d in
  let opt := d_options d in
  let s := set_algoStat (Some PROBLEM_NOT_SOLVED) (set_totalIter 0 (set_innerIter 0 (set_outerIter 0
             (set_rho (o_initialPenaltyParameter opt) (set_alphak a_one (set_g_tilde (Some gt) (it o))))))) in
  let s := set_stats stats_reset s in
  let d := set_d_ub_tmp None (set_d_lb_tmp None d) in
  let s := match o_printLevel opt with PL_NONE => s | _ => logI EvNewline s end in
  Ok (SUCCESSFUL_RETURN, mkLcqp d s)).

(** ** The parts of one pass of the solver loop; [d] is constant in the loop *)

(** [updateLinearization], src/LCQProblem.cpp:1105-1112 *)
Definition updateLinearization (d : pdata T) (s : iter T) : res (iter T) :=
  let! nV := get (d_nV d) in
  let! x := deref (s_xk s) in
  let! gt := deref (s_g_tilde s) in
  let! gk := deref (s_gk s) in
  let! gk :=
    if d_sparseSolver d then
      let! C := deref (d_C_sparse d) in AffineLinearTransformation_csc (s_rho s) C x gt gk nV
    else
      let! C := deref (d_C d) in AffineLinearTransformation (s_rho s) C x gt gk nV nV in
  Ok (set_gk (Some gk) s).

(** What [Subsolver::solve] leaves in qpIterk, qpSolverExitFlag (reference parameters) and the environment,
    src/LCQProblem.cpp:1118 *)
Definition sqp_record (r : sub_result T) (s : iter T) : iter T :=
  let s := set_calls (sr_calls r) (set_work (sr_work r) s) in
  let s := match sr_iter r with Some k => set_qpIterk (Some k) s | None => s end in
  match sr_flag r with Some k => set_qpSolverExitFlag (Some k) s | None => s end.

(** [solveQPSubproblem], src/LCQProblem.cpp:1115-1148 *)
Definition solveQPSubproblem (orc : oracle T) (d : pdata T) (initialSolve : bool) (s : iter T)
    : res (ReturnValue * iter T) :=
  let! sub := get (d_subsolver d) in
  let! r := sub_solve orc sub (s_calls s) (s_work s) initialSolve (s_gk s) (d_lbA d) (d_ubA d) (s_xk s) (s_yk s)
              (d_lb d) (d_ub d) in
  let s := sqp_record r s in
  let! k := get (s_qpIterk s) in
  let! '(_, st) := updateSubproblemIter k (s_stats s) in
  let! f := get (s_qpSolverExitFlag s) in
  let s := set_stats (updateQPSolverExitFlag f st) s in
  let! nV := get (d_nV d) in
  let! nDuals := get (d_nDuals d) in
  let! s := match s_xk s with
            | None => let! a := alloc nV in Ok (set_xk (Some a) s)
            | Some _ => Ok s
            end in
  let! s := match s_yk s with
            | None => let! a := alloc nDuals in Ok (set_yk (Some a) s)
            | Some _ => Ok s
            end in
  if negb (is_success (sr_ret r)) then Ok (sr_ret r, s) else
  let! raw := get (sr_raw r) in
  let! '(xnew, yk) := sub_getSolution sub raw (s_xnew s) (s_yk s) in
  let s := set_yk yk (set_xnew xnew s) in
  let! nC := get (d_nC d) in
  let! nComp := get (d_nComp d) in
  let! off := get (d_boxDualOffset d) in
  let! ykA := deref (s_yk_A s) in
  let! y := deref (s_yk s) in
  let! ykA := for_ 0 (nC + 2 * nComp) (fun i a => let! v := rd y (off + i) in wr a i v) ykA in
  let s := set_yk_A (Some ykA) s in
  let! xn := deref (s_xnew s) in
  let! x := deref (s_xk s) in
  let! pk := deref (s_pk s) in
  let! pk := WeightedVectorAdd a_one (Ext xn) a_mone (Ext x) pk nV in
  Ok (SUCCESSFUL_RETURN, set_pk (Some pk) s).

(** [stationarityCheck], src/LCQProblem.cpp:1151-1153 *)
Definition stationarityCheck (d : pdata T) (s : iter T) : res bool :=
  let! nV := get (d_nV d) in
  let! a := deref (s_statk s) in
  let! m := MaxAbs a nV in
  Ok (a_lt m (o_stationarityTolerance (d_options d))).

(** [getObj], src/LCQProblem.cpp:1161-1169 *)
Definition getObj (d : pdata T) (s : iter T) : res T :=
  let! nV := get (d_nV d) in
  let! g := deref (d_g d) in
  let! x := deref (s_xk s) in
  let! lin := DotProduct g x nV in
  let! q :=
    if d_sparseSolver d then let! Q := deref (d_Q_sparse d) in QuadraticFormProduct_csc Q x nV
    else let! Q := deref (d_Q d) in QuadraticFormProduct Q x nV in
  Ok (lin + q / a_two)%num.

(** [getPhi], src/LCQProblem.cpp:1172-1185 *)
Definition getPhi (d : pdata T) (s : iter T) : res T :=
  let! nV := get (d_nV d) in
  let! x := deref (s_xk s) in
  let! lin :=
    match d_g_phi d with
    | None => Ok a_zero
    | Some gp => let! v := DotProduct gp x nV in Ok (a_zero + v)%num
    end in
  let! q :=
    if d_sparseSolver d then let! C := deref (d_C_sparse d) in QuadraticFormProduct_csc C x nV
    else let! C := deref (d_C d) in QuadraticFormProduct C x nV in
  Ok ((d_phi_const d + lin) + q / a_two)%num.

(** [complementarityCheck], src/LCQProblem.cpp:1156-1158 *)
Definition complementarityCheck (d : pdata T) (s : iter T) : res bool :=
  let! phi := getPhi d s in
  Ok (a_lt phi (o_complementarityTolerance (d_options d))).

(** [getMerit], src/LCQProblem.cpp:1188-1196 *)
Definition getMerit (d : pdata T) (s : iter T) : res T :=
  let! nV := get (d_nV d) in
  let! g := deref (d_g d) in
  let! x := deref (s_xk s) in
  let! lin := DotProduct g x nV in
  let! q :=
    if d_sparseSolver d then let! Q := deref (s_Qk_sparse s) in QuadraticFormProduct_csc Q x nV
    else let! Q := deref (s_Qk s) in QuadraticFormProduct Q x nV in
  Ok (lin + q / a_two)%num.

(** Body of the while loop of [setQk]: the merge of column [j] of Q and rho*C, src/LCQProblem.cpp:814-863.
    Each turn advances idx_Q or idx_C, so the number of remaining entries bounds the turns. *)
Fixpoint merge_col (fuel : nat) (Q C : csc T) (rho : T) (j pQ pC idxQ idxC : Z)
    (st : list T * list Z * arr Z * list Z) : res (list T * list Z * arr Z * list Z) :=
  if (idxQ <? pQ) || (idxC <? pC) then
    match fuel with
    | O => UB OutOfFuel
    | S fuel =>
        let '(data, row, p, idx) := st in
        let! cnt := rd p (j + 1) in
        let takeQ :=
          let! x := csc_x Q idxQ in
          let! r := csc_i Q idxQ in
          let! p := wr p (j + 1) (cnt + 1) in
          merge_col fuel Q C rho j pQ pC (idxQ + 1) idxC (data ++ [x], row ++ [r], p, idx) in
        let takeC :=
          let! x := csc_x C idxC in
          let! r := csc_i C idxC in
          let! p := wr p (j + 1) (cnt + 1) in
          merge_col fuel Q C rho j pQ pC idxQ (idxC + 1) (data ++ [(rho * x)%num], row ++ [r], p, idx ++ [cnt]) in
        if (idxQ <? pQ) && (pC <=? idxC) then takeQ else
        if (pQ <=? idxQ) && (idxC <? pC) then takeC else
        let! rQ := csc_i Q idxQ in
        let! rC := csc_i C idxC in
        if rQ <? rC then takeQ else
        if rC <? rQ then takeC else
        let! xQ := csc_x Q idxQ in
        let! xC := csc_x C idxC in
        let! p := wr p (j + 1) (cnt + 1) in
        merge_col fuel Q C rho j pQ pC (idxQ + 1) (idxC + 1)
          (data ++ [(xQ + rho * xC)%num], row ++ [rQ], p, idx ++ [cnt])
    end
  else Ok st.

(** Sparse branch of [setQk], src/LCQProblem.cpp:801-878; Qk_indices_of_C is appended to, not cleared *)
Definition setQk_sparse (nV : Z) (Q C : csc T) (rho : T) (idx0 : list Z) : res (csc T * list Z) :=
  let! p := alloc (nV + 1) in
  let! p := wr p 0 0 in
  let! '(data, row, p, idx) :=
    for_ 0 nV (fun j '(data, row, p, idx) =>
      let! pj := rd p j in
      let! p := wr p (j + 1) pj in
      let! iQ := csc_p Q j in
      let! iC := csc_p C j in
      let! pQ := csc_p Q (j + 1) in
      let! pC := csc_p C (j + 1) in
      merge_col (Z.to_nat (pQ - iQ) + Z.to_nat (pC - iC)) Q C rho j pQ pC iQ iC (data, row, p, idx))
      ([], [], p, idx0) in
  let! nnx := chk_int (Z.of_nat (length data)) in
  let! cx := alloc nnx in
  let! ci := alloc nnx in
  let! '(cx, ci) :=
    for_ 0 nnx (fun k '(cx, ci) =>
      let! v := vrd data k in
      let! cx := wr cx k v in
      let! r := vrd row k in
      let! ci := wr ci k r in
      Ok (cx, ci)) (cx, ci) in
  Ok (createCSC nV nV nnx cx ci p, idx).

(** [setQk], src/LCQProblem.cpp:799-882 *)
Definition setQk (d : pdata T) (s : iter T) : res (iter T) :=
  let! nV := get (d_nV d) in
  if d_sparseSolver d then
    let! Q := deref (d_Q_sparse d) in
    let! C := deref (d_C_sparse d) in
    let! '(M, idx) := setQk_sparse nV Q C (s_rho s) (s_Qk_indices_of_C s) in
    Ok (set_Qk_indices_of_C idx (set_Qk_sparse (Some M) s))
  else
    let! Q := deref (d_Q d) in
    let! C := deref (d_C d) in
    let! Qk := deref (s_Qk s) in
    let! Qk := WeightedMatrixAdd a_one (Ext Q) (s_rho s) (Ext C) Qk nV nV in
    Ok (set_Qk (Some Qk) s).

(** [updateQk], src/LCQProblem.cpp:1316-1326 *)
Definition updateQk (d : pdata T) (s : iter T) : res (iter T) :=
  if d_sparseSolver d then
    let factor := (s_rho s * (a_one - a_one / o_penaltyUpdateFactor (d_options d)))%num in
    let idx := s_Qk_indices_of_C s in
    let! M := deref (s_Qk_sparse s) in
    let! C := deref (d_C_sparse d) in
    let! x := deref (c_x M) in
    let! x :=
      for_ 0 (Z.of_nat (length idx)) (fun j x =>
        let! k := vrd idx j in
        let! v := rd x k in
        let! c := csc_x C j in
        wr x k (v + factor * c)%num) x in
    Ok (set_Qk_sparse (Some (mkCsc (c_m M) (c_n M) (c_p M) (c_i M) (Some x) (c_nzmax M))) s)
  else
    let! nV := get (d_nV d) in
    let! Q := deref (d_Q d) in
    let! C := deref (d_C d) in
    let! Qk := deref (s_Qk s) in
    let! Qk := WeightedMatrixAdd a_one (Ext Q) (s_rho s) (Ext C) Qk nV nV in
    Ok (set_Qk (Some Qk) s).

(** [updatePenalty], src/LCQProblem.cpp:1199-1214 *)
Definition updatePenalty (d : pdata T) (s : iter T) : res (iter T) :=
  let opt := d_options d in
  let s := if 0 <? o_nDynamicPenalty opt then set_complHistory [] s else s in
  let s := set_rho (s_rho s * o_penaltyUpdateFactor opt)%num s in
  let s := set_stats (snd (updateRhoOpt (s_rho s) (s_stats s))) s in
  let! s := updateQk d s in
  match d_g_phi d with
  | None => Ok s
  | Some gp =>
      let! nV := get (d_nV d) in
      let! g := deref (d_g d) in
      let! gt := deref (s_g_tilde s) in
      let! gt := WeightedVectorAdd a_one (Ext g) (s_rho s) (Ext gp) gt nV in
      Ok (set_g_tilde (Some gt) s)
  end.

(** [getOptimalStepLength], src/LCQProblem.cpp:1217-1237 *)
Definition getOptimalStepLength (d : pdata T) (s : iter T) : res (iter T) :=
  let! nV := get (d_nV d) in
  let! pk := deref (s_pk s) in
  let! x := deref (s_xk s) in
  let! gt := deref (s_g_tilde s) in
  let! lkt := deref (s_lk_tmp s) in
  let! '(qk, lkt) :=
    if d_sparseSolver d then
      let! M := deref (s_Qk_sparse s) in
      let! qk := QuadraticFormProduct_csc M pk nV in
      let! lkt := AffineLinearTransformation_csc a_one M x gt lkt nV in
      Ok (qk, lkt)
    else
      let! M := deref (s_Qk s) in
      let! qk := QuadraticFormProduct M pk nV in
      let! lkt := AffineLinearTransformation a_one M x gt lkt nV nV in
      Ok (qk, lkt) in
  let! lk := DotProduct pk lkt nV in
  let alpha :=
    if a_lt a_zero qk && a_lt lk a_zero then std_min ((- lk) / qk)%num a_one else a_one in
  Ok (set_alphak alpha (set_lk_tmp (Some lkt) s)).

(** [updateStep], src/LCQProblem.cpp:1240-1243 *)
Definition updateStep (d : pdata T) (s : iter T) : res (iter T) :=
  let! nV := get (d_nV d) in
  let! pk := deref (s_pk s) in
  let! x := deref (s_xk s) in
  let! x := WeightedVectorAdd a_one Same (s_alphak s) (Ext pk) x nV in
  Ok (set_xk (Some x) s).

(** [updateStationarity], src/LCQProblem.cpp:1246-1272 *)
Definition updateStationarity (d : pdata T) (s : iter T) : res (iter T) :=
  let! nV := get (d_nV d) in
  let! x := deref (s_xk s) in
  let! gt := deref (s_g_tilde s) in
  let! statk := deref (s_statk s) in
  let! statk :=
    if d_sparseSolver d then
      let! M := deref (s_Qk_sparse s) in AffineLinearTransformation_csc a_one M x gt statk nV
    else
      let! M := deref (s_Qk s) in AffineLinearTransformation a_one M x gt statk nV nV in
  let! ykA := deref (s_yk_A s) in
  let! cs := deref (s_constr_statk s) in
  let! cs :=
    if d_sparseSolver d then
      let! A := deref (d_A_sparse d) in TransponsedMatrixMultiplication_csc A ykA cs
    else
      let! nC := get (d_nC d) in
      let! nComp := get (d_nComp d) in
      let! A := deref (d_A d) in TransponsedMatrixMultiplication A ykA cs (nC + 2 * nComp) nV 1 in
  let! statk := WeightedVectorAdd a_one Same a_mone (Ext cs) statk nV in
  let s := set_constr_statk (Some cs) s in
  if notNull (d_lb d) || notNull (d_ub d) then
    let! bs := deref (s_box_statk s) in
    let! yk := deref (s_yk s) in
    let! bs := for_ 0 nV (fun i bs => let! v := rd yk i in wr bs i v) bs in
    let! statk := WeightedVectorAdd a_one Same a_mone (Ext bs) statk nV in
    Ok (set_statk (Some statk) (set_box_statk (Some bs) s))
  else
    Ok (set_statk (Some statk) s).

(** Conversion int -> size_t (64 bit), src/LCQProblem.cpp:1277 *)
Definition to_size_t (z : Z) : Z := z mod 2 ^ 64.

(** [leyfferCheckPositive], src/LCQProblem.cpp:1275-1313 *)
Definition leyfferCheckPositive (d : pdata T) (s : iter T) : res (bool * iter T) :=
  let opt := d_options d in
  let n := to_size_t (o_nDynamicPenalty opt) in
  if n <=? 0 then Ok (false, s) else
  let! complCur := getPhi d s in
  let h := s_complHistory s in
  if Z.of_nat (length h) <? n then Ok (false, set_complHistory (h ++ [complCur]) s) else
  let! cc := complementarityCheck d s in
  let s' := set_complHistory (tl h ++ [complCur]) s in
  if cc then Ok (false, s') else
  let! o :=
    forb 0 n (fun i (_ : unit) =>
      let! hi := vrd h i in
      if a_lt complCur (o_etaDynamicPenalty opt * hi)%num then Ok (inr tt) else Ok (inl tt)) tt in
  Ok (match o with inl _ => true | inr _ => false end, s').

(** [updateOuterIter], src/LCQProblem.cpp:1329-1332 *)
Definition updateOuterIter (s : iter T) : res (iter T) :=
  let! n := chk_int (s_outerIter s + 1) in
  let! '(_, st) := updateIterOuter 1 (s_stats s) in
  Ok (set_stats st (set_outerIter n s)).

(** [updateTotalIter], src/LCQProblem.cpp:1335-1338 *)
Definition updateTotalIter (s : iter T) : res (iter T) :=
  let! n := chk_int (s_totalIter s + 1) in
  let! '(_, st) := updateIterTotal 1 (s_stats s) in
  Ok (set_stats st (set_totalIter n s)).

(** [perturbGradient], src/LCQProblem.cpp:1341-1350 (not called by the library) *)
Definition perturbGradient (rand : nat -> Z) (d : pdata T) (s : iter T) : res (iter T) :=
  let! nV := get (d_nV d) in
  let! gk := deref (s_gk s) in
  let! '(gk, pos) :=
    for_ 0 nV (fun i '(gk, pos) =>
      let randNum := rand pos mod 3 - 1 in
      let! v := rd gk i in
      let! gk := wr gk i (v + a_of_Z randNum * EPS)%num in
      Ok (gk, S pos)) (gk, s_rnd s) in
  Ok (set_rnd pos (set_gk (Some gk) s)).

(** [perturbStep], src/LCQProblem.cpp:1353-1362; [rand k] is the k-th value returned by rand() *)
Definition perturbStep (rand : nat -> Z) (d : pdata T) (s : iter T) : res (iter T) :=
  let! nV := get (d_nV d) in
  let! x := deref (s_xk s) in
  let! '(x, pos) :=
    for_ 0 nV (fun i '(x, pos) =>
      let randNum := rand pos mod 3 - 1 in
      let! v := rd x i in
      let! x := wr x i (v + a_of_Z randNum * EPS)%num in
      Ok (x, S pos)) (x, s_rnd s) in
  Ok (set_rnd pos (set_xk (Some x) s)).

(** [storeSteps], src/LCQProblem.cpp:1365-1378 *)
Definition storeSteps (d : pdata T) (s : iter T) : res (iter T) :=
  let! nV := get (d_nV d) in
  let! k := get (s_qpIterk s) in
  let! pk := deref (s_pk s) in
  let! np := MaxAbs pk nV in
  let! statk := deref (s_statk s) in
  let! ns := MaxAbs statk nV in
  let! obj := getObj d s in
  let! phi := getPhi d s in
  let! merit := getMerit d s in
  let! st := updateTrackingVectors (s_xk s) (s_innerIter s) k (s_alphak s) np ns obj phi merit nV (s_stats s) in
  Ok (set_stats st s).

(** One half of [transformDuals]: tmp = M*xk; yk[off + i] -= rho*tmp[i], src/LCQProblem.cpp:1385-1394 / 1396-1405 *)
Definition transform_part (d : pdata T) (M : ptr T) (Ms : option (csc T)) (off : Z) (tmp : arr T) (s : iter T)
    : res (arr T * iter T) :=
  let! nV := get (d_nV d) in
  let! nComp := get (d_nComp d) in
  let! x := deref (s_xk s) in
  let! tmp :=
    if d_sparseSolver d then let! M := deref Ms in MatrixMultiplication_csc M x tmp
    else let! M := deref M in MatrixMultiplication M x tmp nComp nV 1 in
  let! yk := deref (s_yk s) in
  let! yk :=
    for_ 0 nComp (fun i yk =>
      let! y := rd yk (off + i) in
      let! t := rd tmp i in
      wr yk (off + i) (y - s_rho s * t)%num) yk in
  Ok (tmp, set_yk (Some yk) s).

(** [transformDuals], src/LCQProblem.cpp:1381-1409 *)
Definition transformDuals (d : pdata T) (s : iter T) : res (iter T) :=
  let! nC := get (d_nC d) in
  let! nComp := get (d_nComp d) in
  let! off := get (d_boxDualOffset d) in
  let! tmp := alloc nComp in
  let! '(tmp, s) := transform_part d (d_R d) (d_R_sparse d) (off + nC) tmp s in
  let! '(_, s) := transform_part d (d_L d) (d_L_sparse d) (off + nC + nComp) tmp s in
  Ok s.

(** [getWeakComplementarities], src/LCQProblem.cpp:1456-1482 *)
Definition getWeakComplementarities (d : pdata T) (s : iter T) : res (list Z) :=
  let! nV := get (d_nV d) in
  let! nComp := get (d_nComp d) in
  let! Lx := alloc nComp in
  let! Rx := alloc nComp in
  let! x := deref (s_xk s) in
  let! '(Lx, Rx) :=
    if d_sparseSolver d then
      let! L := deref (d_L_sparse d) in
      let! Lx := MatrixMultiplication_csc L x Lx in
      let! R := deref (d_R_sparse d) in
      let! Rx := MatrixMultiplication_csc R x Rx in
      Ok (Lx, Rx)
    else
      let! L := deref (d_L d) in
      let! Lx := MatrixMultiplication L x Lx nComp nV 1 in
      let! R := deref (d_R d) in
      let! Rx := MatrixMultiplication R x Rx nComp nV 1 in
      Ok (Lx, Rx) in
  let tol := o_complementarityTolerance (d_options d) in
  for_ 0 nComp (fun i acc =>
    let! l := rd Lx i in
    if a_le l tol then
      let! r := rd Rx i in
      if a_le r tol then Ok (acc ++ [i]) else Ok acc
    else Ok acc) [].

(** The loop of [determineStationarityType] over the weak complementarities, src/LCQProblem.cpp:1416-1452 *)
Fixpoint classify (tol : T) (nC nComp : Z) (ykA : arr T) (w : list Z) (s_st m_st : bool) : res AlgorithmStatus :=
  match w with
  | [] => Ok (if s_st then S_STATIONARY_SOLUTION else if m_st then M_STATIONARY_SOLUTION else C_STATIONARY_SOLUTION)
  | i :: w =>
      let! a := rd ykA (nC + i) in
      let! b := rd ykA (nC + nComp + i) in
      let dualProd := (a * b)%num in
      let dualMin := std_min a b in
      let s_st := if a_lt dualMin a_zero then false else s_st in
      if a_le tol (a_abs dualProd) && a_le dualMin a_zero then
        if a_le dualProd tol then Ok W_STATIONARY_SOLUTION
        else classify tol nC nComp ykA w s_st false
      else classify tol nC nComp ykA w s_st m_st
  end.

(** [determineStationarityType], src/LCQProblem.cpp:1412-1453 *)
Definition determineStationarityType (d : pdata T) (s : iter T) : res (iter T) :=
  let! w := getWeakComplementarities d s in
  let! nC := get (d_nC d) in
  let! nComp := get (d_nComp d) in
  let! ykA := deref (s_yk_A s) in
  let! a := classify (o_complementarityTolerance (d_options d)) nC nComp ykA w true true in
  Ok (set_algoStat (Some a) s).

(** [printIteration], src/LCQProblem.cpp:1528-1576; one event per line of text *)
Definition printIteration (d : pdata T) (s : iter T) : res (iter T) :=
  match o_printLevel (d_options d) with
  | PL_NONE => Ok s
  | lvl =>
      let inner := match lvl with INNER_LOOP_ITERATES => true | _ => false end in
      if negb inner && (0 <? s_innerIter s) then Ok s else
      let header := if inner then s_innerIter s mod 10 =? 0 else s_outerIter s mod 10 =? 0 in
      let s := if header then logI EvHeader s else s in
      let! nV := get (d_nV d) in
      let! statk := deref (s_statk s) in
      let! stat := MaxAbs statk nV in
      let! phi := getPhi d s in
      let! pk := deref (s_pk s) in
      let! step := MaxAbs pk nV in
      let! more := if inner then let! k := get (s_qpIterk s) in Ok (Some (s_innerIter s, s_alphak s, k)) else Ok None in
      Ok (logI (EvIter (s_outerIter s) stat phi (s_rho s) step more) s)
  end.

(** Penalty update with its counters, src/LCQProblem.cpp:500-504 and 528-532 *)
Definition penaltyStep (d : pdata T) (s : iter T) : res (iter T) :=
  let! s := updatePenalty d s in
  let! s := updateOuterIter s in
  Ok (set_innerIter 0 s).

(** First part of a pass, src/LCQProblem.cpp:479-508: step, stationarity, printing, storing, counters, Leyffer strategy,
    linearisation *)
Definition pass_head (d : pdata T) (s : iter T) : res (iter T) :=
  let! s := updateStep d s in
  let! s := updateStationarity d s in
  let! s := printIteration d s in
  let! s := if o_storeSteps (d_options d) then storeSteps d s else Ok s in
  let! s := updateTotalIter s in
  let! n := chk_int (s_innerIter s + 1) in
  let s := set_innerIter n s in
  let! '(b, s) := leyfferCheckPositive d s in
  let! s := if b then penaltyStep d s else Ok s in
  updateLinearization d s.

(** Successful exit, src/LCQProblem.cpp:514-526 *)
Definition finish (d : pdata T) (s : iter T) : res (iter T) :=
  let! s := transformDuals d s in
  let! s := determineStationarityType d s in
  let! a := get (s_algoStat s) in
  let s := set_stats (updateSolutionStatus a (s_stats s)) s in
  Ok (match o_printLevel (d_options d) with PL_NONE => s | _ => logI (EvSolution a) s end).

(** Last part of a pass, src/LCQProblem.cpp:537-558; [Some r]: the run ends with return value [r] *)
Definition pass_tail (orc : oracle T) (rand : nat -> Z) (d : pdata T) (s : iter T)
    : res (iter T * option ReturnValue) :=
  let opt := d_options d in
  if o_maxIterations opt <? s_totalIter s then Ok (s, Some MAX_ITERATIONS_REACHED) else
  if a_lt (o_maxPenaltyParameter opt) (s_rho s) then Ok (s, Some MAX_PENALTY_REACHED) else
  let! s := updateLinearization d s in
  let! '(r, s) := solveQPSubproblem orc d false s in
  if negb (is_success r) then Ok (logI (EvMessage r) s, Some r) else
  let! s := if o_perturbStep opt then perturbStep rand d s else Ok s in
  let! s := getOptimalStepLength d s in
  Ok (s, None).

(** One pass of the loop, src/LCQProblem.cpp:476-559 *)
Definition pass (orc : oracle T) (rand : nat -> Z) (d : pdata T) (s : iter T) : res (iter T * option ReturnValue) :=
  let! s := pass_head d s in
  let! st := stationarityCheck d s in
  if st then
    let! cc := complementarityCheck d s in
    if cc then
      let! s := finish d s in
      Ok (s, Some SUCCESSFUL_RETURN)
    else
      let! s := penaltyStep d s in
      pass_tail orc rand d s
  else pass_tail orc rand d s.

(** The [while (true)] loop, src/LCQProblem.cpp:476, on fuel *)
Fixpoint loop (fuel : nat) (orc : oracle T) (rand : nat -> Z) (d : pdata T) (s : iter T) : res (ReturnValue * iter T) :=
  match fuel with
  | O => UB OutOfFuel
  | S fuel =>
      let! '(s, e) := pass orc rand d s in
      match e with
      | Some r => Ok (r, s)
      | None => loop fuel orc rand d s
      end
  end.

(** First QP and setup before the loop, src/LCQProblem.cpp:451-473; [Some r]: failed *)
Definition first_solve (orc : oracle T) (d : pdata T) (s : iter T) : res (iter T * option ReturnValue) :=
  let! s :=
    if o_solveZeroPenaltyFirst (d_options d) then
      let! nV := get (d_nV d) in
      let! gk := deref (s_gk s) in
      let! gk := memcpy_ptr gk (d_g d) nV in
      Ok (set_gk (Some gk) s)
    else updateLinearization d s in
  let! '(r, s) := solveQPSubproblem orc d true s in
  if negb (is_success r) then Ok (logI (EvMessage r) s, Some r) else
  let! s := setQk d s in
  Ok (set_stats (snd (updateRhoOpt (s_rho s) (s_stats s))) s, None).

(** [runSolver], src/LCQProblem.cpp:444-560, with an explicit bound on the number of loop passes *)
Definition runSolver_fuel (fuel : nat) (orc : oracle T) (rand : nat -> Z) (o : lcqp T) : res (ReturnValue * lcqp T) :=
  let! '(r, o) := initializeSolver o in
  if negb (is_success r) then fail_msg r o else
  let! '(s, e) := first_solve orc (pd o) (it o) in
  match e with
  | Some r => Ok (r, mkLcqp (pd o) s)
  | None =>
      let! '(r, s) := loop fuel orc rand (pd o) s in
      Ok (r, mkLcqp (pd o) s)
  end.

(** [runSolver]: the bound maxIterations + 2 is never reached (theorem C01) *)
Definition runSolver (orc : oracle T) (rand : nat -> Z) (o : lcqp T) : res (ReturnValue * lcqp T) :=
  runSolver_fuel (Z.to_nat (o_maxIterations (d_options (pd o))) + 2) orc rand o.

(** ** Getters *)

(** [getPrimalSolution], src/LCQProblem.cpp:1485-1493; [xOpt] is the caller's array *)
Definition getPrimalSolution (xOpt : ptr T) (o : lcqp T) : res (AlgorithmStatus * ptr T) :=
  let! out :=
    match xOpt, s_xk (it o) with
    | Some out, Some x =>
        let! nV := get (d_nV (pd o)) in
        let! out := for_ 0 nV (fun i out => let! v := rd x i in wr out i v) out in
        Ok (Some out)
    | out, _ => Ok out
    end in
  let! a := get (s_algoStat (it o)) in
  Ok (a, out).

(** [getDualSolution], src/LCQProblem.cpp:1496-1504 *)
Definition getDualSolution (yOpt : ptr T) (o : lcqp T) : res (AlgorithmStatus * ptr T) :=
  let! out :=
    match yOpt, s_yk (it o) with
    | Some out, Some y =>
        let! nD := get (d_nDuals (pd o)) in
        let! out := for_ 0 nD (fun i out => let! v := rd y i in wr out i v) out in
        Ok (Some out)
    | out, _ => Ok out
    end in
  let! a := get (s_algoStat (it o)) in
  Ok (a, out).

(** [getNumberOfPrimals], src/LCQProblem.cpp:1507-1510 *)
Definition getNumberOfPrimals (o : lcqp T) : res Z := get (d_nV (pd o)).
(** [getNumberOfDuals], src/LCQProblem.cpp:1513-1516 *)
Definition getNumberOfDuals (o : lcqp T) : res Z := get (d_nDuals (pd o)).
(** [getOutputStatistics], src/LCQProblem.cpp:1519-1522 *)
Definition getOutputStatistics (o : lcqp T) : stats T := stats_assign (s_stats (it o)).

End LCQP.
