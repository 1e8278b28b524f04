(** * OwnProblem: who allocates and who frees the arrays of an LCQProblem and of its subsolver.

    Models every allocation and deallocation of src/LCQProblem.cpp, include/LCQProblem.ipp, src/Subsolver.cpp,
    src/SubsolverQPOASES.cpp and src/SubsolverOSQP.cpp.  The heap is a list of blocks, a block is live or freed, an address is
    never handed out twice and allocation succeeds.  Numbers are not modelled (LCQProblem.v does that): a branch that depends on
    numbers or on the qpOASES/OSQP libraries is a parameter of the call.  Simplifications: a csc matrix (four blocks, always
    allocated and freed together by createCSC/copyCSC/ClearSparseMat) is one block, and so is an OSQPData with its vectors l, u, q; the qpOASES problem objects and std::vector
    members are values that manage themselves; an OSQPWorkspace is one block made by osqp_setup and freed by osqp_cleanup; the
    matrices and the linear term a caller must pass are passed (LCQProblem.v treats the null cases).  The settings block inside
    Options is modelled in OwnOptions.v. *)
From Coq Require Import List Bool Arith.
From Verif Require Import Base.
Import ListNotations.

(** Pointer members: of LCQProblem (include/LCQProblem.hpp:468-525), of SubsolverQPOASES (include/SubsolverQPOASES.hpp:123-138,
    prefix q), of SubsolverOSQP (include/SubsolverOSQP.hpp:114-119, prefix o), and
    local arrays of the functions below (prefix t). *)
Inductive fld : Set :=
| fQ | fg | flb | fub | flb_tmp | fub_tmp | fA | flbA | fubA | fL | fR | fC | flbL | fubL | flbR | fubR | fg_phi | fgk | fg_tilde
| fxk | fyk | fyk_A | fxnew | fpk | fQk | fstatk | fconstr_statk | fbox_statk | flk_tmp
| fC_sparse | fA_sparse | fQ_sparse | fQk_sparse | fL_sparse | fR_sparse
| qQ | qA | qQ_i | qQ_p | qQ_x | qA_i | qA_p | qA_x | qQ_sparse | qA_sparse
| owork | odata | oQ | oA | osettings
| tQ | tg | tL | tR | tlbL | tubL | tlbR | tubR | tA | tlbA | tubA | tlb | tub | tx0 | ty0 | tyk_tmp | tC_p | tfull | ttmp | tLx | tRx.

(** Objects: the problem, its subsolver member, the two temporaries alive while a Subsolver is constructed or copied, and the
    local variables of a member function. *)
Inductive obj : Set := Prob | Sub | Tmp1 | Tmp2 | Loc.

(** A pointer variable *)
Definition key : Set := (obj * fld)%type.

(** Decidable equality of pointer variables.  Auxiliary. *)
Definition fld_eq_dec (x y : fld) : {x = y} + {x <> y}.
Proof. decide equality. Defined.
(** Decidable equality of objects.  Auxiliary. *)
Definition obj_eq_dec (x y : obj) : {x = y} + {x <> y}.
Proof. decide equality. Defined.
(** Decidable equality of pointer variables.  Auxiliary. *)
Definition key_eqb (x y : key) : bool :=
  if obj_eq_dec (fst x) (fst y) then if fld_eq_dec (snd x) (snd y) then true else false else false.

(** Memory: the blocks ([true]: live), the pointer variables, and the flag sparseSolver (include/LCQProblem.hpp:528) *)
Record mst : Type := mkMst { blk : list bool; mem : key -> option nat; sp : bool }.

(** Replacing a block's status.  Auxiliary. *)
Fixpoint set_blk (a : nat) (b : bool) (l : list bool) : list bool :=
  match l, a with
  | [], _ => []
  | _ :: l, O => b :: l
  | x :: l, S a => x :: set_blk a b l
  end.
(** Assigning a pointer variable.  Auxiliary. *)
Definition set_mem (k : key) (v : option nat) (m : key -> option nat) : key -> option nat :=
  fun k' => if key_eqb k k' then v else m k'.
(** Is the block at an address live? *)
Definition live (s : mst) (a : nat) : bool := nth a (blk s) false.

(** What the member functions do with memory. *)
Inductive cmd : Type :=
| Skip                              (* nothing *)
| Fail                              (* return with an error code *)
| New (k : key)                     (* k = new ...[...] or malloc *)
| Del (k : key)                     (* if (isNotNullPtr(k)) { delete[] k; k = NULL; } *)
| Free (k : key)                    (* free the block without assigning the pointer *)
| Drop (k : key)                    (* k = NULL, or k goes out of scope *)
| Use (k : key)                     (* read or write *k, if it is not NULL *)
| IfNull (k : key) (c1 c2 : cmd)    (* if (isNullPtr(k)) c1 else c2 *)
| IfSp (c1 c2 : cmd)                (* if (sparseSolver) c1 else c2 *)
| SetSp (b : bool)                  (* sparseSolver = b *)
| Choice (b : bool) (c1 c2 : cmd)   (* a branch decided by numbers, arguments or the libraries *)
| Seq (c1 c2 : cmd)                 (* c1, then c2 unless c1 returned an error *)
| Fin (c1 c2 : cmd)                 (* ret = c1; c2; return ret on error *)
| Rep (n : nat) (c : cmd).          (* a loop *)

Declare Scope cmd_scope.
Delimit Scope cmd_scope with cmd.
Bind Scope cmd_scope with cmd.
(** Sequencing.  Notation. *)
Notation "a ;; b" := (Seq a b) (at level 62, right associativity) : cmd_scope.
Local Open Scope cmd_scope.

(** delete[] / free / osqp_cleanup of an address: undefined unless the block is live *)
Definition free_blk (a : nat) (s : mst) : res (list bool) :=
  if live s a then Ok (set_blk a false (blk s)) else UB UseAfterFree.

(** Effect of a command on memory; the boolean is [true] unless an error code was returned *)
Fixpoint exec (c : cmd) (s : mst) : res (bool * mst) :=
  match c with
  | Skip => Ok (true, s)
  | Fail => Ok (false, s)
  | New k => Ok (true, mkMst (blk s ++ [true]) (set_mem k (Some (length (blk s))) (mem s)) (sp s))
  | Del k => match mem s k with
             | None => Ok (true, s)
             | Some a => let! b := free_blk a s in Ok (true, mkMst b (set_mem k None (mem s)) (sp s))
             end
  | Free k => match mem s k with
              | None => Ok (true, s)
              | Some a => let! b := free_blk a s in Ok (true, mkMst b (mem s) (sp s))
              end
  | Drop k => Ok (true, mkMst (blk s) (set_mem k None (mem s)) (sp s))
  | Use k => match mem s k with
             | None => Ok (true, s)
             | Some a => if live s a then Ok (true, s) else UB UseAfterFree
             end
  | IfNull k c1 c2 => match mem s k with None => exec c1 s | Some _ => exec c2 s end
  | IfSp c1 c2 => if sp s then exec c1 s else exec c2 s
  | SetSp b => Ok (true, mkMst (blk s) (mem s) b)
  | Choice b c1 c2 => if b then exec c1 s else exec c2 s
  | Seq c1 c2 => let! '(ok, s) := exec c1 s in if ok then exec c2 s else Ok (false, s)
  | Fin c1 c2 => let! '(ok, s) := exec c1 s in
                 let! '(ok2, s) := exec c2 s in Ok (ok && ok2, s)
  | Rep n c => (fix rep (n : nat) (s : mst) : res (bool * mst) :=
                  match n with
                  | O => Ok (true, s)
                  | S n => let! '(ok, s) := exec c s in if ok then rep n s else Ok (false, s)
                  end) n s
  end.

(** A sequence of commands.  Auxiliary. *)
Definition seqs (l : list cmd) : cmd := fold_right Seq Skip l.
(** The same command for several members.  Auxiliary. *)
Definition each (c : key -> cmd) (o : obj) (fs : list fld) : cmd := seqs (map (fun f => c (o, f)) fs).
(** if (b) c *)
Definition when (b : bool) (c : cmd) : cmd := Choice b c Skip.
(** if (!b) return an error *)
Definition guard (b : bool) : cmd := Choice b Skip Fail.

(** ** Construction and loading *)

(** Are the dimensions accepted by the constructor, and is there a linear constraint? *)
Record dims : Type := mkDims { d_ok : bool; d_cons : bool }.

(** Members that [LCQProblem::LCQProblem] allocates, src/LCQProblem.cpp:70-78 *)
Definition ctor_flds : list fld := [fQk; fgk; fxnew; fyk_A; fpk; fstatk; fconstr_statk; fbox_statk; flk_tmp].
(** [LCQProblem::LCQProblem], src/LCQProblem.cpp:42-79.  Also the default constructor (dimensions 0), src/LCQProblem.cpp:39. *)
Definition c_ctor (d : dims) : cmd := when (d_ok d) (each New Prob ctor_flds).

(** Which arguments of loadLCQP are not NULL, whether the -infinity check of the complementarity bounds fails
    (src/LCQProblem.cpp:741, 760), and for sparse data whether L'R + R'L has an entry (src/Utilities.cpp:155). *)
Record largs : Type := mkLargs {
  la_g : bool; la_A : bool; la_lb : bool; la_ub : bool; la_lbL : bool; la_ubL : bool; la_lbR : bool; la_ubR : bool;
  la_y0 : bool; la_bad : bool; la_C : bool }.

(** [LCQProblem::setQ] dense, include/LCQProblem.ipp:33-42 *)
Definition c_setQ (d : dims) : cmd := guard (d_ok d) ;; New (Prob, fQ).
(** [LCQProblem::setG], include/LCQProblem.ipp:45-57 *)
Definition c_setG (d : dims) (given : bool) : cmd := guard (d_ok d) ;; guard given ;; New (Prob, fg).
(** [LCQProblem::setConstraints] dense, src/LCQProblem.cpp:563-623 *)
Definition c_setConstraints (d : dims) (a : largs) : cmd :=
  guard (d_ok d) ;; guard (orb (la_A a) (negb (d_cons d))) ;;
  New (Prob, fA) ;; New (Prob, flbA) ;; New (Prob, fubA) ;; New (Prob, fL) ;; New (Prob, fR) ;; New (Prob, fC).
(** [LCQProblem::setComplementarityBounds], src/LCQProblem.cpp:717-780 *)
Definition c_setComplementarityBounds (a : largs) : cmd :=
  when (la_lbL a) (New (Prob, flbL)) ;; when (la_ubL a) (New (Prob, fubL)) ;;
  when (la_lbR a) (New (Prob, flbR)) ;; when (la_ubR a) (New (Prob, fubR)) ;;
  guard (negb (la_bad a)).
(** [LCQProblem::setInitialGuess], include/LCQProblem.ipp:133-158; without a dual guess yk is set to NULL *)
Definition c_setInitialGuess (d : dims) (a : largs) : cmd :=
  guard (d_ok d) ;; New (Prob, fxk) ;; Choice (la_y0 a) (New (Prob, fyk)) (Drop (Prob, fyk)).

(** [LCQProblem::loadLCQP] dense, src/LCQProblem.cpp:86-144 *)
Definition c_load_dense (d : dims) (a : largs) : cmd :=
  guard (d_ok d) ;; c_setQ d ;; c_setG d (la_g a) ;;
  when (la_lb a) (New (Prob, flb_tmp)) ;; when (la_ub a) (New (Prob, fub_tmp)) ;;
  c_setConstraints d a ;; c_setComplementarityBounds a ;; c_setInitialGuess d a ;; SetSp false.

(** [LCQProblem::setConstraints] sparse, src/LCQProblem.cpp:626-714; when the product is empty, MatrixSymmetrizationProduct
    (src/Utilities.cpp:118-168) returns NULL and keeps C_p *)
Definition c_setConstraints_sparse (a : largs) : cmd :=
  New (Prob, fL_sparse) ;; New (Prob, fR_sparse) ;; New (Prob, fA_sparse) ;; New (Prob, flbA) ;; New (Prob, fubA) ;;
  Choice (la_C a) (New (Prob, fC_sparse)) (New (Loc, tC_p) ;; Drop (Loc, tC_p) ;; Drop (Prob, fC_sparse) ;; Fail).

(** [LCQProblem::loadLCQP] sparse, src/LCQProblem.cpp:390-442, with setQ sparse, src/LCQProblem.cpp:783-791 *)
Definition c_load_sparse (d : dims) (a : largs) : cmd :=
  guard (d_ok d) ;; New (Prob, fQ_sparse) ;; c_setG d (la_g a) ;; c_setConstraints_sparse a ;; c_setComplementarityBounds a ;;
  c_setInitialGuess d a ;; when (la_lb a) (New (Prob, flb_tmp)) ;; when (la_ub a) (New (Prob, fub_tmp)) ;; SetSp true.

(** Which files are named and readable, in the order of src/LCQProblem.cpp:158-297; the bound and guess arguments of [fa_args] say
    which optional files are named *)
Record fargs : Type := mkFargs {
  fa_args : largs; fa_lbA : bool; fa_ubA : bool; fa_x0 : bool;
  fa_ok : fld -> bool }.

(** Reading one file into a local array, src/LCQProblem.cpp:160-165 (and 167-296) *)
Definition c_read (f : fargs) (named : bool) (t : fld) : cmd :=
  when named (New (Loc, t) ;; Choice (fa_ok f t) Skip (Del (Loc, t) ;; Fail)).
(** Local arrays of [loadLCQP] from files *)
Definition file_flds : list fld := [tQ; tg; tL; tR; tlbL; tubL; tlbR; tubR; tA; tlbA; tubA; tlb; tub; tx0; ty0].

(** The files in the order in which they are read, src/LCQProblem.cpp:158-297: is the file named, and the local array it is read into *)
Definition files (f : fargs) : list (bool * fld) :=
  let a := fa_args f in
  [(true, tQ); (true, tg); (true, tL); (true, tR); (la_lbL a, tlbL); (la_ubL a, tubL); (la_lbR a, tlbR); (la_ubR a, tubR);
   (la_A a, tA); (fa_lbA f, tlbA); (fa_ubA f, tubA); (la_lb a, tlb); (la_ub a, tub); (fa_x0 f, tx0); (la_y0 a, ty0)].

(** [LCQProblem::loadLCQP] from files, src/LCQProblem.cpp:147-387.  The files give all arrays; at the end the local pointers go out
    of scope. *)
Definition c_load_files (d : dims) (f : fargs) : cmd :=
  let a := fa_args f in
  Fin (
    seqs (map (fun p => c_read f (fst p) (snd p)) (files f)) ;;
    Fin (c_setQ d) (Del (Loc, tQ)) ;;
    Fin (c_setG d true) (Del (Loc, tg)) ;;
    IfNull (Loc, tlb) Skip (New (Prob, flb_tmp) ;; Del (Loc, tlb)) ;;
    IfNull (Loc, tub) Skip (New (Prob, fub_tmp) ;; Del (Loc, tub)) ;;
    Fin (c_setConstraints d a) (each Del Loc [tL; tR; tA; tlbA; tubA]) ;;
    Fin (c_setComplementarityBounds a) (each Del Loc [tlbL; tubL; tlbR; tubR]) ;;
    Fin (c_setInitialGuess d a) (each Del Loc [tx0; ty0]) ;;
    SetSp false)
  (each Drop Loc file_flds).

(** ** Subsolvers *)

(** QP solver selected by the options, include/Utilities.hpp QPSolver; [OtherSolver]: any other value *)
Inductive qps : Set := QpDense | QpSparse | Osqp | OtherSolver.

(** [SubsolverQPOASES::clear], src/SubsolverQPOASES.cpp:233-284: A_x is tested twice and A_i never *)
Definition q_clear (o : obj) : cmd := each Del o [qQ; qA; qQ_i; qQ_p; qQ_x; qA_x; qA_p; qA_x; qQ_sparse; qA_sparse].
(** Arrays of a sparse and of a dense SubsolverQPOASES, src/SubsolverQPOASES.cpp:39-40, 74-80, 93-94 *)
Definition q_flds (sparse : bool) : list fld :=
  if sparse then [qQ_i; qQ_x; qQ_p; qA_i; qA_x; qA_p; qQ_sparse; qA_sparse] else [qQ; qA].
(** [SubsolverQPOASES::SubsolverQPOASES] with data, src/SubsolverQPOASES.cpp:30-97 *)
Definition q_ctor (sparse : bool) (o : obj) : cmd := each New o (q_flds sparse).
(** [SubsolverQPOASES::copy], src/SubsolverQPOASES.cpp:184-230 *)
Definition q_copy (sparse : bool) (rhs o : obj) : cmd := q_clear o ;; each New o (q_flds sparse) ;; each Use rhs (q_flds sparse).
(** Members of a Subsolver going out of scope *)
Definition sub_flds : list fld :=
  [qQ; qA; qQ_i; qQ_p; qQ_x; qA_i; qA_p; qA_x; qQ_sparse; qA_sparse; owork; odata; oQ; oA; osettings].
(** [SubsolverQPOASES::~SubsolverQPOASES], src/SubsolverQPOASES.cpp:106-109, and end of the members' lifetime *)
Definition q_dtor (o : obj) : cmd := q_clear o ;; each Drop o [qQ; qA; qQ_i; qQ_p; qQ_x; qA_i; qA_p; qA_x; qQ_sparse; qA_sparse].

(** [SubsolverOSQP::clear], src/SubsolverOSQP.cpp:61-98: osqp_cleanup frees the workspace and [work] keeps its value *)
Definition o_clear (o : obj) : cmd :=
  Free (o, owork) ;;
  Del (o, odata) ;;
  Del (o, oQ) ;; Del (o, oA) ;; Del (o, osettings).
(** [SubsolverOSQP::setOptions], src/SubsolverOSQP.cpp:111-120, from settings that are or are not NULL *)
Definition o_setOptions (o : obj) (given : bool) : cmd := Del (o, osettings) ;; when given (New (o, osettings)).
(** osqp_setup(&work, data, settings), src/SubsolverOSQP.cpp:154: on accepted data a new workspace is stored in [work]; data that OSQP
    rejects leave [work] as it is.  (OSQP's behaviour; its source is not part of the repository.) *)
Definition o_setup (o : obj) (accepted : bool) : cmd := if accepted then New (o, owork) else Skip.
(** data and its vectors, src/SubsolverOSQP.cpp:137-153 and 223-237 *)
Definition o_data (o : obj) : cmd := New (o, odata).
(** [SubsolverOSQP::copy], src/SubsolverOSQP.cpp:208-240 *)
Definition o_copy (accepted : bool) (rhs o : obj) : cmd :=
  o_clear o ;; Use (rhs, oQ) ;; New (o, oQ) ;; Use (rhs, oA) ;; New (o, oA) ;;
  Del (o, osettings) ;; IfNull (rhs, osettings) Skip (Use (rhs, osettings) ;; New (o, osettings)) ;;
  IfNull (rhs, odata) Skip (Use (rhs, odata) ;; o_data o ;; o_setup o accepted).
(** [SubsolverOSQP::~SubsolverOSQP], src/SubsolverOSQP.cpp:55-58, and end of the members' lifetime *)
Definition o_dtor (o : obj) : cmd := o_clear o ;; each Drop o [owork; odata; oQ; oA; osettings].

(** Destruction of a Subsolver: its members in reverse order of declaration, include/Subsolver.hpp:108-109 *)
Definition sub_dtor (o : obj) : cmd := o_dtor o ;; q_dtor o.

(** [Subsolver tmp(nV, nC, Q, A, qpSolver)], src/Subsolver.cpp:35-66, for qpOASES: the constructor's local object [Tmp2] is copied into
    [Tmp1]; then [subsolver = tmp], src/Subsolver.cpp:69-83 and 129-140, copies [Tmp1] through another [Tmp2] into the member, and
    tmp is destroyed, src/LCQProblem.cpp:906-907 and 926-927. *)
Definition sub_qpoases (sparse : bool) : cmd :=
  q_ctor sparse Tmp2 ;; q_copy sparse Tmp2 Tmp1 ;; q_dtor Tmp2 ;;
  q_copy sparse Tmp1 Tmp2 ;; q_copy sparse Tmp2 Sub ;; q_dtor Tmp2 ;; sub_dtor Tmp1.
(** The same for OSQP, with [SubsolverOSQP::SubsolverOSQP(Q, A)], src/SubsolverOSQP.cpp:37-46; src/LCQProblem.cpp:957-958.  The copied
    objects have no [data], so osqp_setup is not reached. *)
Definition sub_osqp : cmd :=
  New (Tmp2, oQ) ;; New (Tmp2, oA) ;; o_copy false Tmp2 Tmp1 ;; o_dtor Tmp2 ;;
  o_copy false Tmp1 Tmp2 ;; o_copy false Tmp2 Sub ;; o_dtor Tmp2 ;; sub_dtor Tmp1.

(** ** Running *)

(** How a run goes: the selected solver; whether the options hold OSQP settings; whether OSQP accepts the data, the primal and the dual
    guess; whether the first subproblem is solved; the number of further solved subproblems; whether the run then ends by
    convergence, and otherwise whether a failed subproblem ends it. *)
Record rpath : Type := mkRpath {
  rp_solver : qps; rp_settings : bool; rp_setup : bool; rp_x0 : bool; rp_y0 : bool; rp_first : bool; rp_iters : nat;
  rp_conv : bool; rp_fail : bool }.

(** Branch on the solver.  Auxiliary. *)
Definition by_solver (q : qps) (dense sparse osqp other : cmd) : cmd :=
  match q with QpDense => dense | QpSparse => sparse | Osqp => osqp | OtherSolver => other end.

(** [LCQProblem::setLB] and [setUB], include/LCQProblem.ipp:60-79, 98-117 *)
Definition c_setBox (d : dims) : cmd := guard (d_ok d) ;; New (Prob, flb) ;; guard (d_ok d) ;; New (Prob, fub).

(** [LCQProblem::initializeSolver], src/LCQProblem.cpp:885-1032 *)
Definition c_initializeSolver (d : dims) (r : rpath) : cmd :=
  by_solver (rp_solver r)
    (IfSp Fail Skip ;; c_setBox d ;; sub_qpoases false)
    (IfSp Skip Fail ;; c_setBox d ;; sub_qpoases true)
    (IfNull (Prob, flb) Skip Fail ;; IfNull (Prob, fub) Skip Fail ;;
     IfNull (Prob, fyk) Skip
       (New (Loc, tyk_tmp) ;; Use (Prob, fyk) ;; Del (Prob, fyk) ;; New (Prob, fyk) ;; Del (Loc, tyk_tmp)) ;;
     IfSp Skip Fail ;; IfNull (Prob, flb_tmp) Skip Fail ;; IfNull (Prob, fub_tmp) Skip Fail ;; sub_osqp)
    Fail ;;
  New (Prob, fg_tilde) ;; Use (Prob, fg) ;;
  IfNull (Prob, flbL) (IfNull (Prob, flbR) Skip (New (Prob, fg_phi))) (New (Prob, fg_phi)) ;;
  by_solver (rp_solver r) Skip Skip (o_setOptions Sub (rp_settings r)) Skip ;;
  Del (Prob, flb_tmp) ;; Del (Prob, fub_tmp).

(** [SubsolverOSQP::solve], src/SubsolverOSQP.cpp:123-189: on the initial call data and workspace, then the guesses; a null workspace
    is refused by osqp_warm_start_x and osqp_warm_start_y and in line 173 *)
Definition o_solve (r : rpath) (initial ok : bool) : cmd :=
  IfNull (Prob, flb) Skip Fail ;; IfNull (Prob, fub) Skip Fail ;;
  (if initial then
     o_data Sub ;; o_setup Sub (rp_setup r) ;;
     IfNull (Prob, fxk) Skip (Use (Sub, owork) ;; IfNull (Sub, owork) Fail (guard (rp_x0 r))) ;;
     IfNull (Prob, fyk) Skip (Use (Sub, owork) ;; IfNull (Sub, owork) Fail (guard (rp_y0 r)))
   else Use (Sub, owork)) ;;
  IfNull (Sub, owork) Fail (Use (Sub, owork)) ;; guard ok.

(** [SubsolverQPOASES::solve], src/SubsolverQPOASES.cpp:132-167 *)
Definition q_solve (initial ok : bool) : cmd :=
  (if initial then each Use Sub [qQ; qA; qQ_sparse; qA_sparse] else Skip) ;; guard ok.

(** [LCQProblem::solveQPSubproblem], src/LCQProblem.cpp:1114-1148: the iterates are allocated if NULL, whatever the solver returned;
    then the solution is copied *)
Definition c_solveQP (r : rpath) (initial ok : bool) : cmd :=
  Fin (by_solver (rp_solver r) (q_solve initial ok) (q_solve initial ok) (o_solve r initial ok) Fail)
      (IfNull (Prob, fxk) (New (Prob, fxk)) Skip ;; IfNull (Prob, fyk) (New (Prob, fyk)) Skip) ;;
  by_solver (rp_solver r) Skip Skip (Use (Sub, owork)) Skip ;;
  each Use Prob [fxnew; fyk; fyk_A; fpk; fxk].

(** [LCQProblem::setQk], src/LCQProblem.cpp:797-882 *)
Definition c_setQk : cmd := IfSp (New (Prob, fQk_sparse)) Skip.

(** One pass of the loop of [runSolver], src/LCQProblem.cpp:480-553: updateStep, updateStationarity, updateLinearization, ... use the
    members; a subproblem is solved in the end *)
Definition c_pass (r : rpath) (ok : bool) : cmd :=
  IfSp (each Use Prob [fQk_sparse; fC_sparse; fA_sparse]) (each Use Prob [fQk; fC; fA]) ;;
  each Use Prob [fxk; fpk; fgk; fg_tilde; fyk_A; flk_tmp; fstatk; fconstr_statk; fbox_statk] ;; c_solveQP r false ok.

(** [transformDuals] and [determineStationarityType] with [getWeakComplementarities]: local arrays, src/LCQProblem.cpp:1383-1408 and
    1458-1479 *)
Definition c_final : cmd :=
  New (Loc, ttmp) ;; Use (Prob, fxk) ;; Use (Prob, fyk) ;; Del (Loc, ttmp) ;;
  New (Loc, tLx) ;; New (Loc, tRx) ;; Use (Prob, fxk) ;; Del (Loc, tLx) ;; Del (Loc, tRx).

(** [LCQProblem::runSolver], src/LCQProblem.cpp:445-554 *)
Definition c_run (d : dims) (r : rpath) : cmd :=
  c_initializeSolver d r ;; Use (Prob, fg) ;; Use (Prob, fgk) ;;
  c_solveQP r true (rp_first r) ;; c_setQk ;;
  Rep (rp_iters r) (c_pass r true) ;;
  Choice (rp_conv r) c_final (Choice (rp_fail r) (c_pass r false) Fail).

(** ** Mode switches and destruction *)

(** Members converted by the mode switches: dense name, sparse name *)
Definition mode_flds : list (fld * fld) :=
  [(fQ, fQ_sparse); (fA, fA_sparse); (fL, fL_sparse); (fR, fR_sparse); (fC, fC_sparse)].

(** [LCQProblem::switchToSparseMode], src/LCQProblem.cpp:1035-1068.  dns_to_csc (src/Utilities.cpp:620-650) does not return NULL. *)
Definition c_switchToSparse : cmd :=
  IfSp Skip (
    seqs (map (fun p => Use (Prob, fst p) ;; New (Prob, snd p)) mode_flds) ;;
    each Del Prob (map fst mode_flds) ;; SetSp true).

(** csc_to_dns into a member, src/Utilities.cpp:593-617: an index out of bounds gives NULL and keeps the array *)
Definition c_toDense (ok : fld -> bool) (p : fld * fld) : cmd :=
  Use (Prob, snd p) ;;
  Choice (ok (fst p)) (New (Prob, fst p)) (New (Loc, tfull) ;; Drop (Loc, tfull) ;; Drop (Prob, fst p)).

(** [LCQProblem::switchToDenseMode], src/LCQProblem.cpp:1071-1101; [ok] says which conversions meet valid indices *)
Definition c_switchToDense (ok : fld -> bool) : cmd :=
  IfSp (
    seqs (map (c_toDense ok) mode_flds) ;;
    seqs (map (fun p => IfNull (Prob, fst p) Fail Skip) mode_flds) ;;
    each Del Prob [fC_sparse; fA_sparse; fQ_sparse; fL_sparse; fR_sparse] ;; SetSp false) Skip.

(** Members freed by [LCQProblem::clear], src/LCQProblem.cpp:1641-1794 *)
Definition clear_flds : list fld :=
  [fQ; fg; flb; fub; flb_tmp; fub_tmp; fA; flbA; fubA; fL; fR; fC; flbL; fubL; flbR; fubR; fg_phi; fgk; fg_tilde; fxk; fyk; fyk_A;
   fxnew; fpk; fQk; fstatk; fconstr_statk; fbox_statk; flk_tmp; fC_sparse; fA_sparse; fQ_sparse; fQk_sparse; fL_sparse; fR_sparse].

(** [LCQProblem::~LCQProblem], src/LCQProblem.cpp:81-83, then the member subsolver *)
Definition c_dtor : cmd := each Del Prob clear_flds ;; sub_dtor Sub.

(** ** Histories *)

(** Calls on an LCQProblem object that touch its memory *)
Inductive mop : Type :=
| MLoad (a : largs)                 (* loadLCQP with dense arrays *)
| MLoadSparse (a : largs)           (* loadLCQP with csc matrices *)
| MLoadFiles (f : fargs)            (* loadLCQP with file names *)
| MRun (r : rpath)                  (* runSolver *)
| MToSparse                         (* switchToSparseMode *)
| MToDense (ok : fld -> bool).      (* switchToDenseMode *)

(** The memory effect of a call *)
Definition op_cmd (d : dims) (o : mop) : cmd :=
  match o with
  | MLoad a => c_load_dense d a
  | MLoadSparse a => c_load_sparse d a
  | MLoadFiles f => c_load_files d f
  | MRun r => c_run d r
  | MToSparse => c_switchToSparse
  | MToDense ok => c_switchToDense ok
  end.

(** No object yet: nothing allocated, all pointers NULL (in-class initialisers), sparseSolver = false (include/LCQProblem.hpp:528) *)
Definition mst0 : mst := mkMst [] (fun _ => None) false.

(** A sequence of calls and, for each, whether it returned SUCCESSFUL_RETURN (runs: no earlier error); the caller goes on after an
    error code *)
Fixpoint calls (d : dims) (l : list mop) (s : mst) : res (list bool * mst) :=
  match l with
  | [] => Ok ([], s)
  | o :: l => let! '(ok, s) := exec (op_cmd d o) s in
              let! '(oks, s) := calls d l s in Ok (ok :: oks, s)
  end.

(** The lifetime of an object: construction, calls, destruction *)
Definition lifetime (d : dims) (l : list mop) : res (list bool * mst) :=
  let! '(_, s) := exec (c_ctor d) mst0 in
  let! '(oks, s) := calls d l s in
  let! '(_, s) := exec c_dtor s in Ok (oks, s).

(** [p = q] for LCQProblem objects: the class declares no assignment operator (include/LCQProblem.hpp:44-64), so the pointers are
    copied.  Here q is a temporary built by the constructor and destroyed after the assignment, p was built by the default constructor:
    [LCQProblem p; p = LCQProblem(nV, nC, nComp); ] and then p is destroyed.  The subsolver of q is empty. *)
Definition assigned (d : dims) : res (list bool * mst) :=
  let! '(_, s) := exec (each New Tmp1 (if d_ok d then ctor_flds else [])) mst0 in
  let s := mkMst (blk s) (fun k => match k with (Prob, f) => mem s (Tmp1, f) | _ => mem s k end) (sp s) in
  let! '(_, s) := exec (each Del Tmp1 clear_flds) s in
  let! '(_, s) := exec c_dtor s in Ok ([], s).
