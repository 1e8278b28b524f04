(** * Matlab: model of the MATLAB interface, interfaces/matlab/LCQPow.cpp.

    mxArrays are modelled by what the mx... functions used here return.  mexErrMsgTxt leaves the MEX function (so the code behind it does not run);
    the text of messages is abstracted to the name of the argument.  Matrix sizes fit into int.  The structs qpOASES_options and OSQP_options
    (interfaces/matlab/LCQPow.cpp:281-565, 825-838) are modelled separately in MatlabQP.v; the clock is opaque. *)
From Coq Require Import String.
From Verif Require Import Base Arith Codes Utilities Options Stats FileIO Subsolver State LCQProblem.
Local Open Scope string_scope.
Local Open Scope list_scope.
Local Open Scope Z_scope.

Section Matlab.
Context {T : Type} `{Arith T}.
(** The conversion (int) of a double: undefined if the value does not fit. *)
Variable dtoi : T -> res Z.

(** An mxArray: a double matrix with its entries column by column (sparse: entries, row indices mxGetIr, column pointers mxGetJc), a logical array, a
    struct (1 x 1), anything else.  Model of the MATLAB API, no LCQPow code. *)
Inductive mxArray : Type :=
| MxDense (m n : Z) (pr : list T)
| MxSparse (m n : Z) (pr : list T) (ir jc : list Z)
| MxLogical (m n : Z) (b : bool)
| MxStruct (fields : list (string * mxArray))
| MxOther (m n : Z).
(** [mxGetM], [mxGetN] *)
Definition mxGetM (a : mxArray) : Z := match a with MxDense m _ _ | MxSparse m _ _ _ _ | MxLogical m _ _ | MxOther m _ => m | MxStruct _ => 1 end.
(** mxGetN of the MEX API. *)
Definition mxGetN (a : mxArray) : Z := match a with MxDense _ n _ | MxSparse _ n _ _ _ | MxLogical _ n _ | MxOther _ n => n | MxStruct _ => 1 end.
(** [mxIsEmpty] *)
Definition mxIsEmpty (a : mxArray) : bool := (mxGetM a =? 0) || (mxGetN a =? 0).
(** [mxIsDouble], [mxIsSparse], [mxIsStruct], [mxIsLogical] *)
Definition mxIsDouble (a : mxArray) : bool := match a with MxDense _ _ _ | MxSparse _ _ _ _ _ => true | _ => false end.
(** mxIsSparse of the MEX API. *)
Definition mxIsSparse (a : mxArray) : bool := match a with MxSparse _ _ _ _ _ => true | _ => false end.
(** mxIsStruct of the MEX API. *)
Definition mxIsStruct (a : mxArray) : bool := match a with MxStruct _ => true | _ => false end.
(** mxIsLogical of the MEX API. *)
Definition mxIsLogical (a : mxArray) : bool := match a with MxLogical _ _ _ => true | _ => false end.
(** [mxGetPr]: NULL for an empty array *)
Definition mxGetPr (a : mxArray) : ptr T :=
  match a with
  | MxDense _ _ [] | MxSparse _ _ [] _ _ => None
  | MxDense _ _ l | MxSparse _ _ l _ _ => Some (lift l)
  | _ => None
  end.
(** [mxGetIr], [mxGetJc] *)
Definition mxGetIr (a : mxArray) : ptr Z := match a with MxSparse _ _ _ ir _ => Some (lift ir) | _ => None end.
(** mxGetJc of the MEX API; NULL for a full matrix. *)
Definition mxGetJc (a : mxArray) : ptr Z := match a with MxSparse _ _ _ _ jc => Some (lift jc) | _ => None end.
(** [mxGetField]: NULL if there is no such field *)
Fixpoint lookup {X} (name : string) (l : list (string * X)) : option X :=
  match l with [] => None | (n, v) :: l => if String.eqb n name then Some v else lookup name l end.
(** mxGetField( a, 0, name ) of the MEX API. *)
Definition mxGetField (a : mxArray) (name : string) : option mxArray := match a with MxStruct f => lookup name f | _ => None end.

(** Result of a piece of the MEX function: an error reported with mexErrMsgTxt, or a value *)
Definition mex (X : Type) : Type := res (string + X).
(** Sequencing; mexErrMsgTxt leaves the MEX function. *)
Definition mbind {X Y} (m : mex X) (k : X -> mex Y) : mex Y := let! r := m in match r with inl e => Ok (inl e) | inr x => k x end.
(** Normal completion. *)
Definition mret {X} (x : X) : mex X := Ok (inr x).
(** mexErrMsgTxt. *)
Definition merr {X} (e : string) : mex X := Ok (inl e).
(** A step that calls LCQPow itself. *)
Definition mlift {X} (r : res X) : mex X := let! x := r in mret x.
Notation "'let?' x ':=' e 'in' k" := (mbind e (fun x => k)) (at level 200, x name, e at level 100, k at level 200, right associativity).
Notation "'let?' ' p ':=' e 'in' k" := (mbind e (fun p => k)) (at level 200, p strict pattern, e at level 100, k at level 200, right associativity).

(** [prhs[i]]; outside of the list: undefined *)
Definition arg (prhs : list mxArray) (i : Z) : mex mxArray := mlift (match nth_error prhs (Z.to_nat i) with Some a => Ok a | None => UB OutOfBounds end).

(** [checkDimensionAndTypeDouble], interfaces/matlab/LCQPow.cpp:43-67 *)
Definition checkDouble (a : mxArray) (m n : Z) (name : string) (allowEmpty : bool) : mex unit :=
  if allowEmpty && mxIsEmpty a then mret tt else
  if negb (mxIsDouble a) then merr name else
  if negb (mxGetM a =? m) || negb (mxGetN a =? n) then merr name else mret tt.
(** [checkDimensionAndTypeBool], interfaces/matlab/LCQPow.cpp:69-88 *)
Definition checkBool (a : mxArray) (m n : Z) (name : string) : mex unit :=
  if negb (mxIsLogical a) then merr name else
  if negb (mxGetM a =? m) || negb (mxGetN a =? n) then merr name else mret tt.
(** [checkTypeStruct], interfaces/matlab/LCQPow.cpp:90-101 *)
Definition checkStruct (a : mxArray) (name : string) : mex unit := if mxIsStruct a then mret tt else merr name.
(** A check that is made under a condition, as in interfaces/matlab/LCQPow.cpp:633-660 *)
Definition when (c : bool) (m : mex unit) : mex unit := if c then m else mret tt.

(** [colMajorToRowMajor], interfaces/matlab/LCQPow.cpp:103-108 *)
Definition colMajorToRowMajor (col_maj row_maj : arr T) (m n : Z) : res (arr T) :=
  for_ 0 m (fun i row_maj => for_ 0 n (fun j row_maj => let! v := rd col_maj (j * m + i) in wr row_maj (i * n + j) v) row_maj) row_maj.

(** [readSparseMatrix], interfaces/matlab/LCQPow.cpp:122-141 *)
Definition readSparseMatrix (mat : mxArray) (nRow nCol : Z) : res (csc T) :=
  let! jc := deref (mxGetJc mat) in
  let! nnx := rd jc nCol in
  let! M_data := alloc nnx in
  let! M_i := alloc nnx in
  let! M_p := alloc (nCol + 1) in
  let! '(M_data, M_i) := for_ 0 nnx (fun i '(M_data, M_i) =>
    let! v := deref (mxGetPr mat) in let! x := rd v i in let! M_data := wr M_data i x in
    let! ir := deref (mxGetIr mat) in let! r := rd ir i in let! M_i := wr M_i i r in Ok (M_data, M_i)) (M_data, M_i) in
  let! M_p := for_ 0 (nCol + 1) (fun i M_p => let! x := rd jc i in wr M_p i x) M_p in
  let! nz := rd M_p nCol in
  Ok (createCSC nRow nCol nz M_data M_i M_p).

(** The vectors found by readVectors *)
Record vectors : Type := mkVectors { v_g : ptr T; v_lbL : ptr T; v_ubL : ptr T; v_lbR : ptr T; v_ubR : ptr T; v_lbA : ptr T; v_ubA : ptr T; v_lb : ptr T; v_ub : ptr T }.
(** [readVectors], interfaces/matlab/LCQPow.cpp:143-166 *)
Definition readVectors (prhs : list mxArray) (nrhs nC : Z) : mex vectors :=
  let? g := arg prhs 1 in let? lbL := arg prhs 4 in let? ubL := arg prhs 5 in let? lbR := arg prhs 6 in let? ubR := arg prhs 7 in
  let v := mkVectors (mxGetPr g) (mxGetPr lbL) (mxGetPr ubL) (mxGetPr lbR) (mxGetPr ubR) in
  if (nrhs =? 10) || ((nrhs =? 11) && (nC =? 0)) then
    let? lb := arg prhs 8 in let? ub := arg prhs 9 in mret (v None None (mxGetPr lb) (mxGetPr ub))
  else if 11 <=? nrhs then
    let? lbA := arg prhs 9 in let? ubA := arg prhs 10 in
    if 13 <=? nrhs then let? lb := arg prhs 11 in let? ub := arg prhs 12 in mret (v (mxGetPr lbA) (mxGetPr ubA) (mxGetPr lb) (mxGetPr ub))
    else mret (v (mxGetPr lbA) (mxGetPr ubA) None None)
  else mret (v None None None None).

(** [LCQPSparse], interfaces/matlab/LCQPow.cpp:168-211; returned value 0 means success (line 210 returns the code of loadLCQP) *)
Definition LCQPSparse (o : lcqp T) (nV nComp nC nrhs : Z) (prhs : list mxArray) (x0 y0 : ptr T) : mex (Z * lcqp T) :=
  let? a0 := arg prhs 0 in let? a2 := arg prhs 2 in let? a3 := arg prhs 3 in
  let? bad := if negb (mxIsSparse a0) || negb (mxIsSparse a2) || negb (mxIsSparse a3) then mret true
              else if 0 <? nC then let? a8 := arg prhs 8 in mret (negb (mxIsSparse a8)) else mret false in
  if bad then mret (1, o) else
  let? Q := mlift (readSparseMatrix a0 nV nV) in
  let? L := mlift (readSparseMatrix a2 nComp nV) in
  let? R := mlift (readSparseMatrix a3 nComp nV) in
  let? A := if 0 <? nC then let? a8 := arg prhs 8 in let? A := mlift (readSparseMatrix a8 nC nV) in mret (Some A) else mret None in
  let? v := readVectors prhs nrhs nC in
  let? '(ret, o) := mlift (loadLCQP_csc (Some Q) (v_g v) (Some L) (Some R) (v_lbL v) (v_ubL v) (v_lbR v) (v_ubR v) A (v_lbA v) (v_ubA v) (v_lb v) (v_ub v) x0 y0 o) in
  mret (rv_code ret, o).

(** Conversion of one dense matrix in LCQPDense, interfaces/matlab/LCQPow.cpp:247-258 *)
Definition toRowMajor (col : ptr T) (m n : Z) : res (ptr T) :=
  match col with
  | Some c => if (0 <? m) && (0 <? n) then let! r := alloc (m * n) in let! r := colMajorToRowMajor c r m n in Ok (Some r) else Ok None
  | None => Ok None
  end.
(** [LCQPDense], interfaces/matlab/LCQPow.cpp:213-279 *)
Definition LCQPDense (o : lcqp T) (nV nComp nC nrhs : Z) (prhs : list mxArray) (x0 y0 : ptr T) : mex (Z * lcqp T) :=
  let? a0 := arg prhs 0 in let? a2 := arg prhs 2 in let? a3 := arg prhs 3 in
  let? A_col := if 0 <? nC then let? a8 := arg prhs 8 in mret (mxGetPr a8) else mret None in
  let? v := readVectors prhs nrhs nC in
  let? L := mlift (toRowMajor (mxGetPr a2) nComp nV) in
  let? R := mlift (toRowMajor (mxGetPr a3) nComp nV) in
  let? A := mlift (toRowMajor A_col nC nV) in
  let? '(ret, o) := mlift (loadLCQP (mxGetPr a0) (v_g v) L R (v_lbL v) (v_ubL v) (v_lbR v) (v_ubR v) A (v_lbA v) (v_ubA v) (v_lb v) (v_ub v) x0 y0 o) in
  mret (if is_success ret then 0 else 1, o).

(** Number of variables, complementarity pairs and constraints, interfaces/matlab/LCQPow.cpp:591-631 *)
Definition mexDims (prhs : list mxArray) (nrhs : Z) : mex (Z * Z * Z) :=
  let? a0 := arg prhs 0 in
  if mxIsEmpty a0 || negb (mxIsDouble a0) then merr "Q" else
  let nV := mxGetM a0 in
  let? a2 := arg prhs 2 in
  if mxIsEmpty a2 || negb (mxIsDouble a2) then merr "L" else
  let nComp := mxGetM a2 in
  let? hasA := if 11 <? nrhs then mret true else if nrhs =? 11 then let? a10 := arg prhs 10 in mret (negb (mxIsStruct a10)) else mret false in
  let? nC := if hasA then let? a8 := arg prhs 8 in if mxIsEmpty a8 then mret 0 else if negb (mxIsDouble a8) then merr "A" else mret (mxGetM a8) else mret 0 in
  mret (nV, nComp, nC).

(** Dimension and type checks, interfaces/matlab/LCQPow.cpp:633-660 *)
Definition mexChecks (prhs : list mxArray) (nrhs nV nComp nC : Z) : mex unit :=
  let chk i m n name e := let? a := arg prhs i in checkDouble a m n name e in
  let? _ := chk 0 nV nV "Q" false in
  let? _ := chk 1 nV 1 "g" false in
  let? _ := chk 2 nComp nV "L" false in
  let? _ := chk 3 nComp nV "R" false in
  let? _ := when (nrhs =? 10) (let? _ := chk 8 nV 1 "lb" true in chk 9 nV 1 "ub" true) in
  let? _ := when (nrhs =? 11) (let? a10 := arg prhs 10 in
      if mxIsStruct a10 then let? _ := chk 8 nV 1 "lb" true in chk 9 nV 1 "ub" true
      else let? _ := chk 8 nC nV "A" true in let? _ := chk 9 nC 1 "lbA" true in chk 10 nC 1 "ubA" true) in
  let? _ := when (12 <=? nrhs) (let? _ := chk 8 nC nV "A" true in let? _ := chk 9 nC 1 "lbA" true in chk 10 nC 1 "ubA" true) in
  let? _ := when ((nrhs =? 13) || (nrhs =? 14)) (let? _ := chk 11 nV 1 "lb" true in chk 12 nV 1 "ub" true) in
  let? _ := when (nrhs =? 9) (let? a := arg prhs 8 in checkStruct a "params") in
  let? _ := when (nrhs =? 11) (let? a := arg prhs 10 in when (negb (mxIsDouble a)) (checkStruct a "params")) in
  let? _ := when (nrhs =? 12) (let? a := arg prhs 11 in checkStruct a "params") in
  when (nrhs =? 14) (let? a := arg prhs 13 in checkStruct a "params").

(** [structIdx], interfaces/matlab/LCQPow.cpp:671-675; -1 if there are no parameters *)
Definition structIdx (prhs : list mxArray) (nrhs : Z) : mex Z :=
  if nrhs =? 9 then mret 8 else
  if nrhs =? 11 then let? a := arg prhs 10 in mret (if mxIsDouble a then -1 else 10) else
  if nrhs =? 12 then mret 11 else if nrhs =? 14 then mret 13 else mret (-1).

(** What the parameter loop collects: options and initial guesses *)
Record params : Type := mkParams { pm_options : options T; pm_x0 : ptr T; pm_y0 : ptr T }.
(** A double field: [fld_ptr[0]] after its check, e.g. interfaces/matlab/LCQPow.cpp:709-715 *)
Definition dbl_field (s : mxArray) (name : string) (k : T -> options T -> mex (options T)) (o : options T) : mex (options T) :=
  match mxGetField s name with
  | None => mret o
  | Some f => let? _ := checkDouble f 1 1 name false in let? p := mlift (let! a := deref (mxGetPr f) in rd a 0) in k p o
  end.
(** A logical field, e.g. interfaces/matlab/LCQPow.cpp:741-747 *)
Definition lgl_field (s : mxArray) (name : string) (k : bool -> options T -> options T) (o : options T) : mex (options T) :=
  match mxGetField s name with
  | None => mret o
  | Some f => let? _ := checkBool f 1 1 name in mret (k (match f with MxLogical _ _ b => b | _ => false end) o)
  end.
(** A setter called with the value; its return value is not looked at *)
Definition via {X} (f : X -> options T -> ReturnValue * options T) (v : X) (o : options T) : options T := snd (f v o).
(** A setter called with (int) of the value *)
Definition by_int (f : Z -> options T -> ReturnValue * options T) (v : T) (o : options T) : mex (options T) := let? i := mlift (dtoi v) in mret (via f i o).
(** The parameter loop, interfaces/matlab/LCQPow.cpp:677-854, in the order of [params_fieldnames]; maxPenaltyParameter is converted to int as in
    line 770 ([itod] converts it back to double for the call) *)
Definition readParams (itod : Z -> T) (s : mxArray) (nV nComp nC : Z) : mex params :=
  let? x0 := match mxGetField s "x0" with None => mret None | Some f => let? _ := checkDouble f nV 1 "x0" false in mret (mxGetPr f) end in
  let o := setToDefault in
  let? o := dbl_field s "stationarityTolerance" (fun v o => mret (via setStationarityTolerance v o)) o in
  let? o := dbl_field s "complementarityTolerance" (fun v o => mret (via setComplementarityTolerance v o)) o in
  let? o := dbl_field s "initialPenaltyParameter" (fun v o => mret (via setInitialPenaltyParameter v o)) o in
  let? o := dbl_field s "penaltyUpdateFactor" (fun v o => mret (via setPenaltyUpdateFactor v o)) o in
  let? o := lgl_field s "solveZeroPenaltyFirst" (via setSolveZeroPenaltyFirst) o in
  let? o := dbl_field s "maxIterations" (by_int setMaxIterations) o in
  let? o := dbl_field s "maxPenaltyParameter" (by_int (fun z => setMaxPenaltyParameter (itod z))) o in
  let? o := dbl_field s "nDynamicPenalty" (by_int setNDynamicPenalty) o in
  let? o := dbl_field s "etaDynamicPenalty" (fun v o => mret (via setEtaDynamicPenalty v o)) o in
  let? o := dbl_field s "printLevel" (by_int setPrintLevel) o in
  let? o := lgl_field s "storeSteps" (via setStoreSteps) o in
  let? o := dbl_field s "qpSolver" (by_int setQPSolver) o in
  let? o := lgl_field s "perturbStep" (via setPerturbStep) o in
  let? y0 :=
    match mxGetField s "y0" with
    | None => mret None
    | Some f => let nDualsIn := match o_qpSolver o with OSQP_SPARSE => nC + 2 * nComp | _ => nV + nC + 2 * nComp end in
                let? _ := checkDouble f nDualsIn 1 "y0" false in mret (mxGetPr f)
    end in
  mret (mkParams o x0 y0).

(** A scalar as MATLAB stores it.  No LCQPow code. *)
Definition mxScalar (v : T) : mxArray := MxDense 1 1 [v].
(** The struct built by interfaces/matlab/LCQPow_options.m:4-16; [eps] is MATLAB's 2^-52 and the flags are the double 1.  Simplified: the file lacks a
    comma (line 7) and has one too many (line 15), so that MATLAB cannot even run it; modelled is what it is meant to build. *)
Definition LCQPow_default_options (eps : T) : list (string * mxArray) :=
  [ ("stationarityTolerance", mxScalar (a_lit 1 3 * eps)%num); ("complementarityTolerance", mxScalar (a_lit 1 6 * eps)%num);
    ("initialPenaltyParameter", mxScalar (a_lit 1 (-2))); ("penaltyUpdateFactor", mxScalar (a_of_Z 2)); ("solveZeroPenaltyFirst", mxScalar a_one);
    ("perturbStep", mxScalar a_one); ("maxIterations", mxScalar (a_of_Z 1000)); ("maxPenaltyParameter", mxScalar (a_lit 1 8)); ("printLevel", mxScalar a_one);
    ("nDynamicPenalty", mxScalar (a_of_Z 3)); ("etaDynamicPenalty", mxScalar (a_lit 9 (-1))) ].

(** A value in the statistics struct ([SEmpty]: a field that was never set) *)
Inductive stat_value : Type := SInt (z : Z) | SNum (v : T) | SInts (l : list Z) | SNums (l : list T) | SEmpty.
(** Field names without and with stored steps, interfaces/matlab/LCQPow.cpp:967 and 957-961 *)
Definition names_short : list string := ["iters_total"; "iters_outer"; "iters_subproblem"; "rho_opt"; "elapsed_time"; "exit_flag"; "solution_type"; "qp_exit_flag"].
(** Fields with stored steps, interfaces/matlab/LCQPow.cpp:957-961 *)
Definition names_long : list string := names_short ++ ["innerIters"; "xSteps"; "accumulatedSubproblemIters"; "stepLength"; "stepSize"; "statVals"; "objVals"; "phiVals"; "meritVals"; "subproblemIters"].
(** [mxSetFieldByNumber] *)
Fixpoint setField (s : list (string * stat_value)) (k : nat) (v : stat_value) : list (string * stat_value) :=
  match s, k with [], _ => [] | (n, _) :: s, O => (n, v) :: s | f :: s, S k => f :: setField s k v end.
(** The first [n] entries of an array getter, as the copying loop at interfaces/matlab/LCQPow.cpp:1053-1067 reads them *)
Definition firstn_rd {X} (n : Z) (v : list X) : res (list X) :=
  for_ 0 n (fun i l => let! a := deref (vec_getter v) in let! x := rd a i in Ok (l ++ [x])) [].
(** The stored steps, one after the other, interfaces/matlab/LCQPow.cpp:1054-1056; the nested vector is indexed without check *)
Definition xsteps_rd (n nV : Z) (v : list (list T)) : res (list T) :=
  for_ 0 n (fun i l => for_ 0 nV (fun j l => let! row := rd (lift v) i in let! x := rd (lift row) j in Ok (l ++ [x])) l) [].
(** Numeric value of AlgorithmStatus, include/Utilities.hpp:103-109 *)
Definition status_code (s : AlgorithmStatus) : Z :=
  match s with PROBLEM_NOT_SOLVED => 0 | W_STATIONARY_SOLUTION => 1 | C_STATIONARY_SOLUTION => 2 | M_STATIONARY_SOLUTION => 3 | S_STATIONARY_SOLUTION => 4 end.
(** The statistics struct, interfaces/matlab/LCQPow.cpp:951-1091.  Conversion of integers to double is not modelled. *)
Definition statsStruct (store : bool) (nV : Z) (ret : ReturnValue) (elapsed : T) (st : stats T) : res (list (string * stat_value)) :=
  let s := map (fun n => (n, SEmpty)) (if store then names_long else names_short) in
  let s := setField s 0 (SInt (st_iterTotal st)) in
  let s := setField s 1 (SInt (st_iterOuter st)) in
  let s := setField s 2 (SInt (st_subproblemIter st)) in
  let s := setField s 3 (SNum (st_rhoOpt st)) in
  let s := setField s 4 (SNum elapsed) in
  let s := setField s 5 (SInt (rv_code ret)) in
  let s := setField s 6 (SInt (status_code (st_status st))) in
  let s := setField s 7 (SInt (st_exit_flag st)) in
  let n := st_iterTotal st in
  if store && (0 <? n) then
    let! xs := xsteps_rd n nV (st_xSteps st) in
    let! inner := firstn_rd n (st_innerIters st) in
    let! sub := firstn_rd n (st_subproblemIters st) in
    let! accu := firstn_rd n (st_accuSubproblemIters st) in
    let! steplen := firstn_rd n (st_stepLength st) in
    let! stepsize := firstn_rd n (st_stepSize st) in
    let! stat := firstn_rd n (st_statVals st) in
    let! obj := firstn_rd n (st_objVals st) in
    let! phi := firstn_rd n (st_phiVals st) in
    let! merit := firstn_rd n (st_meritVals st) in
    let s := setField s 7 (SNums xs) in
    let s := setField s 8 (SInts sub) in
    let s := setField s 9 (SInts accu) in
    let s := setField s 10 (SNums steplen) in
    let s := setField s 11 (SNums stepsize) in
    let s := setField s 12 (SNums stat) in
    let s := setField s 13 (SNums obj) in
    let s := setField s 14 (SNums phi) in
    let s := setField s 15 (SNums merit) in
    let s := setField s 16 (SInts inner) in
    Ok s
  else Ok s.

(** What the caller gets: nothing (loading failed), or the primal solution with, if asked for, duals and statistics *)
Inductive mex_out : Type := NoOutput | Output (x : arr T) (y : option (list T)) (st : option (list (string * stat_value))) (o : lcqp T).

(** Everything up to the call of runSolver, interfaces/matlab/LCQPow.cpp:582-895: the loaded problem, the return value of the loading step and the
    options *)
Definition mexLoad (itod : Z -> T) (prhs : list mxArray) : mex (Z * Z * Z * options T * Z * lcqp T) :=
  let nrhs := Z.of_nat (length prhs) in
  if (nrhs <? 8) || (14 <? nrhs) then merr "nrhs" else
  let? '(nV, nComp, nC) := mexDims prhs nrhs in
  let? _ := mexChecks prhs nrhs nV nComp nC in
  let? o := mlift (LCQProblem_ctor nV nC nComp) in
  let? si := structIdx prhs nrhs in
  let? pm := if si =? -1 then mret (mkParams setToDefault None None) else let? s := arg prhs si in readParams itod s nV nComp nC in
  let o := setOptions (pm_options pm) o in
  let? a0 := arg prhs 0 in
  let? '(ret, o) := if mxIsSparse a0 then LCQPSparse o nV nComp nC nrhs prhs (pm_x0 pm) (pm_y0 pm) else LCQPDense o nV nComp nC nrhs prhs (pm_x0 pm) (pm_y0 pm) in
  mret (nV, nComp, nC, pm_options pm, ret, o).

(** [mexFunction], interfaces/matlab/LCQPow.cpp:570-1095 *)
Definition mexFunction (itod : Z -> T) (orc : oracle T) (rand : nat -> Z) (elapsed : T) (nlhs : Z) (prhs : list mxArray) : mex mex_out :=
  if (nlhs <? 1) || (3 <? nlhs) then merr "nlhs" else
  let? '(nV, nComp, nC, opt, ret, o) := mexLoad itod prhs in
  if negb (ret =? 0) then mret NoOutput else
  let? xOpt := mlift (alloc_init nV a_zero) in
  let? yTMP := if 1 <? nlhs then let? y := mlift (alloc (nC + nV + 2 * nComp)) in mret (Some y) else mret None in
  let? '(r, o) := mlift (runSolver orc rand o) in
  let? '(_, xOpt) := mlift (getPrimalSolution (Some xOpt) o) in
  let? x := mlift (deref xOpt) in
  let? yTMP := if 1 <? nlhs then let? '(_, y) := mlift (getDualSolution yTMP o) in mret y else mret None in
  let st := getOutputStatistics o in
  let? y :=
    if 1 <? nlhs then
      let? nD := mlift (getNumberOfDuals o) in
      if nD <=? 0 then mret None else
      let? y := mlift (for_ 0 nD (fun i l => let! a := deref yTMP in let! v := rd a i in Ok (l ++ [v])) []) in mret (Some y)
    else mret (Some []) in
  match y with
  | None => mret (Output x None None o)
  | Some y =>
      if 2 <? nlhs then let? s := mlift (statsStruct (o_storeSteps opt) nV r elapsed st) in mret (Output x (Some y) (Some s) o)
      else mret (Output x (if 1 <? nlhs then Some y else None) None o)
  end.
End Matlab.
Arguments mxArray T : clear implicits.
Arguments stat_value T : clear implicits.
Arguments mex_out T : clear implicits.
Arguments params T : clear implicits.
Arguments vectors T : clear implicits.
