(** * Utilities: model of src/Utilities.cpp (dense and CSC kernels).

    Index expressions are unbounded [Z]; since no array is longer than INT_MAX ([alloc]), an index that would
    overflow an int is out of bounds in the model as well, i.e. [UB] in both. *)
From Verif Require Import Base Arith Codes.

Section Util.
Context {T : Type} `{Arith T}.
Local Open Scope num_scope.
Local Open Scope Z_scope.

(** A source operand of an elementwise kernel: another array, or the output array itself (pointer aliasing). *)
Inductive src : Type := Ext (a : arr T) | Same.
(** Reading an operand that may be the output array itself. C++ semantics of aliased pointers. No LCQPow code. *)
Definition rd_src (s : src) (out : arr T) (i : Z) : res T :=
  match s with Ext a => rd a i | Same => rd out i end.

(** [MatrixMultiplication] (dense), src/Utilities.cpp:38-47 *)
Definition MatrixMultiplication (A B C : arr T) (m n p : Z) : res (arr T) :=
  for_ 0 m (fun i C =>
    for_ 0 p (fun j C =>
      let! C := wr C (i * p + j) a_zero in
      for_ 0 n (fun k C =>
        let! c := rd C (i * p + j) in
        let! a := rd A (i * n + k) in
        let! b := rd B (k * p + j) in
        wr C (i * p + j) (c + a * b)%num) C) C) C.

(** [TransponsedMatrixMultiplication] (dense), src/Utilities.cpp:62-72 *)
Definition TransponsedMatrixMultiplication (A B C : arr T) (m n p : Z) : res (arr T) :=
  for_ 0 n (fun i C =>
    for_ 0 p (fun j C =>
      let! C := wr C (i * p + j) a_zero in
      for_ 0 m (fun k C =>
        let! c := rd C (i * p + j) in
        let! a := rd A (k * n + i) in
        let! b := rd B (k * p + j) in
        wr C (i * p + j) (c + a * b)%num) C) C) C.

(** [AddTransponsedMatrixMultiplication] (dense), src/Utilities.cpp:85-93 *)
Definition AddTransponsedMatrixMultiplication (A B C : arr T) (m n p : Z) : res (arr T) :=
  for_ 0 n (fun i C =>
    for_ 0 p (fun j C =>
      for_ 0 m (fun k C =>
        let! c := rd C (i * p + j) in
        let! a := rd A (k * n + i) in
        let! b := rd B (k * p + j) in
        wr C (i * p + j) (c + a * b)%num) C) C) C.

(** [MatrixSymmetrizationProduct] (dense), src/Utilities.cpp:104-116 *)
Definition MatrixSymmetrizationProduct (A B C : arr T) (m n : Z) : res (arr T) :=
  for_ 0 n (fun i C =>
    for_ 0 (i + 1) (fun j C =>
      let! C := wr C (i * n + j) a_zero in
      let! C :=
        for_ 0 m (fun k C =>
          let! c := rd C (i * n + j) in
          let! a1 := rd A (k * n + i) in
          let! b1 := rd B (k * n + j) in
          let! b2 := rd B (k * n + i) in
          let! a2 := rd A (k * n + j) in
          wr C (i * n + j) (c + (a1 * b1 + b2 * a2))%num) C in
      let! c := rd C (i * n + j) in
      wr C (j * n + i) c) C) C.

(** [AffineLinearTransformation] (dense), src/Utilities.cpp:176-186 *)
Definition AffineLinearTransformation (alpha : T) (A b c d : arr T) (m n : Z) : res (arr T) :=
  for_ 0 m (fun i d =>
    let! tmp :=
      for_ 0 n (fun k tmp =>
        let! a := rd A (i * n + k) in
        let! bk := rd b k in
        Ok (tmp + a * bk)%num) a_zero in
    let! ci := rd c i in
    wr d i (alpha * tmp + ci)%num) d.

(** [WeightedMatrixAdd], src/Utilities.cpp:202-206; operands may alias the output *)
Definition WeightedMatrixAdd (alpha : T) (A : src) (beta : T) (B : src) (C : arr T) (m n : Z) : res (arr T) :=
  for_ 0 m (fun i C =>
    for_ 0 n (fun j C =>
      let! a := rd_src A C (i * n + j) in
      let! b := rd_src B C (i * n + j) in
      wr C (i * n + j) (alpha * a + beta * b)%num) C) C.

(** [WeightedVectorAdd], src/Utilities.cpp:209-211 *)
Definition WeightedVectorAdd (alpha : T) (a : src) (beta : T) (b : src) (c : arr T) (m : Z) : res (arr T) :=
  WeightedMatrixAdd alpha a beta b c m 1.

(** [QuadraticFormProduct] (dense), src/Utilities.cpp:214-225 *)
Definition QuadraticFormProduct (Q p : arr T) (m : Z) : res T :=
  for_ 0 m (fun i ret =>
    let! tmp :=
      for_ 0 m (fun j tmp =>
        let! q := rd Q (i * m + j) in
        let! pj := rd p j in
        Ok (tmp + q * pj)%num) a_zero in
    let! pi := rd p i in
    Ok (ret + tmp * pi)%num) a_zero.

(** [DotProduct], src/Utilities.cpp:244-250 *)
Definition DotProduct (a b : arr T) (m : Z) : res T :=
  for_ 0 m (fun i ret =>
    let! x := rd a i in
    let! y := rd b i in
    Ok (ret + x * y)%num) a_zero.

(** [getMax(double,double)], src/Utilities.cpp:714-717 *)
Definition getMax (x y : T) : T := if a_lt y x then x else y.
(** [getMin(double,double)], src/Utilities.cpp:720-723 *)
Definition getMin (x y : T) : T := if a_lt x y then x else y.
(** [getAbs], src/Utilities.cpp:653-660 (fabs branch) *)
Definition getAbs (x : T) : T := a_abs x.
(** [isZero(double)], src/Utilities.cpp:678-690 *)
Definition isZero (x : T) : bool := a_le (getAbs x) ZERO.
(** [isEqual(double,double,double)], src/Utilities.cpp:663-669 *)
Definition isEqual (x y TOL : T) : bool := a_le (getAbs (x - y)%num) TOL.

(** [MaxAbs], src/Utilities.cpp:253-265 *)
Definition MaxAbs (a : arr T) (m : Z) : res T :=
  let! r :=
    for_ 0 m (fun i s =>
      let! v := rd a i in
      Ok (if a_lt (fst s) v then (v, snd s)
          else if a_lt v (snd s) then (fst s, v) else s)) (a_zero, a_zero) in
  Ok (getMax (fst r) (- (snd r))%num).

(** ** Compressed sparse column matrices (OSQP's [csc]; the [nz] member, always -1, is omitted) *)
Record csc : Type := mkCsc {
  c_m : Z; c_n : Z;
  c_p : ptr Z;      (* column pointers *)
  c_i : ptr Z;      (* row indices *)
  c_x : ptr T;      (* values *)
  c_nzmax : Z }.

(** [S->p[j]] of the struct csc (OSQP header types.h). *)
Definition csc_p (S : csc) (j : Z) : res Z := let! p := deref (c_p S) in rd p j.
(** [S->i[k]] *)
Definition csc_i (S : csc) (k : Z) : res Z := let! p := deref (c_i S) in rd p k.
(** [S->x[k]] *)
Definition csc_x (S : csc) (k : Z) : res T := let! p := deref (c_x S) in rd p k.

(** [for (int k = S->p[j]; k < S->p[j+1]; k++) body] *)
Definition for_col {St} (S : csc) (j : Z) (f : Z -> St -> res St) (s : St) : res St :=
  let! lo := csc_p S j in
  let! hi := csc_p S (j + 1) in
  for_ lo hi f s.

(** [createCSC], src/Utilities.cpp:469-484 (malloc of the header assumed to succeed) *)
Definition createCSC (m n nnx : Z) (x : arr T) (i p : arr Z) : csc :=
  mkCsc m n (Some p) (Some i) (Some x) nnx.

(** [memcpy] from a pointer; copying zero elements from NULL is treated as harmless. *)
Definition memcpy_ptr {X} (dst : arr X) (s : ptr X) (n : Z) : res (arr X) :=
  if n =? 0 then Ok dst else let! a := deref s in memcpy_all dst a n.

(** [copyCSC(const csc*, false)], src/Utilities.cpp:516-520 and 561-582 *)
Definition copyCSC (M : option csc) : res csc :=
  let! M := deref M in
  let! rows := alloc (c_nzmax M) in
  let! data := alloc (c_nzmax M) in
  let! cols := alloc (c_n M + 1) in
  let! rows := memcpy_ptr rows (c_i M) (c_nzmax M) in
  let! data := memcpy_ptr data (c_x M) (c_nzmax M) in
  let! cols := memcpy_ptr cols (c_p M) (c_n M + 1) in
  Ok (mkCsc (c_m M) (c_n M) (Some cols) (Some rows) (Some data) (c_nzmax M)).

(** [copyCSC(const csc*, true)] (upper triangle), src/Utilities.cpp:516-560, 582; std::vectors are lists *)
Definition copyCSC_upper (M : option csc) : res csc :=
  let! M := deref M in
  let! p := alloc (c_n M + 1) in
  let! p := wr p 0 0 in
  let! '(p, rows, data) :=
    for_ 0 (c_n M) (fun j '(p, rows, data) =>
      let! pj := rd p j in
      let! p := wr p (j + 1) pj in
      for_col M j (fun i '(p, rows, data) =>
        let! r := csc_i M i in
        if j <? r then Ok (p, rows, data) else
        let! x := csc_x M i in
        let! q := rd p (j + 1) in
        let! p := wr p (j + 1) (q + 1) in
        Ok (p, rows ++ [r], data ++ [x])) (p, rows, data)) (p, [], []) in
  let! nnz := rd p (c_n M) in
  let! i :=
    let! i0 := alloc nnz in
    for_ 0 nnz (fun k i => let! v := vrd rows k in wr i k v) i0 in
  let! x :=
    let! x0 := alloc nnz in
    for_ 0 nnz (fun k x => let! v := vrd data k in wr x k v) x0 in
  Ok (mkCsc (c_m M) (c_n M) (Some p) (Some i) (Some x) nnz).

(** [MatrixMultiplication] (csc), src/Utilities.cpp:49-59 *)
Definition MatrixMultiplication_csc (A : csc) (b c : arr T) : res (arr T) :=
  let! c := for_ 0 (c_m A) (fun i c => wr c i a_zero) c in
  for_ 0 (c_n A) (fun j c =>
    for_col A j (fun i c =>
      let! r := csc_i A i in
      let! cr := rd c r in
      let! x := csc_x A i in
      let! bj := rd b j in
      wr c r (cr + x * bj)%num) c) c.

(** [TransponsedMatrixMultiplication] (csc), src/Utilities.cpp:75-82 *)
Definition TransponsedMatrixMultiplication_csc (A : csc) (b c : arr T) : res (arr T) :=
  for_ 0 (c_n A) (fun j c =>
    let! c := wr c j a_zero in
    for_col A j (fun k c =>
      let! cj := rd c j in
      let! r := csc_i A k in
      let! br := rd b r in
      let! x := csc_x A k in
      wr c j (cj + br * x)%num) c) c.

(** [AddTransponsedMatrixMultiplication] (csc), src/Utilities.cpp:96-102 *)
Definition AddTransponsedMatrixMultiplication_csc (A : csc) (b c : arr T) : res (arr T) :=
  for_ 0 (c_n A) (fun j c =>
    for_col A j (fun k c =>
      let! cj := rd c j in
      let! r := csc_i A k in
      let! br := rd b r in
      let! x := csc_x A k in
      wr c j (cj + br * x)%num) c) c.

(** [AffineLinearTransformation] (csc), src/Utilities.cpp:189-199 *)
Definition AffineLinearTransformation_csc (alpha : T) (S : csc) (b c d : arr T) (m : Z) : res (arr T) :=
  for_ 0 m (fun j d =>
    let! tmp :=
      for_col S j (fun k tmp =>
        let! x := csc_x S k in
        let! r := csc_i S k in
        let! br := rd b r in
        Ok (tmp + x * br)%num) a_zero in
    let! cj := rd c j in
    wr d j (alpha * tmp + cj)%num) d.

(** [QuadraticFormProduct] (csc), src/Utilities.cpp:228-241 *)
Definition QuadraticFormProduct_csc (S : csc) (p : arr T) (m : Z) : res T :=
  for_ 0 m (fun j ret =>
    let! tmp :=
      for_col S j (fun k tmp =>
        let! x := csc_x S k in
        let! r := csc_i S k in
        let! pr := rd p r in
        Ok (tmp + x * pr)%num) a_zero in
    let! pj := rd p j in
    Ok (ret + pj * tmp)%num) a_zero.

(** [getIndexOfIn], src/Utilities.cpp:726-736; -1 if not found *)
Definition getIndexOfIn (val : Z) (sorted_lst : ptr Z) (beg end_ : Z) : res Z :=
  let! o :=
    forb beg end_ (fun i (_ : unit) =>
      let! l := deref sorted_lst in
      let! v := rd l i in
      if v =? val then Ok (inr i)
      else if val <? v then Ok (inr (-1)) else Ok (inl tt)) tt in
  match o with inl _ => Ok (-1) | inr r => Ok r end.

(** One inner loop of the csc symmetrisation: adds, for the stored entries of column [i] of [S1], the product with
    the entry of [S2] in the same row and column [j]; src/Utilities.cpp:130-135 and 138-144. *)
Definition symm_acc (S1 S2 : csc) (i j : Z) (tmp : T) : res T :=
  for_col S1 i (fun k tmp =>
    let! r := csc_i S1 k in
    let! lo := csc_p S2 j in
    let! hi := csc_p S2 (j + 1) in
    let! ind := getIndexOfIn r (c_i S2) lo hi in
    if ind =? -1 then Ok tmp else
    let! x1 := csc_x S1 k in
    let! x2 := csc_x S2 ind in
    Ok (tmp + x1 * x2)%num) tmp.

(** [MatrixSymmetrizationProduct] (csc), src/Utilities.cpp:118-173; [None] is the NULL result *)
Definition MatrixSymmetrizationProduct_csc (L R : csc) : res (option csc) :=
  let n := c_n L in
  let! p := alloc (n + 1) in
  let! p := wr p 0 0 in
  let! '(p, rows, data) :=
    for_ 0 n (fun j '(p, rows, data) =>
      let! pj := rd p j in
      let! p := wr p (j + 1) pj in
      for_ 0 n (fun i '(p, rows, data) =>
        let! tmp := symm_acc L R i j a_zero in
        let! tmp := symm_acc R L i j tmp in
        if isZero tmp then Ok (p, rows, data) else
        let! q := rd p (j + 1) in
        let! p := wr p (j + 1) (q + 1) in
        Ok (p, rows ++ [i], data ++ [tmp])) (p, rows, data)) (p, [], []) in
  let! nnz := rd p n in
  if nnz =? 0 then Ok None else
  let! ci := alloc nnz in
  let! cx := alloc nnz in
  let! '(ci, cx) :=
    for_ 0 nnz (fun k '(ci, cx) =>
      let! r := vrd rows k in
      let! ci := wr ci k r in
      let! x := vrd data k in
      let! cx := wr cx k x in
      Ok (ci, cx)) (ci, cx) in
  Ok (Some (createCSC n n nnz cx ci p)).

(** [csc_to_dns], src/Utilities.cpp:593-617; [None] is the NULL result *)
Definition csc_to_dns (sparse : option csc) : res (option (arr T)) :=
  let! S := deref sparse in
  let m := c_m S in
  let n := c_n S in
  let! full := alloc_init (m * n) a_zero in
  let! o :=
    forb 0 n (fun j full =>
      let! lo := csc_p S j in
      let! hi := csc_p S (j + 1) in
      let! o :=
        forb lo hi (fun i full =>
          if i =? c_nzmax S then Ok (inr (Some full)) else
          let! r := csc_i S i in
          let! rn := chk_int (r * n) in
          let! ix := chk_int (rn + j) in
          if (m * n <=? ix) || (ix <? 0) then Ok (inr None) else
          let! x := csc_x S i in
          let! full := wr full ix x in
          Ok (inl full)) full in
      Ok o) full in
  match o with inl full => Ok (Some full) | inr r => Ok r end.

(** [dns_to_csc], src/Utilities.cpp:620-650 *)
Definition dns_to_csc (full : ptr T) (m n : Z) : res csc :=
  let! p := alloc (n + 1) in
  let! p := wr p 0 0 in
  let! '(p, rows, data) :=
    for_ 0 n (fun i '(p, rows, data) =>
      let! pi := rd p i in
      let! p := wr p (i + 1) pi in
      for_ 0 m (fun j '(p, rows, data) =>
        let! f := deref full in
        let! v := rd f (j * n + i) in
        if a_lt a_zero v || a_lt v a_zero then
          let! q := rd p (i + 1) in
          let! p := wr p (i + 1) (q + 1) in
          Ok (p, rows ++ [j], data ++ [v])
        else Ok (p, rows, data)) (p, rows, data)) (p, [], []) in
  let! nnz := rd p n in
  let! ci := alloc nnz in
  let! cx := alloc nnz in
  let! '(ci, cx) :=
    for_ 0 nnz (fun k '(ci, cx) =>
      let! r := vrd rows k in
      let! ci := wr ci k r in
      let! x := vrd data k in
      let! cx := wr cx k x in
      Ok (ci, cx)) (ci, cx) in
  Ok (createCSC m n nnz cx ci p).

End Util.

Arguments csc T : clear implicits.
Arguments src T : clear implicits.
