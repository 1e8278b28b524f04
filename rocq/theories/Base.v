(** * Base: outcomes, checked arrays, loops.

    Infrastructure of the model (no LCQPow code).  C++ undefined behaviour is the explicit outcome [UB]. *)
From Coq Require Export ZArith List Bool Lia.
Export ListNotations.
Open Scope Z_scope.

(** Kinds of undefined behaviour the model distinguishes. *)
Inductive ub : Type :=
| NullDeref      (* dereferencing a NULL pointer *)
| OutOfBounds    (* access outside an array *)
| Uninit         (* use of an indeterminate value *)
| IntOverflow    (* signed int overflow *)
| BadAlloc       (* new[] with a negative size *)
| UseAfterFree   (* access to / double free of freed memory *)
| BadCall        (* library precondition violated, e.g. fclose(NULL) *)
| OutOfFuel.     (* model artefact: recursion fuel exhausted; excluded by theorem C01 and by construction elsewhere *)

(** Outcome of executing C++ code. *)
Inductive res (A : Type) : Type :=
| Ok (a : A)
| UB (u : ub).
Arguments Ok {A} a.
Arguments UB {A} u.

(** Sequencing: undefined behaviour stops the execution. No LCQPow code. *)
Definition bind {A B} (r : res A) (f : A -> res B) : res B :=
  match r with Ok a => f a | UB u => UB u end.

Declare Scope res_scope.
Notation "'let!' x ':=' e 'in' k" := (bind e (fun x => k))
  (at level 200, x name, e at level 100, k at level 200, right associativity) : res_scope.
Notation "'let!' ' p ':=' e 'in' k" := (bind e (fun p => k))
  (at level 200, p strict pattern, e at level 100, k at level 200, right associativity) : res_scope.
Open Scope res_scope.

(** 32-bit int range (the platforms the project supports have 32-bit int). *)
Definition INT_MAX : Z := 2147483647.
(** Smallest value of [int], 32 bits as on all supported platforms. No LCQPow code. *)
Definition INT_MIN : Z := -2147483648.
(** Values an [int] can hold. No LCQPow code. *)
Definition in_int (z : Z) : bool := (INT_MIN <=? z) && (z <=? INT_MAX).
(** Result of a signed int computation: undefined if it does not fit. *)
Definition chk_int (z : Z) : res Z := if in_int z then Ok z else UB IntOverflow.

(** Arrays: [None] is an allocated but uninitialised cell. *)
Definition arr (X : Type) : Type := list (option X).
(** Pointers to arrays: [None] is NULL. *)
Definition ptr (X : Type) : Type := option (arr X).

(** Dereferencing a pointer; NULL is undefined behaviour. No LCQPow code. *)
Definition deref {A} (p : option A) : res A :=
  match p with Some a => Ok a | None => UB NullDeref end.
(** Reading a possibly uninitialised scalar member. *)
Definition get {A} (p : option A) : res A :=
  match p with Some a => Ok a | None => UB Uninit end.

(** Test [p == 0]. No LCQPow code. *)
Definition isNull {A} (p : option A) : bool := match p with None => true | Some _ => false end.
(** Test [p != 0]. No LCQPow code. *)
Definition notNull {A} (p : option A) : bool := negb (isNull p).

(** Array read [a[i]]. *)
Definition rd {X} (a : arr X) (i : Z) : res X :=
  if i <? 0 then UB OutOfBounds else
  match nth_error a (Z.to_nat i) with
  | None => UB OutOfBounds
  | Some None => UB Uninit
  | Some (Some v) => Ok v
  end.

(** Overwriting the entry [i] of a list. No LCQPow code. *)
Fixpoint upd {X} (a : list X) (i : nat) (v : X) : list X :=
  match a, i with
  | [], _ => []
  | _ :: t, O => v :: t
  | x :: t, S i' => x :: upd t i' v
  end.

(** Array write [a[i] = v]. *)
Definition wr {X} (a : arr X) (i : Z) (v : X) : res (arr X) :=
  if (i <? 0) || (Z.of_nat (length a) <=? i) then UB OutOfBounds
  else Ok (upd a (Z.to_nat i) (Some v)).

(** [new X[n]] (uninitialised) and [new X[n]()] (value-initialised to [v]). *)
Definition alloc {X} (n : Z) : res (arr X) :=
  if n <? 0 then UB BadAlloc else
  if in_int n then Ok (repeat None (Z.to_nat n)) else UB IntOverflow.
(** [new X[n]{v}] or an array filled with [v] directly after [new]. No LCQPow code. *)
Definition alloc_init {X} (n : Z) (v : X) : res (arr X) :=
  if n <? 0 then UB BadAlloc else
  if in_int n then Ok (repeat (Some v) (Z.to_nat n)) else UB IntOverflow.

(** [std::vector] element access [v[i]] (unchecked in C++). *)
Definition vrd {X} (v : list X) (i : Z) : res X :=
  if i <? 0 then UB OutOfBounds else
  match nth_error v (Z.to_nat i) with None => UB OutOfBounds | Some x => Ok x end.

(** [for (int i = lo; i < hi; i++) body] *)
Fixpoint for_nat {S} (n : nat) (i : Z) (f : Z -> S -> res S) (s : S) : res S :=
  match n with
  | O => Ok s
  | Datatypes.S n' => let! s' := f i s in for_nat n' (i + 1) f s'
  end.
(** [for (int i = lo; i < hi; i++)]. No LCQPow code. *)
Definition for_ {S} (lo hi : Z) (f : Z -> S -> res S) (s : S) : res S :=
  for_nat (Z.to_nat (hi - lo)) lo f s.

(** Loop whose body may leave the loop (break / return): [inr r] leaves with [r]. *)
Fixpoint forb_nat {S R} (n : nat) (i : Z) (f : Z -> S -> res (S + R)) (s : S) : res (S + R) :=
  match n with
  | O => Ok (inl s)
  | Datatypes.S n' =>
      let! o := f i s in
      match o with
      | inl s' => forb_nat n' (i + 1) f s'
      | inr r => Ok (inr r)
      end
  end.
(** The same loop with [break] or [return] inside. No LCQPow code. *)
Definition forb {S R} (lo hi : Z) (f : Z -> S -> res (S + R)) (s : S) : res (S + R) :=
  forb_nat (Z.to_nat (hi - lo)) lo f s.

(** [memcpy] of [n] complete elements from a source array (copies also uninitialised cells).
    A NULL source/destination with a positive count is undefined. *)
Definition memcpy_all {X} (dst src : arr X) (n : Z) : res (arr X) :=
  if n <? 0 then UB OutOfBounds else
  if (Z.of_nat (length src) <? n) || (Z.of_nat (length dst) <? n) then UB OutOfBounds
  else Ok (firstn (Z.to_nat n) src ++ skipn (Z.to_nat n) dst).

(** A library reads the first [n] elements behind a pointer. *)
Fixpoint rd_list {X} (a : arr X) (n : nat) {struct n} : res (list X) :=
  match n with
  | O => Ok []
  | S n' =>
      match a with
      | [] => UB OutOfBounds
      | None :: _ => UB Uninit
      | Some v :: t => let! r := rd_list t n' in Ok (v :: r)
      end
  end.

(** Fully initialised array with the given contents. *)
Definition lift {X} (l : list X) : arr X := map Some l.
