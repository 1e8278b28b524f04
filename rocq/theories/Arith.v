(** * Arith: the double operations the code uses, and two instances.

    [Arith T] lists the operations of C++ [double] that appear in LCQPow.  Nothing is assumed about them:
    a theorem quantified over every [Arith T] holds for IEEE doubles in any rounding mode, NaN included. *)
From Coq Require Import QArith Qcanon SpecFloat.
From Verif Require Import Base.

(** Operations of [double] used by LCQPow; the model is generic in them. Literals such as 1.0e-9 are [a_lit m e] = m * 10^e. No LCQPow code. *)
Class Arith (T : Type) : Type := {
  a_zero : T;
  a_one : T;
  a_add : T -> T -> T;
  a_sub : T -> T -> T;
  a_mul : T -> T -> T;
  a_div : T -> T -> T;
  a_neg : T -> T;
  a_abs : T -> T;
  a_lt : T -> T -> bool;      (* C++ [x < y]; [x > y] is [a_lt y x] *)
  a_le : T -> T -> bool;      (* C++ [x <= y] *)
  a_pinf : T;                 (* INFINITY *)
  a_ninf : T;                 (* -INFINITY *)
  a_of_Z : Z -> T;            (* conversion int -> double *)
  a_lit : Z -> Z -> T         (* decimal literal m * 10^e *)
}.

Declare Scope num_scope.
Delimit Scope num_scope with num.
Infix "+" := a_add : num_scope.
Infix "-" := a_sub : num_scope.
Infix "*" := a_mul : num_scope.
Infix "/" := a_div : num_scope.
Notation "- x" := (a_neg x) : num_scope.
Infix "<?" := a_lt : num_scope.
Infix "<=?" := a_le : num_scope.

(** [Utilities::EPS], include/Utilities.hpp:350 *)
Definition EPS {T} `{Arith T} : T := a_lit 2221 (-19).
(** [Utilities::ZERO], include/Utilities.hpp:357 *)
Definition ZERO {T} `{Arith T} : T := a_lit 1 (-25).

(** [std::min(a,b)] of <algorithm>: [(b < a) ? b : a] *)
Definition std_min {T} `{Arith T} (a b : T) : T := if a_lt b a then b else a.

(** ** Instance 1: exact extended rationals.

    Canonical rationals with IEEE-like infinities and NaN (no signed zero: a zero divisor counts as +0). *)
Inductive xq : Type := Fin (q : Qc) | PInf | NInf | NaN.

(** Comparisons of exact rationals. No LCQPow code. *)
Definition Qc_ltb (a b : Qc) : bool := match Qccompare a b with Lt => true | _ => false end.
(** Comparison of exact rationals. No LCQPow code. *)
Definition Qc_leb (a b : Qc) : bool := match Qccompare a b with Gt => false | _ => true end.
(** Comparison of exact rationals. No LCQPow code. *)
Definition Qc_eqb (a b : Qc) : bool := match Qccompare a b with Eq => true | _ => false end.

(** Exact negation with infinities and NaN. No LCQPow code. *)
Definition x_neg (a : xq) : xq :=
  match a with Fin q => Fin (- q)%Qc | PInf => NInf | NInf => PInf | NaN => NaN end.
(** Exact fabs. No LCQPow code. *)
Definition x_abs (a : xq) : xq :=
  match a with Fin q => Fin (if Qc_ltb q 0 then - q else q)%Qc | PInf => PInf | NInf => PInf | NaN => NaN end.
(** Exact addition; inf - inf is NaN. No LCQPow code. *)
Definition x_add (a b : xq) : xq :=
  match a, b with
  | NaN, _ | _, NaN => NaN
  | PInf, NInf | NInf, PInf => NaN
  | PInf, _ | _, PInf => PInf
  | NInf, _ | _, NInf => NInf
  | Fin p, Fin q => Fin (p + q)%Qc
  end.
(** Infinity of the given sign; 0 * inf is NaN. No LCQPow code. *)
Definition x_sgninf (s : comparison) : xq := match s with Lt => NInf | Eq => NaN | Gt => PInf end.
(** Exact multiplication. No LCQPow code. *)
Definition x_mul (a b : xq) : xq :=
  match a, b with
  | NaN, _ | _, NaN => NaN
  | Fin p, Fin q => Fin (p * q)%Qc
  | PInf, PInf | NInf, NInf => PInf
  | PInf, NInf | NInf, PInf => NInf
  | PInf, Fin q | Fin q, PInf => x_sgninf (Qccompare q 0)
  | NInf, Fin q | Fin q, NInf => x_sgninf (CompOpp (Qccompare q 0))
  end.
(** Exact division; x/0 as in IEEE 754 with a positive zero. No LCQPow code. *)
Definition x_div (a b : xq) : xq :=
  match a, b with
  | NaN, _ | _, NaN => NaN
  | Fin p, Fin q => if Qc_eqb q 0 then x_sgninf (Qccompare p 0) else Fin (p / q)%Qc
  | Fin _, _ => Fin 0
  | PInf, Fin q => if Qc_ltb q 0 then NInf else PInf
  | NInf, Fin q => if Qc_ltb q 0 then PInf else NInf
  | _, _ => NaN
  end.
(** [<], false on NaN. No LCQPow code. *)
Definition x_lt (a b : xq) : bool :=
  match a, b with
  | NaN, _ | _, NaN => false
  | Fin p, Fin q => Qc_ltb p q
  | NInf, NInf => false | NInf, _ => true
  | _, NInf => false
  | PInf, _ => false
  | _, PInf => true
  end.
(** [<=], false on NaN. No LCQPow code. *)
Definition x_le (a b : xq) : bool :=
  match a, b with
  | NaN, _ | _, NaN => false
  | Fin p, Fin q => Qc_leb p q
  | NInf, _ => true
  | _, PInf => true
  | _, _ => false
  end.
(** A decimal literal. No LCQPow code. *)
Definition Qc_lit (m e : Z) : Qc := Q2Qc (inject_Z m * Qpower (inject_Z 10) e).

(** Exact arithmetic. No LCQPow code. *)
#[export] Instance xq_arith : Arith xq := {
  a_zero := Fin 0; a_one := Fin 1;
  a_add := x_add; a_sub := fun a b => x_add a (x_neg b); a_mul := x_mul; a_div := x_div;
  a_neg := x_neg; a_abs := x_abs;
  a_lt := x_lt; a_le := x_le;
  a_pinf := PInf; a_ninf := NInf;
  a_of_Z := fun z => Fin (Q2Qc (inject_Z z));
  a_lit := fun m e => Fin (Qc_lit m e)
}.

(** ** Instance 2: IEEE 754 binary64, round to nearest even (standard library [SpecFloat]). *)
Definition f64 : Type := spec_float.
(** Precision of binary64. No LCQPow code. *)
Definition f64_prec : Z := 53.
(** Exponent bound of binary64. No LCQPow code. *)
Definition f64_emax : Z := 1024.
(** Conversion of an integer to binary64, rounded to nearest even. No LCQPow code. *)
Definition f64_of_Z (z : Z) : f64 := binary_normalize f64_prec f64_emax z 0 false.
(** A decimal literal rounded once to binary64 (the operands of the division are exact). No LCQPow code. *)
Definition f64_lit (m e : Z) : f64 :=
  if 0 <=? e then f64_of_Z (m * 10 ^ e)
  else match m with
       | Z0 => S754_zero false
       | Zpos p => SFdiv f64_prec f64_emax (S754_finite false p 0) (S754_finite false (Z.to_pos (10 ^ (- e))) 0)
       | Zneg p => SFdiv f64_prec f64_emax (S754_finite true p 0) (S754_finite false (Z.to_pos (10 ^ (- e))) 0)
       end.

(** IEEE 754 binary64 arithmetic. No LCQPow code. *)
#[export] Instance f64_arith : Arith f64 := {
  a_zero := S754_zero false; a_one := f64_of_Z 1;
  a_add := SFadd f64_prec f64_emax; a_sub := SFsub f64_prec f64_emax;
  a_mul := SFmul f64_prec f64_emax; a_div := SFdiv f64_prec f64_emax;
  a_neg := SFopp; a_abs := SFabs;
  a_lt := SFltb; a_le := SFleb;
  a_pinf := S754_infinity false; a_ninf := S754_infinity true;
  a_of_Z := f64_of_Z;
  a_lit := f64_lit
}.
