(** * Printf: what printf("%f") prints in exact arithmetic, as used by Utilities::writeToFile, src/Utilities.cpp:384.

    "%f" prints six decimals, rounded to nearest (ties to even); reading the text back with scanf("%lf") gives the printed value (the rounding of a
    decimal number to a double is not modelled). *)
From Coq Require Import QArith Qcanon.
From Verif Require Import Base Arith FileIO.
Local Open Scope Z_scope.

(** Nearest integer of n/d, ties to even.  Model of the C library, no LCQPow code. *)
Definition nearest (n d : Z) : Z :=
  let f := n / d in let r := n mod d in
  if 2 * r <? d then f else if d <? 2 * r then f + 1 else if Z.even f then f else f + 1.
(** One million, the scale of six decimals.  No LCQPow code. *)
Definition million : Z := 1000000.
(** The value with [k] millionths.  No LCQPow code. *)
Definition millionths (k : Z) : Qc := Q2Qc (k # 1000000).
(** A rational rounded to six decimals.  Model of the C library, no LCQPow code. *)
Definition round6 (q : Qc) : Qc := millionths (nearest (Qnum q * million) (Zpos (Qden q))).
(** "%f": infinities and NaN are printed as words that scanf reads back.  Model of the C library, no LCQPow code. *)
Definition printf_f (v : xq) : token xq := match v with Fin q => TNum (Fin (round6 q)) | v => TNum v end.
