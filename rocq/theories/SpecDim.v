(** * SpecDim: which vectors the getters deliver after a history of calls (specification, not LCQPow code). *)
From Verif Require Import Base Arith Codes Utilities Options Stats FileIO Subsolver State LCQProblem SpecLife SpecUse.

Section Dim.
Context {T : Type} `{Arith T}.

(** The history contains no run.  No LCQPow code. *)
Definition no_run (h : history T) : Prop := forall c r, In (c, r) h -> c <> KRun.
(** Every run of the history was made with OSQP selected ([b = true]), respectively with qpOASES ([b = false]).  No LCQPow code. *)
Definition runs_with (b : bool) (h : history T) : Prop := forall h1 r h2, h = h1 ++ (KRun, r) :: h2 -> (selected h1 = OSQP_SPARSE <-> b = true).

(** What a getter does with the caller's array: there is no vector yet and the array stays as it is; or the first [n] entries of the
    array become a fixed initialised vector and the others stay, with an access outside the array if it is shorter; or something
    uninitialised is read.  No LCQPow code. *)
Definition delivers (get : arr T -> res (AlgorithmStatus * ptr T)) (n : Z) : Prop :=
  (exists a, forall b, get b = Ok (a, Some b)) \/
  (exists a x, Z.of_nat (length x) = n /\
     forall b, get b = if n <=? Z.of_nat (length b) then Ok (a, Some (map Some x ++ skipn (Z.to_nat n) b)) else UB OutOfBounds) \/
  (forall b, n <= Z.of_nat (length b) -> get b = UB Uninit).

End Dim.
