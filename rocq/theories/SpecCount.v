(** * SpecCount: how many QPs a run solves. *)
From Verif Require Import Base Codes.

(** The QPs of a run beyond its iterations: the failed one, if the run ended because of it.  No LCQPow code. *)
Definition failed_qps (r : ReturnValue) : Z :=
  match r with SUCCESSFUL_RETURN | MAX_ITERATIONS_REACHED | MAX_PENALTY_REACHED => 0 | _ => 1 end.
