(** * SpecFirst: both tolerance tests at a recorded step.  No LCQPow code. *)
From Verif Require Import Base Arith Options.

(** The stationarity value [m] and the complementarity value [phi] are below the tolerances in the options.  No LCQPow code. *)
Definition meets_both {T} `{Arith T} (opt : options T) (m phi : T) : Prop :=
  a_lt m (o_stationarityTolerance opt) = true /\ a_lt phi (o_complementarityTolerance opt) = true.
