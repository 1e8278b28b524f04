(** * OptionsGet: the getters of src/Options.cpp. *)
From Verif Require Import Base Arith Codes Options.

Section Get.
Context {T : Type}.
(** [Options::getStationarityTolerance], src/Options.cpp:80-82 *)
Definition getStationarityTolerance (o : options T) : T := o_stationarityTolerance o.
(** [Options::getComplementarityTolerance], src/Options.cpp:94-96 *)
Definition getComplementarityTolerance (o : options T) : T := o_complementarityTolerance o.
(** [Options::getInitialPenaltyParameter], src/Options.cpp:108-110 *)
Definition getInitialPenaltyParameter (o : options T) : T := o_initialPenaltyParameter o.
(** [Options::getPenaltyUpdateFactor], src/Options.cpp:122-124 *)
Definition getPenaltyUpdateFactor (o : options T) : T := o_penaltyUpdateFactor o.
(** [Options::getSolveZeroPenaltyFirst], src/Options.cpp:136-138 *)
Definition getSolveZeroPenaltyFirst (o : options T) : bool := o_solveZeroPenaltyFirst o.
(** [Options::getPerturbStep], src/Options.cpp:147-149 *)
Definition getPerturbStep (o : options T) : bool := o_perturbStep o.
(** [Options::getMaxIterations], src/Options.cpp:158-160 *)
Definition getMaxIterations (o : options T) : Z := o_maxIterations o.
(** [Options::getMaxPenaltyParameter], src/Options.cpp:172-174 *)
Definition getMaxPenaltyParameter (o : options T) : T := o_maxPenaltyParameter o.
(** [Options::getNDynamicPenalty], src/Options.cpp:185-187 *)
Definition getNDynamicPenalty (o : options T) : Z := o_nDynamicPenalty o.
(** [Options::getEtaDynamicPenalty], src/Options.cpp:196-198 *)
Definition getEtaDynamicPenalty (o : options T) : T := o_etaDynamicPenalty o.
(** [Options::getPrintLevel], src/Options.cpp:210-212 *)
Definition getPrintLevel (o : options T) : PrintLevel := o_printLevel o.
(** [Options::getStoreSteps], src/Options.cpp:231-233 *)
Definition getStoreSteps (o : options T) : bool := o_storeSteps o.
(** [Options::getQPSolver], src/Options.cpp:242-244 *)
Definition getQPSolver (o : options T) : QPSolver := o_qpSolver o.
End Get.
