(** * SpecStats: what a user of an OutputStatistics object may expect, in terms of the calls made. *)
From Coq Require Import String.
From Verif Require Import Base Arith Codes Stats StatGetters Loops Spec.
Open Scope Z_scope.

Section Stats.
Context {T : Type} `{Arith T}.

(** One recorded step: the arguments of one call of updateTrackingVectors.  No LCQPow code. *)
Record step_info : Type := mkStep {
  si_x : list T; si_inner : Z; si_sub : Z; si_length : T; si_size : T; si_stat : T; si_obj : T; si_phi : T; si_merit : T }.
(** A call of the public interface, include/OutputStatistics.hpp:52-99.  No LCQPow code. *)
Inductive scall : Type :=
  | CReset | CTotal (d : Z) | COuter (d : Z) | CSub (d : Z) | CRho (r : T) | CStatus (a : AlgorithmStatus) | CFlag (f : Z) | CStep (i : step_info).
(** The call and its return code (updateTrackingVectors and reset have none, updateSolutionStatus and updateQPSolverExitFlag return
    SUCCESSFUL_RETURN, src/OutputStatistics.cpp:117-128).  A step passes an array with as many numbers as it says. *)
Definition do_call (c : scall) (s : stats T) : res (ReturnValue * stats T) :=
  match c with
  | CReset => Ok (SUCCESSFUL_RETURN, stats_reset)
  | CTotal d => updateIterTotal d s
  | COuter d => updateIterOuter d s
  | CSub d => updateSubproblemIter d s
  | CRho r => Ok (updateRhoOpt r s)
  | CStatus a => Ok (SUCCESSFUL_RETURN, updateSolutionStatus a s)
  | CFlag f => Ok (SUCCESSFUL_RETURN, updateQPSolverExitFlag f s)
  | CStep i => let! s := updateTrackingVectors (Some (lift (si_x i))) (si_inner i) (si_sub i) (si_length i) (si_size i) (si_stat i) (si_obj i) (si_phi i) (si_merit i)
                           (len (si_x i)) s in Ok (SUCCESSFUL_RETURN, s)
  end.
(** A sequence of calls on one object, with the return codes.  No LCQPow code. *)
Fixpoint do_calls (h : list scall) (s : stats T) : res (list ReturnValue * stats T) :=
  match h with
  | [] => Ok ([], s)
  | c :: h => let! a := do_call c s in let! b := do_calls h (snd a) in Ok (fst a :: fst b, snd b)
  end.

(** The calls after the last reset.  No LCQPow code. *)
Fixpoint since_reset (h : list scall) : list scall :=
  match h with
  | [] => []
  | c :: r => if existsb (fun c => match c with CReset => true | _ => false end) r then since_reset r else match c with CReset => r | _ => c :: r end
  end.
(** The sum of the counts given in these calls.  No LCQPow code. *)
Definition added (f : scall -> Z) (l : list scall) : Z := fold_right (fun c n => f c + n) 0 l.
(** The value given last, [d] if none was given.  No LCQPow code. *)
Definition given_last {X} (f : scall -> option X) (d : X) (l : list scall) : X :=
  match List.filter (fun c => match f c with None => false | _ => true end) (rev l) with
  | c :: _ => match f c with Some x => x | None => d end
  | [] => d
  end.
(** The recorded steps, oldest first.  No LCQPow code. *)
Definition steps (l : list scall) : list step_info := concat (map (fun c => match c with CStep i => [i] | _ => [] end) l).

(** An array getter and its vector form deliver the list [l]: NULL if it is empty.  No LCQPow code. *)
Definition delivers {X} (p : res (ptr X)) (v l : list X) : Prop :=
  v = l /\ (l = [] -> p = Ok None) /\ (l <> [] -> p = Ok (Some (lift l))).

(** Everything the object shows.  No LCQPow code. *)
Record shows (s : stats T) (l : list scall) : Prop := {
  sh_total : getIterTotal s = added (fun c => match c with CTotal d => Z.max 0 d | _ => 0 end) l;
  sh_outer : getIterOuter s = added (fun c => match c with COuter d => Z.max 0 d | _ => 0 end) l;
  sh_sub : getSubproblemIter s = added (fun c => match c with CSub d => Z.max 0 d | _ => 0 end) l;
  sh_rho : getRhoOpt s = given_last (fun c => match c with CRho r => if a_le r a_zero then None else Some r | _ => None end) a_zero l;
  sh_status : getSolutionStatus s = given_last (fun c => match c with CStatus a => Some a | _ => None end) PROBLEM_NOT_SOLVED l;
  sh_flag : getQPSolverExitFlag s = given_last (fun c => match c with CFlag f => Some f | _ => None end) 0 l;
  sh_x : getxStepsStdVec s = map si_x (steps l);
  sh_inners : delivers (getInnerIters s) (getInnerItersStdVec s) (map si_inner (steps l));
  sh_subs : delivers (getSubproblemIters s) (getSubproblemItersStdVec s) (map si_sub (steps l));
  sh_accu : delivers (getAccuSubproblemIters s) (getAccuSubproblemItersStdVec s) (prefix_sums 0 (map si_sub (steps l)));
  sh_lengths : delivers (getStepLength s) (getStepLengthStdVec s) (map si_length (steps l));
  sh_sizes : delivers (getStepSize s) (getStepSizeStdVec s) (map si_size (steps l));
  sh_stats : delivers (getStatVals s) (getStatValsStdVec s) (map si_stat (steps l));
  sh_objs : delivers (getObjVals s) (getObjValsStdVec s) (map si_obj (steps l));
  sh_phis : delivers (getPhiVals s) (getPhiValsStdVec s) (map si_phi (steps l));
  sh_merits : delivers (getMeritVals s) (getMeritValsStdVec s) (map si_merit (steps l)) }.

(** The return code of a call: only negative counts and penalty parameters that are not positive are refused.  No LCQPow code. *)
Definition code_of (c : scall) : ReturnValue :=
  match c with
  | CTotal d => if d <? 0 then INVALID_TOTAL_ITER_COUNT else SUCCESSFUL_RETURN
  | COuter d => if d <? 0 then INVALID_TOTAL_OUTER_ITER else SUCCESSFUL_RETURN
  | CSub d => if d <? 0 then IVALID_SUBPROBLEM_ITER else SUCCESSFUL_RETURN
  | CRho r => if a_le r a_zero then INVALID_RHO_OPT else SUCCESSFUL_RETURN
  | _ => SUCCESSFUL_RETURN
  end.
(** The counts given in a call, without sign.  No LCQPow code. *)
Definition weight (c : scall) : Z :=
  match c with CTotal d | COuter d | CSub d => Z.abs d | CStep i => Z.abs (si_sub i) | _ => 0 end.

(** The value the Python method [name] returns.  No LCQPow code. *)
Definition py_get (name : string) (s : stats T) : option (py_value T) :=
  match List.find (fun m => String.eqb (fst m) name) py_statistics with Some m => Some (snd m s) | None => None end.
End Stats.
Arguments step_info T : clear implicits.
Arguments scall T : clear implicits.
