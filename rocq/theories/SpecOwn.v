(** * SpecOwn: histories of Options objects (specification, not LCQPow code).

    A program creates, copies, assigns, changes and destroys Options objects.  The options member of an LCQProblem is one of these objects:
    LCQProblem::setOptions is an assignment to it (include/LCQProblem.ipp:161-164). *)
From Verif Require Import Base Arith Codes Options SpecOptions OwnOptions.

Section SpecOwn.
Context {T S Q : Type} `{Arith T}.
Variables (dfltS : S) (dfltQ : Q).

(** What is passed to setOSQPOptions: NULL, settings of the caller, or the pointer that getOSQPOptions of object [i] returned.  No LCQPow code. *)
Inductive osqp_arg : Type := ANull | ACaller (v : S) | AGet (i : nat).
(** One operation of the program.  No LCQPow code. *)
Inductive op : Type :=
| ONew                                   (* Options o; *)
| ONewCopy (src : nat)                   (* Options o(src); *)
| OAssign (dst src : nat)                (* dst = src; *)
| OSet (i : nat) (s : setter T)          (* i.set...(v) *)
| OSetQp (i : nat) (q : Q)               (* i.setqpOASESOptions(q), or a write through getqpOASESOptions *)
| OSetOsqp (i : nat) (p : osqp_arg)      (* i.setOSQPOptions(p) *)
| OWrite (i : nat) (v : S)               (* *i.getOSQPOptions() = v *)
| ODefault (i : nat)                     (* i.setToDefault() *)
| ODelete (i : nat).                     (* end of life *)
(** The operation acts on this existing object.  No LCQPow code. *)
Definition acts_on (o : op) : option nat :=
  match o with ONew | ONewCopy _ => None | OAssign i _ | OSet i _ | OSetQp i _ | OSetOsqp i _ | OWrite i _ | ODefault i | ODelete i => Some i end.

(** Heap and objects ([None]: destroyed).  No LCQPow code. *)
Record pstate : Type := mkPs { p_heap : heap S; p_objs : list (option (oobj T Q)) }.
(** The program starts.  No LCQPow code. *)
Definition pstart : pstate := mkPs [] [].
(** Object [i].  No LCQPow code. *)
Definition obj_at (st : pstate) (i : nat) : option (oobj T Q) := match nth_error (p_objs st) i with Some o => o | None => None end.
(** Replace object [i].  No LCQPow code. *)
Fixpoint upd {X} (i : nat) (x : X) (l : list X) : list X :=
  match l, i with [], _ => [] | _ :: l, O => x :: l | y :: l, Datatypes.S i => y :: upd i x l end.
(** Put the object back.  No LCQPow code. *)
Definition put (st : pstate) (i : nat) (r : res (oobj T Q * heap S)) : res pstate :=
  let! '(ob, h) := r in Ok (mkPs h (upd i (Some ob) (p_objs st))).
(** Append a new object.  No LCQPow code. *)
Definition push (st : pstate) (r : res (oobj T Q * heap S)) : res pstate :=
  let! '(ob, h) := r in Ok (mkPs h (p_objs st ++ [Some ob])).
(** A live object, or a wrong program.  No LCQPow code. *)
Definition live (st : pstate) (i : nat) : res (oobj T Q) := match obj_at st i with Some ob => Ok ob | None => UB BadCall end.

(** One step.  The settings of the caller live outside of the library's heap, so they are entered as a block that is removed after the call.
    No LCQPow code. *)
Definition step (o : op) (st : pstate) : res pstate :=
  let h := p_heap st in
  match o with
  | ONew => push st (own_setToDefault dfltS dfltQ (mkOobj setToDefault dfltQ None) h)
  | ONewCopy j => let! src := live st j in push st (own_copy src (mkOobj setToDefault dfltQ None) h)
  | OAssign i j => let! ob := live st i in let! src := live st j in if Nat.eqb i j then Ok st else put st i (own_copy src ob h)
  | OSet i s => let! ob := live st i in put st i (Ok (mkOobj (snd (call s (ob_num ob))) (ob_qpoases ob) (ob_osqp ob), h))
  | OSetQp i q => let! ob := live st i in put st i (Ok (mkOobj (ob_num ob) q (ob_osqp ob), h))
  | OSetOsqp i ANull => let! ob := live st i in put st i (setOSQPOptions None ob h)
  | OSetOsqp i (ACaller v) => let! ob := live st i in
      let '(h, a) := h_new v h in
      let! '(ob, h) := setOSQPOptions (Some a) ob h in
      let! h := h_free a h in
      put st i (Ok (ob, h))
  | OSetOsqp i (AGet j) => let! ob := live st i in let! src := live st j in put st i (setOSQPOptions (ob_osqp src) ob h)
  | OWrite i v => let! ob := live st i in let! a := deref (ob_osqp ob) in let! h := h_write a v h in Ok (mkPs h (p_objs st))
  | ODefault i => let! ob := live st i in put st i (own_setToDefault dfltS dfltQ ob h)
  | ODelete i => let! ob := live st i in let! h := own_dtor ob h in Ok (mkPs h (upd i None (p_objs st)))
  end.
(** A whole program.  No LCQPow code. *)
Fixpoint run (l : list op) (st : pstate) : res pstate :=
  match l with [] => Ok st | o :: l => let! st := step o st in run l st end.

(** What the object's getters show: numeric options, qpOASES options, OSQP settings ([None]: NULL).  No LCQPow code. *)
Definition view (st : pstate) (i : nat) : option (options T * Q * option (option S)) :=
  match obj_at st i with
  | Some ob => Some (ob_num ob, ob_qpoases ob, match ob_osqp ob with Some a => Some (match nth_error (p_heap st) a with Some c => c | None => None end) | None => None end)
  | None => None
  end.
(** What an object shows after an operation that acted on it (or created it).  No LCQPow code. *)
Definition expected (o : op) (st : pstate) : option (options T * Q * option (option S)) -> Prop := fun w =>
  match o with
  | ONew | ODefault _ => w = Some (setToDefault, dfltQ, Some (Some dfltS))
  | ONewCopy j | OAssign _ j => w = view st j
  | OSet i s => exists n q p, view st i = Some (n, q, p) /\ w = Some (snd (call s n), q, p)
  | OSetQp i q => exists n q' p, view st i = Some (n, q', p) /\ w = Some (n, q, p)
  | OSetOsqp i ANull => exists n q p, view st i = Some (n, q, p) /\ w = Some (n, q, None)
  | OSetOsqp i (ACaller v) | OWrite i v => exists n q p, view st i = Some (n, q, p) /\ w = Some (n, q, Some (Some v))
  | OSetOsqp i (AGet j) => exists n q p n' q' p', view st i = Some (n, q, p) /\ view st j = Some (n', q', p') /\ w = Some (n, q, p')
  | ODelete _ => w = None
  end.
(** The object that the operation acts on or creates.  No LCQPow code. *)
Definition affected (o : op) (st : pstate) : nat := match acts_on o with Some i => i | None => length (p_objs st) end.

(** The program is sensible at this point: it uses live objects only, does not write through NULL, and does not pass an object's own settings
    to its setOSQPOptions.  No LCQPow code. *)
Definition sensible (o : op) (st : pstate) : Prop :=
  match o with
  | ONew => True
  | ONewCopy j => obj_at st j <> None
  | OAssign i j => obj_at st i <> None /\ obj_at st j <> None
  | OSetOsqp i (AGet j) => obj_at st i <> None /\ obj_at st j <> None /\ (i = j -> forall ob, obj_at st i = Some ob -> ob_osqp ob = None)
  | OWrite i _ => exists ob a, obj_at st i = Some ob /\ ob_osqp ob = Some a
  | OSet i _ | OSetQp i _ | OSetOsqp i _ | ODefault i | ODelete i => obj_at st i <> None
  end.
(** A sensible program.  No LCQPow code. *)
Fixpoint sensible_run (l : list op) (st : pstate) : Prop :=
  match l with [] => True | o :: l => sensible o st /\ forall st', step o st = Ok st' -> sensible_run l st' end.
(** Every block in use belongs to a live object.  No LCQPow code. *)
Definition no_leak (st : pstate) : Prop :=
  forall a v, nth_error (p_heap st) a = Some (Some v) -> exists i ob, obj_at st i = Some ob /\ ob_osqp ob = Some a.
End SpecOwn.
Arguments osqp_arg S : clear implicits.
Arguments op T S Q : clear implicits.
Arguments pstate T S Q : clear implicits.
