(** * OwnOptions: ownership of the OSQP settings by Options objects, src/Options.cpp.

    The heap holds the OSQPSettings blocks that Options objects allocate; an address is never handed out twice, and allocation
    succeeds.  The content of a settings block and the qpOASES options are opaque values. *)
From Verif Require Import Base Arith Codes Options.

Section Own.
Context {T S Q : Type} `{Arith T}.

(** Heap of OSQPSettings blocks by address; [None]: freed.  Abstraction of malloc/free. *)
Definition heap : Type := list (option S).
(** c_malloc of a block and writing its content (used by src/Options.cpp:282, 327-331) *)
Definition h_new (v : S) (h : heap) : heap * nat := (h ++ [Some v], length h).
(** Reading a block: undefined after c_free *)
Definition h_read (a : nat) (h : heap) : res S :=
  match nth_error h a with Some (Some v) => Ok v | _ => UB UseAfterFree end.
(** Replacing the content of an address.  Auxiliary. *)
Fixpoint h_put (a : nat) (c : option S) (h : heap) : heap :=
  match h, a with
  | [], _ => []
  | _ :: h, O => c :: h
  | x :: h, Datatypes.S a => x :: h_put a c h
  end.
(** Writing into a block *)
Definition h_write (a : nat) (v : S) (h : heap) : res heap := let! _ := h_read a h in Ok (h_put a (Some v) h).
(** [c_free] *)
Definition h_free (a : nat) (h : heap) : res heap := let! _ := h_read a h in Ok (h_put a None h).

(** Members of class Options, include/Options.hpp:192-213: the numeric options, qpOASES_opts and OSQP_opts *)
Record oobj : Type := mkOobj { ob_num : options T; ob_qpoases : Q; ob_osqp : option nat }.

(** OSQP's defaults with the changes of src/Options.cpp:328-331, and qpOASES' defaults with src/Options.cpp:318-319 *)
Variables (dfltS : S) (dfltQ : Q).

(** [Options::setOSQPOptions], src/Options.cpp:273-286 *)
Definition setOSQPOptions (p : option nat) (ob : oobj) (h : heap) : res (oobj * heap) :=
  let! '(ob, h) :=
    match ob_osqp ob with
    | Some a => let! h := h_free a h in Ok (mkOobj (ob_num ob) (ob_qpoases ob) None, h)
    | None => Ok (ob, h)
    end in
  match p with
  | Some a => let! v := h_read a h in let '(h, b) := h_new v h in Ok (mkOobj (ob_num ob) (ob_qpoases ob) (Some b), h)
  | None => Ok (ob, h)
  end.

(** [Options::setToDefault], src/Options.cpp:296-333 *)
Definition own_setToDefault (ob : oobj) (h : heap) : res (oobj * heap) :=
  let! h := match ob_osqp ob with Some a => h_free a h | None => Ok h end in
  let '(h, b) := h_new dfltS h in
  Ok (mkOobj setToDefault dfltQ (Some b), h).

(** [Options::copy], src/Options.cpp:60-77 *)
Definition own_copy (rhs ob : oobj) (h : heap) : res (oobj * heap) :=
  setOSQPOptions (ob_osqp rhs) (mkOobj (copyOptions (ob_num rhs)) (ob_qpoases rhs) (ob_osqp ob)) h.

(** [Options::~Options], src/Options.cpp:40-46 *)
Definition own_dtor (ob : oobj) (h : heap) : res heap :=
  match ob_osqp ob with Some a => h_free a h | None => Ok h end.
End Own.
Arguments oobj T Q : clear implicits.
Arguments heap S : clear implicits.
