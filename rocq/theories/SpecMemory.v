(** * SpecMemory: what releasing all memory exactly once means.  No LCQPow code. *)
From Coq Require Import List Bool Arith.
From Verif Require Import Base OwnProblem.
Import ListNotations.

(** No block is freed twice and none is used after it was freed. *)
Definition memory_safe (r : res (list bool * mst)) : Prop := exists oks s, r = Ok (oks, s).
(** Moreover, at the end of the lifetime no block is left. *)
Definition all_freed (r : res (list bool * mst)) : Prop := exists oks s, r = Ok (oks, s) /\ forall a, live s a = false.

(** Runs with OSQP whose data OSQP accepts. *)
Definition osqp_accepts (o : mop) : Prop := exists r, o = MRun r /\ rp_solver r = Osqp /\ rp_setup r = true.
(** Runs with OSQP whose data OSQP rejects. *)
Definition osqp_rejects (o : mop) : Prop := exists r, o = MRun r /\ rp_solver r = Osqp /\ rp_setup r = false.
(** No run is rejected by OSQP after an earlier one was accepted. *)
Definition no_late_reject (l : list mop) : Prop :=
  forall l1 o1 l2 o2 l3, l = l1 ++ o1 :: l2 ++ o2 :: l3 -> osqp_accepts o1 -> ~ osqp_rejects o2.

(** A load with all required data, whose bounds and files are accepted; the mode it leaves the object in *)
Definition load_ok (d : dims) (o : mop) (sparse : bool) : Prop :=
  d_ok d = true /\
  match o with
  | MLoad a => sparse = false /\ la_g a = true /\ la_bad a = false /\ (la_A a = true \/ d_cons d = false)
  | MLoadSparse a => sparse = true /\ la_g a = true /\ la_bad a = false /\ la_C a = true
  | MLoadFiles f => sparse = false /\ la_bad (fa_args f) = false /\ (la_A (fa_args f) = true \/ d_cons d = false) /\
                    forall t, fa_ok f t = true
  | _ => False
  end.

(** Runs that are refused in the given mode *)
Definition refused (sparse : bool) (r : rpath) : Prop :=
  match rp_solver r with QpDense => sparse = true | QpSparse | Osqp => sparse = false | OtherSolver => True end.

(** Successful mode switches and refused runs, from one mode to another *)
Inductive idle : bool -> list mop -> bool -> Prop :=
| idle_nil : forall m, idle m [] m
| idle_sparse : forall m l m', idle true l m' -> idle m (MToSparse :: l) m'
| idle_dense : forall m l m' ok, (forall f, ok f = true) -> idle false l m' -> idle m (MToDense ok :: l) m'
| idle_refused : forall m l m' r, refused m r -> idle m l m' -> idle m (MRun r :: l) m'.

(** One successful load and at most one run that is not refused, not with sparse qpOASES *)
Inductive single_use (d : dims) : list mop -> Prop :=
| su_none : single_use d []
| su_failed : forall a, single_use d [MLoad a]
| su_load : forall o m l m', load_ok d o m -> idle m l m' -> single_use d (o :: l)
| su_run : forall o m l1 m1 r l2 m2, load_ok d o m -> idle m l1 m1 -> rp_solver r <> QpSparse -> idle m1 l2 m2 ->
    single_use d (o :: l1 ++ MRun r :: l2).

(** Loading calls *)
Definition is_load (o : mop) : Prop := match o with MLoad _ | MLoadSparse _ | MLoadFiles _ => True | _ => False end.
(** The [i]-th call is [o] and succeeded. *)
Definition succeeded (l : list mop) (oks : list bool) (i : nat) (o : mop) : Prop :=
  nth_error l i = Some o /\ nth_error oks i = Some true.
