(** * Specification vocabulary for the Python side *)
From Coq Require Import ZArith Bool List String.
From Verif Require Import RosTime Scalar LinearMath Cache BufferCore SpecCore PyTime PyCore.
Import ListNotations.
Open Scope Z_scope.

Section Spec.
Context {S : Scalar}.

(** The calls of a Python program that change a buffer: set_transform, set_transform_static,
    clear. *)
Inductive py_op :=
| PSet (m : tmsg S) (authority : string)
| PSetStatic (m : tmsg S) (authority : string)
| PClear.
Definition py_step (s : core S) (o : py_op) : core S * py unit :=
  match o with
  | PSet m a => py_set false s m a
  | PSetStatic m a => py_set true s m a
  | PClear => (clear s, PyOk tt)
  end.
(** The buffer after a program, provided every call returned. *)
Fixpoint py_run (s : core S) (ops : list py_op) : option (core S) :=
  match ops with
  | [] => Some s
  | o :: ops' => match py_step s o with (s', PyOk _) => py_run s' ops' | _ => None end
  end.
(** The stamps of a program's messages lie in [0, T). *)
Definition stamps_below (T : time) (ops : list py_op) : Prop :=
  Forall (fun o => match o with PSet m _ | PSetStatic m _ => 0 <= tm_stamp m < T | PClear => True end) ops.

(** A buffer as a Python program can have it. *)
Definition py_buffer (T : time) (s : core S) : Prop :=
  exists ct ops, 0 <= ct < dur_bound /\ stamps_below T ops /\ py_run (init_core ct) ops = Some s.

(** The same program in C++. *)
Definition in_cpp (o : py_op) : core_op S :=
  match o with PSet m a => OSet m a false | PSetStatic m a => OSet m a true | PClear => OClear end.
(** The C++ program that differs in the stamps only: each one has made the trip through a
    Python float. *)
Definition restamped (o : py_op) (o' : core_op S) : Prop :=
  match o, o' with
  | PSet m a, OSet m' a' st => st = false /\ a' = a /\ py_time (tm_stamp m) = Ok (tm_stamp m') /\
      tm_frame m' = tm_frame m /\ tm_child m' = tm_child m /\ tm_trans m' = tm_trans m /\ tm_rot m' = tm_rot m
  | PSetStatic m a, OSet m' a' st => st = true /\ a' = a /\ py_time (tm_stamp m) = Ok (tm_stamp m') /\
      tm_frame m' = tm_frame m /\ tm_child m' = tm_child m /\ tm_trans m' = tm_trans m /\ tm_rot m' = tm_rot m
  | PClear, OClear => True
  | _, _ => False
  end.

(** An outcome the calling program survives: a value, or one of tf2's own exceptions. *)
Definition returns_or_raises {A} (r : py A) : Prop :=
  (exists a, r = PyOk a) \/
  exists c e, r = PyRaise c e /\
    In c [InvalidArgumentException; LookupException; ConnectivityException; ExtrapolationException; TransformException].
End Spec.
(** 2^31 s (January 2038) less the 119 ns a stamp may be off, and 2^23 s (97 days). *)
Definition year_2038 : time := 2 ^ 31 * 10 ^ 9 - 119.
Definition day_97 : time := 2 ^ 23 * 10 ^ 9.
