(** * Specification vocabulary for Python's BufferClient *)
From Coq Require Import ZArith Bool List String.
From Verif Require Import RosTime Scalar LinearMath Cache BufferCore GeomMsgs BufferInterface SpecWait TfAction SpecAction PyTime PyCore PyInterface PyClient.
Import ListNotations.
Open Scope Z_scope.

Section Spec.
Context {S : Scalar}.
(** The client's two ways of asking, for the same question. *)
Definition py_remote id answer (u : question) timeout : py (tmsg S) :=
  match u with
  | Simple tgt src t => py_client_lookup id answer tgt src t timeout
  | Advanced tgt t1 src t2 fix_ => py_client_lookup_full id answer tgt t1 src t2 fix_ timeout
  end.
Definition py_remote_can id answer (u : question) timeout : py bool :=
  match u with
  | Simple tgt src t => py_client_can (S:=S) id answer tgt src t timeout
  | Advanced tgt t1 src t2 fix_ => py_client_can_full id answer tgt t1 src t2 fix_ timeout
  end.

(** The Python and the C++ outcome of a call: the same value, or the same exception class and
    text. *)
Definition same_outcome {A} (p : py A) (r : res A) : Prop :=
  match p, r with
  | PyOk a, Ok b => a = b
  | PyRaise c e, Throw c' e' => c = c' /\ e = e'
  | _, _ => False
  end.
(** the times of the question are floats of themselves *)
Definition floats_exactly (u : question) : Prop :=
  match u with
  | Simple _ _ t => py_time t = Ok t
  | Advanced _ t1 _ t2 _ => py_time t1 = Ok t1 /\ py_time t2 = Ok t2
  end.

(** BufferClient as the interface transform sits in front of *)
Definition py_as_outcome (r : py (tmsg S)) : outcome (py unit) (gtstamped S) :=
  match r with PyOk m => Return (to_message m) | p => Raise (XLookup (pbind p (fun _ => PyOk tt))) end.
Definition client_at (id : nat) (answer : goal -> reply S) : py_interface S (py unit) :=
  mkPyInterface
    (fun target source t timeout => py_as_outcome (py_client_lookup id answer target source t timeout))
    (fun target t1 source t2 fixed timeout => py_as_outcome (py_client_lookup_full id answer target t1 source t2 fixed timeout)).
End Spec.
