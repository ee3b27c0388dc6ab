(** * Specification vocabulary for Python's waiting calls *)
From Coq Require Import ZArith Bool List String.
From Verif Require Import RosTime Scalar LinearMath Cache BufferCore SpecCore SpecWait PyTime PyCore SpecPy PyBuffer.
Import ListNotations.
Open Scope Z_scope.

Section Spec.
Context {S : Scalar}.
(** The Python calls for a question (simple or advanced API): without waiting ... *)
Definition ask (u : question) (c : core S) : py (tmsg S) :=
  match u with
  | Simple tgt src t => py_lookup c tgt src t
  | Advanced tgt t1 src t2 fix_ => py_lookup_full c tgt t1 src t2 fix_
  end.
(** ... and with a timeout. *)
Definition can_within fuel (w : pworld S) i (u : question) timeout : option (waited bool) :=
  match u with
  | Simple tgt src t => py_can_wait fuel w i tgt src t timeout
  | Advanced tgt t1 src t2 fix_ => py_can_full_wait fuel w i tgt t1 src t2 fix_ timeout
  end.
Definition lookup_within fuel (w : pworld S) i (u : question) timeout : option (waited (tmsg S)) :=
  match u with
  | Simple tgt src t => py_lookup_wait fuel w i tgt src t timeout
  | Advanced tgt t1 src t2 fix_ => py_lookup_full_wait fuel w i tgt t1 src t2 fix_ timeout
  end.

(** At instant [k] the lookup, made without waiting, returns a transform. *)
Definition there (u : question) (w : pworld S) (k : nat) : Prop := exists m, ask u (p_core (w k)) = PyOk m.

(** Before 2038: the buffer is at every instant one a Python program can have filled, the clock
    is not negative. *)
Definition python_world (w : pworld S) : Prop := forall k, py_buffer year_2038 (p_core (w k)) /\ 0 <= p_now (w k).
(** and so are the times of the question. *)
Definition times_2038 (u : question) : Prop :=
  match u with
  | Simple _ _ t => 0 <= t < year_2038
  | Advanced _ t1 _ t2 _ => 0 <= t1 < year_2038 /\ 0 <= t2 < year_2038
  end.
End Spec.
