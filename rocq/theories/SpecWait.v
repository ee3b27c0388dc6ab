(** * Specification vocabulary for waiting calls, BufferServer and BufferClient *)
From Coq Require Import ZArith Bool List String.
From Verif Require Import RosTime Scalar LinearMath Cache BufferCore SpecCore TfBuffer.
Import ListNotations.
Open Scope Z_scope.

(** A question a user can put to a buffer: the simple or the advanced (fixed frame) API. *)
Inductive question :=
| Simple (target source : string) (t : time)
| Advanced (target : string) (target_time : time) (source : string) (source_time : time) (fixed : string).

Section Spec.
Context {S : Scalar}.

(** The answers of BufferCore, without waiting. *)
Definition can (u : question) (c : core S) (e : errp) : res (bool * errp) :=
  match u with
  | Simple tgt src t => canTransform c tgt src t e
  | Advanced tgt t1 src t2 fix_ => canTransformFixed c tgt t1 src t2 fix_ e
  end.
Definition lookup (u : question) (c : core S) : res (tmsg S) :=
  match u with
  | Simple tgt src t => lookupTransform c tgt src t
  | Advanced tgt t1 src t2 fix_ => lookupTransformFixed c tgt t1 src t2 fix_
  end.
(** tf2_ros::Buffer's waiting calls for the same question. *)
Definition can_wait fuel dedicated (w : world S) i (u : question) timeout errstr : option (res outcome) :=
  match u with
  | Simple tgt src t => canTransform_wait fuel dedicated w i tgt src t timeout errstr
  | Advanced tgt t1 src t2 fix_ => canTransformFixed_wait fuel dedicated w i tgt t1 src t2 fix_ timeout errstr
  end.
Definition lookup_wait fuel dedicated (w : world S) i (u : question) timeout : option (res (tmsg S)) :=
  match u with
  | Simple tgt src t => lookupTransform_wait fuel dedicated w i tgt src t timeout
  | Advanced tgt t1 src t2 fix_ => lookupTransformFixed_wait fuel dedicated w i tgt t1 src t2 fix_ timeout
  end.

(** The transform asked for can be computed at instant [k]. *)
Definition available (u : question) (w : world S) (k : nat) : Prop := can u (w_core (w k)) None = Ok (true, None).

(** times of the question below 2^31 s *)
Definition times_early (u : question) : Prop :=
  match u with
  | Simple _ _ t => 0 <= t < dur_bound
  | Advanced _ t1 _ t2 _ => 0 <= t1 < dur_bound /\ 0 <= t2 < dur_bound
  end.

(** A buffer in use: every state of it is reachable through the API. *)
Definition real_world (w : world S) : Prop := forall k, reachable (w_core (w k)).

(** the error string the core call gets: empty, or absent *)
Definition emptied (errstr : errp) : errp := match errstr with Some _ => Some EEmpty | None => None end.
End Spec.
