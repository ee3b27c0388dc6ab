(** * Specification: new data does not rewrite the past (C81)

    Vocabulary for "the buffer goes on receiving data, and a question about an earlier time is
    asked again". *)
From Coq Require Import ZArith Bool List String.
From Verif Require Import RosTime Scalar LinearMath Cache BufferCore SpecCore.
Import ListNotations.
Open Scope Z_scope.

Section Spec.
Context {S : Scalar}.

(** Ordinary traffic after time [t]: time-varying messages only, each stamped after [t] (and
    before 2038), for a frame that is not a static one, and newer than everything the buffer
    already holds about that frame.  The messages may be malformed, arrive in any order among
    themselves, and be about frames the buffer has never heard of. *)
Definition newer_than_all (m : tmsg S) (h : option (cache S string)) : Prop :=
  match h with
  | None => True
  | Some (Static _) => False
  | Some (Dynamic _ l) => forall x, In x l -> st_stamp x < tm_stamp m
  end.
Definition later_message (s : core S) (t : time) (o : core_op S) : Prop :=
  match o with
  | OSet m _ st => st = false /\ t < tm_stamp m < dur_bound /\ newer_than_all m (hist s (stripSlash (tm_child m)))
  | OClear => False
  end.
Definition later_traffic (s : core S) (t : time) (ops : list (core_op S)) : Prop :=
  Forall (later_message s t) ops.

(** The history ends before [t]: the data for [t] had not arrived yet. *)
Definition behind (t : time) (h : option (cache S string)) : Prop :=
  exists max l, h = Some (Dynamic max l) /\ l <> [] /\ forall x, In x l -> st_stamp x < t.

(** Some sample at or before [t] is within the storage time of the stamp [u]: a message
    stamped [u] does not push the data for [t] out of the history. *)
Definition in_window (t u : time) (h : option (cache S string)) : Prop :=
  match h with
  | Some (Dynamic max l) =>
      (exists x, In x l /\ st_stamp x <= t) -> exists x, In x l /\ st_stamp x <= t /\ u <= st_stamp x + max
  | _ => True
  end.

(** No message is for a frame that was behind at [t]; no message pushes the data for [t] out. *)
Definition none_behind (s : core S) (t : time) (ops : list (core_op S)) : Prop :=
  forall m a st, In (OSet m a st) ops -> ~ behind t (hist s (stripSlash (tm_child m))).
Definition none_expires (s : core S) (t : time) (ops : list (core_op S)) : Prop :=
  forall m a st, In (OSet m a st) ops -> in_window t (tm_stamp m) (hist s (stripSlash (tm_child m))).

(** No kept sample of a time-varying frame is stamped exactly [t]. *)
Definition between_samples (s : core S) (t : time) : Prop :=
  forall n max l x, hist s n = Some (Dynamic max l) -> In x l -> st_stamp x <> t.

(** Two answers agree: the same message, or no transform both times. *)
Definition agrees (r r' : res (tmsg S)) : Prop :=
  forall m, r = Ok m <-> r' = Ok m.
End Spec.
