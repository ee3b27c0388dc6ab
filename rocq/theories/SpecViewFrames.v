(** * Specification vocabulary for view_frames.py *)
From Coq Require Import ZArith Bool List String.
From Verif Require Import RosTime Scalar LinearMath Cache BufferCore SpecCore Introspection SpecIntro ViewFrames.
Import ListNotations.

Section Spec.
Context {S : Scalar}.
(** Every registered frame has a name that YAML reads as a string. *)
Definition ordinary_names (resolve : string -> ykey) (s : core S) : Prop := forall n, In n (getFrameStrings s) -> resolve n = KStr n.
(** The parent of the newest sample of [n] is [p]. *)
Definition child_of (s : core S) (n p : string) : Prop := exists d, sample_at s 0 n = Some d /\ st_frame d = p.
(** The edge shows frame [n] under its parent, labelled with a correct description. *)
Definition shows (s : core S) (n : string) (e : edge S) : Prop :=
  child_of s n (g_from e) /\ g_to e = n /\ describes s szero n (g_label e).
(** Every parent of a frame with data has data itself. *)
Definition rootless (s : core S) : Prop := forall n p, child_of s n p -> has_data s p = true.
End Spec.
