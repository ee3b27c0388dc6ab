(** * Specification vocabulary for how much a buffer keeps *)
From Coq Require Import ZArith Bool List String.
From Verif Require Import RosTime Scalar LinearMath Cache BufferCore SpecCore.
Import ListNotations.
Open Scope Z_scope.

Section Spec.
Context {S : Scalar}.

(** The number of samples the buffer keeps for the frame called [n], and for all its frames. *)
Definition kept (s : core S) (n : string) : nat :=
  match hist s n with Some c => List.length (samples c) | None => 0%nat end.
Definition kept_in_all (s : core S) : nat := list_sum (map (kept s) (getFrameStrings s)).

(** Messages for one frame are never less than [d] nanoseconds apart (unless of equal stamp). *)
Definition spaced (d : Z) (ops : list (core_op S)) : Prop :=
  forall n x y, In x (offers n ops) -> In y (offers n ops) -> st_stamp x = st_stamp y \/ d <= Z.abs (st_stamp x - st_stamp y).

(** The child, and both names, of each usable message. *)
Definition children (ops : list (core_op S)) : list string :=
  flat_map (fun o => match o with
    | OSet m _ _ => if bad_message (strip_msg m) then [] else [stripSlash (tm_child m)]
    | OClear => [] end) ops.
Definition named (ops : list (core_op S)) : list string :=
  flat_map (fun o => match o with
    | OSet m _ _ => if bad_message (strip_msg m) then [] else [stripSlash (tm_frame m); stripSlash (tm_child m)]
    | OClear => [] end) ops.
(** How many different ones (without the reserved "NO_PARENT"). *)
Definition different (l : list string) : nat := List.length (nodup string_dec (remove string_dec NO_PARENT l)).
End Spec.
