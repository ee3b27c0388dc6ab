(** * Specification vocabulary for what a buffer reports about itself (C58) *)
From Coq Require Import ZArith Bool List String.
From Verif Require Import RosTime Scalar LinearMath Cache BufferCore SpecCore Introspection.
Import ListNotations.
Open Scope Z_scope.

Section Spec.
Context {S : Scalar}.
Notation core := (core S).

(** The frame has been a child of an accepted-for-processing message. *)
Definition has_history (s : core) (n : string) : bool :=
  match hist s n with Some _ => true | None => false end.
(** The frame has a newest sample. *)
Definition has_data (s : core) (n : string) : bool :=
  match sample_at s 0 n with Some _ => true | None => false end.

(** One line of allFramesAsString. *)
Definition parent_line (s : core) (n : string) : string :=
  ("Frame " ++ n ++ " exists with parent " ++
   (match sample_at s 0 n with Some d => st_frame d | None => NO_PARENT end) ++ "." ++ newline)%string.

(** [lo] is the oldest stamp kept for a time-varying frame; 0 for a static one. *)
Definition oldest_stamp {F} (c : cache S F) (lo : time) : Prop :=
  match c with
  | Dynamic _ l => (exists x, In x l /\ st_stamp x = lo) /\ forall x, In x l -> lo <= st_stamp x
  | Static _ => lo = 0
  end.
(** What is reported as the time of the newest sample of a frame. *)
Definition newest_stamp {F} (c : cache S F) (hi : time) : Prop :=
  match c with
  | Dynamic _ l => (exists x, In x l /\ st_stamp x = hi) /\ forall x, In x l -> st_stamp x <= hi
  | Static _ => hi = 0
  end.

(** [r] is a correct description of the frame [n] at wall time [now]. *)
Definition describes (s : core) (now : S) (n : string) (r : row S) : Prop :=
  exists d c hi lo,
    sample_at s 0 n = Some d /\ hist s n = Some c /\ newest_stamp c hi /\ oldest_stamp c lo /\
    y_name r = n /\ y_parent r = st_frame d /\
    y_latest r = sofns hi /\ y_oldest r = sofns lo /\ y_length r = sofns (hi - lo) /\
    y_delay r = (if sgtb now szero then Some (now - sofns hi)%S else None) /\
    y_rate r = (slit (Z.of_nat (List.length (samples c))) 1 /
                (let span := (sofns hi - sofns lo)%S in
                 if sltb span (slit 1 10000) then slit 1 10000 else span))%S.

(** A frame drawn as a root of the graph: it has been a child but has no parent now, or it has only
    ever been a parent (the code draws the latter only when given the current time). *)
Definition drawn_as_root (s : core) (now : S) (n : string) : bool :=
  match hist s n with
  | None => sgtb now szero
  | Some _ => match link s 0 n with None => true | Some _ => false end
  end.

(** The call [o], made after the calls [pre], was an accepted message for child [n]. *)
Definition accepted_for (ct : duration) (n : string) (pre : list (core_op S)) (o : core_op S) : Prop :=
  match o with
  | OSet m a st => stripSlash (tm_child m) = n /\ snd (setTransform (run (init_core ct) pre) m a st) = Ok true
  | OClear => False
  end.
(** [a] sent the last accepted message for [n]. *)
Definition last_sender (ct : duration) (n : string) (ops : list (core_op S)) (a : string) : Prop :=
  exists pre m st post, ops = pre ++ OSet m a st :: post /\
    accepted_for ct n pre (OSet m a st) /\
    forall post1 o post2, post = post1 ++ o :: post2 ->
      ~ accepted_for ct n (pre ++ OSet m a st :: post1) o.
Definition never_accepted (ct : duration) (n : string) (ops : list (core_op S)) : Prop :=
  forall pre o post, ops = pre ++ o :: post -> ~ accepted_for ct n pre o.
End Spec.
