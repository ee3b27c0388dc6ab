(** * Specification vocabulary for the objects of a Python interpreter *)
From Coq Require Import ZArith Bool List String.
From Verif Require Import RosTime Scalar LinearMath Cache BufferCore PyTime PyRefs.
Import ListNotations.
Open Scope string_scope.
Open Scope list_scope.
Open Scope nat_scope.

Section Spec.
Context {S : Scalar}.
Notation heap := (@heap S).

(** Every object that is there has a reference, and all it refers to is there. *)
Definition sound (h : heap) : Prop :=
  forall a o, get h a = Some o -> 1 <= o_refs o /\ forall n v, find_slot n (o_slots o) = Some (Held v) -> get h v <> None.

(** [h'] has the same objects as [h], each with its contents; the only difference is that the
    objects in [l] have gained a reference for each time they occur in it. *)
Fixpoint occurrences (a : addr) (l : list addr) : nat :=
  match l with [] => 0 | b :: l => (if addr_eqb a b then 1 else 0) + occurrences a l end.
Definition gained (h h' : heap) (l : list addr) : Prop :=
  forall a, get h' a = match get h a with
                       | Some o => Some (mkObj (o_refs o + occurrences a l) (o_class o) (o_slots o) (o_data o))
                       | None => None
                       end.

(** An object holds another under a name; an object is something. *)
Definition holds (h : heap) (a : addr) (n : string) (v : addr) : Prop :=
  exists o, get h a = Some o /\ find_slot n (o_slots o) = Some (Held v).
Definition is (h : heap) (a : addr) (d : data) : Prop := exists o, get h a = Some o /\ o_data o = d.
Definition has (h : heap) (a : addr) (n : string) (d : data) : Prop := exists v, holds h a n v /\ is h v d.

(** The object [p] reads as the message [m]: it has all the fields, each of the right type. *)
Definition message (h : heap) (p : addr) (m : tmsg S) : Prop :=
  exists header transform translation rotation,
    holds h p "header" header /\ has h p "child_frame_id" (DText (tm_child m)) /\ holds h p "transform" transform /\
    has h header "frame_id" (DText (tm_frame m)) /\ has h header "stamp" (DTime (tm_stamp m)) /\
    holds h transform "translation" translation /\ holds h transform "rotation" rotation /\
    has h translation "x" (DNum (vx (tm_trans m))) /\ has h translation "y" (DNum (vy (tm_trans m))) /\ has h translation "z" (DNum (vz (tm_trans m))) /\
    has h rotation "x" (DNum (qx (tm_rot m))) /\ has h rotation "y" (DNum (qy (tm_rot m))) /\ has h rotation "z" (DNum (qz (tm_rot m))) /\
    has h rotation "w" (DNum (qw (tm_rot m))).

(** The two modules hold the classes the bindings ask them for, and the constants are there. *)
Definition modules (h : heap) : Prop :=
  holds h (Glob GGeometry) "Vector3" (Glob GVectorClass) /\ holds h (Glob GGeometry) "Quaternion" (Glob GQuaternionClass) /\
  holds h (Glob GGeometry) "TransformStamped" (Glob GStampedClass) /\ holds h (Glob GRospy) "Time" (Glob GTimeClass) /\
  get h (Glob GNone) <> None /\ get h (Glob GZero) <> None /\ get h (Glob GEmpty) <> None /\ get h (Glob GInt0) <> None.

(** [k] messages are read one after the other. *)
Fixpoint read_times (k : nat) (p : addr) (h : heap) : option heap :=
  match k with
  | 0 => Some h
  | Datatypes.S k => match read_transform false p h with Some (h', _) => read_times k p h' | None => None end
  end.

(** The same objects, with the same contents and as many references. *)
Definition same (h h' : heap) : Prop := forall a, get h' a = get h a.
End Spec.
