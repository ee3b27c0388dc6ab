(** * Specification vocabulary for the accuracy of transformed poses (C85) *)
From Coq Require Import ZArith Reals List.
From Verif Require Import Scalar LinearMath Instances GeomMsgs SpecReal SpecRound SpecApply.
Import ListNotations.
Open Scope R_scope.

(** A quaternion divided by its length *)
Definition unit_of (q : quat RS) : quat RS := @Q4 RS (qx q / qnorm q) (qy q / qnorm q) (qz q / qnorm q) (qw q / qnorm q).
(** Finite numbers within [d] of the unit quaternion for the rotation [r], or of its negative
    (which stands for the same rotation). *)
Definition turns_like {lm : libm} (q : gquat (F64 lm)) (r : quat RS) (d : R) : Prop :=
  qfinite (fromMsg_Quaternion q) /\ exists r', same_rotation r' (unit_of r) /\ qdist (qval (fromMsg_Quaternion q)) r' <= d.

(** The numbers in a pose message *)
Definition pose_rot {lm : libm} (p : gpose (F64 lm)) : quat RS := qval (fromMsg_Quaternion (orientation p)).
Definition pose_pos {lm : libm} (p : gpose (F64 lm)) : vec3 RS := xyz_val (position p).
Definition pose_finite {lm : libm} (p : gpose (F64 lm)) : Prop := qfinite (fromMsg_Quaternion (orientation p)) /\ xyz_finite (position p).

(** A transform with finite numbers, a quaternion of length between 1/2 and 2, a translation of at
    most [L] *)
Definition fair {lm : libm} (L : R) (T : gtstamped (F64 lm)) : Prop :=
  rot_finite T /\ 1 / 2 <= qnorm (rot_val T) <= 2 /\ xyz_finite (shift_of T) /\ vnorm (xyz_val (shift_of T)) <= L.
(** Exact rotation and position after a pose went through transforms, the first one first *)
Fixpoint rot_after {lm : libm} (Ts : list (gtstamped (F64 lm))) (q : quat RS) : quat RS :=
  match Ts with [] => q | T :: Ts' => rot_after Ts' (qmul (rot_val T) q) end.
Fixpoint pos_after {lm : libm} (Ts : list (gtstamped (F64 lm))) (v : vec3 RS) : vec3 RS :=
  match Ts with [] => v | T :: Ts' => pos_after Ts' (rplus (turned (rot_val T) v) (xyz_val (shift_of T))) end.
