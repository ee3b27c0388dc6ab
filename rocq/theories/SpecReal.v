(** * Specification vocabulary for the geometric (real-number) properties *)
From Coq Require Import ZArith Bool Reals List String.
From Verif Require Import RosTime Scalar LinearMath Cache BufferCore SpecCore Instances RealSlerp.
Import ListNotations.
Open Scope R_scope.

(** Every rotation the buffer keeps is a unit quaternion. *)
Definition unit_samples (s : core RS) : Prop :=
  forall n c x, hist s n = Some c -> In x (samples c) -> qunit (st_rot x).

(** Every message in the history of calls carries a unit quaternion. *)
Definition unit_ops (ops : list (core_op RS)) : Prop :=
  forall m a st, In (OSet m a st) ops -> qunit (tm_rot m).

(** The rigid motion a message carries. *)
Definition msg_pose {S : Scalar} (m : tmsg S) : pose S := (tm_rot m, tm_trans m).

(** Two quaternions for the same rotation: equal up to sign. *)
Definition same_rotation (p q : quat RS) : Prop := p = q \/ p = qneg q.
Definition same_motion (a b : pose RS) : Prop := same_rotation (fst a) (fst b) /\ snd a = snd b.

(** A rotation matrix: orthonormal rows, determinant one. *)
Definition rotation (m : mat3 RS) : Prop :=
  let '(M3 (V3 a b c) (V3 d e f) (V3 g h i)) := m in
  (a * a + b * b + c * c = 1 /\ d * d + e * e + f * f = 1 /\ g * g + h * h + i * i = 1) /\
  (a * d + b * e + c * f = 0 /\ a * g + b * h + c * i = 0 /\ d * g + e * h + f * i = 0) /\
  a * (e * i - f * h) - b * (d * i - f * g) + c * (d * h - e * g) = 1.

(** A quaternion that stands for a rotation at all. *)
Definition nonzero (q : quat RS) : Prop :=
  qx q * qx q + qy q * qy q + qz q * qz q + qw q * qw q <> 0.

(** Rotations about the three coordinate axes. *)
Definition Rx (a : R) : mat3 RS := @M3 RS (@V3 RS 1 0 0) (@V3 RS 0 (cos a) (- sin a)) (@V3 RS 0 (sin a) (cos a)).
Definition Ry (a : R) : mat3 RS := @M3 RS (@V3 RS (cos a) 0 (sin a)) (@V3 RS 0 1 0) (@V3 RS (- sin a) 0 (cos a)).
Definition Rz (a : R) : mat3 RS := @M3 RS (@V3 RS (cos a) (- sin a) 0) (@V3 RS (sin a) (cos a) 0) (@V3 RS 0 0 1).
(** fixed-axis roll, then pitch, then yaw *)
Definition ypr_matrix (yaw pitch roll : R) : mat3 RS := mmul (Rz yaw) (mmul (Ry pitch) (Rx roll)).
(** The rotation a (yaw, pitch, roll) triple stands for. *)
Definition of_ypr (a : scar RS * scar RS * scar RS) : mat3 RS := let '(y, p, r) := a in ypr_matrix y p r.
(** sin(pitch) of the rotation a quaternion stands for *)
Definition sin_pitch (q : quat RS) : R :=
  2 * (qw q * qy q - qx q * qz q) / (qx q * qx q + qy q * qy q + qz q * qz q + qw q * qw q).
