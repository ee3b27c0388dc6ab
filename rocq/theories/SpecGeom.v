(** * Specification vocabulary for transforming messages

    Ordinary vector algebra on the message types over the real numbers, written out on
    coordinates and independent of the tf2 linear-algebra classes. *)
From Coq Require Import ZArith Bool Reals List String.
From Verif Require Import RosTime Scalar LinearMath Instances GeomMsgs.
Import ListNotations.
Open Scope R_scope.

Notation rxyz := (gxyz RS).
Notation rgquat := (gquat RS).
Notation rtstamped := (gtstamped RS).

Definition plus (a b : rxyz) : rxyz := @mkXyz RS (gx a + gx b) (gy a + gy b) (gz a + gz b).
Definition minus (a b : rxyz) : rxyz := @mkXyz RS (gx a - gx b) (gy a - gy b) (gz a - gz b).
Definition times (k : R) (a : rxyz) : rxyz := @mkXyz RS (k * gx a) (k * gy a) (k * gz a).
Definition dot (a b : rxyz) : R := gx a * gx b + gy a * gy b + gz a * gz b.
Definition cross (a b : rxyz) : rxyz :=
  @mkXyz RS (gy a * gz b - gz a * gy b) (gz a * gx b - gx a * gz b) (gx a * gy b - gy a * gx b).

(** squared norm of a quaternion; unit and nonzero quaternions *)
Definition norm2 (q : rgquat) : R := gqx q * gqx q + gqy q * gqy q + gqz q * gqz q + gqw q * gqw q.
Definition is_unit (q : rgquat) : Prop := norm2 q = 1.
Definition is_nonzero (q : rgquat) : Prop := norm2 q <> 0.
Definition opposite (q : rgquat) : rgquat := @mkGquat RS (- gqx q) (- gqy q) (- gqz q) (- gqw q).
Definition scaled (k : R) (q : rgquat) : rgquat := @mkGquat RS (k * gqx q) (k * gqy q) (k * gqz q) (k * gqw q).
(** two quaternions standing for one rotation *)
Definition same_turn (p q : rgquat) : Prop := p = q \/ p = opposite q.
(** the vector part of a quaternion *)
Definition axis_of (q : rgquat) : rxyz := @mkXyz RS (gqx q) (gqy q) (gqz q).
(** Hamilton's product *)
Definition product (p q : rgquat) : rgquat :=
  let u := axis_of p in let v := axis_of q in
  let w := plus (plus (times (gqw p) v) (times (gqw q) u)) (cross u v) in
  @mkGquat RS (gx w) (gy w) (gz w) (gqw p * gqw q - dot u v).

(** The rotation a unit quaternion (u, w) stands for: v + 2 w (u x v) + 2 u x (u x v). *)
Definition turn (q : rgquat) (v : rxyz) : rxyz :=
  let c := cross (axis_of q) v in plus v (plus (times (2 * gqw q) c) (times 2 (cross (axis_of q) c))).

(** the rotation and the translation a TransformStamped carries *)
Definition rot {S : Scalar} (T : gtstamped S) : gquat S := g_rotation (t_transform T).
Definition shift {S : Scalar} (T : gtstamped S) : gxyz S := translation (t_transform T).
(** The rigid motion a TransformStamped with unit quaternion stands for. *)
Definition moved (T : rtstamped) (p : rxyz) : rxyz := plus (turn (rot T) p) (shift T).

(** the entry in row i, column j of the rotation matrix: coordinate i of the image of axis j *)
Definition axis (j : nat) : rxyz :=
  match j with O => @mkXyz RS 1 0 0 | 1%nat => @mkXyz RS 0 1 0 | _ => @mkXyz RS 0 0 1 end.
Definition coord (i : nat) (v : rxyz) : R := match i with O => gx v | 1%nat => gy v | _ => gz v end.
Definition entry (q : rgquat) (i j : nat) : R := coord i (turn q (axis j)).
(** the 6x6 block-diagonal matrix diag(R, R) *)
Definition blockdiag (q : rgquat) (i j : nat) : R :=
  if Nat.eqb (i / 3) (j / 3) then entry q (i mod 3) (j mod 3) else 0.
Definition sum6 (f : nat -> R) : R := f 0%nat + f 1%nat + f 2%nat + f 3%nat + f 4%nat + f 5%nat.
(** row i, column j of a row-major 6x6 matrix *)
Definition at66 (c : nat -> R) (i j : nat) : R := c (6 * i + j)%nat.
Definition symmetric66 (c : nat -> R) : Prop := forall i j, (i < 6)%nat -> (j < 6)%nat -> at66 c i j = at66 c j i.
(** the quadratic form x^T c x *)
Definition quadratic (c : nat -> R) (x : nat -> R) : R :=
  sum6 (fun i => sum6 (fun j => x i * at66 c i j * x j)).
Definition positive66 (c : nat -> R) : Prop := forall x, 0 <= quadratic c x.

(** ** One-argument forms: transform a value in place in a memory holding just that value *)
Section By.
Context {S : Scalar}.
Definition point_by (T : gtstamped S) (p : gxyz S) : gxyz S :=
  doTransform_Point (const_ref T) (at_loc 0) (at_loc 0) (fun _ => p) 0%nat.
Definition vector_by (T : gtstamped S) (p : gxyz S) : gxyz S :=
  doTransform_Vector3 (const_ref T) (at_loc 0) (at_loc 0) (fun _ => p) 0%nat.
Definition quaternion_by (T : gtstamped S) (p : gquat S) : gquat S :=
  doTransform_Quaternion (const_ref T) (at_loc 0) (at_loc 0) (fun _ => p) 0%nat.
Definition pose_by (T : gtstamped S) (p : gpose S) : gpose S :=
  doTransform_Pose (const_ref T) (at_loc 0) (at_loc 0) (fun _ => p) 0%nat.
Definition wrench_by (T : gtstamped S) (p : gwrench S) : gwrench S :=
  doTransform_Wrench (const_ref T) (at_loc 0) (at_loc 0) (fun _ => p) 0%nat.
Definition transform_by (T : gtstamped S) (p : gtstamped S) : gtstamped S :=
  doTransform_TransformStamped (const_ref T) (at_loc 0) (at_loc 0) (fun _ => p) 0%nat.
Definition covariance_by (T : gtstamped S) (junk c : nat -> S) : nat -> S :=
  transformCovariance junk c (fromMsg_Transform (t_transform T)).
(** the inverse of a transform, by Transform::inverse *)
Definition inverted (T : gtstamped S) : gtstamped S :=
  mkTstamped (t_header T) (t_child T) (toMsg_Transform (xinverse (fromMsg_Transform (t_transform T)))).
(** the header doTransform leaves in a stamped message: the stamp and frame of the transform,
    the sequence number that was there *)
Definition retagged (T : gtstamped S) (old : header) : header :=
  mkHeader (h_seq old) (h_stamp (t_header T)) (h_frame (t_header T)).
End By.
