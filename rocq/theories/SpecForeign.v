(** * Specification vocabulary for the Eigen, KDL, Bullet and Python packages *)
From Coq Require Import ZArith Bool Reals List String.
From Verif Require Import RosTime Scalar LinearMath Instances GeomMsgs SpecGeom ForeignGeom.
Import ListNotations.
Open Scope R_scope.

Section Through.
Context {S : Scalar}.
(** A message taken through a library: converted to the library's type, transformed there,
    converted back. *)
Definition point_through_eigen (T : gtstamped S) (p : mstamped (gxyz S)) : mstamped (gxyz S) :=
  eigen_toMsg_VectorStamped (eigen_doTransform_VectorStamped (eigen_fromMsg_PointStamped p) T).
Definition point_through_kdl (T : gtstamped S) (p : mstamped (gxyz S)) : mstamped (gxyz S) :=
  kdl_toMsg_PointStamped (kdl_doTransform_Vector (kdl_fromMsg_PointStamped p) T).
Definition point_through_bullet (T : gtstamped S) (p : mstamped (gxyz S)) : mstamped (gxyz S) :=
  bullet_toMsg_PointStamped (bullet_doTransform_Vector (bullet_fromMsg_PointStamped p) T).
Definition pose_through_eigen (T : gtstamped S) (p : mstamped (gpose S)) : mstamped (gpose S) :=
  eigen_toMsg_PoseStamped (eigen_doTransform_FrameStamped (eigen_fromMsg_PoseStamped p) T).
Definition pose_through_kdl (T : gtstamped S) (p : mstamped (gpose S)) : mstamped (gpose S) :=
  kdl_toMsg_PoseStamped (kdl_doTransform_Frame (kdl_fromMsg_PoseStamped p) T).
Definition wrench_through_kdl (T : gtstamped S) (w : mstamped (gwrench S)) : mstamped (gwrench S) :=
  kdl_toMsg_WrenchStamped (kdl_doTransform_Wrench (kdl_fromMsg_WrenchStamped w) T).
Definition twist_through_kdl (T : gtstamped S) (t : mstamped (gtwist S)) : mstamped (gtwist S) :=
  kdl_toMsg_TwistStamped (kdl_doTransform_Twist (kdl_fromMsg_TwistStamped t) T).
Definition quaternion_through_eigen (T : gtstamped S) (q : mstamped (gquat S)) : mstamped (gquat S) :=
  eigen_toMsg_QuaternionStamped (eigen_doTransform_QuaternionStamped (eigen_fromMsg_QuaternionStamped q) T).
(** the header of a fresh message with the stamp and the frame of the transform *)
Definition fresh_header (T : gtstamped S) : header := mkHeader 0%Z (h_stamp (t_header T)) (h_frame (t_header T)).
End Through.

(** The velocity a twist (given at the origin of its frame) prescribes for the point [r] of
    the body. *)
Definition velocity (t : gtwist RS) (r : rxyz) : rxyz := plus (linear t) (cross (angular t) r).

(** one pose up to the sign of the quaternion *)
Definition same_pose (a b : gpose RS) : Prop :=
  position a = position b /\ same_turn (orientation a) (orientation b).

(** A library frame that is a rigid motion: its matrix is a rotation matrix (orthonormal rows,
    determinant one). *)
Definition rows_orthonormal (m : mat3 RS) : Prop :=
  let a := m0 m in let b := m1 m in let c := m2 m in
  let d (u v : vec3 RS) : R := vx u * vx v + vy u * vy v + vz u * vz v in
  d a a = 1 /\ d b b = 1 /\ d c c = 1 /\ d a b = 0 /\ d a c = 0 /\ d b c = 0.
Definition determinant (m : mat3 RS) : R :=
  let a := m0 m in let b := m1 m in let c := m2 m in
  vx a * (vy b * vz c - vz b * vy c) + vy a * (vz b * vx c - vx b * vz c) + vz a * (vx b * vy c - vy b * vx c).
Definition rigid_frame (f : xform RS) : Prop := rows_orthonormal (xbasis f) /\ determinant (xbasis f) = 1.
