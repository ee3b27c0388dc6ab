(** * tf2_eigen, tf2_kdl, tf2_bullet and the Python doTransform functions

    Model of tf2_eigen/include/tf2_eigen/tf2_eigen.h, tf2_kdl/include/tf2_kdl/tf2_kdl.h,
    tf2_bullet/include/tf2_bullet/tf2_bullet.h,
    tf2_geometry_msgs/src/tf2_geometry_msgs/tf2_geometry_msgs.py and
    tf2_kdl/src/tf2_kdl/tf2_kdl.py.

    Eigen, KDL/PyKDL and Bullet are not in /repo.  The few operations of theirs that these
    files call are written out below ([eig_], [kdl_], [bt_]) after the published sources
    (Eigen 3.3, orocos_kdl 1.4, Bullet 2.8); they are part of the trusted base.  The order in
    which these libraries add up a matrix-vector product is not modelled: theorems about
    values are over the reals, the others do not look at values.

    All functions here take values and return values.  The C++ functions assign one
    freshly computed object to the output ([t_out = Stamped<T>(...)]), so the input may be
    the output. *)
From Coq Require Import ZArith Bool String List.
From Verif Require Import RosTime Scalar LinearMath GeomMsgs.
Import ListNotations.
Local Open Scope S_scope.

(** geometry_msgs/Twist *)
Record gtwist (S : Scalar) := mkTwist { linear : gxyz S; angular : gxyz S }.
Arguments mkTwist {S} _ _.
Arguments linear {S} _.
Arguments angular {S} _.
(** KDL::Twist (frames.hpp) *)
Record ktwist (S : Scalar) := mkKtwist { k_vel : vec3 S; k_rot : vec3 S }.
Arguments mkKtwist {S} _ _.
Arguments k_vel {S} _.
Arguments k_rot {S} _.
(** KDL::Wrench (frames.hpp) *)
Record kwrench (S : Scalar) := mkKwrench { k_force : vec3 S; k_torque : vec3 S }.
Arguments mkKwrench {S} _ _.
Arguments k_force {S} _.
Arguments k_torque {S} _.

Section Foreign.
Context {S : Scalar}.

(** ** The operations of Eigen *)
(** Eigen/src/Geometry/Quaternion.h toRotationMatrix: no normalisation *)
Definition eig_toRotationMatrix (q : quat S) : mat3 S :=
  let tx := two * qx q in let ty := two * qy q in let tz := two * qz q in
  let twx := tx * qw q in let twy := ty * qw q in let twz := tz * qw q in
  let txx := tx * qx q in let txy := ty * qx q in let txz := tz * qx q in
  let tyy := ty * qy q in let tyz := tz * qy q in let tzz := tz * qz q in
  M3 (V3 (sone - (tyy + tzz)) (txy - twz) (txz + twy))
     (V3 (txy + twz) (sone - (txx + tzz)) (tyz - twx))
     (V3 (txz - twy) (tyz + twx) (sone - (txx + tyy))).
(** Translation3d * Quaterniond, an isometry; an [xform] is just a matrix and a vector here *)
Definition eig_compose (v : vec3 S) (q : quat S) : xform S := XF (eig_toRotationMatrix q) v.
(** Transform * Vector3d *)
Definition eig_apply (t : xform S) (v : vec3 S) : vec3 S := vadd (mmulv (xbasis t) v) (xorigin t).
(** Transform * Transform *)
Definition eig_mul (a b : xform S) : xform S :=
  XF (mmul (xbasis a) (xbasis b)) (vadd (mmulv (xbasis a) (xorigin b)) (xorigin a)).
(** Quaternion(Matrix3d), quaternionbase_assign_impl: expression by expression the algorithm
    of Matrix3x3::getRotation *)
Definition eig_quat (m : mat3 S) : quat S := mgetRotation m.
(** Quaternion * Quaternion *)
Definition eig_qmul (a b : quat S) : quat S :=
  Q4 (qw a * qx b + qx a * qw b + qy a * qz b - qz a * qy b)
     (qw a * qy b + qy a * qw b + qz a * qx b - qx a * qz b)
     (qw a * qz b + qz a * qw b + qx a * qy b - qy a * qx b)
     (qw a * qw b - qx a * qx b - qy a * qy b - qz a * qz b).
(** Quaternion::inverse: conjugate over squared norm, zero for the zero quaternion *)
Definition eig_qinverse (a : quat S) : quat S :=
  let n2 := qx a * qx a + qy a * qy a + qz a * qz a + qw a * qw a in
  if sgtb n2 szero then Q4 (- qx a / n2) (- qy a / n2) (- qz a / n2) (qw a / n2)
  else Q4 szero szero szero szero.

(** ** tf2_eigen *)
(** tf2_eigen.h 47-60 transformToEigen *)
Definition transformToEigen (t : gtransform S) : xform S :=
  eig_compose (V3 (gx (translation t)) (gy (translation t)) (gz (translation t)))
    (Q4 (gqx (g_rotation t)) (gqy (g_rotation t)) (gqz (g_rotation t)) (gqw (g_rotation t))).
(** 66-103 eigenToTransform, Affine3d and Isometry3d: a fresh message with default header
    and child frame.  [T.rotation()] of an Isometry3d is its linear part. *)
Definition eigenToTransform (T : xform S) : gtstamped S :=
  let q := eig_quat (xbasis T) in
  mkTstamped header0 EmptyString
    (mkGtransform (mkXyz (vx (xorigin T)) (vy (xorigin T)) (vz (xorigin T)))
                  (mkGquat (qx q) (qy q) (qz q) (qw q))).
(** 113-118 doTransform(Vector3d) *)
Definition eigen_doTransform_Vector (t_in : vec3 S) (tf : gtstamped S) : vec3 S :=
  eig_apply (transformToEigen (t_transform tf)) t_in.
(** 125-133 toMsg(Vector3d) to Point; 153-160 to Vector3 *)
Definition eigen_toMsg_Vector (v : vec3 S) : gxyz S := mkXyz (vx v) (vy v) (vz v).
(** 140-146 fromMsg(Point); 167-173 fromMsg(Vector3) *)
Definition eigen_fromMsg_xyz (p : gxyz S) : vec3 S := V3 (gx p) (gy p) (gz p).
(** 181-189 doTransform(Stamped<Vector3d>) *)
Definition eigen_doTransform_VectorStamped (t_in : tf2stamped (vec3 S)) (tf : gtstamped S) : tf2stamped (vec3 S) :=
  mkTf2stamped (eig_apply (transformToEigen (t_transform tf)) (k_data t_in)) (h_stamp (t_header tf)) (h_frame (t_header tf)).
(** 196-204 toMsg(Stamped<Vector3d>) *)
Definition eigen_toMsg_VectorStamped (k : tf2stamped (vec3 S)) : mstamped (gxyz S) :=
  mkMstamped (mkHeader (h_seq header0) (k_stamp k) (k_frame k)) (eigen_toMsg_Vector (k_data k)).
(** 211-216 fromMsg(PointStamped) *)
Definition eigen_fromMsg_PointStamped (p : mstamped (gxyz S)) : tf2stamped (vec3 S) :=
  mkTf2stamped (eigen_fromMsg_xyz (m_data p)) (h_stamp (m_header p)) (h_frame (m_header p)).
(** 227-241 doTransform(Affine3d), doTransform(Isometry3d) *)
Definition eigen_doTransform_Frame (t_in : xform S) (tf : gtstamped S) : xform S :=
  eig_mul (transformToEigen (t_transform tf)) t_in.
(** 248-256 toMsg(Quaterniond) *)
Definition eigen_toMsg_Quaternion (q : quat S) : gquat S := mkGquat (qx q) (qy q) (qz q) (qw q).
(** 263-266 fromMsg(Quaternion) *)
Definition eigen_fromMsg_Quaternion (q : gquat S) : quat S := Q4 (gqx q) (gqy q) (gqz q) (gqw q).
(** 277-285 doTransform(Quaterniond) *)
Definition eigen_doTransform_Quaternion (t_in : quat S) (tf : gtstamped S) : quat S :=
  let t := eigen_fromMsg_Quaternion (g_rotation (t_transform tf)) in
  eig_qmul (eig_qmul (eig_qinverse t) t_in) t.
(** 292-299 toMsg(Stamped<Quaterniond>) *)
Definition eigen_toMsg_QuaternionStamped (k : tf2stamped (quat S)) : mstamped (gquat S) :=
  mkMstamped (mkHeader (h_seq header0) (k_stamp k) (k_frame k)) (eigen_toMsg_Quaternion (k_data k)).
(** 306-311 fromMsg(QuaternionStamped) *)
Definition eigen_fromMsg_QuaternionStamped (p : mstamped (gquat S)) : tf2stamped (quat S) :=
  mkTf2stamped (eigen_fromMsg_Quaternion (m_data p)) (h_stamp (m_header p)) (h_frame (m_header p)).
(** 319-327 doTransform(Stamped<Quaterniond>) *)
Definition eigen_doTransform_QuaternionStamped (t_in : tf2stamped (quat S)) (tf : gtstamped S) : tf2stamped (quat S) :=
  mkTf2stamped (eigen_doTransform_Quaternion (k_data t_in) tf) (h_stamp (t_header tf)) (h_frame (t_header tf)).
(** 334-377 toMsg(Affine3d), toMsg(Isometry3d) to Pose: the quaternion is negated if w < 0 *)
Definition eigen_toMsg_Pose (T : xform S) : gpose S :=
  let q := eig_quat (xbasis T) in
  let o := mkGquat (qx q) (qy q) (qz q) (qw q) in
  mkPose (mkXyz (vx (xorigin T)) (vy (xorigin T)) (vz (xorigin T)))
    (if gqw o <? szero
     then mkGquat (gqx o * (- sone)) (gqy o * (- sone)) (gqz o * (- sone)) (gqw o * (- sone)) else o).
(** 384-407 fromMsg(Pose) to Affine3d, Isometry3d *)
Definition eigen_fromMsg_Pose (p : gpose S) : xform S :=
  eig_compose (V3 (gx (position p)) (gy (position p)) (gz (position p)))
    (Q4 (gqx (orientation p)) (gqy (orientation p)) (gqz (orientation p)) (gqw (orientation p))).
(** 414-424 toMsg(Matrix<double,6,1>): entries 0..5 of the matrix *)
Definition eigen_toMsg_Twist (v : nat -> S) : gtwist S :=
  mkTwist (mkXyz (v 0%nat) (v 1%nat) (v 2%nat)) (mkXyz (v 3%nat) (v 4%nat) (v 5%nat)).
(** 431-439 fromMsg(Twist): entries 0..5 of the 6x1 matrix *)
Definition eigen_fromMsg_Twist (t : gtwist S) : nat -> S := fun i =>
  match i with
  | 0%nat => gx (linear t) | 1%nat => gy (linear t) | 2%nat => gz (linear t)
  | 3%nat => gx (angular t) | 4%nat => gy (angular t) | _ => gz (angular t)
  end.
(** 450-473 doTransform(Stamped<Affine3d>), doTransform(Stamped<Isometry3d>) *)
Definition eigen_doTransform_FrameStamped (t_in : tf2stamped (xform S)) (tf : gtstamped S) : tf2stamped (xform S) :=
  mkTf2stamped (eig_mul (transformToEigen (t_transform tf)) (k_data t_in)) (h_stamp (t_header tf)) (h_frame (t_header tf)).
(** 480-498 toMsg(Stamped<Affine3d>), toMsg(Stamped<Isometry3d>) *)
Definition eigen_toMsg_PoseStamped (k : tf2stamped (xform S)) : mstamped (gpose S) :=
  mkMstamped (mkHeader (h_seq header0) (k_stamp k) (k_frame k)) (eigen_toMsg_Pose (k_data k)).
(** 505-519 fromMsg(PoseStamped) *)
Definition eigen_fromMsg_PoseStamped (p : mstamped (gpose S)) : tf2stamped (xform S) :=
  mkTf2stamped (eigen_fromMsg_Pose (m_data p)) (h_stamp (m_header p)) (h_frame (m_header p)).

(** ** The operations of KDL *)
(** orocos_kdl frames.cpp Rotation::Quaternion: no normalisation *)
Definition kdl_Quaternion (x y z w : S) : mat3 S :=
  let x2 := x * x in let y2 := y * y in let z2 := z * z in let w2 := w * w in
  M3 (V3 (w2 + x2 - y2 - z2) (two * x * y - two * w * z) (two * x * z + two * w * y))
     (V3 (two * x * y + two * w * z) (w2 - x2 + y2 - z2) (two * y * z - two * w * x))
     (V3 (two * x * z - two * w * y) (two * y * z + two * w * x) (w2 - x2 - y2 + z2)).
(** frames.cpp Rotation::GetQuaternion *)
Definition kdl_GetQuaternion (m : mat3 S) : quat S :=
  let m00 := vx (m0 m) in let m01 := vy (m0 m) in let m02 := vz (m0 m) in
  let m10 := vx (m1 m) in let m11 := vy (m1 m) in let m12 := vz (m1 m) in
  let m20 := vx (m2 m) in let m21 := vy (m2 m) in let m22 := vz (m2 m) in
  let trace := m00 + m11 + m22 in
  let epsilon := slit 1 1000000000000 in
  let quarter := slit 1 4 in
  if sgtb trace epsilon then
    let s := half / ssqrt (trace + sone) in
    Q4 ((m21 - m12) * s) ((m02 - m20) * s) ((m10 - m01) * s) (quarter / s)
  else if sgtb m00 m11 && sgtb m00 m22 then
    let s := two * ssqrt (sone + m00 - m11 - m22) in
    Q4 (quarter * s) ((m01 + m10) / s) ((m02 + m20) / s) ((m21 - m12) / s)
  else if sgtb m11 m22 then
    let s := two * ssqrt (sone + m11 - m00 - m22) in
    Q4 ((m01 + m10) / s) (quarter * s) ((m12 + m21) / s) ((m02 - m20) / s)
  else
    let s := two * ssqrt (sone + m22 - m00 - m11) in
    Q4 ((m02 + m20) / s) ((m12 + m21) / s) (quarter * s) ((m10 - m01) / s).
(** frames.inl Frame * Vector, Frame * Frame, Frame * Twist, Frame * Wrench *)
Definition kdl_apply (f : xform S) (v : vec3 S) : vec3 S := vadd (mmulv (xbasis f) v) (xorigin f).
Definition kdl_mul (a b : xform S) : xform S :=
  XF (mmul (xbasis a) (xbasis b)) (vadd (mmulv (xbasis a) (xorigin b)) (xorigin a)).
Definition kdl_twist (f : xform S) (t : ktwist S) : ktwist S :=
  let r := mmulv (xbasis f) (k_rot t) in
  mkKtwist (vadd (mmulv (xbasis f) (k_vel t)) (vcross (xorigin f) r)) r.
Definition kdl_wrench (f : xform S) (w : kwrench S) : kwrench S :=
  let fo := mmulv (xbasis f) (k_force w) in
  mkKwrench fo (vadd (mmulv (xbasis f) (k_torque w)) (vcross (xorigin f) fo)).

(** ** tf2_kdl *)
(** tf2_kdl.h 50-56 transformToKDL *)
Definition transformToKDL (t : gtstamped S) : xform S :=
  let r := g_rotation (t_transform t) in let v := translation (t_transform t) in
  XF (kdl_Quaternion (gqx r) (gqy r) (gqz r) (gqw r)) (V3 (gx v) (gy v) (gz v)).
(** 62-71 kdlToTransform: a fresh message *)
Definition kdlToTransform (k : xform S) : gtstamped S :=
  let q := kdl_GetQuaternion (xbasis k) in
  mkTstamped header0 EmptyString
    (mkGtransform (mkXyz (vx (xorigin k)) (vy (xorigin k)) (vz (xorigin k))) (mkGquat (qx q) (qy q) (qz q) (qw q))).
(** 82-87 doTransform(Stamped<Vector>) *)
Definition kdl_doTransform_Vector (t_in : tf2stamped (vec3 S)) (tf : gtstamped S) : tf2stamped (vec3 S) :=
  mkTf2stamped (kdl_apply (transformToKDL tf) (k_data t_in)) (h_stamp (t_header tf)) (h_frame (t_header tf)).
(** 94-104 toMsg(Stamped<Vector>) *)
Definition kdl_toMsg_PointStamped (k : tf2stamped (vec3 S)) : mstamped (gxyz S) :=
  mkMstamped (mkHeader (h_seq header0) (k_stamp k) (k_frame k)) (mkXyz (vx (k_data k)) (vy (k_data k)) (vz (k_data k))).
(** 111-119 fromMsg(PointStamped) *)
Definition kdl_fromMsg_PointStamped (p : mstamped (gxyz S)) : tf2stamped (vec3 S) :=
  mkTf2stamped (V3 (gx (m_data p)) (gy (m_data p)) (gz (m_data p))) (h_stamp (m_header p)) (h_frame (m_header p)).
(** 130-135 doTransform(Stamped<Twist>) *)
Definition kdl_doTransform_Twist (t_in : tf2stamped (ktwist S)) (tf : gtstamped S) : tf2stamped (ktwist S) :=
  mkTf2stamped (kdl_twist (transformToKDL tf) (k_data t_in)) (h_stamp (t_header tf)) (h_frame (t_header tf)).
(** 142-155 toMsg(Stamped<Twist>) *)
Definition kdl_toMsg_TwistStamped (k : tf2stamped (ktwist S)) : mstamped (gtwist S) :=
  mkMstamped (mkHeader (h_seq header0) (k_stamp k) (k_frame k))
    (mkTwist (mkXyz (vx (k_vel (k_data k))) (vy (k_vel (k_data k))) (vz (k_vel (k_data k))))
             (mkXyz (vx (k_rot (k_data k))) (vy (k_rot (k_data k))) (vz (k_rot (k_data k))))).
(** 162-173 fromMsg(TwistStamped) *)
Definition kdl_fromMsg_TwistStamped (p : mstamped (gtwist S)) : tf2stamped (ktwist S) :=
  mkTf2stamped (mkKtwist (V3 (gx (linear (m_data p))) (gy (linear (m_data p))) (gz (linear (m_data p))))
                         (V3 (gx (angular (m_data p))) (gy (angular (m_data p))) (gz (angular (m_data p)))))
    (h_stamp (m_header p)) (h_frame (m_header p)).
(** 185-190 doTransform(Stamped<Wrench>) *)
Definition kdl_doTransform_Wrench (t_in : tf2stamped (kwrench S)) (tf : gtstamped S) : tf2stamped (kwrench S) :=
  mkTf2stamped (kdl_wrench (transformToKDL tf) (k_data t_in)) (h_stamp (t_header tf)) (h_frame (t_header tf)).
(** 197-210 toMsg(Stamped<Wrench>) *)
Definition kdl_toMsg_WrenchStamped (k : tf2stamped (kwrench S)) : mstamped (gwrench S) :=
  mkMstamped (mkHeader (h_seq header0) (k_stamp k) (k_frame k))
    (mkWrench (mkXyz (vx (k_force (k_data k))) (vy (k_force (k_data k))) (vz (k_force (k_data k))))
              (mkXyz (vx (k_torque (k_data k))) (vy (k_torque (k_data k))) (vz (k_torque (k_data k))))).
(** 217-228 fromMsg(WrenchStamped) *)
Definition kdl_fromMsg_WrenchStamped (p : mstamped (gwrench S)) : tf2stamped (kwrench S) :=
  mkTf2stamped (mkKwrench (V3 (gx (force (m_data p))) (gy (force (m_data p))) (gz (force (m_data p))))
                          (V3 (gx (torque (m_data p))) (gy (torque (m_data p))) (gz (torque (m_data p)))))
    (h_stamp (m_header p)) (h_frame (m_header p)).
(** 242-247 doTransform(Stamped<Frame>) *)
Definition kdl_doTransform_Frame (t_in : tf2stamped (xform S)) (tf : gtstamped S) : tf2stamped (xform S) :=
  mkTf2stamped (kdl_mul (transformToKDL tf) (k_data t_in)) (h_stamp (t_header tf)) (h_frame (t_header tf)).
(** 254-263 toMsg(Frame) *)
Definition kdl_toMsg_Pose (k : xform S) : gpose S :=
  let q := kdl_GetQuaternion (xbasis k) in
  mkPose (mkXyz (vx (xorigin k)) (vy (xorigin k)) (vz (xorigin k))) (mkGquat (qx q) (qy q) (qz q) (qw q)).
(** 270-277 fromMsg(Pose) *)
Definition kdl_fromMsg_Pose (p : gpose S) : xform S :=
  let r := orientation p in let v := position p in
  XF (kdl_Quaternion (gqx r) (gqy r) (gqz r) (gqw r)) (V3 (gx v) (gy v) (gz v)).
(** 284-292 toMsg(Stamped<Frame>) *)
Definition kdl_toMsg_PoseStamped (k : tf2stamped (xform S)) : mstamped (gpose S) :=
  mkMstamped (mkHeader (h_seq header0) (k_stamp k) (k_frame k)) (kdl_toMsg_Pose (k_data k)).
(** 299-305 fromMsg(PoseStamped) *)
Definition kdl_fromMsg_PoseStamped (p : mstamped (gpose S)) : tf2stamped (xform S) :=
  mkTf2stamped (kdl_fromMsg_Pose (m_data p)) (h_stamp (m_header p)) (h_frame (m_header p)).

(** ** tf2_bullet.  Bullet's btTransform, btMatrix3x3 and btQuaternion are the classes
    tf2/LinearMath was forked from; the operations used here have the same bodies
    (btMatrix3x3::setRotation divides by the squared length). *)
(** tf2_bullet.h 46-52 transformToBullet *)
Definition transformToBullet (t : gtstamped S) : xform S :=
  let r := g_rotation (t_transform t) in let v := translation (t_transform t) in
  xfromQuat (Q4 (gqx r) (gqy r) (gqz r) (gqw r)) (V3 (gx v) (gy v) (gz v)).
(** 61-66 doTransform(Stamped<btVector3>) *)
Definition bullet_doTransform_Vector (t_in : tf2stamped (vec3 S)) (tf : gtstamped S) : tf2stamped (vec3 S) :=
  mkTf2stamped (xapply (transformToBullet tf) (k_data t_in)) (h_stamp (t_header tf)) (h_frame (t_header tf)).
(** 73-83 toMsg(Stamped<btVector3>) *)
Definition bullet_toMsg_PointStamped (k : tf2stamped (vec3 S)) : mstamped (gxyz S) :=
  mkMstamped (mkHeader (h_seq header0) (k_stamp k) (k_frame k)) (mkXyz (vx (k_data k)) (vy (k_data k)) (vz (k_data k))).
(** 90-98 fromMsg(PointStamped) *)
Definition bullet_fromMsg_PointStamped (p : mstamped (gxyz S)) : tf2stamped (vec3 S) :=
  mkTf2stamped (V3 (gx (m_data p)) (gy (m_data p)) (gz (m_data p))) (h_stamp (m_header p)) (h_frame (m_header p)).
(** 107-112 doTransform(Stamped<btTransform>) *)
Definition bullet_doTransform_Frame (t_in : tf2stamped (xform S)) (tf : gtstamped S) : tf2stamped (xform S) :=
  mkTf2stamped (xmul (transformToBullet tf) (k_data t_in)) (h_stamp (t_header tf)) (h_frame (t_header tf)).

(** ** tf2_geometry_msgs.py (PyKDL wraps KDL).  [res.header = transform.header] makes the
    result share the header object of the transform; here the value of the header. *)
(** tf2_geometry_msgs.py 50-55 transform_to_kdl *)
Definition py_transform_to_kdl (t : gtstamped S) : xform S := transformToKDL t.
(** 59-66 do_transform_point *)
Definition py_do_transform_point (p : mstamped (gxyz S)) (tf : gtstamped S) : mstamped (gxyz S) :=
  let r := kdl_apply (py_transform_to_kdl tf) (V3 (gx (m_data p)) (gy (m_data p)) (gz (m_data p))) in
  mkMstamped (t_header tf) (mkXyz (vx r) (vy r) (vz r)).
(** 71-82 do_transform_vector3: a deep copy of the transform with the translation set to 0 *)
Definition py_do_transform_vector3 (p : mstamped (gxyz S)) (tf : gtstamped S) : mstamped (gxyz S) :=
  let tf := mkTstamped (t_header tf) (t_child tf)
              (mkGtransform (mkXyz szero szero szero) (g_rotation (t_transform tf))) in
  let r := kdl_apply (py_transform_to_kdl tf) (V3 (gx (m_data p)) (gy (m_data p)) (gz (m_data p))) in
  mkMstamped (t_header tf) (mkXyz (vx r) (vy r) (vz r)).
(** 86-96 do_transform_pose *)
Definition py_do_transform_pose (p : mstamped (gpose S)) (tf : gtstamped S) : mstamped (gpose S) :=
  let f := kdl_mul (py_transform_to_kdl tf) (kdl_fromMsg_Pose (m_data p)) in
  mkMstamped (t_header tf) (kdl_toMsg_Pose f).
(** 100-109 do_transform_wrench *)
Definition py_do_transform_wrench (w : mstamped (gwrench S)) (tf : gtstamped S) : mstamped (gwrench S) :=
  let fo := mkMstamped header0 (force (m_data w)) in
  let to := mkMstamped header0 (torque (m_data w)) in
  mkMstamped (t_header tf)
    (mkWrench (m_data (py_do_transform_vector3 fo tf)) (m_data (py_do_transform_vector3 to tf))).
End Foreign.
