(** * tf2/utils.h: yaw, pitch and roll of anything, and the identity

    tf2/include/tf2/utils.h 25-63 and the toQuaternion overloads of tf2/include/tf2/impl/utils.h 24-78;
    getEulerYPR and getYaw of a tf2::Quaternion are [LinearMath.ugetEulerYPR] and [ugetYaw]. *)
From Coq Require Import ZArith String List.
From Verif Require Import RosTime Scalar LinearMath GeomMsgs ForeignGeom.

Section Utils.
Context {S : Scalar}.

(** What getEulerYPR and getYaw are called with: the types of the tf2 packages toQuaternion can convert *)
Inductive oriented : Type :=
| OQuaternion (q : quat S)                       (* tf2::Quaternion *)
| OMessage (g : gquat S)                         (* geometry_msgs::Quaternion *)
| OStampedMessage (m : mstamped (gquat S))       (* geometry_msgs::QuaternionStamped *)
| OStamped (k : tf2stamped (quat S))             (* tf2::Stamped<tf2::Quaternion> *)
| OEigen (q : quat S)                            (* Eigen::Quaterniond *)
| OEigenStamped (k : tf2stamped (quat S)).       (* tf2::Stamped<Eigen::Quaterniond> *)

(** impl/utils.h 28-31, 37-42, 48-53; 59-63 for Stamped, 70-74 for anything else: through toMsg *)
Definition toQuaternion (a : oriented) : quat S :=
  match a with
  | OQuaternion q => q
  | OMessage g => fromMsg_Quaternion g
  | OStampedMessage m => fromMsg_Quaternion (m_data m)
  | OStamped k => fromMsg_Quaternion (m_data (toMsg_QuaternionStamped k))
  | OEigen q => fromMsg_Quaternion (eigen_toMsg_Quaternion q)
  | OEigenStamped k => fromMsg_Quaternion (m_data (eigen_toMsg_QuaternionStamped k))
  end.
(** utils.h 31-36 getEulerYPR: (yaw, pitch, roll) *)
Definition getEulerYPR_of (a : oriented) : S * S * S := ugetEulerYPR (toQuaternion a).
(** utils.h 45-50 getYaw *)
Definition getYaw_of (a : oriented) : S := ugetYaw (toQuaternion a).

(** utils.h 55-63 getTransformIdentity<tf2::Transform>: convert of a type to itself copies
    (convert.h 115-121) *)
Definition identity_Transform : xform S := xidentity.
(** the same with geometry_msgs::Transform: convert goes through toMsg (impl/convert.h 65-74).  For every
    other type of these packages the call does not link: fromMsg(geometry_msgs::Transform, A) is declared but not defined. *)
Definition identity_message : gtransform S := toMsg_Transform xidentity.
End Utils.
Arguments oriented S : clear implicits.
