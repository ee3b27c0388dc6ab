(** * tf2_geometry_msgs: conversions and doTransform

    Model of tf2_geometry_msgs/include/tf2_geometry_msgs/tf2_geometry_msgs.h, of the
    [Stamped] template of tf2/include/tf2/transform_datatypes.h 43-77 and of the part of
    tf2/include/tf2/convert.h these functions specialise.  Expressions keep the C++
    evaluation order.

    C++ passes [t_in], [t_out] and [transform] by reference, and tf2/include/tf2/convert.h
    42-51 promises that [data_out] may be [data_in].  References are therefore modelled as
    references: a [ref M A] reads and writes an [A] inside a memory [M], every statement
    reads the memory as the statements before it left it, and the input and the output
    reference may denote the same object.

    Not modelled: the KDL overload gmTransformToKDL (61-70, deprecated), the identity
    conversions of a message to itself (e.g. 137-149), and the two deprecated template
    specialisations for QuaternionStamped (381-396, 414-427), which forward to the overloads
    modelled here.  The [fromMsg] of PoseWithCovarianceStamped (593-601) calls a [fromMsg]
    on PoseWithCovariance that the header does not define, so no program that uses it links;
    it is not modelled. *)
From Coq Require Import ZArith Bool String List.
From Verif Require Import RosTime Scalar LinearMath.
Import ListNotations.
Local Open Scope S_scope.

(** ** The message types (geometry_msgs, std_msgs) *)
(** std_msgs/Header *)
Record header := mkHeader { h_seq : Z; h_stamp : time; h_frame : string }.
(** a default constructed header: seq 0, stamp 0, empty frame *)
Definition header0 : header := {| h_seq := 0; h_stamp := 0; h_frame := EmptyString |}.

(** geometry_msgs/Point and geometry_msgs/Vector3: the same three fields *)
Record gxyz (S : Scalar) := mkXyz { gx : S; gy : S; gz : S }.
Arguments mkXyz {S} _ _ _.
Arguments gx {S} _.
Arguments gy {S} _.
Arguments gz {S} _.
(** geometry_msgs/Quaternion *)
Record gquat (S : Scalar) := mkGquat { gqx : S; gqy : S; gqz : S; gqw : S }.
Arguments mkGquat {S} _ _ _ _.
Arguments gqx {S} _.
Arguments gqy {S} _.
Arguments gqz {S} _.
Arguments gqw {S} _.
(** geometry_msgs/Pose *)
Record gpose (S : Scalar) := mkPose { position : gxyz S; orientation : gquat S }.
Arguments mkPose {S} _ _.
Arguments position {S} _.
Arguments orientation {S} _.
(** geometry_msgs/Transform *)
Record gtransform (S : Scalar) := mkGtransform { translation : gxyz S; g_rotation : gquat S }.
Arguments mkGtransform {S} _ _.
Arguments translation {S} _.
Arguments g_rotation {S} _.
(** geometry_msgs/TransformStamped *)
Record gtstamped (S : Scalar) := mkTstamped { t_header : header; t_child : string; t_transform : gtransform S }.
Arguments mkTstamped {S} _ _ _.
Arguments t_header {S} _.
Arguments t_child {S} _.
Arguments t_transform {S} _.
(** geometry_msgs/Wrench *)
Record gwrench (S : Scalar) := mkWrench { force : gxyz S; torque : gxyz S }.
Arguments mkWrench {S} _ _.
Arguments force {S} _.
Arguments torque {S} _.
(** geometry_msgs/PoseWithCovariance: the covariance is a row-major array of 36 doubles *)
Record gposecov (S : Scalar) := mkPoseCov { pc_pose : gpose S; pc_cov : nat -> S }.
Arguments mkPoseCov {S} _ _.
Arguments pc_pose {S} _.
Arguments pc_cov {S} _.
(** PointStamped, Vector3Stamped, QuaternionStamped, PoseStamped, WrenchStamped and
    PoseWithCovarianceStamped: a header and the payload *)
Record mstamped (A : Type) := mkMstamped { m_header : header; m_data : A }.
Arguments mkMstamped {A} _ _.
Arguments m_header {A} _.
Arguments m_data {A} _.

(** transform_datatypes.h 43-77: tf2::Stamped<T> *)
Record tf2stamped (A : Type) := mkTf2stamped { k_data : A; k_stamp : time; k_frame : string }.
Arguments mkTf2stamped {A} _ _ _.
Arguments k_data {A} _.
Arguments k_stamp {A} _.
Arguments k_frame {A} _.

(** ** References *)
Record ref (M A : Type) := Ref { rd : M -> A; wr : A -> M -> M }.
Arguments Ref {M A} _ _.
Arguments rd {M A} _ _.
Arguments wr {M A} _ _ _.
(** a member of the object a reference denotes *)
Definition member {M A B} (r : ref M A) (get : A -> B) (set : B -> A -> A) : ref M B :=
  Ref (fun m => get (rd r m)) (fun b m => wr r (set b (rd r m)) m).
(** memory holding objects of type [A], and the reference to the object at an address *)
Definition mem (A : Type) := nat -> A.
Definition at_loc {A} (i : nat) : ref (mem A) A :=
  Ref (fun m => m i) (fun a m j => if Nat.eqb j i then a else m j).
(** a const reference to an object outside the memory *)
Definition const_ref {M A} (a : A) : ref M A := Ref (fun _ => a) (fun _ m => m).

Section Members.
Context {M : Type} {S : Scalar}.
Definition r_x (r : ref M (gxyz S)) := member r gx (fun a v => mkXyz a (gy v) (gz v)).
Definition r_y (r : ref M (gxyz S)) := member r gy (fun a v => mkXyz (gx v) a (gz v)).
Definition r_z (r : ref M (gxyz S)) := member r gz (fun a v => mkXyz (gx v) (gy v) a).
Definition r_position (r : ref M (gpose S)) := member r position (fun a p => mkPose a (orientation p)).
Definition r_orientation (r : ref M (gpose S)) := member r orientation (fun a p => mkPose (position p) a).
Definition r_transform (r : ref M (gtstamped S)) :=
  member r t_transform (fun a t => mkTstamped (t_header t) (t_child t) a).
Definition r_theader (r : ref M (gtstamped S)) :=
  member r t_header (fun a t => mkTstamped a (t_child t) (t_transform t)).
Definition r_force (r : ref M (gwrench S)) := member r force (fun a w => mkWrench a (torque w)).
Definition r_torque (r : ref M (gwrench S)) := member r torque (fun a w => mkWrench (force w) a).
Definition r_pcpose (r : ref M (gposecov S)) := member r pc_pose (fun a p => mkPoseCov a (pc_cov p)).
Definition r_pccov (r : ref M (gposecov S)) := member r pc_cov (fun a p => mkPoseCov (pc_pose p) a).
Definition r_header {A} (r : ref M (mstamped A)) := member r m_header (fun a s => mkMstamped a (m_data s)).
Definition r_data {A} (r : ref M (mstamped A)) := member r m_data (fun a s => mkMstamped (m_header s) a).
Definition r_stamp (r : ref M header) := member r h_stamp (fun a h => mkHeader (h_seq h) a (h_frame h)).
Definition r_frame (r : ref M header) := member r h_frame (fun a h => mkHeader (h_seq h) (h_stamp h) a).
End Members.

Section Geom.
Context {S : Scalar}.

(** ** Conversions *)
(** tf2_geometry_msgs.h 82-90 toMsg(Vector3) *)
Definition toMsg_Vector3 (v : vec3 S) : gxyz S := mkXyz (vx v) (vy v) (vz v).
(** 97-102 fromMsg(Vector3); 205-209 fromMsg(Point) *)
Definition fromMsg_xyz (p : gxyz S) : vec3 S := V3 (gx p) (gy p) (gz p).
(** 191-199 toMsg(Vector3, Point&) *)
Definition toMsg_Point {M} (v : vec3 S) (out : ref M (gxyz S)) (m : M) : M :=
  let m := wr (r_x out) (vx v) m in
  let m := wr (r_y out) (vy v) m in
  wr (r_z out) (vz v) m.
(** 297-307 toMsg(Quaternion) *)
Definition toMsg_Quaternion (q : quat S) : gquat S := mkGquat (qx q) (qy q) (qz q) (qw q).
(** 313-319 fromMsg(Quaternion) *)
Definition fromMsg_Quaternion (q : gquat S) : quat S := Q4 (gqx q) (gqy q) (gqz q) (gqw q).
(** 433-440 toMsg(Transform, Pose&) *)
Definition toMsg_Pose {M} (t : xform S) (out : ref M (gpose S)) (m : M) : M :=
  let m := toMsg_Point (xorigin t) (r_position out) m in
  wr (r_orientation out) (toMsg_Quaternion (xgetRotation t)) m.
(** 445-452 fromMsg(Pose): setOrigin, then setRotation (Transform.h 138-142, 159-163) *)
Definition fromMsg_Pose (p : gpose S) : xform S :=
  XF (mfromQuat (Q4 (gqx (orientation p)) (gqy (orientation p)) (gqz (orientation p)) (gqw (orientation p))))
     (V3 (gx (position p)) (gy (position p)) (gz (position p))).
(** 612-620 toMsg(Transform) *)
Definition toMsg_Transform (t : xform S) : gtransform S :=
  mkGtransform (toMsg_Vector3 (xorigin t)) (toMsg_Quaternion (xgetRotation t)).
(** 626-637 fromMsg(Transform) *)
Definition fromMsg_Transform (g : gtransform S) : xform S :=
  XF (mfromQuat (fromMsg_Quaternion (g_rotation g))) (fromMsg_xyz (translation g)).

(** 156-167 toMsg(Stamped<Vector3>): a fresh message *)
Definition toMsg_Vector3Stamped (k : tf2stamped (vec3 S)) : mstamped (gxyz S) :=
  mkMstamped (mkHeader (h_seq header0) (k_stamp k) (k_frame k))
    (mkXyz (vx (k_data k)) (vy (k_data k)) (vz (k_data k))).
(** 173-179 fromMsg(Vector3Stamped); 279-285 fromMsg(PointStamped) *)
Definition fromMsg_xyzStamped (p : mstamped (gxyz S)) : tf2stamped (vec3 S) :=
  mkTf2stamped (V3 (gx (m_data p)) (gy (m_data p)) (gz (m_data p))) (h_stamp (m_header p)) (h_frame (m_header p)).
(** 263-273 toMsg(Stamped<Vector3>, PointStamped&): writes into the caller's message *)
Definition toMsg_PointStamped (k : tf2stamped (vec3 S)) (out : mstamped (gxyz S)) : mstamped (gxyz S) :=
  mkMstamped (mkHeader (h_seq (m_header out)) (k_stamp k) (k_frame k))
    (mkXyz (vx (k_data k)) (vy (k_data k)) (vz (k_data k))).
(** 366-379 toMsg(Stamped<Quaternion>) *)
Definition toMsg_QuaternionStamped (k : tf2stamped (quat S)) : mstamped (gquat S) :=
  mkMstamped (mkHeader (h_seq header0) (k_stamp k) (k_frame k))
    (mkGquat (qx (k_data k)) (qy (k_data k)) (qz (k_data k)) (qw (k_data k))).
(** 403-412 fromMsg(QuaternionStamped) *)
Definition fromMsg_QuaternionStamped (q : mstamped (gquat S)) : tf2stamped (quat S) :=
  mkTf2stamped (fromMsg_Quaternion (m_data q)) (h_stamp (m_header q)) (h_frame (m_header q)).
(** 504-513 toMsg(Stamped<Transform>, PoseStamped&) *)
Definition toMsg_PoseStamped (k : tf2stamped (xform S)) (out : mstamped (gpose S)) : mstamped (gpose S) :=
  mkMstamped (mkHeader (h_seq (m_header out)) (k_stamp k) (k_frame k))
    (mkPose (toMsg_Vector3 (xorigin (k_data k))) (toMsg_Quaternion (xgetRotation (k_data k)))).
(** 519-528 fromMsg(PoseStamped) *)
Definition fromMsg_PoseStamped (p : mstamped (gpose S)) : tf2stamped (xform S) :=
  mkTf2stamped (fromMsg_Pose (m_data p)) (h_stamp (m_header p)) (h_frame (m_header p)).
(** 578-587 toMsg(Stamped<Transform>, PoseWithCovarianceStamped&): the covariance is left alone *)
Definition toMsg_PoseCovStamped (k : tf2stamped (xform S)) (out : mstamped (gposecov S)) : mstamped (gposecov S) :=
  mkMstamped (mkHeader (h_seq (m_header out)) (k_stamp k) (k_frame k))
    (mkPoseCov (mkPose (toMsg_Vector3 (xorigin (k_data k))) (toMsg_Quaternion (xgetRotation (k_data k))))
               (pc_cov (m_data out))).
(** 687-697 toMsg(Stamped<Transform>): a fresh message, whose child_frame_id is never set *)
Definition toMsg_TransformStamped (k : tf2stamped (xform S)) : gtstamped S :=
  mkTstamped (mkHeader (h_seq header0) (k_stamp k) (k_frame k)) EmptyString (toMsg_Transform (k_data k)).
(** 704-713 fromMsg(TransformStamped) *)
Definition fromMsg_TransformStamped (t : gtstamped S) : tf2stamped (xform S) :=
  mkTf2stamped (fromMsg_Transform (t_transform t)) (h_stamp (t_header t)) (h_frame (t_header t)).
(** 1012-1020 toMsg(Stamped<array<Vector3,2>>, WrenchStamped&) *)
Definition toMsg_WrenchStamped (k : tf2stamped (vec3 S * vec3 S)) (out : mstamped (gwrench S)) : mstamped (gwrench S) :=
  mkMstamped (mkHeader (h_seq (m_header out)) (k_stamp k) (k_frame k))
    (mkWrench (toMsg_Vector3 (fst (k_data k))) (toMsg_Vector3 (snd (k_data k)))).
(** 1023-1036 fromMsg(WrenchStamped) *)
Definition fromMsg_WrenchStamped (w : mstamped (gwrench S)) : tf2stamped (vec3 S * vec3 S) :=
  mkTf2stamped (fromMsg_xyz (force (m_data w)), fromMsg_xyz (torque (m_data w)))
    (h_stamp (m_header w)) (h_frame (m_header w)).

(** ** doTransform *)
Section DoTransform.
Context {M : Type}.
Context (transform : ref M (gtstamped S)).

(** the two statements every stamped overload ends with, e.g. 742-743 *)
Definition set_header (out : ref M header) (m : M) : M :=
  let m := wr (r_stamp out) (h_stamp (t_header (rd transform m))) m in
  wr (r_frame out) (h_frame (t_header (rd transform m))) m.

(** 719-729 doTransform(Point) *)
Definition doTransform_Point (t_in t_out : ref M (gxyz S)) (m : M) : M :=
  let t := fromMsg_Transform (t_transform (rd transform m)) in
  let v_in := fromMsg_xyz (rd t_in m) in
  let v_out := xapply t v_in in
  toMsg_Point v_out t_out m.
(** 737-744 doTransform(PointStamped) *)
Definition doTransform_PointStamped (t_in t_out : ref M (mstamped (gxyz S))) (m : M) : M :=
  let m := doTransform_Point (r_data t_in) (r_data t_out) m in
  set_header (r_header t_out) m.
(** 752-762 doTransform(Quaternion) *)
Definition doTransform_Quaternion (t_in t_out : ref M (gquat S)) (m : M) : M :=
  let t := fromMsg_Quaternion (g_rotation (t_transform (rd transform m))) in
  let q_in := fromMsg_Quaternion (rd t_in m) in
  let q_out := qmul t q_in in
  wr t_out (toMsg_Quaternion q_out) m.
(** 770-777 doTransform(QuaternionStamped) *)
Definition doTransform_QuaternionStamped (t_in t_out : ref M (mstamped (gquat S))) (m : M) : M :=
  let m := doTransform_Quaternion (r_data t_in) (r_data t_out) m in
  set_header (r_header t_out) m.
(** 786-799 doTransform(Pose) *)
Definition doTransform_Pose (t_in t_out : ref M (gpose S)) (m : M) : M :=
  let v := fromMsg_xyz (position (rd t_in m)) in
  let r := fromMsg_Quaternion (orientation (rd t_in m)) in
  let t := fromMsg_Transform (t_transform (rd transform m)) in
  let v_out := xmul t (xfromQuat r v) in
  toMsg_Pose v_out t_out m.
(** 807-814 doTransform(PoseStamped) *)
Definition doTransform_PoseStamped (t_in t_out : ref M (mstamped (gpose S))) (m : M) : M :=
  let m := doTransform_Pose (r_data t_in) (r_data t_out) m in
  set_header (r_header t_out) m.
(** 957-966 doTransform(Vector3) *)
Definition doTransform_Vector3 (t_in t_out : ref M (gxyz S)) (m : M) : M :=
  let t := fromMsg_Transform (t_transform (rd transform m)) in
  let v_out := mmulv (xbasis t) (V3 (gx (rd t_in m)) (gy (rd t_in m)) (gz (rd t_in m))) in
  let m := wr (r_x t_out) (vx v_out) m in
  let m := wr (r_y t_out) (vy v_out) m in
  wr (r_z t_out) (vz v_out) m.
(** 975-982 doTransform(Vector3Stamped) *)
Definition doTransform_Vector3Stamped (t_in t_out : ref M (mstamped (gxyz S))) (m : M) : M :=
  let m := doTransform_Vector3 (r_data t_in) (r_data t_out) m in
  set_header (r_header t_out) m.
(** 1039-1050 doTransform(Wrench) *)
Definition doTransform_Wrench (t_in t_out : ref M (gwrench S)) (m : M) : M :=
  let m := doTransform_Vector3 (r_force t_in) (r_force t_out) m in
  let m := doTransform_Vector3 (r_torque t_in) (r_torque t_out) m in
  let tr := translation (t_transform (rd transform m)) in
  let offset := V3 (gx tr) (gy tr) (gz tr) in
  let f := force (rd t_out m) in
  let added_torque := vcross offset (V3 (gx f) (gy f) (gz f)) in
  let m := wr (r_x (r_torque t_out)) (gx (torque (rd t_out m)) + vx added_torque) m in
  let m := wr (r_y (r_torque t_out)) (gy (torque (rd t_out m)) + vy added_torque) m in
  wr (r_z (r_torque t_out)) (gz (torque (rd t_out m)) + vz added_torque) m.
(** 1053-1060 doTransform(WrenchStamped) *)
Definition doTransform_WrenchStamped (t_in t_out : ref M (mstamped (gwrench S))) (m : M) : M :=
  let m := doTransform_Wrench (r_data t_in) (r_data t_out) m in
  set_header (r_header t_out) m.
(** 935-948 doTransform(TransformStamped) *)
Definition doTransform_TransformStamped (t_in t_out : ref M (gtstamped S)) (m : M) : M :=
  let input := fromMsg_Transform (t_transform (rd t_in m)) in
  let t := fromMsg_Transform (t_transform (rd transform m)) in
  let v_out := xmul t input in
  let m := wr (r_transform t_out) (toMsg_Transform v_out) m in
  set_header (r_theader t_out) m.

Local Open Scope nat_scope.
Local Open Scope S_scope.
(** 822-902 transformCovariance.  The array [output] starts indeterminate ([junk]); the
    assignments of 857-899 are listed in source order. *)
Definition transformCovariance (junk : nat -> S) (cov_in : nat -> S) (t : xform S) : nat -> S :=
  let R_transpose := mtranspose (xbasis t) in
  let cov_11 := M3 (V3 (cov_in 0) (cov_in 1) (cov_in 2)) (V3 (cov_in 6) (cov_in 7) (cov_in 8))
                   (V3 (cov_in 12) (cov_in 13) (cov_in 14)) in
  let cov_12 := M3 (V3 (cov_in 3) (cov_in 4) (cov_in 5)) (V3 (cov_in 9) (cov_in 10) (cov_in 11))
                   (V3 (cov_in 15) (cov_in 16) (cov_in 17)) in
  let cov_21 := M3 (V3 (cov_in 18) (cov_in 19) (cov_in 20)) (V3 (cov_in 24) (cov_in 25) (cov_in 26))
                   (V3 (cov_in 30) (cov_in 31) (cov_in 32)) in
  let cov_22 := M3 (V3 (cov_in 21) (cov_in 22) (cov_in 23)) (V3 (cov_in 27) (cov_in 28) (cov_in 29))
                   (V3 (cov_in 33) (cov_in 34) (cov_in 35)) in
  let result_11 := mmul (mmul (xbasis t) cov_11) R_transpose in
  let result_12 := mmul (mmul (xbasis t) cov_12) R_transpose in
  let result_21 := mmul (mmul (xbasis t) cov_21) R_transpose in
  let result_22 := mmul (mmul (xbasis t) cov_22) R_transpose in
  let set (i : nat) (a : S) (o : nat -> S) : nat -> S := fun j => if Nat.eqb j i then a else o j in
  let o := junk in
  let o := set 0 (vx (m0 result_11)) o in let o := set 1 (vy (m0 result_11)) o in
  let o := set 2 (vz (m0 result_11)) o in
  let o := set 6 (vx (m1 result_11)) o in let o := set 7 (vy (m1 result_11)) o in
  let o := set 8 (vz (m1 result_11)) o in
  let o := set 12 (vx (m2 result_11)) o in let o := set 13 (vy (m2 result_11)) o in
  let o := set 14 (vz (m2 result_11)) o in
  let o := set 3 (vx (m0 result_12)) o in let o := set 4 (vy (m0 result_12)) o in
  let o := set 5 (vz (m0 result_12)) o in
  let o := set 9 (vx (m1 result_12)) o in let o := set 10 (vy (m1 result_12)) o in
  let o := set 11 (vz (m1 result_12)) o in
  let o := set 15 (vx (m2 result_12)) o in let o := set 16 (vy (m2 result_12)) o in
  let o := set 17 (vz (m2 result_12)) o in
  let o := set 18 (vx (m0 result_21)) o in let o := set 19 (vy (m0 result_21)) o in
  let o := set 20 (vz (m0 result_21)) o in
  let o := set 24 (vx (m1 result_21)) o in let o := set 25 (vy (m1 result_21)) o in
  let o := set 26 (vz (m1 result_21)) o in
  let o := set 30 (vx (m2 result_21)) o in let o := set 31 (vy (m2 result_21)) o in
  let o := set 32 (vz (m2 result_21)) o in
  let o := set 21 (vx (m0 result_22)) o in let o := set 22 (vy (m0 result_22)) o in
  let o := set 23 (vz (m0 result_22)) o in
  let o := set 27 (vx (m1 result_22)) o in let o := set 28 (vy (m1 result_22)) o in
  let o := set 29 (vz (m1 result_22)) o in
  let o := set 33 (vx (m2 result_22)) o in let o := set 34 (vy (m2 result_22)) o in
  set 35 (vz (m2 result_22)) o.

(** 910-927 doTransform(PoseWithCovarianceStamped) *)
Definition doTransform_PoseCovStamped (junk : nat -> S) (t_in t_out : ref M (mstamped (gposecov S))) (m : M) : M :=
  let v := fromMsg_xyz (position (pc_pose (m_data (rd t_in m)))) in
  let r := fromMsg_Quaternion (orientation (pc_pose (m_data (rd t_in m)))) in
  let t := fromMsg_Transform (t_transform (rd transform m)) in
  let v_out := xmul t (xfromQuat r v) in
  let m := toMsg_Pose v_out (r_pcpose (r_data t_out)) m in
  let m := set_header (r_header t_out) m in
  wr (r_pccov (r_data t_out)) (transformCovariance junk (pc_cov (m_data (rd t_in m))) t) m.
End DoTransform.
End Geom.
