(** * Specification vocabulary for BufferInterface::transform *)
From Coq Require Import ZArith Bool String List Reals.
From Verif Require Import RosTime Scalar LinearMath Cache BufferCore SpecCore Instances RealSlerp SpecReal GeomMsgs SpecGeom ForeignGeom SpecForeign BufferInterface.
Import ListNotations.
Open Scope Z_scope.

(** the message [x] carried over by [f], with the header that results from transform [t] on top of [old] *)
Definition carried {S : Scalar} {A} (f : gtstamped S -> A -> A) (t : gtstamped S) (old x : mstamped A) : mstamped A :=
  mkMstamped (mkHeader (h_seq (m_header old)) (h_stamp (t_header t)) (h_frame (t_header t))) (f t (m_data x)).

(** What transform(in, out, target, timeout) must do, for objects at any two addresses, equal
    or not: ask the buffer once, with the frame and stamp of the input; write the output and
    nothing else; on an exception pass it on and write nothing. *)
Definition looks_up_and_carries {S : Scalar} {A} (bi : buffer_interface S) (T : datatype S (mstamped A))
    (f : gtstamped S -> A -> A) : Prop :=
  forall (m : mem (mstamped A)) i o target timeout,
  match bi_lookup bi target (h_frame (m_header (m i))) (h_stamp (m_header (m i))) timeout with
  | Ok t => exists m', transform bi T (at_loc i) (at_loc o) target timeout m = (m', Ok tt) /\
                       m' o = carried f t (m o) (m i) /\ forall j, j <> o -> m' j = m j
  | Throw c e => transform bi T (at_loc i) (at_loc o) target timeout m = (m, Throw c e)
  | UB => transform bi T (at_loc i) (at_loc o) target timeout m = (m, UB)
  end.
Definition looks_up_and_carries_fixed {S : Scalar} {A} (bi : buffer_interface S) (T : datatype S (mstamped A))
    (f : gtstamped S -> A -> A) : Prop :=
  forall (m : mem (mstamped A)) i o target target_time fixed timeout,
  match bi_lookup_fixed bi target target_time (h_frame (m_header (m i))) (h_stamp (m_header (m i))) fixed timeout with
  | Ok t => exists m', transform_fixed bi T (at_loc i) (at_loc o) target target_time fixed timeout m = (m', Ok tt) /\
                       m' o = carried f t (m o) (m i) /\ forall j, j <> o -> m' j = m j
  | Throw c e => transform_fixed bi T (at_loc i) (at_loc o) target target_time fixed timeout m = (m, Throw c e)
  | UB => transform_fixed bi T (at_loc i) (at_loc o) target target_time fixed timeout m = (m, UB)
  end.

(** The value-returning forms change nothing and return what the other form would write into a
    default constructed object. *)
Definition returns_a_new_object {S : Scalar} {A} (bi : buffer_interface S) (T : datatype S (mstamped A))
    (f : gtstamped S -> A -> A) : Prop :=
  forall (M : Type) (in_ : ref M (mstamped A)) target target_time fixed timeout (m : M),
  let x := rd in_ m in
  let finish r := match r with Ok t => Ok (carried f t (mkMstamped header0 (m_data x)) x) | Throw c e => Throw c e | UB => UB end in
  transform_value bi T in_ target timeout m =
    (m, finish (bi_lookup bi target (h_frame (m_header x)) (h_stamp (m_header x)) timeout)) /\
  transform_fixed_value bi T in_ target target_time fixed timeout m =
    (m, finish (bi_lookup_fixed bi target target_time (h_frame (m_header x)) (h_stamp (m_header x)) fixed timeout)).

(** buffer.transform(x, target) and buffer.transform(x, target, target_time, fixed) on a buffer
    in state [s] *)
Definition sent {S : Scalar} {A} (s : core S) (T : datatype S A) (x : A) (target : string) : res A :=
  snd (transform_value (buffer_of s) T (const_ref x) target 0 tt).
Definition sent_fixed {S : Scalar} {A} (s : core S) (T : datatype S A) (x : A) (target : string) (target_time : time)
    (fixed : string) : res A :=
  snd (transform_fixed_value (buffer_of s) T (const_ref x) target target_time fixed 0 tt).
Definition frame_of {A} (x : mstamped A) : string := h_frame (m_header x).
Definition stamp_of {A} (x : mstamped A) : time := h_stamp (m_header x).
Definition restamped {A} (t : time) (x : mstamped A) : mstamped A :=
  mkMstamped (mkHeader (h_seq (m_header x)) t (h_frame (m_header x))) (m_data x).

(** where a motion given as (rotation, translation) takes a point *)
Definition pose_moves (p : pose RS) (v : rxyz) : rxyz :=
  plus (turn (toMsg_Quaternion (fst p)) v) (toMsg_Vector3 (snd p)).

(** the same covariance pose: same pose, same 36 entries *)
Definition same_posecov (a b : gposecov RS) : Prop :=
  same_pose (pc_pose a) (pc_pose b) /\ forall k, (k < 36)%nat -> pc_cov a k = pc_cov b k.

(** There and back again. *)
Definition round_trip {A} (s : core RS) (T : datatype RS (mstamped A)) (fine : A -> Prop) (same : A -> A -> Prop) : Prop :=
  forall x y z target, fine (m_data x) -> stamp_of x <> 0 ->
  depth_ok s (stamp_of x) (frame_of x) -> depth_ok s (stamp_of x) target ->
  sent s T x target = Ok y -> sent s T y (frame_of x) = Ok z ->
  same (m_data z) (m_data x) /\ frame_of z = frame_of x /\ stamp_of z = stamp_of x.
(** Two hops are one. *)
Definition two_hops {A} (s : core RS) (T : datatype RS (mstamped A)) (fine : A -> Prop) (same : A -> A -> Prop) : Prop :=
  forall x y z w via target, fine (m_data x) -> stamp_of x <> 0 ->
  depth_ok s (stamp_of x) (frame_of x) -> depth_ok s (stamp_of x) via -> depth_ok s (stamp_of x) target ->
  sent s T x via = Ok y -> sent s T y target = Ok z -> sent s T x target = Ok w ->
  same (m_data z) (m_data w) /\ frame_of z = frame_of w /\ stamp_of z = stamp_of w.
(** Through a fixed frame: into it at the time of the message, out of it at the target time. *)
Definition through_fixed {A} (s : core RS) (T : datatype RS (mstamped A)) (fine : A -> Prop) (same : A -> A -> Prop) : Prop :=
  forall x w target target_time fixed, fine (m_data x) -> sent_fixed s T x target target_time fixed = Ok w ->
  exists y z, sent s T x fixed = Ok y /\ sent s T (restamped target_time y) target = Ok z /\
    same (m_data w) (m_data z) /\ frame_of w = target /\ frame_of z = target /\ stamp_of w = stamp_of z.

(** doTransform writes only its output: applied to a local object it leaves everything else alone *)
Definition writes_only_its_output {S : Scalar} {A} (T : datatype S A) : Prop :=
  forall (M : Type) (in_ : ref M A) t (m : M) out, fst (dt_do T t (under in_) stack_ref (m, out)) = m.

(** a PoseWithCovariance carried over: pose and covariance *)
Definition posecov_by {S : Scalar} (junk : nat -> S) (t : gtstamped S) (p : gposecov S) : gposecov S :=
  mkPoseCov (pose_by t (pc_pose p)) (covariance_by t junk (pc_cov p)).
(** a statement about each of the six stamped payload types of tf2_geometry_msgs, and about
    what doTransform does to their payload *)
Definition every_type {S : Scalar} (P : forall A, datatype S (mstamped A) -> (gtstamped S -> A -> A) -> Prop) : Prop :=
  P _ PointStamped point_by /\ P _ Vector3Stamped vector_by /\ P _ QuaternionStamped quaternion_by /\
  P _ PoseStamped pose_by /\ P _ WrenchStamped wrench_by /\
  forall junk, P _ (PoseWithCovarianceStamped junk) (posecov_by junk).
