(** * tf2_ros::BufferInterface::transform and tf2::convert

    Model of the six [transform] templates of tf2_ros/include/tf2_ros/buffer_interface.h
    122-259 and of [convert] (tf2/include/tf2/convert.h 105-123, tf2/include/tf2/impl/convert.h).

    Objects are passed by reference, so they are [ref]s into a memory as in GeomMsgs.  A
    template parameter [T] is a [datatype]: what the free functions found by argument
    dependent lookup (getFrameId, getTimestamp, doTransform) and the default constructor do
    for that type.  Types whose doTransform can itself throw (PointCloud2) are not instances. *)
From Coq Require Import ZArith Bool String List.
From Verif Require Import RosTime Scalar LinearMath Cache BufferCore GeomMsgs ForeignGeom.
Import ListNotations.
Open Scope string_scope.
Open Scope Z_scope.

(** geometry_msgs::TransformStamped as [lookupTransform] returns it: a fresh message, whose
    header.seq nobody sets (buffer_core.cpp 595-673) *)
Definition to_message {S : Scalar} (m : tmsg S) : gtstamped S :=
  mkTstamped (mkHeader (h_seq header0) (tm_stamp m) (tm_frame m)) (tm_child m)
    (mkGtransform (toMsg_Vector3 (tm_trans m)) (toMsg_Quaternion (tm_rot m))).

(** buffer_interface.h 46-82: the two virtual lookups [transform] calls.  The value is what
    that one call comes back with; what a waiting call comes back with is in TfBuffer. *)
Record buffer_interface (S : Scalar) := mkInterface {
  bi_lookup : string -> string -> time -> duration -> res (gtstamped S);
  bi_lookup_fixed : string -> time -> string -> time -> string -> duration -> res (gtstamped S)
}.
Arguments mkInterface {S} _ _.
Arguments bi_lookup {S} _ _ _ _ _.
Arguments bi_lookup_fixed {S} _ _ _ _ _ _ _.

Definition map_res {A B} (f : A -> B) (r : res A) : res B :=
  match r with Ok a => Ok (f a) | Throw c e => Throw c e | UB => UB end.
(** tf2_ros/src/buffer.cpp 54-59, 65-71: Buffer::lookupTransform waits with canTransform, then
    looks up in the core.  [s] is the core at the moment of that lookup. *)
Definition buffer_of {S : Scalar} (s : core S) : buffer_interface S :=
  mkInterface
    (fun target source t timeout => map_res to_message (lookupTransform s target source t))
    (fun target tt source st fixed timeout => map_res to_message (lookupTransformFixed s target tt source st fixed)).

(** what the templates use of a type [T] *)
Record datatype (S : Scalar) (A : Type) := mkDatatype {
  dt_frame : A -> string;                                        (* tf2::getFrameId *)
  dt_stamp : A -> time;                                          (* tf2::getTimestamp *)
  dt_new : A;                                                    (* T out; *)
  dt_do : forall M, gtstamped S -> ref M A -> ref M A -> M -> M  (* tf2::doTransform(in, out, transform) *)
}.
Arguments mkDatatype {S A} _ _ _ _.
Arguments dt_frame {S A} _ _.
Arguments dt_stamp {S A} _ _.
Arguments dt_new {S A} _.
Arguments dt_do {S A} _ {M} _ _ _ _.

(** an object on the stack beside the memory [M] *)
Definition stack_ref {M A : Type} : ref (M * A) A := Ref snd (fun a m => (fst m, a)).
(** a reference into [M] while an [A] is on the stack *)
Definition under {M A B : Type} (r : ref M B) : ref (M * A) B :=
  Ref (fun m => rd r (fst m)) (fun b m => (wr r b (fst m), snd m)).

Section Transform.
Context {S : Scalar} (bi : buffer_interface S).
Section One.
Context {A : Type} (T : datatype S A).

(** buffer_interface.h 122-129 transform(in, out, target_frame, timeout).  An exception of
    lookupTransform leaves before doTransform runs. *)
Definition transform {M : Type} (in_ out : ref M A) (target : string) (timeout : duration) (m : M) : M * res unit :=
  match bi_lookup bi target (dt_frame T (rd in_ m)) (dt_stamp T (rd in_ m)) timeout with
  | Ok t => (dt_do T t in_ out m, Ok tt)
  | Throw c e => (m, Throw c e)
  | UB => (m, UB)
  end.
(** 142-148 transform(in, target_frame, timeout) *)
Definition transform_value {M : Type} (in_ : ref M A) (target : string) (timeout : duration) (m : M) : M * res A :=
  let '((m, out), r) := transform (under in_) stack_ref target timeout (m, dt_new T) in
  (m, map_res (fun _ => out) r).
(** 194-203 transform(in, out, target_frame, target_time, fixed_frame, timeout) *)
Definition transform_fixed {M : Type} (in_ out : ref M A) (target : string) (target_time : time) (fixed : string)
    (timeout : duration) (m : M) : M * res unit :=
  match bi_lookup_fixed bi target target_time (dt_frame T (rd in_ m)) (dt_stamp T (rd in_ m)) fixed timeout with
  | Ok t => (dt_do T t in_ out m, Ok tt)
  | Throw c e => (m, Throw c e)
  | UB => (m, UB)
  end.
(** 219-226 transform(in, target_frame, target_time, fixed_frame, timeout) *)
Definition transform_fixed_value {M : Type} (in_ : ref M A) (target : string) (target_time : time) (fixed : string)
    (timeout : duration) (m : M) : M * res A :=
  let '((m, out), r) := transform_fixed (under in_) stack_ref target target_time fixed timeout (m, dt_new T) in
  (m, map_res (fun _ => out) r).
End One.

Section Two.
Context {A B : Type} (T : datatype S A).
(** [conv] is tf2::convert<A, B>: it reads the local copy and writes the caller's object *)
Context (conv : forall M, ref M A -> ref M B -> M -> M).
(** 167-174 transform(in, out, target_frame, timeout), two types *)
Definition transform_to {M : Type} (in_ : ref M A) (out : ref M B) (target : string) (timeout : duration) (m : M)
  : M * res unit :=
  match transform_value T in_ target timeout m with
  | (m, Ok copy) => (fst (conv _ stack_ref (under out) (m, copy)), Ok tt)
  | (m, Throw c e) => (m, Throw c e)
  | (m, UB) => (m, UB)
  end.
(** 247-255 the same through a fixed frame *)
Definition transform_fixed_to {M : Type} (in_ : ref M A) (out : ref M B) (target : string) (target_time : time)
    (fixed : string) (timeout : duration) (m : M) : M * res unit :=
  match transform_fixed_value T in_ target target_time fixed timeout m with
  | (m, Ok copy) => (fst (conv _ stack_ref (under out) (m, copy)), Ok tt)
  | (m, Throw c e) => (m, Throw c e)
  | (m, UB) => (m, UB)
  end.
End Two.
End Transform.

(** ** convert *)
(** tf2/impl/convert.h 54-63 Converter<true, false>: fromMsg(a, b).  The fromMsg of this
    repository overwrite [b] from [a] alone. *)
Definition convert_from_msg {A B : Type} (fromMsg : A -> B) (M : Type) (a : ref M A) (b : ref M B) (m : M) : M :=
  wr b (fromMsg (rd a m)) m.
(** 65-74 Converter<false, true>: b = toMsg(a) *)
Definition convert_to_msg {A B : Type} (toMsg : A -> B) (M : Type) (a : ref M A) (b : ref M B) (m : M) : M :=
  wr b (toMsg (rd a m)) m.
(** 76-85 Converter<false, false>: fromMsg(toMsg(a), b), through the message type [C] *)
Definition convert_both {A B C : Type} (toMsg : A -> C) (fromMsg : C -> B) (M : Type) (a : ref M A) (b : ref M B) (m : M) : M :=
  wr b (fromMsg (toMsg (rd a m))) m.
(** convert.h 115-121 convert(const A&, A&): [same] says whether both are one object *)
Definition convert_same {A : Type} (same : bool) (M : Type) (a b : ref M A) (m : M) : M :=
  if same then m else wr b (rd a m) m.

(** ** The types *)
Section Types.
Context {S : Scalar}.
(** default constructed messages: numbers zero, strings empty *)
Definition xyz0 : gxyz S := mkXyz szero szero szero.
Definition quat0 : gquat S := mkGquat szero szero szero szero.
Definition pose0 : gpose S := mkPose xyz0 quat0.
(** tf2_geometry_msgs.h 223, 233, 737-744 *)
Definition PointStamped : datatype S (mstamped (gxyz S)) :=
  mkDatatype (fun p => h_frame (m_header p)) (fun p => h_stamp (m_header p)) (mkMstamped header0 xyz0)
    (fun M t i o m => doTransform_PointStamped (const_ref t) i o m).
(** 115, 125, 975-982 *)
Definition Vector3Stamped : datatype S (mstamped (gxyz S)) :=
  mkDatatype (fun p => h_frame (m_header p)) (fun p => h_stamp (m_header p)) (mkMstamped header0 xyz0)
    (fun M t i o m => doTransform_Vector3Stamped (const_ref t) i o m).
(** 332, 342, 770-777 *)
Definition QuaternionStamped : datatype S (mstamped (gquat S)) :=
  mkDatatype (fun p => h_frame (m_header p)) (fun p => h_stamp (m_header p)) (mkMstamped header0 quat0)
    (fun M t i o m => doTransform_QuaternionStamped (const_ref t) i o m).
(** 465, 474, 807-814 *)
Definition PoseStamped : datatype S (mstamped (gpose S)) :=
  mkDatatype (fun p => h_frame (m_header p)) (fun p => h_stamp (m_header p)) (mkMstamped header0 pose0)
    (fun M t i o m => doTransform_PoseStamped (const_ref t) i o m).
(** 539, 548, 910-927; [junk] is what the uninitialised array of transformCovariance holds *)
Definition PoseWithCovarianceStamped (junk : nat -> S) : datatype S (mstamped (gposecov S)) :=
  mkDatatype (fun p => h_frame (m_header p)) (fun p => h_stamp (m_header p))
    (mkMstamped header0 (mkPoseCov pose0 (fun _ => szero)))
    (fun M t i o m => doTransform_PoseCovStamped (const_ref t) junk i o m).
(** 990, 995, 1053-1060 *)
Definition WrenchStamped : datatype S (mstamped (gwrench S)) :=
  mkDatatype (fun p => h_frame (m_header p)) (fun p => h_stamp (m_header p)) (mkMstamped header0 (mkWrench xyz0 xyz0))
    (fun M t i o m => doTransform_WrenchStamped (const_ref t) i o m).
(** 649, 658, 935-948 *)
Definition TransformStamped : datatype S (gtstamped S) :=
  mkDatatype (fun p => h_frame (t_header p)) (fun p => h_stamp (t_header p))
    (mkTstamped header0 EmptyString (mkGtransform xyz0 quat0))
    (fun M t i o m => doTransform_TransformStamped (const_ref t) i o m).
(** tf2::Stamped<P>: convert.h 72-84; the default constructor (transform_datatypes.h 50) leaves
    the datum [junk] and the stamp 0.  [f] is the doTransform of the package that knows [P]. *)
Definition Stamped {P : Type} (junk : P) (f : tf2stamped P -> gtstamped S -> tf2stamped P) : datatype S (tf2stamped P) :=
  mkDatatype k_frame k_stamp (mkTf2stamped junk 0 "NO_ID_STAMPED_DEFAULT_CONSTRUCTION")
    (fun M t i o m => wr o (f (rd i m) t) m).
End Types.
