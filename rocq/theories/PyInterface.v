(** * tf2_ros.BufferInterface in Python: transform, the registries and convert

    Model of tf2_ros/src/tf2_ros/buffer_interface.py and of the registrations made by
    tf2_geometry_msgs/src/tf2_geometry_msgs/tf2_geometry_msgs.py,
    tf2_kdl/src/tf2_kdl/tf2_kdl.py and tf2_sensor_msgs/src/tf2_sensor_msgs/tf2_sensor_msgs.py.

    Python objects are values here, with their class.  None of the modelled functions assigns to
    an object it was given ([Stamped] is only called on a fresh vector), so the caller's objects
    stay as they are; which results are the argument object itself is recorded.  Not modelled:
    the header object a result may share with the transform or with the converted vector, and
    callbacks that register callbacks.  PyKDL objects have a header only if somebody assigned
    one. *)
From Coq Require Import ZArith Bool String List.
From Verif Require Import RosTime Scalar LinearMath GeomMsgs ForeignGeom SensorMsgs.
Import ListNotations.
Open Scope list_scope.
Open Scope Z_scope.

(** The classes: geometry_msgs and sensor_msgs messages, PyKDL types, and all others. *)
Inductive pyclass :=
| PointStamped | Vector3Stamped | PoseStamped | WrenchStamped | PointCloud2
| KVector | KFrame | KTwist | KWrench
| OtherClass (n : nat).
Definition class_eqb (a b : pyclass) : bool :=
  match a, b with
  | PointStamped, PointStamped | Vector3Stamped, Vector3Stamped | PoseStamped, PoseStamped
  | WrenchStamped, WrenchStamped | PointCloud2, PointCloud2
  | KVector, KVector | KFrame, KFrame | KTwist, KTwist | KWrench, KWrench => true
  | OtherClass m, OtherClass n => Nat.eqb m n
  | _, _ => false
  end.

Section Interface.
Context {S : Scalar}.
(** the exceptions lookup_transform can raise *)
Context {E : Type}.

(** An object and its header attribute *)
Inductive pyobj :=
| OPoint (m : mstamped (gxyz S))
| OVector3 (m : mstamped (gxyz S))
| OPose (m : mstamped (gpose S))
| OWrench (m : mstamped (gwrench S))
| OCloud (c : pycloud S)
| OKVector (h : option header) (v : vec3 S)
| OKFrame (h : option header) (f : xform S)
| OKTwist (h : option header) (t : ktwist S)
| OKWrench (h : option header) (w : kwrench S)
| OOther (n : nat) (h : option header).
(** type(obj) *)
Definition class_of (o : pyobj) : pyclass :=
  match o with
  | OPoint _ => PointStamped | OVector3 _ => Vector3Stamped | OPose _ => PoseStamped | OWrench _ => WrenchStamped
  | OCloud _ => PointCloud2
  | OKVector _ _ => KVector | OKFrame _ _ => KFrame | OKTwist _ _ => KTwist | OKWrench _ _ => KWrench
  | OOther n _ => OtherClass n
  end.
(** obj.header; [None]: AttributeError *)
Definition header_of (o : pyobj) : option header :=
  match o with
  | OPoint m | OVector3 m => Some (m_header m)
  | OPose m => Some (m_header m)
  | OWrench m => Some (m_header m)
  | OCloud c => Some (pc_header c)
  | OKVector h _ | OKFrame h _ | OKTwist h _ | OKWrench h _ | OOther _ h => h
  end.

(** What a call ends with *)
Inductive pyexn := XTypeException | XAttributeError | XIndexError | XLookup (e : E).
Inductive outcome (A : Type) := Return (a : A) | Raise (x : pyexn).
Arguments Return {A} a.
Arguments Raise {A} x.
Definition obind {A B} (r : outcome A) (f : A -> outcome B) : outcome B :=
  match r with Return a => f a | Raise x => Raise x end.

(** What a conversion returns: an object, and whether it is the argument object itself. *)
Definition converter := pyobj -> outcome (pyobj * bool).
Definition transformer := pyobj -> gtstamped S -> outcome pyobj.

(** Python dictionaries.  Registries are class attributes: one for the whole process. *)
Definition dict (K V : Type) := K -> option V.
Definition dempty {K V} : dict K V := fun _ => None.
Definition dset {K V} (eqb : K -> K -> bool) (d : dict K V) (k : K) (v : V) : dict K V := fun k' => if eqb k' k then Some v else d k'.
(** [d[k]] after the membership test; the branch not taken raises TypeException *)
Definition dget {K V} (d : dict K V) (k : K) : outcome V := match d k with Some v => Return v | None => Raise XTypeException end.
Definition pair_eqb (a b : pyclass * pyclass) : bool := class_eqb (fst a) (fst b) && class_eqb (snd a) (snd b).

(** buffer_interface.py 192-193, 207-210 *)
Record registries := mkRegistries {
  type_map : dict pyclass transformer;
  to_msg_map : dict pyclass converter;
  from_msg_map : dict pyclass converter;
  convert_map : dict (pyclass * pyclass) converter }.
Definition no_registrations : registries := mkRegistries dempty dempty dempty dempty.
(** 198-199 *)
Definition add (r : registries) (k : pyclass) (f : transformer) : registries :=
  mkRegistries (dset class_eqb (type_map r) k f) (to_msg_map r) (from_msg_map r) (convert_map r).
(** 201-205 *)
Definition get (r : registries) (k : pyclass) : outcome transformer := dget (type_map r) k.
(** 212-213 *)
Definition add_from_msg (r : registries) (k : pyclass) (f : converter) : registries :=
  mkRegistries (type_map r) (to_msg_map r) (dset class_eqb (from_msg_map r) k f) (convert_map r).
(** 215-216 *)
Definition add_to_msg (r : registries) (k : pyclass) (f : converter) : registries :=
  mkRegistries (type_map r) (dset class_eqb (to_msg_map r) k f) (from_msg_map r) (convert_map r).
(** 218-219 *)
Definition add_convert (r : registries) (k : pyclass * pyclass) (f : converter) : registries :=
  mkRegistries (type_map r) (to_msg_map r) (from_msg_map r) (dset pair_eqb (convert_map r) k f).
(** 221-237 *)
Definition get_from_msg (r : registries) (k : pyclass) : outcome converter := dget (from_msg_map r) k.
Definition get_to_msg (r : registries) (k : pyclass) : outcome converter := dget (to_msg_map r) k.
Definition get_convert (r : registries) (k : pyclass * pyclass) : outcome converter := dget (convert_map r) k.

(** 239-252: the try block and its except clause; a TypeException raised by the conversion itself
    is caught as well.  deepcopy returns an equal, new object. *)
Definition convert (r : registries) (a : pyobj) (b_type : pyclass) : outcome (pyobj * bool) :=
  match obind (get_convert r (class_of a, b_type)) (fun f => f a) with
  | Raise XTypeException =>
      if class_eqb (class_of a) b_type then Return (a, false)
      else obind (get_to_msg r (class_of a)) (fun f_to =>
           obind (get_from_msg r b_type) (fun f_from =>
           obind (f_to a) (fun m => obind (f_from (fst m)) (fun b => Return (fst b, snd m && snd b)))))
  | x => x
  end.

(** The two lookups a subclass implements (102-132): what the one call made comes back with. *)
Record py_interface := mkPyInterface {
  pi_lookup : string -> string -> time -> duration -> outcome (gtstamped S);
  pi_lookup_full : string -> time -> string -> time -> string -> duration -> outcome (gtstamped S) }.
(** the calls of those two that were made *)
Inductive lookup_call :=
| CLookup (target source : string) (t : time) (timeout : duration)
| CLookupFull (target : string) (target_time : time) (source : string) (source_time : time) (fixed : string) (timeout : duration).

(** 67-70, 96-99: the end of both functions *)
Definition finish (r : registries) (res : pyobj) (new_type : option pyclass) : outcome pyobj :=
  match new_type with None => Return res | Some ty => obind (convert r res ty) (fun b => Return (fst b)) end.
(** 49-70 transform: the lookups made, in order, and the outcome *)
Definition py_transform (r : registries) (bi : py_interface) (object_stamped : pyobj) (target_frame : string) (timeout : duration)
    (new_type : option pyclass) : list lookup_call * outcome pyobj :=
  match get r (class_of object_stamped) with
  | Raise x => ([], Raise x)
  | Return do_transform =>
      match header_of object_stamped with
      | None => ([], Raise XAttributeError)
      | Some h => ([CLookup target_frame (h_frame h) (h_stamp h) timeout],
          obind (pi_lookup bi target_frame (h_frame h) (h_stamp h) timeout) (fun t =>
          obind (do_transform object_stamped t) (fun res => finish r res new_type)))
      end
  end.
(** 73-99 transform_full *)
Definition py_transform_full (r : registries) (bi : py_interface) (object_stamped : pyobj) (target_frame : string) (target_time : time)
    (fixed_frame : string) (timeout : duration) (new_type : option pyclass) : list lookup_call * outcome pyobj :=
  match get r (class_of object_stamped) with
  | Raise x => ([], Raise x)
  | Return do_transform =>
      match header_of object_stamped with
      | None => ([], Raise XAttributeError)
      | Some h => ([CLookupFull target_frame target_time (h_frame h) (h_stamp h) fixed_frame timeout],
          obind (pi_lookup_full bi target_frame target_time (h_frame h) (h_stamp h) fixed_frame timeout) (fun t =>
          obind (do_transform object_stamped t) (fun res => finish r res new_type)))
      end
  end.

(** 169-171 Stamped, for a fresh vector: a new header, seq 0 *)
Definition Stamped (v : vec3 S) (stamp : time) (frame_id : string) : pyobj := OKVector (Some (mkHeader 0 stamp frame_id)) v.

(** ** The registered functions.  Registered for one class each; an argument of another class
    lacks the attributes they read. *)
(** tf2_geometry_msgs.py 36-37, 43-44; tf2_sensor_msgs.py 34-35, 39-40 *)
Definition to_msg_msg : converter := fun msg => Return (msg, true).
Definition from_msg_msg : converter := fun msg => Return (msg, true).
(** tf2_geometry_msgs.py 59-66 *)
Definition do_transform_point : transformer := fun o t =>
  match o with OPoint m => Return (OPoint (py_do_transform_point m t)) | _ => Raise XAttributeError end.
(** 71-82 *)
Definition do_transform_vector3 : transformer := fun o t =>
  match o with OVector3 m => Return (OVector3 (py_do_transform_vector3 m t)) | _ => Raise XAttributeError end.
(** 86-96 *)
Definition do_transform_pose : transformer := fun o t =>
  match o with OPose m => Return (OPose (py_do_transform_pose m t)) | _ => Raise XAttributeError end.
(** 100-109 *)
Definition do_transform_wrench : transformer := fun o t =>
  match o with OWrench m => Return (OWrench (py_do_transform_wrench m t)) | _ => Raise XAttributeError end.
(** tf2_sensor_msgs.py 52-59: a point with fewer than three values is an IndexError *)
Definition do_transform_cloud : transformer := fun o t =>
  match o with
  | OCloud c => match py_do_transform_cloud c t with Some c' => Return (OCloud c') | None => Raise XIndexError end
  | _ => Raise XAttributeError
  end.
(** tf2_kdl.py 51-63 do_transform_vector; 108-120 do_transform_frame; 123-135 do_transform_twist;
    140-152 do_transform_wrench *)
Definition kdl_do_transform_vector : transformer := fun o t =>
  match o with OKVector _ v => Return (OKVector (Some (t_header t)) (kdl_apply (transformToKDL t) v)) | _ => Raise XAttributeError end.
Definition kdl_do_transform_frame : transformer := fun o t =>
  match o with OKFrame _ f => Return (OKFrame (Some (t_header t)) (kdl_mul (transformToKDL t) f)) | _ => Raise XAttributeError end.
Definition kdl_do_transform_twist : transformer := fun o t =>
  match o with OKTwist _ x => Return (OKTwist (Some (t_header t)) (kdl_twist (transformToKDL t) x)) | _ => Raise XAttributeError end.
Definition kdl_do_transform_wrench : transformer := fun o t =>
  match o with OKWrench _ x => Return (OKWrench (Some (t_header t)) (kdl_wrench (transformToKDL t) x)) | _ => Raise XAttributeError end.
(** tf2_kdl.py 67-80 *)
Definition to_msg_vector : converter := fun o =>
  match o with
  | OKVector (Some h) v => Return (OPoint (mkMstamped h (mkXyz (vx v) (vy v) (vz v))), false)
  | _ => Raise XAttributeError
  end.
(** 84-93: needs msg.point, which only PointStamped has *)
Definition from_msg_vector : converter := fun o =>
  match o with
  | OPoint m => Return (Stamped (V3 (gx (m_data m)) (gy (m_data m)) (gz (m_data m))) (h_stamp (m_header m)) (h_frame (m_header m)), false)
  | _ => Raise XAttributeError
  end.
(** 97-104 *)
Definition convert_vector : converter := fun o =>
  match o with
  | OKVector (Some h) v => Return (Stamped v (h_stamp h) (h_frame h), false)
  | _ => Raise XAttributeError
  end.

(** import tf2_geometry_msgs *)
Definition import_geometry_msgs (r : registries) : registries :=
  let r := add_to_msg r Vector3Stamped to_msg_msg in                (* 39 *)
  let r := add_to_msg r PoseStamped to_msg_msg in                   (* 40 *)
  let r := add_to_msg r PointStamped to_msg_msg in                  (* 41 *)
  let r := add_from_msg r Vector3Stamped from_msg_msg in            (* 46 *)
  let r := add_from_msg r PoseStamped from_msg_msg in               (* 47 *)
  let r := add_from_msg r PointStamped from_msg_msg in              (* 48 *)
  let r := add r PointStamped do_transform_point in                 (* 67 *)
  let r := add r Vector3Stamped do_transform_vector3 in             (* 83 *)
  let r := add r PoseStamped do_transform_pose in                   (* 97 *)
  add r WrenchStamped do_transform_wrench.                          (* 110 *)
(** import tf2_kdl *)
Definition import_kdl (r : registries) : registries :=
  let r := add r KVector kdl_do_transform_vector in                 (* 65 *)
  let r := add_to_msg r KVector to_msg_vector in                    (* 82 *)
  let r := add_from_msg r KVector from_msg_vector in                (* 95 *)
  let r := add_convert r (KVector, KVector) convert_vector in       (* 106 *)
  let r := add r KFrame kdl_do_transform_frame in                   (* 121 *)
  let r := add r KTwist kdl_do_transform_twist in                   (* 136 *)
  add r KWrench kdl_do_transform_wrench.                            (* 153 *)
(** import tf2_sensor_msgs *)
Definition import_sensor_msgs (r : registries) : registries :=
  let r := add_to_msg r PointCloud2 to_msg_msg in                   (* 37 *)
  let r := add_from_msg r PointCloud2 from_msg_msg in               (* 42 *)
  add r PointCloud2 do_transform_cloud.                             (* 60 *)
End Interface.
Arguments Return {E A} a.
Arguments Raise {E A} x.
Arguments pyobj S : clear implicits.
Arguments pyexn E : clear implicits.
Arguments outcome E A : clear implicits.
Arguments transformer S E : clear implicits.
Arguments converter S E : clear implicits.
Arguments registries S E : clear implicits.
Arguments py_interface S E : clear implicits.
