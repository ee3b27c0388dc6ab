(** * Specification vocabulary for Python's transform and convert *)
From Coq Require Import ZArith Bool String List Reals.
From Verif Require Import RosTime Scalar LinearMath Cache BufferCore Instances GeomMsgs SpecGeom ForeignGeom SpecForeign SensorMsgs BufferInterface
  SpecWait PyTime PyCore PyBuffer SpecPyWait PyInterface.
Import ListNotations.
Open Scope Z_scope.

(** ** Registries *)
(** The packages of this repository that register something, and a process that imported some of
    them, in some order. *)
Inductive package := Tf2GeometryMsgs | Tf2Kdl | Tf2SensorMsgs.
Definition import {S : Scalar} {E : Type} (r : registries S E) (p : package) : registries S E :=
  match p with Tf2GeometryMsgs => import_geometry_msgs r | Tf2Kdl => import_kdl r | Tf2SensorMsgs => import_sensor_msgs r end.
Definition process {S : Scalar} {E : Type} (l : list package) : registries S E := fold_left import l no_registrations.
(** all three imported *)
Definition stock {S : Scalar} {E : Type} (r : registries S E) : Prop :=
  exists l, (forall p, In p l) /\ r = process l.

(** The last entry of a list of pairs with a given key. *)
Fixpoint last_for {V : Type} (k : pyclass) (l : list (pyclass * V)) : option V :=
  match l with
  | [] => None
  | (k', v) :: l' => match last_for k l' with Some w => Some w | None => if class_eqb k k' then Some v else None end
  end.

(** the nine classes for which a transform is registered *)
Definition transformable : list pyclass :=
  [PointStamped; Vector3Stamped; PoseStamped; WrenchStamped; PointCloud2; KVector; KFrame; KTwist; KWrench].
(** the message classes that count as "the message" of themselves *)
Definition messages : list pyclass := [PointStamped; Vector3Stamped; PoseStamped; PointCloud2].

(** ** What the motion T does to an object *)
Definition vec (v : vec3 RS) : rxyz := mkXyz (vx v) (vy v) (vz v).
(** every point of the cloud has x, y, z as its first three values *)
Definition well_formed (o : pyobj RS) : Prop :=
  match o with OCloud c => Forall (fun p => (3 <= List.length p)%nat) (pc_points c) | OPose m => is_unit (orientation (m_data m)) | _ => True end.
Definition object_moved (T : rtstamped) (o o' : pyobj RS) : Prop :=
  header_of o' = Some (t_header T) /\
  match o, o' with
  | OPoint m, OPoint m' => m_data m' = moved T (m_data m)
  | OVector3 m, OVector3 m' => m_data m' = turn (rot T) (m_data m)
  | OPose m, OPose m' =>
      position (m_data m') = moved T (position (m_data m)) /\
      same_turn (orientation (m_data m')) (product (rot T) (orientation (m_data m)))
  | OWrench m, OWrench m' => m_data m' = mkWrench (turn (rot T) (force (m_data m))) (turn (rot T) (torque (m_data m)))
  | OCloud c, OCloud c' =>
      pc_names c' = pc_names c /\ pc_height c' = 1 /\ pc_width c' = Z.of_nat (List.length (pc_points c)) /\
      Forall2 (fun p p' => exists x y z rest, p = x :: y :: z :: rest /\
        let q := moved T (mkXyz x y z) in p' = gx q :: gy q :: gz q :: rest) (pc_points c) (pc_points c')
  | OKVector _ v, OKVector _ v' => vec v' = moved T (vec v)
  | OKFrame _ f, OKFrame _ f' => forall r, vec (kdl_apply f' r) = moved T (vec (kdl_apply f r))
  | OKTwist _ t, OKTwist _ t' =>
      vec (k_rot t') = turn (rot T) (vec (k_rot t)) /\
      forall r, plus (vec (k_vel t')) (cross (vec (k_rot t')) (moved T r)) = turn (rot T) (plus (vec (k_vel t)) (cross (vec (k_rot t)) r))
  | OKWrench _ w, OKWrench _ w' =>
      vec (k_force w') = turn (rot T) (vec (k_force w)) /\
      vec (k_torque w') = plus (turn (rot T) (vec (k_torque w))) (cross (shift T) (vec (k_force w')))
  | _, _ => False
  end.

(** ** The buffer in front of which transform sits *)
(** How a lookup of tf2_ros.Buffer fails: an exception of tf2 or of rospy (or the end of the
    process), an exception out of sleep; or it has not come back yet. *)
Inductive buffer_exn := BPy (r : py unit) | BSleep (x : sleep_exn) | BWaiting.
Definition as_outcome {S : Scalar} (r : option (waited (tmsg S))) : outcome buffer_exn (gtstamped S) :=
  match r with
  | Some (WDone m _ _) => Return (to_message m)
  | Some (WSleep x) => Raise (XLookup (BSleep x))
  | Some (WPy p) => Raise (XLookup (BPy p))
  | None => Raise (XLookup BWaiting)
  end.
(** tf2_ros.Buffer, called at instant [i] of the world [w] *)
Definition buffer_at {S : Scalar} (fuel : nat) (w : pworld S) (i : nat) : py_interface S buffer_exn :=
  mkPyInterface
    (fun target source t timeout => as_outcome (lookup_within fuel w i (Simple target source t) timeout))
    (fun target t1 source t2 fixed timeout => as_outcome (lookup_within fuel w i (Advanced target t1 source t2 fixed) timeout)).

(** transform and transform_full with the question they put to the buffer *)
Definition to_frame (u : string + (string * time * string)) (h : header) : question :=
  match u with
  | inl target => Simple target (h_frame h) (h_stamp h)
  | inr (target, target_time, fixed) => Advanced target target_time (h_frame h) (h_stamp h) fixed
  end.
Definition py_transform_to {S : Scalar} {E : Type} (r : registries S E) (bi : py_interface S E) (o : pyobj S) (u : string + (string * time * string))
    (timeout : duration) (new_type : option pyclass) : list lookup_call * outcome E (pyobj S) :=
  match u with
  | inl target => py_transform r bi o target timeout new_type
  | inr (target, target_time, fixed) => py_transform_full r bi o target target_time fixed timeout new_type
  end.
Definition lookup_to {S : Scalar} {E : Type} (bi : py_interface S E) (u : string + (string * time * string)) (h : header) (timeout : duration)
  : outcome E (gtstamped S) :=
  match u with
  | inl target => pi_lookup bi target (h_frame h) (h_stamp h) timeout
  | inr (target, target_time, fixed) => pi_lookup_full bi target target_time (h_frame h) (h_stamp h) fixed timeout
  end.
Definition call_to (u : string + (string * time * string)) (h : header) (timeout : duration) : lookup_call :=
  match u with
  | inl target => CLookup target (h_frame h) (h_stamp h) timeout
  | inr (target, target_time, fixed) => CLookupFull target target_time (h_frame h) (h_stamp h) fixed timeout
  end.
