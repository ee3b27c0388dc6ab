(** * Specification vocabulary for static_transform_publisher *)
From Coq Require Import ZArith Bool List String.
From Verif Require Import RosTime Scalar LinearMath Cache BufferCore TfTopics StaticPublisher.
Import ListNotations.
Open Scope string_scope.
Open Scope Z_scope.

Section Spec.
Context {S : Scalar}.
(** What is found in a parameter under nested names. *)
Inductive found : list string -> xmlrpc S -> xmlrpc S -> Prop :=
| found_here : forall x, found [] x x
| found_in : forall k l v path x, find_member k l = Some v -> found path v x -> found (k :: path) (XStruct l) x.

Definition number_paths : list (list string) :=
  [["transform"; "translation"; "x"]; ["transform"; "translation"; "y"]; ["transform"; "translation"; "z"];
   ["transform"; "rotation"; "x"]; ["transform"; "rotation"; "y"]; ["transform"; "rotation"; "z"]; ["transform"; "rotation"; "w"]].
Definition name_paths : list (list string) := [["header"; "frame_id"]; ["child_frame_id"]].
(** All nine are there; and each has the type it should. *)
Definition complete (p : xmlrpc S) : Prop := forall path, In path (number_paths ++ name_paths) -> exists x, found path p x.
Definition well_typed (p : xmlrpc S) : Prop :=
  (forall path, In path number_paths -> exists d, found path p (XDouble d)) /\
  (forall path, In path name_paths -> exists s, found path p (XString s)).
(** Values come from the parameter server with a type. *)
Fixpoint typed (x : xmlrpc S) : Prop :=
  match x with
  | XInvalid => False
  | XStruct l => (fix go (l : list (string * xmlrpc S)) : Prop := match l with [] => True | (_, v) :: l' => typed v /\ go l' end) l
  | XArray l => (fix go (l : list (xmlrpc S)) : Prop := match l with [] => True | v :: l' => typed v /\ go l' end) l
  | _ => True
  end.

(** The three ways of asking, and the transform that is asked for. *)
Inductive asked (atof : string -> S) (param : string -> option (xmlrpc S)) : list string -> string -> string -> vec3 S -> quat S -> Prop :=
| by_quaternion : forall x y z qx qy qz qw frame child,
    asked atof param [x; y; z; qx; qy; qz; qw; frame; child] frame child
      (V3 (atof x) (atof y) (atof z)) (Q4 (atof qx) (atof qy) (atof qz) (atof qw))
| by_angles : forall x y z yaw pitch roll frame child,
    asked atof param [x; y; z; yaw; pitch; roll; frame; child] frame child
      (V3 (atof x) (atof y) (atof z)) (qfromRPY (atof roll) (atof pitch) (atof yaw))
| by_parameter : forall name p frame child x y z qx qy qz qw, param name = Some p ->
    found ["header"; "frame_id"] p (XString frame) -> found ["child_frame_id"] p (XString child) ->
    found ["transform"; "translation"; "x"] p (XDouble x) -> found ["transform"; "translation"; "y"] p (XDouble y) ->
    found ["transform"; "translation"; "z"] p (XDouble z) ->
    found ["transform"; "rotation"; "x"] p (XDouble qx) -> found ["transform"; "rotation"; "y"] p (XDouble qy) ->
    found ["transform"; "rotation"; "z"] p (XDouble qz) -> found ["transform"; "rotation"; "w"] p (XDouble qw) ->
    asked atof param [name] frame child (V3 x y z) (Q4 qx qy qz qw).
End Spec.
