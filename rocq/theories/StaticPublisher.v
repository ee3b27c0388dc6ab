(** * static_transform_publisher

    Model of tf2_ros/src/static_transform_broadcaster_program.cpp.  The arguments are those left
    after ros::init removed its own, without the program name (argv[1] ..).  Parameters of the
    model: atof of the C library, the parameter server, and ros::Time::now().  Assumed about
    XmlRpcValue (xmlrpcpp): hasMember is false for anything but a struct; the conversions to
    double and std::string throw XmlRpcException unless the value has just that type (there is no
    conversion from int to double) or no type yet, when it becomes 0.0 or "".  Not modelled: the
    text printed, and failures of ros::init. *)
From Coq Require Import ZArith Bool List String.
From Verif Require Import RosTime Scalar LinearMath Cache BufferCore TfTopics.
Import ListNotations.
Open Scope string_scope.
Open Scope Z_scope.

Section Program.
Context {S : Scalar}.

(** XmlRpc::XmlRpcValue *)
Inductive xmlrpc :=
| XInvalid
| XBoolean (b : bool)
| XInt (i : Z)
| XDouble (d : S)
| XString (s : string)
| XArray (l : list xmlrpc)
| XStruct (members : list (string * xmlrpc)).
(** a member of a struct (std::map: one entry per name) *)
Fixpoint find_member (k : string) (l : list (string * xmlrpc)) : option xmlrpc :=
  match l with
  | [] => None
  | (k', v) :: l' => if String.eqb k k' then Some v else find_member k l'
  end.
(** XmlRpcValue::hasMember *)
Definition hasMember (x : xmlrpc) (k : string) : bool :=
  match x with XStruct l => match find_member k l with Some _ => true | None => false end | _ => false end.
(** XmlRpcValue::operator[]: only evaluated here where hasMember holds *)
Definition index (x : xmlrpc) (k : string) : xmlrpc :=
  match x with XStruct l => match find_member k l with Some v => v | None => XInvalid end | _ => XInvalid end.
(** (double) and (std::string) of a value; [None]: XmlRpcException *)
Definition to_double (x : xmlrpc) : option S := match x with XDouble d => Some d | XInvalid => Some szero | _ => None end.
Definition to_string (x : xmlrpc) : option string := match x with XString s => Some s | XInvalid => Some "" | _ => None end.

(** static_transform_broadcaster_program.cpp 35-51 *)
Definition validateXmlRpcTf (tf_data : xmlrpc) : bool :=
  hasMember tf_data "child_frame_id" &&
  hasMember tf_data "header" &&
  hasMember (index tf_data "header") "frame_id" &&
  hasMember tf_data "transform" &&
  hasMember (index tf_data "transform") "translation" &&
  hasMember (index (index tf_data "transform") "translation") "x" &&
  hasMember (index (index tf_data "transform") "translation") "y" &&
  hasMember (index (index tf_data "transform") "translation") "z" &&
  hasMember (index tf_data "transform") "rotation" &&
  hasMember (index (index tf_data "transform") "rotation") "x" &&
  hasMember (index (index tf_data "transform") "rotation") "y" &&
  hasMember (index (index tf_data "transform") "rotation") "z" &&
  hasMember (index (index tf_data "transform") "rotation") "w".

(** How the program ends or what it does until it is killed *)
Inductive ending :=
| Exits (code : Z)
| Uncaught                                  (* an XmlRpcException leaves main *)
| Spins (published : list (tfmessage S)).   (* all the messages it publishes on /tf_static *)

Definition obindo {A B} (a : option A) (f : A -> option B) : option B := match a with Some x => f x | None => None end.

(** 103-112 *)
Definition from_param (now : time) (tf_data : xmlrpc) : option (tmsg S) :=
  let tr := index (index tf_data "transform") "translation" in
  let ro := index (index tf_data "transform") "rotation" in
  obindo (to_double (index tr "x")) (fun x =>
  obindo (to_double (index tr "y")) (fun y =>
  obindo (to_double (index tr "z")) (fun z =>
  obindo (to_double (index ro "x")) (fun qx =>
  obindo (to_double (index ro "y")) (fun qy =>
  obindo (to_double (index ro "z")) (fun qz =>
  obindo (to_double (index ro "w")) (fun qw =>
  obindo (to_string (index (index tf_data "header") "frame_id")) (fun frame_id =>
  obindo (to_string (index tf_data "child_frame_id")) (fun child_frame_id =>
  Some (mkTmsg now frame_id child_frame_id (V3 x y z) (Q4 qx qy qz qw))))))))))).

(** 131-144: the frames must differ; then one sendTransform of a new StaticTransformBroadcaster *)
Definition check_and_send (m : tmsg S) : ending :=
  if String.eqb (tm_frame m) (tm_child m) then Exits 1
  else Spins (static_published [] [[m]]).

(** 53-145 main *)
Definition static_publisher (atof : string -> S) (param : string -> option xmlrpc) (now : time) (args : list string) : ending :=
  match args with
  | [x; y; z; qx; qy; qz; qw; frame_id; child_frame_id] =>             (* argc == 10 *)
      check_and_send (mkTmsg now frame_id child_frame_id (V3 (atof x) (atof y) (atof z)) (Q4 (atof qx) (atof qy) (atof qz) (atof qw)))
  | [x; y; z; yaw; pitch; roll; frame_id; child_frame_id] =>           (* argc == 9 *)
      check_and_send (mkTmsg now frame_id child_frame_id (V3 (atof x) (atof y) (atof z)) (qfromRPY (atof roll) (atof pitch) (atof yaw)))
  | [param_name] =>                                                    (* argc == 2 *)
      match param param_name with
      | None => Exits (-1)
      | Some tf_data =>
          if validateXmlRpcTf tf_data then
            match from_param now tf_data with Some m => check_and_send m | None => Uncaught end
          else Exits (-1)
      end
  | _ => Exits (-1)
  end.
End Program.
Arguments xmlrpc : clear implicits.
Arguments ending : clear implicits.
