(** * tf2_ros: the broadcasters and TransformListener

    Model of tf2_ros/src/transform_broadcaster.cpp, static_transform_broadcaster.cpp,
    transform_listener.cpp and of their Python counterparts in tf2_ros/src/tf2_ros/.
    A tf2_msgs/TFMessage is its list of transforms.  The transport is not modelled: publishing
    is returning the message, and every callback is one step (roscpp never runs two callbacks of
    one subscription at the same time; tf and tf_static share the queue and thread of the
    listener).  header.seq is dropped. *)
From Coq Require Import ZArith Bool List String.
From Verif Require Import RosTime Scalar LinearMath Cache BufferCore Requests.
Import ListNotations.
Open Scope Z_scope.

Section Topics.
Context {S : Scalar}.
Notation tmsg := (tmsg S).
Notation buf := (buf S).

(** tf2_msgs/msg/TFMessage.msg *)
Definition tfmessage := list tmsg.

(** ** Broadcasters *)
(** transform_broadcaster.cpp 53-61: a fresh message holding the transforms, in order.
    (45-50, one transform: the list of that transform.) *)
Definition sendTransform (msgtf : list tmsg) : tfmessage := fold_left (fun message it => message ++ [it]) msgtf [].

(** static_transform_broadcaster.cpp 48-58: std::find_if on child_frame_id, then assign or
    push_back *)
Fixpoint replace_or_push (net : tfmessage) (input : tmsg) : tfmessage :=
  match net with
  | [] => [input]
  | existing :: net' =>
      if String.eqb (tm_child input) (tm_child existing) then input :: net'
      else existing :: replace_or_push net' input
  end.
(** static_transform_broadcaster.cpp 46-62: new value of net_message_, which is also what is
    published.  (static_transform_broadcaster.h 54-56, one transform: the list of that
    transform.) *)
Definition static_sendTransform (net : tfmessage) (msgtf : list tmsg) : tfmessage :=
  fold_left replace_or_push msgtf net.

(** What a StaticTransformBroadcaster publishes over a sequence of calls; net_message_ starts
    empty. *)
Fixpoint static_published (net : tfmessage) (calls : list (list tmsg)) : list tfmessage :=
  match calls with
  | [] => []
  | c :: calls' => let net' := static_sendTransform net c in net' :: static_published net' calls'
  end.

(** tf2_ros/src/tf2_ros/static_transform_broadcaster.py 45-48: the Python class publishes just
    the transforms of the call *)
Definition py_static_published (calls : list (list tmsg)) : list tfmessage := calls.

(** /tf_static is latched (static_transform_broadcaster.cpp 43, .py 43): a subscriber that
    connects late receives the last message published. *)
Definition latched (published : list tfmessage) : list tfmessage :=
  match rev published with [] => [] | m :: _ => [m] end.

(** ** TransformListener *)
(** transform_listener.h 70-90: the buffer and last_update_ *)
Record listener := mkListener { l_buf : buf; l_last : time }.
(** last_update_ is default constructed: time 0 *)
Definition init_listener (b : buf) : listener := {| l_buf := b; l_last := 0 |}.

(** transform_listener.cpp 117-130: the loop over the transforms.  tf2::TransformException is
    caught and logged; rostime's std::runtime_error is not, and ends the loop.  Results: the
    buffer, the request callbacks invoked, and whether an exception escaped. *)
Fixpoint set_all (b : buf) (msgs : list tmsg) (authority : string) (is_static : bool)
  : buf * list event * res unit :=
  match msgs with
  | [] => (b, [], Ok tt)
  | m :: msgs' =>
      let '(b', r) := set_transform b m authority is_static in
      match r with
      | Ok (_, evs) =>
          let '(b'', evs', r') := set_all b' msgs' authority is_static in (b'', evs ++ evs', r')
      | Throw RuntimeError e => (b', [], Throw RuntimeError e)
      | Throw _ _ => set_all b' msgs' authority is_static
      | UB => (b', [], UB)
      end
  end.

(** transform_listener.cpp 104-131 subscription_callback_impl.  [now] is the reading of
    ros::Time::now(); [warn] says whether the warning of 108 is enabled: its operand
    [last_update_ - now] is evaluated only then, before the buffer is cleared. *)
Definition subscription_callback (warn : bool) (l : listener) (now : time) (msg_in : tfmessage)
    (authority : string) (is_static : bool) : listener * list event * res unit :=
  let jump := now <? l_last l in
  match (if jump && warn then lift_time (time_sub (l_last l) now) else Ok 0) with
  | Ok _ =>
      let b := if jump then with_core (l_buf l) (clear (b_core (l_buf l))) else l_buf l in
      let '(b', evs, r) := set_all b msg_in authority is_static in
      ({| l_buf := b'; l_last := now |}, evs, r)
  | Throw c e => (l, [], Throw c e)
  | UB => (l, [], UB)
  end.
End Topics.
Arguments listener : clear implicits.
Arguments tfmessage : clear implicits.
