(** * A ROS network of broadcasters and listeners

    tf2_ros::TransformBroadcaster and StaticTransformBroadcaster (transform_broadcaster.cpp,
    static_transform_broadcaster.cpp and the Python counterparts) publish on /tf and /tf_static;
    every node has a tf2_ros::TransformListener (transform_listener.cpp) filling a tf2::BufferCore of
    its own; TfTopics.v models each of them.
    Simplifications: the transport is arbitrary: a node may receive a published message at any later
    moment, never, or several times, and messages in any order (this covers queues that overflow,
    latching, late subscribers and several publishers); each node's clock reads anything when a message
    arrives; nothing but its listener writes to a node's buffer; an exception that escapes the
    callback ends that callback only. *)
From Coq Require Import ZArith Bool List String.
From Verif Require Import RosTime Scalar LinearMath Cache BufferCore SpecCore Requests SpecRequests TfTopics SpecTopics.
Import ListNotations.
Open Scope Z_scope.

Section Network.
Context {S : Scalar}.
Notation tmsg := (tmsg S).
Notation tfmessage := (tfmessage S).
Notation listener := (listener S).
Notation arrival := (arrival S).

(** What happens in the network *)
Inductive net_op :=
| Broadcast (who : string) (ms : list tmsg)                  (* TransformBroadcaster::sendTransform, transform_broadcaster.cpp 45-61 *)
| BroadcastStatic (k : nat) (who : string) (ms : list tmsg)  (* the k-th StaticTransformBroadcaster, static_transform_broadcaster.cpp 46-62 *)
| PyBroadcastStatic (who : string) (ms : list tmsg)          (* static_transform_broadcaster.py 45-48 *)
| Receive (node : nat) (i : nat) (now : time).               (* a node's listener is given the i-th message published *)

Record network := mkNetwork {
  k_topics : list (string * bool * tfmessage);   (* publisher, on /tf_static?, message; oldest first *)
  k_static : nat -> tfmessage;                   (* net_message_ of each static broadcaster *)
  k_node : nat -> listener;
  k_got : nat -> list arrival                    (* what each node has received so far, oldest first *)
}.
Definition init_network (ct : duration) : network :=
  mkNetwork [] (fun _ => []) (fun _ => init_listener (init_buf ct)) (fun _ => []).

Definition update {A} (f : nat -> A) (k : nat) (x : A) : nat -> A := fun j => if Nat.eqb j k then x else f j.

Definition net_step (warn : bool) (n : network) (o : net_op) : network :=
  match o with
  | Broadcast who ms => mkNetwork (k_topics n ++ [(who, false, sendTransform ms)]) (k_static n) (k_node n) (k_got n)
  | BroadcastStatic k who ms =>
      let net := static_sendTransform (k_static n k) ms in
      mkNetwork (k_topics n ++ [(who, true, net)]) (update (k_static n) k net) (k_node n) (k_got n)
  | PyBroadcastStatic who ms => mkNetwork (k_topics n ++ [(who, true, ms)]) (k_static n) (k_node n) (k_got n)
  | Receive j i now =>
      match nth_error (k_topics n) i with
      | None => n
      | Some (who, st, msg) =>
          let a := mkArrival now who st msg in
          mkNetwork (k_topics n) (k_static n)
            (update (k_node n) j (fst (fst (subscription_callback warn (k_node n j) now msg who st))))
            (update (k_got n) j (k_got n j ++ [a]))
      end
  end.
Definition net_run (warn : bool) (ct : duration) (ops : list net_op) : network :=
  fold_left (net_step warn) ops (init_network ct).
(** A node's buffer *)
Definition node_core (n : network) (j : nat) : core S := b_core (l_buf (k_node n j)).
End Network.
Arguments net_op : clear implicits.
Arguments network : clear implicits.
