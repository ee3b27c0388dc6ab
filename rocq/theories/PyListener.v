(** * tf2_ros.TransformListener in Python

    Model of tf2_ros/src/tf2_ros/transform_listener.py 54-100.  rospy (not in /repo) runs a
    callback in the thread of the connection its message came through: callbacks of different
    publishers and of the two topics run at the same time.  A callback is one critical section
    (check_for_reset, under last_update_lock) followed by one buffer call per transform; the buffer
    calls are atomic (they hold BufferCore's frame_mutex_), nothing else is.  A listener is its
    buffer, last_update and the callbacks begun so far; an [action] lets one of them proceed. *)
From Coq Require Import ZArith Bool List String.
From Verif Require Import RosTime Scalar LinearMath Cache BufferCore PyTime PyCore.
Import ListNotations.
Open Scope Z_scope.

Section Listener.
Context {S : Scalar}.
Notation core := (core S).
Notation tmsg := (tmsg S).

(** A running callback: callback (tf, 89-93) or static_callback (tf_static, 95-99); whether
    check_for_reset is behind it; the transforms still to set. *)
Record running := mkRunning { r_who : string; r_static : bool; r_checked : bool; r_todo : list tmsg }.
Record plistener := mkPlistener { pl_core : core; pl_last : time; pl_running : list running }.

(** 54-72 __init__: last_update is the clock at construction *)
Definition new_listener (c : core) (now : time) : plistener := mkPlistener c now [].

Inductive action :=
| Arrive (who : string) (is_static : bool) (transforms : list tmsg)   (** a message is delivered *)
| Check (k : nat) (now : time)                                         (** callback k runs check_for_reset *)
| SetNext (k : nat).                                                   (** callback k sets its next transform *)

Fixpoint update {A} (l : list A) (k : nat) (a : A) : list A :=
  match l, k with
  | [], _ => []
  | _ :: l', O => a :: l'
  | x :: l', Datatypes.S k' => x :: update l' k' a
  end.

(** One action; [None]: it is not enabled, or the buffer call did not return. *)
Definition act (l : plistener) (a : action) : option plistener :=
  match a with
  | Arrive who st ms => Some (mkPlistener (pl_core l) (pl_last l) (pl_running l ++ [mkRunning who st false ms]))
  | Check k now =>
      (** 80-87 check_for_reset *)
      match nth_error (pl_running l) k with
      | Some (mkRunning who st false ms) =>
          Some (mkPlistener (if now <? pl_last l then clear (pl_core l) else pl_core l) now
                  (update (pl_running l) k (mkRunning who st true ms)))
      | _ => None
      end
  | SetNext k =>
      (** 92-93 and 98-99 *)
      match nth_error (pl_running l) k with
      | Some (mkRunning who st true (m :: ms)) =>
          match py_set st (pl_core l) m who with
          | (c, PyOk _) => Some (mkPlistener c (pl_last l) (update (pl_running l) k (mkRunning who st true ms)))
          | _ => None
          end
      | _ => None
      end
  end.
Fixpoint acts (l : plistener) (h : list action) : option plistener :=
  match h with
  | [] => Some l
  | a :: h' => match act l a with Some l' => acts l' h' | None => None end
  end.
End Listener.
Arguments action : clear implicits.
Arguments plistener : clear implicits.
Arguments running : clear implicits.
