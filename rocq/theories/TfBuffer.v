(** * tf2_ros::Buffer: canTransform and lookupTransform with a timeout

    Model of tf2_ros/src/buffer.cpp 54-69 and 105-198.  The calls run against an environment
    that other threads, the ROS clock and the process state change at will: a [world] is the
    infinite sequence of instants at which the call makes its observations, one observation per
    instant (an arbitrary amount of anything may happen between two instants).  Sleeping is
    letting the world move on; how long a sleep really takes is up to the world. *)
From Coq Require Import ZArith Bool List String.
From Verif Require Import RosTime Scalar LinearMath Cache BufferCore.
Import ListNotations.
Open Scope Z_scope.

Section Buffer.
Context {S : Scalar}.
Notation core := (core S).

(** One instant: the clock as now_fallback_to_wall (buffer.cpp 75-86) reads it, the buffer's
    contents, and [ros::ok() || !ros::isInitialized()]. *)
Record instant := mkInstant { w_now : time; w_core : core; w_ok : bool }.
Definition world := nat -> instant.

(** The core canTransform being polled, its last argument being the error string. *)
Definition query := core -> errp -> res (bool * errp).

(** ros::Duration(3.0) *)
Definition three_seconds : duration := 3 * 10 ^ 9.

(** buffer.cpp 132-138 and 162-168, the while loop, entered at instant [i]: [None] = still
    polling after [fuel] sleeps; otherwise the next instant and the number of sleeps, or
    rostime's exception.  start_time + timeout is evaluated in every iteration. *)
Fixpoint poll (fuel : nat) (q : query) (w : world) (i : nat) (start : time) (timeout : duration)
  : option (res (nat * nat)) :=
  match time_add start timeout with
  | None => Some (Throw RuntimeError ETimeRange)
  | Some deadline =>
      if negb (w_now (w i) <? deadline) then Some (Ok (i + 1, 0))%nat
      else match q (w_core (w (i + 1)%nat)) None with
      | Throw c e => Some (Throw c e)
      | UB => Some UB
      | Ok (true, _) => Some (Ok (i + 2, 0))%nat
      | Ok (false, _) =>
          match time_add (w_now (w (i + 2)%nat)) three_seconds with
          | None => Some (Throw RuntimeError ETimeRange)
          | Some later =>
              if negb (start <=? later) then Some (Ok (i + 3, 0))%nat
              else if negb (w_ok (w (i + 3)%nat)) then Some (Ok (i + 4, 0))%nat
              else match fuel with
                   | O => None
                   | Datatypes.S fuel' =>
                       match poll fuel' q w (i + 4)%nat start timeout with
                       | Some (Ok (j, n)) => Some (Ok (j, n + 1)%nat)
                       | r => r
                       end
                   end
          end
      end
  end.

(** buffer.h 139 tf2_ros::threading_error *)
Definition threading_error : etext := EText "Do not call canTransform or lookupTransform with a timeout unless you are using another thread for populating data. Without a dedicated thread it will always timeout.  If you have a separate thread servicing tf messages, call setUsingDedicatedThread(true) on your Buffer instance.".

(** What a waiting call came back with: the answer, the caller's error string, the instant after
    its last observation and how often it slept. *)
Record outcome := mkOutcome { o_value : bool; o_err : errp; o_next : nat; o_sleeps : nat }.

(** buffer.cpp 118-144 and 147-174 canTransform with a timeout, for the query [q] the overload
    polls; buffer.cpp 185-198 checkAndErrorDedicatedThreadPresent; 105-115
    conditionally_append_timeout_info.  [dedicated] is isUsingDedicatedThread(). *)
Definition wait_for (fuel : nat) (dedicated : bool) (q : query) (w : world) (i : nat)
    (timeout : duration) (errstr : errp) : option (res outcome) :=
  let cleared := match errstr with Some _ => Some EEmpty | None => None end in
  if negb dedicated then
    Some (Ok (mkOutcome false (match errstr with Some _ => Some threading_error | None => None end) i 0%nat))
  else
    let start := w_now (w i) in
    match poll fuel q w (i + 1)%nat start timeout with
    | None => None
    | Some (Throw c e) => Some (Throw c e)
    | Some UB => Some UB
    | Some (Ok (j, n)) =>
        Some (' (retval, err) <- q (w_core (w j)) cleared ;;
              match err with
              | None => Ok (mkOutcome retval None (j + 1)%nat n)
              | Some e => elapsed <- lift_time (time_sub (w_now (w (j + 1)%nat)) start) ;;
                          Ok (mkOutcome retval (Some (EAppend e (EReturnedAfter elapsed timeout))) (j + 2)%nat n)
              end)
    end.

(** buffer.cpp 118-144 *)
Definition canTransform_wait fuel dedicated w i target_frame source_frame t timeout errstr : option (res outcome) :=
  wait_for fuel dedicated (fun c e => canTransform c target_frame source_frame t e) w i timeout errstr.
(** buffer.cpp 147-174 *)
Definition canTransformFixed_wait fuel dedicated w i target_frame target_time source_frame source_time fixed_frame timeout errstr
  : option (res outcome) :=
  wait_for fuel dedicated (fun c e => canTransformFixed c target_frame target_time source_frame source_time fixed_frame e) w i timeout errstr.

(** buffer.cpp 54-69: the wait's answer is ignored, the lookup is made at the next instant *)
Definition then_lookup {A} (r : option (res outcome)) (w : world) (lookup : core -> res A) : option (res A) :=
  match r with
  | None => None
  | Some (Throw c e) => Some (Throw c e)
  | Some UB => Some UB
  | Some (Ok o) => Some (lookup (w_core (w (o_next o))))
  end.
(** buffer.cpp 54-60 *)
Definition lookupTransform_wait fuel dedicated w i target_frame source_frame t timeout :=
  then_lookup (canTransform_wait fuel dedicated w i target_frame source_frame t timeout None) w
    (fun c => lookupTransform c target_frame source_frame t).
(** buffer.cpp 63-69 *)
Definition lookupTransformFixed_wait fuel dedicated w i target_frame target_time source_frame source_time fixed_frame timeout :=
  then_lookup (canTransformFixed_wait fuel dedicated w i target_frame target_time source_frame source_time fixed_frame timeout None) w
    (fun c => lookupTransformFixed c target_frame target_time source_frame source_time fixed_frame).

End Buffer.
Arguments instant S : clear implicits.
Arguments world S : clear implicits.
Arguments query S : clear implicits.
