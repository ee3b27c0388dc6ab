(** * tf2_ros.Buffer in Python: queries with a timeout

    Model of tf2_ros/src/tf2_ros/buffer.py 79-176.  As in TfBuffer.v the calls run against a
    [pworld], the infinite sequence of instants at which they make their observations; anything
    may happen between two instants.  rospy is a dependency that is not in /repo; what is assumed
    about it: Time.now() returns a nonnegative time; Time + Duration is exact and raises TypeError
    if the sum is negative (Python integers do not overflow); sleep() returns, or raises
    ROSTimeMovedBackwardsException (simulated clock) or ROSInterruptException (shutdown).
    Not modelled: return_debug_tuple (the pair instead of its first component). *)
From Coq Require Import ZArith Bool List String.
From Verif Require Import RosTime Scalar LinearMath Cache BufferCore PyTime PyCore.
Import ListNotations.
Open Scope Z_scope.

(** What rospy.sleep can raise *)
Inductive sleep_exn := TimeMovedBackwards | Interrupted.

Section Buffer.
Context {S : Scalar}.
Notation core := (core S).

(** One instant: the clock, the buffer's contents, and how a sleep entered now ends. *)
Record pinstant := mkPinstant { p_now : time; p_core : core; p_sleep : option sleep_exn }.
Definition pworld := nat -> pinstant.

(** The polled can_transform_core or can_transform_full_core *)
Definition pquery := core -> py (bool * errp).

(** How a waiting call or its loop ends: with a value, the next instant and the number of sleeps;
    with an exception from sleep; or as [py] says. *)
Inductive waited (A : Type) :=
| WDone (a : A) (next sleeps : nat)
| WSleep (x : sleep_exn)
| WPy (r : py unit).
Arguments WDone {A} a next sleeps.
Arguments WSleep {A} x.
Arguments WPy {A} r.

(** an outcome of the core that is not a value *)
Definition failed {A} (r : py A) : py unit := pbind r (fun _ => PyOk tt).

(** rospy.Duration(3.0) *)
Definition three_secs : duration := 3 * 10 ^ 9.

(** buffer.py 132-135 and 168-171, the while loop, entered at instant [i]; [None] = still
    polling after [fuel] sleeps *)
Fixpoint ppoll (fuel : nat) (q : pquery) (w : pworld) (i : nat) (start : time) (timeout : duration) : option (waited unit) :=
  if start + timeout <? 0 then Some (WPy PyTypeError)
  else if negb (p_now (w i) <? start + timeout) then Some (WDone tt (i + 1) 0)%nat
  else match q (p_core (w (i + 1)%nat)) with
  | PyOk (true, _) => Some (WDone tt (i + 2) 0)%nat
  | PyOk (false, _) =>
      if negb (start <=? p_now (w (i + 2)%nat) + three_secs) then Some (WDone tt (i + 3) 0)%nat
      else match p_sleep (w (i + 3)%nat) with
      | Some x => Some (WSleep x)
      | None =>
          match fuel with
          | O => None
          | Datatypes.S fuel' =>
              match ppoll fuel' q w (i + 4)%nat start timeout with
              | Some (WDone _ j n) => Some (WDone tt j (n + 1)%nat)
              | r => r
              end
          end
      end
  | r => Some (WPy (failed r))
  end.

(** 129-139 can_transform and 165-175 can_transform_full, for the query polled; start_time is read
    at instant [i] *)
Definition pwait_for (fuel : nat) (q : pquery) (w : pworld) (i : nat) (timeout : duration) : option (waited bool) :=
  match (if timeout =? 0 then Some (WDone tt i 0%nat) else ppoll fuel q w (i + 1)%nat (p_now (w i)) timeout) with
  | None => None
  | Some (WSleep x) => Some (WSleep x)
  | Some (WPy r) => Some (WPy r)
  | Some (WDone _ j n) =>
      Some (match q (p_core (w j)) with
            | PyOk (b, _) => WDone b (j + 1)%nat n
            | r => WPy (failed r)
            end)
  end.
(** 117-139 *)
Definition py_can_wait fuel w i target_frame source_frame t timeout : option (waited bool) :=
  pwait_for fuel (fun c => py_can c target_frame source_frame t) w i timeout.
(** 141-176 *)
Definition py_can_full_wait fuel w i target_frame target_time source_frame source_time fixed_frame timeout : option (waited bool) :=
  pwait_for fuel (fun c => py_can_full c target_frame target_time source_frame source_time fixed_frame) w i timeout.

(** 79-92, 94-110: what can_transform answers is dropped, the lookup follows at the next instant *)
Definition pthen_lookup {A} (r : option (waited bool)) (w : pworld) (lookup : core -> py A) : option (waited A) :=
  match r with
  | None => None
  | Some (WSleep x) => Some (WSleep x)
  | Some (WPy p) => Some (WPy p)
  | Some (WDone _ j n) => Some (match lookup (p_core (w j)) with PyOk a => WDone a (j + 1)%nat n | p => WPy (failed p) end)
  end.
(** 79-92 *)
Definition py_lookup_wait fuel w i target_frame source_frame t timeout : option (waited (tmsg S)) :=
  pthen_lookup (py_can_wait fuel w i target_frame source_frame t timeout) w (fun c => py_lookup c target_frame source_frame t).
(** 94-110 *)
Definition py_lookup_full_wait fuel w i target_frame target_time source_frame source_time fixed_frame timeout : option (waited (tmsg S)) :=
  pthen_lookup (py_can_full_wait fuel w i target_frame target_time source_frame source_time fixed_frame timeout) w
    (fun c => py_lookup_full c target_frame target_time source_frame source_time fixed_frame).
End Buffer.
Arguments WDone {A} a next sleeps.
Arguments WSleep {A} x.
Arguments WPy {A} r.
Arguments pinstant S : clear implicits.
Arguments pworld S : clear implicits.
Arguments pquery S : clear implicits.
