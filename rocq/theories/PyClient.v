(** * tf2_ros.BufferClient in Python

    Model of tf2_ros/src/tf2_ros/buffer_client.py.  As in TfAction.v the action client is a
    function from the goal sent to the [reply] it comes back with.  The messages are those of the
    C++ client, so times travel as integers here, not as floats.  Assumed about genpy: Duration +
    Duration is exact (Python integers), and a message object is always true, so the tests [if not
    result] and [if not result.error] (178-181) never fire for the result of a goal that
    succeeded. *)
From Coq Require Import ZArith Bool List String.
From Verif Require Import RosTime Scalar LinearMath Cache BufferCore TfAction PyTime PyCore.
Import ListNotations.
Open Scope string_scope.
Open Scope Z_scope.

Section Client.
Context {S : Scalar}.
Notation tmsg := (tmsg S).

(** buffer_client.py 177-196 __process_result *)
Definition py_process_result (r : result S) : py tmsg :=
  if negb (r_error r =? NO_ERROR_CODE) then
    if r_error r =? LOOKUP_ERROR_CODE then PyRaise LookupException (r_string r)
    else if r_error r =? CONNECTIVITY_ERROR_CODE then PyRaise ConnectivityException (r_string r)
    else if r_error r =? EXTRAPOLATION_ERROR_CODE then PyRaise ExtrapolationException (r_string r)
    else if r_error r =? INVALID_ARGUMENT_ERROR_CODE then PyRaise InvalidArgumentException (r_string r)
    else if r_error r =? TIMEOUT_ERROR_CODE then PyRaise TimeoutException (r_string r)
    else PyRaise TransformException (r_string r)
  else PyOk (r_transform r).

(** 170, 173 *)
Definition py_not_in_time : etext := EText "The LookupTransform goal sent to the BufferServer did not come back in the specified time. Something is likely wrong with the server".
Definition py_not_succeeded : etext := EText "The LookupTransform goal sent to the BufferServer did not come back with SUCCEEDED status. Something is likely wrong with the server.".
(** 165-175 __process_goal; how long it waits (timeout + timeout_padding) is part of [answer] *)
Definition py_process_goal (g : goal) (answer : goal -> reply S) : py tmsg :=
  match answer g with
  | NotInTime => PyRaise TimeoutException py_not_in_time
  | OtherState => PyRaise TimeoutException py_not_succeeded
  | Success r => py_process_result r
  end.
(** 77-95 lookup_transform: LookupTransformGoal() has zero times and empty strings *)
Definition py_client_lookup (id : nat) (answer : goal -> reply S) (target_frame source_frame : string) (t : time) (timeout : duration) : py tmsg :=
  py_process_goal (mkGoal id target_frame source_frame t timeout 0 "" false) answer.
(** 98-120 lookup_transform_full *)
Definition py_client_lookup_full (id : nat) (answer : goal -> reply S) (target_frame : string) (target_time : time) (source_frame : string)
    (source_time : time) (fixed_frame : string) (timeout : duration) : py tmsg :=
  py_process_goal (mkGoal id target_frame source_frame source_time timeout target_time fixed_frame true) answer.

(** the try blocks of can_transform (135-139) and can_transform_full (159-163): all of tf2's
    exception classes derive from tf2.TransformException (tf2_py.cpp 573-578) *)
Definition py_caught (r : py tmsg) : py bool :=
  match r with
  | PyOk _ => PyOk true
  | PyRaise _ _ => PyOk false
  | PyTypeError => PyTypeError | PyAbort => PyAbort | PyCrash => PyCrash
  end.
(** 123-139 *)
Definition py_client_can id answer target_frame source_frame t timeout : py bool :=
  py_caught (py_client_lookup id answer target_frame source_frame t timeout).
(** 143-163 *)
Definition py_client_can_full id answer target_frame target_time source_frame source_time fixed_frame timeout : py bool :=
  py_caught (py_client_lookup_full id answer target_frame target_time source_frame source_time fixed_frame timeout).
End Client.
