(** * tf2_ros::BufferServer and tf2_ros::BufferClient

    Model of tf2_ros/src/buffer_server.cpp and tf2_ros/src/buffer_client.cpp.  actionlib is a
    dependency that is not in /repo: a goal handle is the goal with an identity, and
    setAccepted/setSucceeded/setCanceled are the events the client gets to see.  goalCB takes the
    mutex only for its last statement, so it is two steps here and anything may happen between
    them.  checkTransforms and cancelCB hold the mutex throughout and are one step each; what
    they read from the buffer and the clock, which other threads change meanwhile, is given per
    observation. *)
From Coq Require Import ZArith Bool List String.
From Verif Require Import RosTime Scalar LinearMath Cache BufferCore.
Import ListNotations.
Open Scope string_scope.
Open Scope list_scope.
Open Scope Z_scope.

(** tf2_msgs/action/LookupTransform.action, goal; [g_id] is the goal handle's identity *)
Record goal := mkGoal {
  g_id : nat; g_target : string; g_source : string; g_source_time : time; g_timeout : duration;
  g_target_time : time; g_fixed : string; g_advanced : bool }.

(** tf2_msgs/msg/TF2Error.msg *)
Definition NO_ERROR_CODE : Z := 0.
Definition LOOKUP_ERROR_CODE : Z := 1.
Definition CONNECTIVITY_ERROR_CODE : Z := 2.
Definition EXTRAPOLATION_ERROR_CODE : Z := 3.
Definition INVALID_ARGUMENT_ERROR_CODE : Z := 4.
Definition TIMEOUT_ERROR_CODE : Z := 5.
Definition TRANSFORM_ERROR_CODE : Z := 6.

Section Action.
Context {S : Scalar}.
Notation core := (core S).
Notation tmsg := (tmsg S).

(** tf2_msgs/action/LookupTransform.action, result *)
Record result := mkResult { r_transform : tmsg; r_error : Z; r_string : etext }.

(** a default-constructed geometry_msgs/TransformStamped: all numbers 0, all strings empty *)
Definition default_tmsg : tmsg :=
  mkTmsg 0 "" "" vzero (Q4 szero szero szero szero).

(** ** BufferServer *)
(** buffer_server.cpp 193-203 canTransform(GoalHandle) *)
Definition goal_canTransform (g : goal) (c : core) : res bool :=
  if negb (g_advanced g) then ' (b, _) <- canTransform c (g_target g) (g_source g) (g_source_time g) None ;; Ok b
  else ' (b, _) <- canTransformFixed c (g_target g) (g_target_time g) (g_source g) (g_source_time g) (g_fixed g) None ;; Ok b.
(** buffer_server.cpp 205-215 lookupTransform(GoalHandle) *)
Definition goal_lookupTransform (g : goal) (c : core) : res tmsg :=
  if negb (g_advanced g) then lookupTransform c (g_target g) (g_source g) (g_source_time g)
  else lookupTransformFixed c (g_target g) (g_target_time g) (g_source g) (g_source_time g) (g_fixed g).

(** buffer_server.cpp 65-99 and 147-182: the try block that fills in the result.  The catch
    clauses name tf2's exception classes only; std::runtime_error passes through. *)
Definition fill_result (looked_up : res tmsg) : res result :=
  match looked_up with
  | Ok t => Ok (mkResult t NO_ERROR_CODE EEmpty)
  | Throw ConnectivityException what => Ok (mkResult default_tmsg CONNECTIVITY_ERROR_CODE what)
  | Throw LookupException what => Ok (mkResult default_tmsg LOOKUP_ERROR_CODE what)
  | Throw ExtrapolationException what => Ok (mkResult default_tmsg EXTRAPOLATION_ERROR_CODE what)
  | Throw InvalidArgumentException what => Ok (mkResult default_tmsg INVALID_ARGUMENT_ERROR_CODE what)
  | Throw TimeoutException what => Ok (mkResult default_tmsg TIMEOUT_ERROR_CODE what)
  | Throw TransformException what => Ok (mkResult default_tmsg TRANSFORM_ERROR_CODE what)
  | Throw RuntimeError what => Throw RuntimeError what
  | UB => UB
  end.

(** What actionlib reports to the client of goal [id]. *)
Inductive action_event :=
| Accepted (id : nat)
| Succeeded (id : nat) (r : result)
| Canceled (id : nat).

(** buffer_server.h 58-62, 87: active_goals_; [s_starting] are the goals whose goalCB has decided to
    queue them and has not taken the mutex yet. *)
Record server := mkServer { s_active : list (goal * time); s_starting : list (goal * time) }.
Definition empty_server : server := mkServer [] [].

(** What one look at a goal observes: the buffer when canTransform ran, the clock, and the
    buffer when lookupTransform ran. *)
Record sight := mkSight { v_can : core; v_now : time; v_lookup : core }.

(** buffer_server.cpp 134-186 goalCB up to the lock; [now0] is the clock when end_time is
    computed *)
Definition goalCB_begin (sv : server) (g : goal) (now0 : time) (o : sight) : server * list action_event * res unit :=
  match time_add now0 (g_timeout g) with
  | None => (sv, [Accepted (g_id g)], Throw RuntimeError ETimeRange)
  | Some end_time =>
      match goal_canTransform g (v_can o) with
      | Ok b =>
          if b || (end_time <=? v_now o) then
            match fill_result (goal_lookupTransform g (v_lookup o)) with
            | Ok r => (sv, [Accepted (g_id g); Succeeded (g_id g) r], Ok tt)
            | Throw c e => (sv, [Accepted (g_id g)], Throw c e)
            | UB => (sv, [Accepted (g_id g)], UB)
            end
          else (mkServer (s_active sv) (s_starting sv ++ [(g, end_time)]), [Accepted (g_id g)], Ok tt)
      | Throw c e => (sv, [Accepted (g_id g)], Throw c e)
      | UB => (sv, [Accepted (g_id g)], UB)
      end
  end.

Fixpoint take_goal (id : nat) (l : list (goal * time)) : option ((goal * time) * list (goal * time)) :=
  match l with
  | [] => None
  | (g, e) :: l' => if Nat.eqb (g_id g) id then Some ((g, e), l')
                    else match take_goal id l' with Some (x, r) => Some (x, (g, e) :: r) | None => None end
  end.

(** buffer_server.cpp 189-190: lock and push_back, for the goalCB call of goal [id] *)
Definition goalCB_push (sv : server) (id : nat) : server * list action_event * res unit :=
  match take_goal id (s_starting sv) with
  | Some (x, rest) => (mkServer (s_active sv ++ [x]) rest, [], Ok tt)
  | None => (sv, [], Ok tt)
  end.

(** buffer_server.cpp 114-132 cancelCB *)
Definition cancelCB (sv : server) (id : nat) : server * list action_event * res unit :=
  match take_goal id (s_active sv) with
  | Some (_, rest) => (mkServer rest (s_starting sv), [Canceled id], Ok tt)
  | None => (sv, [], Ok tt)
  end.

(** buffer_server.cpp 57-111, the loop of checkTransforms; the k-th goal of the list is looked at
    with [sights k].  An exception leaves the goal at hand and those behind it in the list. *)
Fixpoint check_loop (k : nat) (sights : nat -> sight) (goals : list (goal * time))
  : list (goal * time) * list action_event * res unit :=
  match goals with
  | [] => ([], [], Ok tt)
  | (g, end_time) :: rest =>
      match goal_canTransform g (v_can (sights k)) with
      | Ok b =>
          if b || (end_time <? v_now (sights k)) then
            match fill_result (goal_lookupTransform g (v_lookup (sights k))) with
            | Ok r => let '(rest', evs, x) := check_loop (k + 1) sights rest in (rest', Succeeded (g_id g) r :: evs, x)
            | Throw c e => (goals, [], Throw c e)
            | UB => (goals, [], UB)
            end
          else let '(rest', evs, x) := check_loop (k + 1) sights rest in ((g, end_time) :: rest', evs, x)
      | Throw c e => (goals, [], Throw c e)
      | UB => (goals, [], UB)
      end
  end.
(** buffer_server.cpp 53-112 checkTransforms *)
Definition checkTransforms (sv : server) (sights : nat -> sight) : server * list action_event * res unit :=
  let '(active, evs, x) := check_loop 0 sights (s_active sv) in (mkServer active (s_starting sv), evs, x).

(** ** BufferClient *)
(** buffer_client.cpp 48-60 and 62-77: the goal message; timeout and advanced are given, the
    fields not mentioned are default-constructed *)
Definition simple_goal (id : nat) (target_frame source_frame : string) (t : time) (timeout : duration) : goal :=
  mkGoal id target_frame source_frame t timeout 0 "" false.
Definition advanced_goal (id : nat) (target_frame : string) (target_time : time) (source_frame : string) (source_time : time)
    (fixed_frame : string) (timeout : duration) : goal :=
  mkGoal id target_frame source_frame source_time timeout target_time fixed_frame true.

(** What the action client comes back with: waitForResult false; a terminal state other than
    SUCCEEDED; SUCCEEDED with the result. *)
Inductive reply := NotInTime | OtherState | Success (r : result).

(** buffer_client.cpp 98-122 processResult *)
Definition processResult (r : result) : res tmsg :=
  if negb (r_error r =? NO_ERROR_CODE) then
    if r_error r =? LOOKUP_ERROR_CODE then Throw LookupException (r_string r)
    else if r_error r =? CONNECTIVITY_ERROR_CODE then Throw ConnectivityException (r_string r)
    else if r_error r =? EXTRAPOLATION_ERROR_CODE then Throw ExtrapolationException (r_string r)
    else if r_error r =? INVALID_ARGUMENT_ERROR_CODE then Throw InvalidArgumentException (r_string r)
    else if r_error r =? TIMEOUT_ERROR_CODE then Throw TimeoutException (r_string r)
    else Throw TransformException (r_string r)
  else Ok (r_transform r).

(** buffer_client.cpp 87, 91 *)
Definition not_in_time : etext := EText "The LookupTransform goal sent to the BufferServer did not come back in the specified time. Something is likely wrong with the server.".
Definition not_succeeded : etext := EText "The LookupTransform goal sent to the BufferServer did not come back with SUCCEEDED status. Something is likely wrong with the server.".

(** rostime: Duration + Duration throws when the sum is not a Duration *)
Definition dur_add (a b : duration) : option duration := if valid_durb (a + b) then Some (a + b) else None.

(** buffer_client.cpp 79-96 processGoal; [answer] is what the action client comes back with for
    the goal it sends *)
Definition processGoal (g : goal) (padding : duration) (answer : goal -> reply) : res tmsg :=
  _ <- lift_time (dur_add (g_timeout g) padding) ;;
  match answer g with
  | NotInTime => Throw TimeoutException not_in_time
  | OtherState => Throw TimeoutException not_succeeded
  | Success r => processResult r
  end.
(** buffer_client.cpp 48-60 *)
Definition client_lookupTransform (id : nat) (padding : duration) (answer : goal -> reply)
    (target_frame source_frame : string) (t : time) (timeout : duration) : res tmsg :=
  processGoal (simple_goal id target_frame source_frame t timeout) padding answer.
(** buffer_client.cpp 62-77 *)
Definition client_lookupTransformFixed (id : nat) (padding : duration) (answer : goal -> reply)
    (target_frame : string) (target_time : time) (source_frame : string) (source_time : time) (fixed_frame : string) (timeout : duration) : res tmsg :=
  processGoal (advanced_goal id target_frame target_time source_frame source_time fixed_frame timeout) padding answer.

(** buffer_client.cpp 127-139 and 146-158: the try block of canTransform;
    tf2::TransformException and its subclasses are caught *)
Definition caught (looked_up : res tmsg) (errstr : errp) : res (bool * errp) :=
  match looked_up with
  | Ok _ => Ok (true, errstr)
  | Throw RuntimeError e => Throw RuntimeError e
  | Throw _ e => Ok (false, match errstr with Some _ => Some e | None => None end)
  | UB => UB
  end.
(** buffer_client.cpp 124-140 *)
Definition client_canTransform id padding answer target_frame source_frame t timeout errstr : res (bool * errp) :=
  caught (client_lookupTransform id padding answer target_frame source_frame t timeout) errstr.
(** buffer_client.cpp 142-159 *)
Definition client_canTransformFixed id padding answer target_frame target_time source_frame source_time fixed_frame timeout errstr : res (bool * errp) :=
  caught (client_lookupTransformFixed id padding answer target_frame target_time source_frame source_time fixed_frame timeout) errstr.

End Action.
Arguments result S : clear implicits.
Arguments action_event S : clear implicits.
Arguments sight S : clear implicits.
Arguments reply S : clear implicits.
