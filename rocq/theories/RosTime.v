(** * ros::Time / ros::Duration

    rostime (roscpp_core) is a dependency of geometry2 and is NOT in /repo.  This file is
    the assumption the rest of the model makes about it, restricted to the operations
    tf2/src/cache.cpp, tf2/src/buffer_core.cpp and tf2_ros use:
    - [ros::Time]: uint32 sec, uint32 nsec, normalised, i.e. 0 <= ns < 2^32 * 10^9;
    - [ros::Duration]: int32 sec, int32 nsec normalised to [0,10^9),
      i.e. -2^31*10^9 <= ns < 2^31*10^9;
    - Time + Duration throws std::runtime_error ("Time is out of dual 32-bit range") when
      the sum is not a Time;
    - Time - Time throws std::runtime_error ("Duration is out of dual 32-bit range") when
      the difference is not a Duration;
    - comparison is comparison of the nanosecond counts; isZero() and [== ros::Time()] are
      comparison with 0; ros::TIME_MAX is (2^32-1, 999999999). *)
From Coq Require Import ZArith Bool List String.
Open Scope Z_scope.

(** Nanosecond counts. *)
Definition time := Z.
Definition duration := Z.

Definition time_bound : Z := 2^32 * 10^9.
Definition dur_bound : Z := 2^31 * 10^9.

(** Values a C++ [ros::Time] / [ros::Duration] object can hold. *)
Definition valid_time (t : time) : Prop := 0 <= t < time_bound.
Definition valid_dur (d : duration) : Prop := - dur_bound <= d < dur_bound.
Definition valid_timeb (t : time) : bool := (0 <=? t) && (t <? time_bound).
Definition valid_durb (d : duration) : bool := (- dur_bound <=? d) && (d <? dur_bound).

Definition TIME_MAX : time := time_bound - 1.

(** [None] = std::runtime_error thrown. *)
Definition time_add (t : time) (d : duration) : option time :=
  if valid_timeb (t + d) then Some (t + d) else None.
Definition time_sub (a b : time) : option duration :=
  if valid_durb (a - b) then Some (a - b) else None.

(** Outcomes of C++ calls: a value, or a thrown exception.
    tf2/include/tf2/exceptions.h lines 47-115 (exception classes);
    std::runtime_error is what rostime throws. *)
Inductive exn_class :=
| LookupException | ConnectivityException | ExtrapolationException
| InvalidArgumentException | TimeoutException | TransformException | RuntimeError.

(** Error texts as structured values: which text, with which times and names.
    Formatting (printf of doubles, truncation to the snprintf buffers) is not modelled. *)
Inductive etext :=
| EEmpty                                   (* "" *)
| EExtrapOnly (req only : time)            (* cache.cpp 65-73 *)
| EExtrapFuture (req latest : time)        (* cache.cpp 75-88 *)
| EExtrapPast (req earliest : time)        (* cache.cpp 90-102 *)
| EOldData                                 (* cache.cpp 265 *)
| ERepeatedData                            (* cache.cpp 282 *)
| EWhenLookingUp (e : etext) (source target : string) (* buffer_core.cpp 416, 463 *)
| ELoop (frames : string)                  (* buffer_core.cpp 381, 446, ... *)
| EConnectivity (target source : string)   (* buffer_core.cpp 941-950 *)
| EEmptyFrameId (arg : string)             (* buffer_core.cpp 146-149 *)
| ESlashFrameId (arg frame : string)       (* buffer_core.cpp 152-157 *)
| ENoSuchFrame (arg frame : string)        (* buffer_core.cpp 159-164 *)
| EReverse (id : nat)                      (* buffer_core.cpp 933 *)
| EAppend (a b : etext)                    (* std::string += *)
| EReturnedAfter (elapsed timeout : duration) (* tf2_ros/src/buffer.cpp 110-112 *)
| EText (s : string)                       (* a literal or user-supplied text *)
| ETimeRange.                              (* rostime's std::runtime_error text *)

(** [UB] is C++ undefined behaviour (dereferencing end(), reading an uninitialised or
    destroyed object).  It is a separate outcome, never a normal-looking value. *)
Inductive res (A : Type) :=
| Ok (a : A)
| Throw (c : exn_class) (e : etext)
| UB.
Arguments Ok {A} a.
Arguments Throw {A} c e.
Arguments UB {A}.

Definition bind {A B} (r : res A) (f : A -> res B) : res B :=
  match r with Ok a => f a | Throw c e => Throw c e | UB => UB end.
Notation "x <- r ;; k" := (bind r (fun x => k)) (at level 61, r at next level, right associativity).
Notation "' p <- r ;; k" := (bind r (fun p => k))
  (at level 61, p strict pattern, r at next level, right associativity).

(** A rostime operation inside a function returning [res]. *)
Definition lift_time {A} (o : option A) : res A :=
  match o with Some a => Ok a | None => Throw RuntimeError ETimeRange end.
