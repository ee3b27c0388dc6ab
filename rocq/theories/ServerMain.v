(** * The buffer_server program: tf2_ros/src/buffer_server_main.cpp *)
From Coq Require Import ZArith Bool List String Floats.SpecFloat.
From Verif Require Import RosTime Scalar Instances LinearMath Cache BufferCore PyTime.
Open Scope Z_scope.

(** ros::Duration(double) is DurationBase::fromSec in rostime's impl/duration.h (a dependency, not in
    /repo; this definition is the assumption made about it): [sec64 = (int64_t)floor(d)], std::runtime_error
    unless it is an int32, then [nsec = (int32_t)boost::math::round((d - sec) * 1e9)], then
    [sec += nsec / 1000000000, nsec %= 1000000000].  Converting NaN, an infinity or 2^63 and more to an integer
    type is undefined, and so is overflow of the signed sec. *)
Definition dur_from_sec (d : f64) : res duration :=
  match f64_floor d with
  | None => UB
  | Some sec64 =>
      if (sec64 <? - 2 ^ 63) || (2 ^ 63 <=? sec64) then UB
      else if (sec64 <? - 2 ^ 31) || (2 ^ 31 <=? sec64) then Throw RuntimeError ETimeRange
      else match f64_round (SFmul prec64 emax64 (SFsub prec64 emax64 d (f64_of_Z sec64)) (f64_of_Z (10 ^ 9))) with
           | None => UB
           | Some nsec =>
               if (nsec <? - 2 ^ 31) || (2 ^ 31 <=? nsec) then UB
               else let rollover := Z.quot nsec (10 ^ 9) in
                    if 2 ^ 31 <=? sec64 + rollover then UB
                    else Ok ((sec64 + rollover) * 10 ^ 9 + Z.rem nsec (10 ^ 9))
           end
  end.

(** What the parameter server holds for the three parameters the program reads (buffer_server_main.cpp 46-54). *)
Record params := mkParams {
  p_buffer_size : option f64;
  p_frame_service : option bool;
  p_node_namespace : option bool
}.
(** ros::NodeHandle::param: the value, or the default *)
Definition param {A} (o : option A) (default : A) : A := match o with Some a => a | None => default end.

(** What main constructs: a buffer with a cache time, perhaps the tf2_frames service of
    tf2_ros/src/buffer.cpp 42-51, a TransformListener on the buffer, and a BufferServer under an action name. *)
Record program := mkProgram {
  s_cache_time : duration;
  s_frames : bool;
  s_action : string
}.

(** buffer_server_main.cpp 41-71 up to ros::spin().  [node_name] is ros::this_node::getName(),
    [exists_already] is ros::service::exists("~tf2_frames").  An exception leaves main. *)
Definition server_main (ps : params) (node_name : string) (exists_already : bool) : res program :=
  let buffer_size := param (p_buffer_size ps) (f64_of_Z 120) in
  let publish_frame_service := param (p_frame_service ps) false in
  let use_node_namespace := param (p_node_namespace ps) false in
  let name := if use_node_namespace then node_name else "tf2_buffer_server"%string in
  cache_time <- dur_from_sec buffer_size ;;
  Ok (mkProgram cache_time (publish_frame_service && negb exists_already) name).

(** The buffer of the program as it starts (buffer_server_main.cpp 65, buffer.cpp 42-43) *)
Definition server_core {S : Scalar} (p : program) : core S := init_core (s_cache_time p).
