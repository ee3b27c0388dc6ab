(** * Times on their way from Python to C++ and back

    tf2_py/src/tf2_py.cpp 151-175 converts a rospy time by calling its to_sec() and passing the
    double to ros::Time::fromSec.  Both belong to dependencies that are not in /repo (genpy's
    rostime.py and rostime's impl/time.h); this file is the assumption made about them:
    - to_sec: [float(self.secs) + float(self.nsecs) / 1e9];
    - fromSec: [sec64 = (int64_t)floor(t)], std::runtime_error unless it is a uint32, then
      [nsec = (uint32_t)boost::math::round((t - sec) * 1e9)] (half away from zero), then
      [sec += nsec / 1000000000, nsec %= 1000000000]. *)
From Coq Require Import ZArith Bool Floats.SpecFloat.
From Verif Require Import RosTime Scalar Instances.
Open Scope Z_scope.

(** genpy rostime.py TVal.to_sec *)
Definition to_sec (t : time) : f64 :=
  SFadd prec64 emax64 (f64_of_Z (t / 10 ^ 9)) (SFdiv prec64 emax64 (f64_of_Z (t mod 10 ^ 9)) (f64_of_Z (10 ^ 9))).

(** the integer part of a double; [None] for NaN and infinities *)
Definition f64_floor (x : f64) : option Z :=
  match x with
  | S754_zero _ => Some 0
  | S754_finite s m e =>
      let n := if s then Z.neg m else Z.pos m in
      Some (if 0 <=? e then n * 2 ^ e else n / 2 ^ (- e))
  | _ => None
  end.
(** the nearest integer, halves away from zero *)
Definition f64_round (x : f64) : option Z :=
  match x with
  | S754_zero _ => Some 0
  | S754_finite s m e =>
      let n := if 0 <=? e then Z.pos m * 2 ^ e else (2 * Z.pos m + 2 ^ (- e)) / (2 * 2 ^ (- e)) in
      Some (if s then - n else n)
  | _ => None
  end.

(** rostime impl/time.h TimeBase::fromSec.  Converting NaN, an infinity or 2^63 and more to an
    integer type is undefined. *)
Definition from_sec (d : f64) : res time :=
  match f64_floor d with
  | None => UB
  | Some sec64 =>
      if (sec64 <? - 2 ^ 63) || (2 ^ 63 <=? sec64) then UB
      else if (sec64 <? 0) || (2 ^ 32 <=? sec64) then Throw RuntimeError ETimeRange
      else match f64_round (SFmul prec64 emax64 (SFsub prec64 emax64 d (f64_of_Z sec64)) (f64_of_Z (10 ^ 9))) with
           | None => UB
           | Some nsec =>
               if (nsec <? 0) || (2 ^ 32 <=? nsec) then UB
               else Ok ((sec64 + nsec / 10 ^ 9) mod 2 ^ 32 * 10 ^ 9 + nsec mod 10 ^ 9)
           end
  end.

(** tf2_py.cpp 151-162 rostime_converter *)
Definition py_time (t : time) : res time := from_sec (to_sec t).
