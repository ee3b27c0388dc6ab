(** * tf2_tools/scripts/echo.py

    Parameters of the model: rospy.Time(float) and rospy.Duration(float).  Assumed about rospy (not
    in /repo): Time + Duration is exact and raises TypeError if the sum is negative; a Timer calls
    its callback from one thread, which ends when the callback raises.  Not modelled: argument
    parsing, formatting of numbers, math.degrees. *)
From Coq Require Import ZArith Bool List String Floats.SpecFloat.
From Verif Require Import RosTime Scalar LinearMath Cache BufferCore Instances PyTime PyCore PyBuffer.
Import ListNotations.
Open Scope Z_scope.

(** ** Angles: echo.py 53-133 *)
Section Angles.
Context {S : Scalar}.
(** 54: numpy.finfo(float).eps * 4.0 = 2^-50 *)
Definition EPS : S := slit 1 (2 ^ 50).
(** M[i, j] *)
Definition row (m : mat3 S) (i : nat) : vec3 S := match i with 0%nat => m0 m | 1%nat => m1 m | _ => m2 m end.
Definition entry (m : mat3 S) (i j : nat) : S := match j with 0%nat => vx (row m i) | 1%nat => vy (row m i) | _ => vz (row m i) end.
(** 57 *)
Definition next_axis (i : nat) : nat := match i with 0%nat => 1%nat | 1%nat => 2%nat | 2%nat => 0%nat | _ => 1%nat end.

(** 71-108 _euler_from_matrix, for the tuple (firstaxis, parity, repetition, frame) *)
Definition euler_from_matrix (m : mat3 S) (axes : nat * nat * bool * bool) : S * S * S :=
  let '(i, parity, repetition, frame) := axes in
  let j := next_axis (i + parity) in
  let k := next_axis (i - parity + 1) in
  let M := entry m in
  let '(ax, ay, az) :=
    (if repetition then
       let sy := ssqrt (M i j * M i j + M i k * M i k)%S in
       if sgtb sy EPS then (satan2 (M i j) (M i k), satan2 sy (M i i), satan2 (M j i) (- M k i)%S)
       else (satan2 (- M j k)%S (M j j), satan2 sy (M i i), szero)
     else
       let cy := ssqrt (M i i * M i i + M j i * M j i)%S in
       if sgtb cy EPS then (satan2 (M k j) (M k k), satan2 (- M k i)%S cy, satan2 (M j i) (M i i))
       else (satan2 (- M j k)%S (M j j), satan2 (- M k i)%S cy, szero)) in
  let '(ax, ay, az) := (if Nat.eqb parity 0 then (ax, ay, az) else (- ax, - ay, - az)%S) in
  if frame then (az, ay, ax) else (ax, ay, az).
(** 62: 'sxyz', the default and the only one used *)
Definition sxyz : nat * nat * bool * bool := (0%nat, 0%nat, false, false).

(** 110-122 _quaternion_matrix, its upper left 3x3 part; the argument is (w, x, y, z) *)
Definition quaternion_matrix (w x y z : S) : mat3 S :=
  let n := (w * w + x * x + y * y + z * z)%S in
  if (n <? EPS)%S then midentity
  else
    let k := ssqrt (slit 2 1 / n)%S in
    let w := (w * k)%S in let x := (x * k)%S in let y := (y * k)%S in let z := (z * k)%S in
    M3 (V3 (sone - y * y - z * z)%S (x * y - z * w)%S (x * z + y * w)%S)
       (V3 (x * y + z * w)%S (sone - x * x - z * z)%S (y * z - x * w)%S)
       (V3 (x * z - y * w)%S (y * z + x * w)%S (sone - x * x - y * y)%S).
(** 124-134 _euler_from_quaternion_msg: (roll, pitch, yaw) *)
Definition echo_rpy (q : quat S) : S * S * S := euler_from_matrix (quaternion_matrix (qw q) (qx q) (qy q) (qz q)) sxyz.
End Angles.

(** ** class Echo: echo.py 136-198 *)
(** the command line; numbers are floats, [None] where the option is not given *)
Record echo_args := mkEchoArgs {
  e_source : string; e_target : string; e_cache : option f64; e_time : option f64; e_offset : option f64; e_limit : option Z }.
(** "if x:" for a number or None *)
Definition truthy (x : option f64) : bool := match x with Some v => negb (SFeqb v (S754_zero false)) | None => false end.

Section Echo.
Context {S : Scalar}.
(** 138: Buffer(cache_time=...), buffer.py 58-61; the option is a float, and a float has no to_sec
    (tf2_py.cpp 164-175: TypeError) *)
Definition echo_init (args : echo_args) : py (core S) :=
  match e_cache args with None => PyOk (py_init None) | Some _ => PyTypeError end.

(** What one call of the timer does *)
Inductive tick :=
| Prints (cur_time : time) (ts : tmsg S) (euler : S * S * S)
| Logs (c : exn_class) (e : etext)
| Finishes                          (* rospy.signal_shutdown *)
| Raises (r : py unit).             (* the exception leaves the callback *)

(** 154-164 *)
Definition lookup_time (Time_of Duration_of : f64 -> option Z) (args : echo_args) (cur_time : time) : py time :=
  if truthy (e_time args) then
    match e_time args with
    | Some x => match Time_of x with Some t => PyOk t | None => PyTypeError end
    | None => PyOk 0
    end
  else if truthy (e_offset args) then
    match e_offset args with
    | Some x => match Duration_of x with
                | Some d => if cur_time + d <? 0 then PyTypeError else PyOk (cur_time + d)
                | None => PyTypeError
                end
    | None => PyOk 0
    end
  else PyOk 0.

(** 144-198 lookup, called at instant [i] of the world, [count] being the value after the increment *)
Definition lookup_tick (Time_of Duration_of : f64 -> option Z) (args : echo_args) (w : pworld S) (i : nat) (count : Z) : tick :=
  if (match e_limit args with Some l => if l =? 0 then false else l <? count | None => false end) then Finishes
  else
    let cur_time := p_now (w i) in
    match lookup_time Time_of Duration_of args cur_time with
    | PyOk t =>
        match py_lookup_wait 0 w (i + 1)%nat (e_source args) (e_target args) t 0 with
        | Some (WDone ts _ _) => Prints cur_time ts (echo_rpy (tm_rot ts))
        | Some (WPy (PyRaise LookupException e)) => Logs LookupException e
        | Some (WPy (PyRaise ExtrapolationException e)) => Logs ExtrapolationException e
        | Some (WPy r) => Raises r
        | _ => Raises PyTypeError       (* a timeout of 0 never sleeps *)
        end
    | r => Raises (failed r)
    end.

(** The timer: the callback runs at the given instants, until it raises or shuts rospy down. *)
Fixpoint echo_run (Time_of Duration_of : f64 -> option Z) (args : echo_args) (w : pworld S) (starts : list nat) (count : Z) : list tick :=
  match starts with
  | [] => []
  | i :: starts' =>
      let o := lookup_tick Time_of Duration_of args w i (count + 1) in
      o :: match o with Finishes | Raises _ => [] | _ => echo_run Time_of Duration_of args w starts' (count + 1) end
  end.
End Echo.
Arguments tick S : clear implicits.
