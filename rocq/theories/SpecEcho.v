(** * Specification vocabulary for echo.py *)
From Coq Require Import ZArith Bool Reals List String Floats.SpecFloat.
From Verif Require Import RosTime Scalar LinearMath Cache BufferCore Instances SpecReal PyTime PyCore PyBuffer SpecWait SpecPyWait Echo.
Import ListNotations.

(** All nine entries of two matrices differ by at most [d]. *)
Definition near (d : R) (m m' : mat3 RS) : Prop :=
  let '(M3 (V3 a b c) (V3 e f g) (V3 h i j)) := m in let '(M3 (V3 a' b' c') (V3 e' f' g') (V3 h' i' j')) := m' in
  (Rabs (a - a') <= d /\ Rabs (b - b') <= d /\ Rabs (c - c') <= d /\ Rabs (e - e') <= d /\ Rabs (f - f') <= d /\ Rabs (g - g') <= d /\
   Rabs (h - h') <= d /\ Rabs (i - i') <= d /\ Rabs (j - j') <= d)%R.
(** the rotation a (roll, pitch, yaw) triple stands for *)
Definition of_rpy (a : scar RS * scar RS * scar RS) : mat3 RS := let '(r, p, y) := a in ypr_matrix y p r.
(** squared length; cosine of the pitch of the rotation a quaternion stands for *)
Definition length2 (q : quat RS) : R := (qx q * qx q + qy q * qy q + qz q * qz q + qw q * qw q)%R.
Definition cos_pitch (q : quat RS) : R := sqrt (1 - sin_pitch q * sin_pitch q).

(** What "echo.py source target" asks the buffer for at time [t]. *)
Definition asks {S : Scalar} (args : echo_args) (t : time) (c : core S) : py (tmsg S) := ask (Simple (e_source args) (e_target args) t) c.

(** An option is given: present and not zero ("if self.args.time:"). *)
Definition given (x : option f64) (v : f64) : Prop := x = Some v /\ SFeqb v (S754_zero false) = false.
Definition not_given (x : option f64) : Prop := forall v, x = Some v -> SFeqb v (S754_zero false) = true.
(** The time it asks for when the clock says [now]: the one given with -t; else the current time
    plus the offset given with -o; else 0, the latest. *)
Inductive time_wanted (Time_of Duration_of : f64 -> option Z) (args : echo_args) (now : time) : time -> Prop :=
| wants_fixed : forall x t, given (e_time args) x -> Time_of x = Some t -> time_wanted Time_of Duration_of args now t
| wants_offset : forall x d, not_given (e_time args) -> given (e_offset args) x -> Duration_of x = Some d -> (0 <= now + d)%Z ->
    time_wanted Time_of Duration_of args now (now + d)%Z
| wants_latest : not_given (e_time args) -> not_given (e_offset args) -> time_wanted Time_of Duration_of args now 0%Z.
(** Attempt number [n] is within the limit given with -l. *)
Definition within_limit (args : echo_args) (n : Z) : Prop := forall l, e_limit args = Some l -> (0 < l)%Z -> (n <= l)%Z.
(** argparse accepts only positive limits *)
Definition args_ok (args : echo_args) : Prop := forall l, e_limit args = Some l -> (0 < l)%Z.
