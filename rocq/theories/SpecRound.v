(** * Specification vocabulary for rounding in binary64: the real number a double stands for *)
From Coq Require Import ZArith Bool Reals List Floats.SpecFloat.
From Verif Require Import RosTime Scalar LinearMath Cache SpecCore Instances.
Open Scope R_scope.

(** The number a finite double stands for: sign * mantissa * 2^exponent. *)
Definition val (x : f64) : R :=
  match x with
  | S754_finite s m e => (if s then -1 else 1) * IZR (Zpos m) * powerRZ 2 e
  | _ => 0
  end.

(** A double that is neither an infinity nor a NaN; [valid_binary] is Coq's description of the
    mantissa/exponent pairs binary64 has. *)
Definition finite (x : f64) : Prop :=
  match x with
  | S754_zero _ => True
  | S754_finite _ _ _ => valid_binary prec64 emax64 x = true
  | _ => False
  end.

(** unit roundoff of binary64, and half its smallest positive number *)
Definition uro : R := / IZR (2 ^ 53).
Definition eta : R := / IZR (2 ^ 1075).

Section R.
Context {lm : libm}.
Definition vfinite (v : vec3 (F64 lm)) : Prop := finite (vx v) /\ finite (vy v) /\ finite (vz v).
Definition qfinite (q : quat (F64 lm)) : Prop := finite (qx q) /\ finite (qy q) /\ finite (qz q) /\ finite (qw q).
Definition vval (v : vec3 (F64 lm)) : vec3 RS := @V3 RS (val (vx v)) (val (vy v)) (val (vz v)).
Definition qval (q : quat (F64 lm)) : quat RS := @Q4 RS (val (qx q)) (val (qy q)) (val (qz q)) (val (qw q)).
End R.

(** Euclidean length of a vector and of a quaternion *)
Definition vnorm (v : vec3 RS) : R := sqrt (vx v * vx v + vy v * vy v + vz v * vz v).
Definition qnorm (q : quat RS) : R := sqrt (qx q * qx q + qy q * qy q + qz q * qz q + qw q * qw q).
Definition vdist (v w : vec3 RS) : R := vnorm (@V3 RS (vx v - vx w) (vy v - vy w) (vz v - vz w)).
Definition qdist (p q : quat RS) : R := qnorm (@Q4 RS (qx p - qx q) (qy p - qy q) (qz p - qz q) (qw p - qw q)).

(** A link with its numbers read as real numbers. *)
Definition exact_link {lm : libm} {F} (d : storage (F64 lm) F) : storage RS F :=
  {| st_rot := qval (st_rot d); st_trans := vval (st_trans d); st_stamp := st_stamp d; st_frame := st_frame d; st_child := st_child d |}.
(** Finite numbers, a quaternion no longer than [k], a translation no longer than [L]. *)
Definition link_ok {lm : libm} {F} (k L : R) (d : storage (F64 lm) F) : Prop :=
  qfinite (st_rot d) /\ vfinite (st_trans d) /\ qnorm (qval (st_rot d)) <= k /\ vnorm (vval (st_trans d)) <= L.
