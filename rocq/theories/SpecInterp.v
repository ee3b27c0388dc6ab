(** * Specification vocabulary for interpolation: straight lines, great arcs, and what is asked of libm *)
From Coq Require Import ZArith Bool Reals Floats.SpecFloat.
From Coq Require Import List String.
From Verif Require Import RosTime Scalar LinearMath Cache BufferCore SpecCore Instances SpecRound.
Import ListNotations.
Open Scope R_scope.

(** The point a fraction [t] of the way from [v] to [w] on a straight line. *)
Definition on_line (v w : vec3 RS) (t : R) : vec3 RS :=
  @V3 RS ((1 - t) * vx v + t * vx w) ((1 - t) * vy v + t * vy w) ((1 - t) * vz v + t * vz w).

(** The angle between two quaternions, as vectors of R^4. *)
Definition angle_between (p q : quat RS) : R :=
  acos ((qx p * qx q + qy p * qy q + qz p * qz q + qw p * qw q) / (qnorm p * qnorm q)).
(** sin(a x) / sin x, and its limit [a] at 0 *)
Definition weight (a x : R) : R := if Req_EM_T x 0 then a else sin (a * x) / sin x.
(** The point a fraction [t] of the angle from [p] to [q] on the arc through both. *)
Definition on_arc (p q : quat RS) (t : R) : quat RS :=
  let x := angle_between p q in
  let a := weight (1 - t) x in let b := weight t x in
  @Q4 RS (a * qx p + b * qx q) (a * qy p + b * qy q) (a * qz p + b * qz q) (a * qw p + b * qw q).

(** sin on [-2, 2] and acos on [-1, 1] to four units of roundoff; glibc documents less than one
    unit in the last place, which is at most two units of roundoff. *)
Definition accurate_libm (lm : libm) : Prop :=
  (forall x, finite x -> Rabs (val x) <= 2 ->
     finite (lm_sin lm x) /\ Rabs (val (lm_sin lm x) - sin (val x)) <= 4 * uro * Rabs (sin (val x)) + eta) /\
  (forall x, finite x -> -1 <= val x <= 1 ->
     finite (lm_acos lm x) /\ Rabs (val (lm_acos lm x) - acos (val x)) <= 4 * uro * acos (val x)).

(** A binary64 number, infinities and NaN included. *)
Definition double (x : f64) : Prop := valid_binary prec64 emax64 x = true.

(** A sample one can rely on: finite numbers, a quaternion of length 1 up to the tolerance of
    setTransform (1/100 on the squared length), a translation no longer than [L]. *)
Definition sample_ok {lm : libm} {F} (L : R) (x : storage (F64 lm) F) : Prop :=
  qfinite (st_rot x) /\ 99 / 100 <= qnorm (qval (st_rot x)) <= 1006 / 1000 /\
  vfinite (st_trans x) /\ vnorm (vval (st_trans x)) <= L.

(** [q] is at most a right angle (up to rounding) away from [p]. *)
Definition same_side (p q : quat RS) : Prop :=
  - (5 * uro) * (qnorm p * qnorm q) <= qx p * qx q + qy p * qy q + qz p * qz q + qw p * qw q.

(** [v] and [r] are what lies a fraction [t] of the way between two samples: the translation on
    the straight line, the rotation on the shorter of the two arcs -- or, when the two rotations
    are within 2^-22 of each other, the rotation of the first sample. *)
Definition interpolates {lm : libm} {F} (one two : storage (F64 lm) F) (t : R) (r : quat (F64 lm)) (v : vec3 (F64 lm)) : Prop :=
  vfinite v /\ qfinite r /\
  vdist (vval v) (on_line (vval (st_trans one)) (vval (st_trans two)) t)
    <= 13 * uro * (vnorm (vval (st_trans one)) + vnorm (vval (st_trans two))) + 8 * eta /\
  exists q, (q = qval (st_rot two) \/ q = qneg (qval (st_rot two))) /\ same_side (qval (st_rot one)) q /\
    ((r = st_rot one /\ angle_between (qval (st_rot one)) q <= / 4194304) \/
     qdist (qval r) (on_arc (qval (st_rot one)) q t) <= 165 * uro * (qnorm (qval (st_rot one)) + qnorm q)).

(** Messages of doubles with finite translations no longer than [L]; nothing is asked of the
    rotation. *)
Definition finite_ops {lm : libm} (L : R) (ops : list (@core_op (F64 lm))) : Prop :=
  forall m a st, In (OSet m a st) ops ->
    double (qx (tm_rot m)) /\ double (qy (tm_rot m)) /\ double (qz (tm_rot m)) /\ double (qw (tm_rot m)) /\
    vfinite (tm_trans m) /\ vnorm (vval (tm_trans m)) <= L.
