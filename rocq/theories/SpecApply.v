(** * Specification vocabulary for the accuracy of transforming points and vectors (C83) *)
From Coq Require Import ZArith Reals.
From Verif Require Import Scalar LinearMath Cache Instances GeomMsgs SpecRound.
Open Scope R_scope.

(** Ordinary vector algebra over the reals *)
Definition rplus (a b : vec3 RS) : vec3 RS := @V3 RS (vx a + vx b) (vy a + vy b) (vz a + vz b).
Definition rtimes (k : R) (a : vec3 RS) : vec3 RS := @V3 RS (k * vx a) (k * vy a) (k * vz a).
Definition rcross (a b : vec3 RS) : vec3 RS :=
  @V3 RS (vy a * vz b - vz a * vy b) (vz a * vx b - vx a * vz b) (vx a * vy b - vy a * vx b).

(** The rotation a quaternion (u, w) of any length stands for:
    v + (2 w (u x v) + 2 u x (u x v)) / |q|^2. *)
Definition turned (q : quat RS) (v : vec3 RS) : vec3 RS :=
  let n := @V3 RS (qx q) (qy q) (qz q) in
  let c := rcross n v in
  rplus v (rtimes (/ (qnorm q * qnorm q)) (rplus (rtimes (2 * qw q) c) (rtimes 2 (rcross n c)))).

(** The numbers in a message *)
Definition xyz_val {lm : libm} (p : gxyz (F64 lm)) : vec3 RS := @V3 RS (val (gx p)) (val (gy p)) (val (gz p)).
Definition xyz_finite {lm : libm} (p : gxyz (F64 lm)) : Prop := finite (gx p) /\ finite (gy p) /\ finite (gz p).
Definition rot_val {lm : libm} (T : gtstamped (F64 lm)) : quat RS :=
  let q := g_rotation (t_transform T) in @Q4 RS (val (gqx q)) (val (gqy q)) (val (gqz q)) (val (gqw q)).
Definition rot_finite {lm : libm} (T : gtstamped (F64 lm)) : Prop :=
  let q := g_rotation (t_transform T) in finite (gqx q) /\ finite (gqy q) /\ finite (gqz q) /\ finite (gqw q).
Definition shift_of {lm : libm} (T : gtstamped (F64 lm)) : gxyz (F64 lm) := translation (t_transform T).

(** A link with finite numbers, a quaternion within 2^-20 of unit length and a translation no
    longer than [L] *)
Definition link_near {lm : libm} {F} (L : R) (d : storage (F64 lm) F) : Prop :=
  qfinite (st_rot d) /\ vfinite (st_trans d) /\
  1 - / IZR (2 ^ 20) <= qnorm (qval (st_rot d)) <= 1 + / IZR (2 ^ 20) /\ vnorm (vval (st_trans d)) <= L.
