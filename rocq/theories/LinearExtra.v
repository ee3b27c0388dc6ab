(** * tf2/LinearMath: the helpers not needed by the buffer

    Vector3.h, Quaternion.h, Matrix3x3.h, Transform.h and Scalar.h again; same conventions as
    LinearMath.v. *)
From Coq Require Import ZArith Bool List.
From Verif Require Import Scalar LinearMath.
Import ListNotations.
Local Open Scope S_scope.

Section Extra.
Context {S : Scalar}.
Implicit Types (v w n : vec3 S) (q : quat S) (m : mat3 S) (t : xform S) (a b : S).

(** C++ [a <= b]: false when one of them is NaN *)
Definition sleb a b : bool := orb (a <? b) (a =? b).

(** Vector3.h 172-178 absolute *)
Definition vabsolute v : vec3 S := V3 (sabs (vx v)) (sabs (vy v)) (sabs (vz v)).
(** Vector3.h 210-218 furthestAxis, closestAxis *)
Definition vfurthestAxis v : nat := vminAxis (vabsolute v).
Definition vclosestAxis v : nat := vmaxAxis (vabsolute v).
(** MinMax.h 41-56 tf2SetMin, tf2SetMax; Vector3.h 290-307 setMax, setMin *)
Definition tf2SetMin a b : S := if b <? a then b else a.
Definition tf2SetMax a b : S := if a <? b then b else a.
Definition vsetMin v w : vec3 S := V3 (tf2SetMin (vx v) (vx w)) (tf2SetMin (vy v) (vy w)) (tf2SetMin (vz v) (vz w)).
Definition vsetMax v w : vec3 S := V3 (tf2SetMax (vx v) (vx w)) (tf2SetMax (vy v) (vy w)) (tf2SetMax (vz v) (vz w)).
(** Vector3.h 317-322 getSkewSymmetricMatrix: the three rows *)
Definition vskew v : mat3 S := M3 (V3 szero (- vz v) (vy v)) (V3 (vz v) szero (- vx v)) (V3 (- vy v) (vx v) szero).
(** Vector3.h 328-336 isZero, fuzzyZero *)
Definition visZero v : bool := (vx v =? szero) && (vy v =? szero) && (vz v =? szero).
Definition vfuzzyZero v : bool := vlength2 v <? seps.
(** Vector3.h 402-406 operator/(Vector3, Vector3); 377-382 operator*(Vector3, Vector3) *)
Definition vmulc v w : vec3 S := V3 (vx v * vx w) (vy v * vy w) (vz v * vz w).
Definition vdivc v w : vec3 S := V3 (vx v / vx w) (vy v / vy w) (vz v / vz w).

(** Scalar.h 197, 199: TF2SIMDSQRT12 (the literal) and tf2RecipSqrt *)
Definition sqrt12 : S := slit 7071067811865475244008443621048490 10000000000000000000000000000000000.
Definition tf2RecipSqrt a : S := sone / ssqrt a.
(** Vector3.h 660-678 tf2PlaneSpace1: (p, q) *)
Definition tf2PlaneSpace1 n : vec3 S * vec3 S :=
  if sgtb (sabs (vz n)) sqrt12 then
    let a := vy n * vy n + vz n * vz n in
    let k := tf2RecipSqrt a in
    let p := V3 szero ((- vz n) * k) (vy n * k) in
    (p, V3 (a * k) ((- vx n) * vz p) (vx n * vy p))
  else
    let a := vx n * vx n + vy n * vy n in
    let k := tf2RecipSqrt a in
    let p := V3 ((- vy n) * k) (vx n * k) szero in
    (p, V3 ((- vz n) * vy p) (vz n * vx p) (a * k)).

(** Quaternion.h 445-463 shortestArcQuat *)
Definition shortestArcQuat v w : quat S :=
  let c := vcross v w in
  let d := vdot v w in
  if d <? slit (-1) 1 + seps then
    let p := fst (tf2PlaneSpace1 v) in Q4 (vx p) (vy p) (vz p) szero
  else
    let s := ssqrt ((sone + d) * two) in
    let rs := sone / s in
    Q4 (vx c * rs) (vy c * rs) (vz c * rs) (s * half).
(** Vector3.h 384-393 operator*=, operator/=; 150-153 normalize: the object is divided by its length *)
Definition vnormalize v : vec3 S := vscale v (sone / vlength v).
(** Quaternion.h 464-470 shortestArcQuatNormalize2: normalizes both arguments in place *)
Definition shortestArcQuatNormalize2 v w : quat S * vec3 S * vec3 S :=
  (shortestArcQuat (vnormalize v) (vnormalize w), vnormalize v, vnormalize w).

(** Scalar.h 386-401 tf2NormalizeAngle; [fmod] is libm's, [twopi] TF2SIMD_2_PI, and TF2SIMD_PI is
    half of it *)
Definition tf2NormalizeAngle (fmod : S -> S -> S) (twopi : S) a : S :=
  let a := fmod a twopi in
  let pi := twopi * half in
  if a <? - pi then a + twopi else if sgtb a pi then a - twopi else a.

(** Matrix3x3.h 81-84 getColumn, 224-241 getOpenGLSubMatrix, 112-118 setFromOpenGLSubMatrix, and
    Transform.h 129-145 setFromOpenGLMatrix, getOpenGLMatrix: 16 numbers, column by column.
    [l] is the array; a missing element reads as zero here (out of bounds in C++). *)
Definition mgetColumn m (i : nat) : vec3 S :=
  let e (r : vec3 S) := match i with 0 => vx r | 1 => vy r | _ => vz r end in V3 (e (m0 m)) (e (m1 m)) (e (m2 m)).
Definition xgetOpenGLMatrix t : list S :=
  let m := xbasis t in
  [vx (m0 m); vx (m1 m); vx (m2 m); szero; vy (m0 m); vy (m1 m); vy (m2 m); szero;
   vz (m0 m); vz (m1 m); vz (m2 m); szero; vx (xorigin t); vy (xorigin t); vz (xorigin t); sone].
Definition xsetFromOpenGLMatrix (l : list S) : xform S :=
  let e i := nth i l szero in
  XF (M3 (V3 (e 0) (e 4) (e 8)) (V3 (e 1) (e 5) (e 9)) (V3 (e 2) (e 6) (e 10))) (V3 (e 12) (e 13) (e 14)).
End Extra.
