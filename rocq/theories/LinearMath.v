(** * tf2/LinearMath: Vector3, Quaternion, Matrix3x3, Transform

    Model of tf2/include/tf2/LinearMath/{Vector3,QuadWord,Quaternion,Matrix3x3,Transform}.h
    and tf2/include/tf2/impl/utils.h.  Expressions keep the C++ evaluation order, so they
    are faithful for floating point too.  tf2Assert/tf2FullAssert are no-ops (as in builds
    without the debug macro): Scalar.h 60-150.  The fourth, unused component of Vector3 is
    not modelled. *)
From Coq Require Import ZArith Bool.
From Verif Require Import Scalar.
Local Open Scope S_scope.

(** Vector3.h 36-72 *)
Record vec3 (S : Scalar) := V3 { vx : S; vy : S; vz : S }.
Arguments V3 {S} _ _ _.
Arguments vx {S} _.
Arguments vy {S} _.
Arguments vz {S} _.

(** QuadWord.h / Quaternion.h 28-58; component order x,y,z,w *)
Record quat (S : Scalar) := Q4 { qx : S; qy : S; qz : S; qw : S }.
Arguments Q4 {S} _ _ _ _.
Arguments qx {S} _.
Arguments qy {S} _.
Arguments qz {S} _.
Arguments qw {S} _.

(** Matrix3x3.h 33-60: three rows *)
Record mat3 (S : Scalar) := M3 { m0 : vec3 S; m1 : vec3 S; m2 : vec3 S }.
Arguments M3 {S} _ _ _.
Arguments m0 {S} _.
Arguments m1 {S} _.
Arguments m2 {S} _.

(** Transform.h 32-58 *)
Record xform (S : Scalar) := XF { xbasis : mat3 S; xorigin : vec3 S }.
Arguments XF {S} _ _.
Arguments xbasis {S} _.
Arguments xorigin {S} _.

Section LM.
Context {S : Scalar}.
Implicit Types (v w : vec3 S) (q : quat S) (m : mat3 S) (t : xform S) (a b : S).

Definition two : S := slit 2 1.
Definition half : S := slit 1 2.
(** TF2SIMD_EPSILON = DBL_EPSILON = 2^-52, Scalar.h 202 *)
Definition seps : S := slit 1 4503599627370496.

(** Scalar.h 182: clamped acos *)
Definition tf2Acos a : S :=
  let a := if a <? slit (-1) 1 then slit (-1) 1 else a in
  let a := if sgtb a sone then sone else a in sacos a.
(** Scalar.h 183: clamped asin *)
Definition tf2Asin a : S :=
  let a := if a <? slit (-1) 1 then slit (-1) 1 else a in
  let a := if sgtb a sone then sone else a in sasin a.

(** ** Vector3 *)
Definition vzero : vec3 S := V3 szero szero szero.
(** Vector3.h 343-347 operator+ *)
Definition vadd v w : vec3 S := V3 (vx v + vx w) (vy v + vy w) (vz v + vz w).
(** Vector3.h 357-361 operator- *)
Definition vsub v w : vec3 S := V3 (vx v - vx w) (vy v - vy w) (vz v - vz w).
(** Vector3.h 363-367 unary operator- *)
Definition vneg v : vec3 S := V3 (- vx v) (- vy v) (- vz v).
(** Vector3.h 370-374 operator* (scalar) *)
Definition vscale v a : vec3 S := V3 (vx v * a) (vy v * a) (vz v * a).
(** Vector3.h 384-389 operator/ (scalar) *)
Definition vdivs v a : vec3 S := vscale v (sone / a).
(** Vector3.h 119-122 dot *)
Definition vdot v w : S := vx v * vx w + vy v * vy w + vz v * vz w.
(** Vector3.h 125-134 length2, length *)
Definition vlength2 v : S := vdot v v.
Definition vlength v : S := ssqrt (vlength2 v).
(** Vector3.h 462-470 distance2, distance *)
Definition vdistance2 v w : S := vlength2 (vsub w v).
Definition vdistance v w : S := vlength (vsub w v).
(** Vector3.h 472-475 normalized *)
Definition vnormalized v : vec3 S := vdivs v (vlength v).
(** Vector3.h 181-187 cross *)
Definition vcross v w : vec3 S :=
  V3 (vy v * vz w - vz v * vy w) (vz v * vx w - vx v * vz w) (vx v * vy w - vy v * vx w).
(** Vector3.h 189-194 triple *)
Definition vtriple v w u : S :=
  vx v * (vy w * vz u - vz w * vy u) + vy v * (vz w * vx u - vx w * vz u)
  + vz v * (vx w * vy u - vy w * vx u).
(** Vector3.h 220-228 setInterpolate3 *)
Definition vinterp v0 v1 (rt : S) : vec3 S :=
  let s := sone - rt in
  V3 (s * vx v0 + rt * vx v1) (s * vy v0 + rt * vy v1) (s * vz v0 + rt * vz v1).
(** Vector3.h 233-238 lerp *)
Definition vlerp v w a : vec3 S :=
  V3 (vx v + (vx w - vx v) * a) (vy v + (vy w - vy v) * a) (vz v + (vz w - vz v) * a).
(** Vector3.h 164-169 angle *)
Definition vangle v w : S := tf2Acos (vdot v w / ssqrt (vlength2 v * vlength2 w)).
(** Vector3.h 478-490 rotate *)
Definition vrotate v axis (angle : S) : vec3 S :=
  let o := vscale axis (vdot axis v) in
  let x := vsub v o in
  let y := vcross axis v in
  vadd (vadd o (vscale x (scos angle))) (vscale y (ssin angle)).
(** Vector3.h 196-208 minAxis, maxAxis *)
Definition vminAxis v : nat :=
  if vx v <? vy v then (if vx v <? vz v then 0 else 2) else (if vy v <? vz v then 1 else 2).
Definition vmaxAxis v : nat :=
  if vx v <? vy v then (if vy v <? vz v then 2 else 1) else (if vx v <? vz v then 2 else 0).

(** ** Quaternion *)
Definition qidentity : quat S := Q4 szero szero szero sone.
(** Quaternion.h 365-370 operator*(Quaternion,Quaternion); 146-153 operator*= has the same
    expressions in the same order *)
Definition qmul q1 q2 : quat S :=
  Q4 (qw q1 * qx q2 + qx q1 * qw q2 + qy q1 * qz q2 - qz q1 * qy q2)
     (qw q1 * qy q2 + qy q1 * qw q2 + qz q1 * qx q2 - qx q1 * qz q2)
     (qw q1 * qz q2 + qz q1 * qw q2 + qx q1 * qy q2 - qy q1 * qx q2)
     (qw q1 * qw q2 - qx q1 * qx q2 - qy q1 * qy q2 - qz q1 * qz q2).
(** Quaternion.h 372-379 operator*(Quaternion, Vector3) *)
Definition qmulv q w : quat S :=
  Q4 (qw q * vx w + qy q * vz w - qz q * vy w)
     (qw q * vy w + qz q * vx w - qx q * vz w)
     (qw q * vz w + qx q * vy w - qy q * vx w)
     ((- qx q) * vx w - qy q * vy w - qz q * vz w).
(** Quaternion.h 381-388 operator*(Vector3, Quaternion) *)
Definition vmulq w q : quat S :=
  Q4 (vx w * qw q + vy w * qz q - vz w * qy q)
     (vy w * qw q + vz w * qx q - vx w * qz q)
     (vz w * qw q + vx w * qy q - vy w * qx q)
     ((- vx w) * qx q - vy w * qy q - vz w * qz q).
(** Quaternion.h 259-262 inverse *)
Definition qinv q : quat S := Q4 (- qx q) (- qy q) (- qz q) (qw q).
(** Quaternion.h 284-288 / 355-359 unary minus *)
Definition qneg q : quat S := Q4 (- qx q) (- qy q) (- qz q) (- qw q).
(** Quaternion.h 264-281 operator+, operator- *)
Definition qadd q1 q2 : quat S := Q4 (qx q1 + qx q2) (qy q1 + qy q2) (qz q1 + qz q2) (qw q1 + qw q2).
Definition qsub q1 q2 : quat S := Q4 (qx q1 - qx q2) (qy q1 - qy q2) (qz q1 - qz q2) (qw q1 - qw q2).
(** Quaternion.h 156-171 dot, length2, length *)
Definition qdot q1 q2 : S := qx q1 * qx q2 + qy q1 * qy q2 + qz q1 * qz q2 + qw q1 * qw q2.
Definition qlength2 q : S := qdot q q.
Definition qlength q : S := ssqrt (qlength2 q).
(** Quaternion.h 181-186 operator*(scalar), 190-195 operator/, 205-208 normalized *)
Definition qscale q a : quat S := Q4 (qx q * a) (qy q * a) (qz q * a) (qw q * a).
Definition qdivs q a : quat S := qscale q (sone / a).
Definition qnormalized q : quat S := qdivs q (qlength q).
(** Quaternion.h 212-217 angle *)
Definition qangle q1 q2 : S := tf2Acos (qdot q1 q2 / ssqrt (qlength2 q1 * qlength2 q2)).
(** Quaternion.h 220-228 angleShortestPath *)
Definition qangleShortestPath q1 q2 : S :=
  let s := ssqrt (qlength2 q1 * qlength2 q2) in
  if qdot q1 q2 <? szero then tf2Acos (qdot q1 (qneg q2) / s) * two
  else tf2Acos (qdot q1 q2 / s) * two.
(** Quaternion.h 230-234 getAngle *)
Definition qgetAngle q : S := two * tf2Acos (qw q).
(** Quaternion.h 237-246 getAngleShortestPath *)
Definition qgetAngleShortestPath q : S :=
  if sgeb (qw q) szero then two * tf2Acos (qw q) else two * tf2Acos (- qw q).
(** Quaternion.h 249-256 getAxis; pow(w,2) written as w*w *)
Definition qgetAxis q : vec3 S :=
  let s_squared := sone - qw q * qw q in
  if s_squared <? slit 10 1 * seps then V3 sone szero szero
  else let s := ssqrt s_squared in V3 (qx q / s) (qy q / s) (qz q / s).
(** Quaternion.h 290-310 farthest, nearest *)
Definition qfarthest q qd : quat S :=
  let diff := qsub q qd in let sum := qadd q qd in
  if sgtb (qdot diff diff) (qdot sum sum) then qd else qneg qd.
Definition qnearest q qd : quat S :=
  let diff := qsub q qd in let sum := qadd q qd in
  if qdot diff diff <? qdot sum sum then qd else qneg qd.
(** Quaternion.h 316-343 slerp *)
Definition qslerp q1 q2 (t : S) : quat S :=
  let theta := qangleShortestPath q1 q2 / two in
  if negb (theta =? szero) then
    let d := sone / ssin theta in
    let s0 := ssin ((sone - t) * theta) in
    let s1 := ssin (t * theta) in
    if qdot q1 q2 <? szero then
      Q4 ((qx q1 * s0 + (- qx q2) * s1) * d) ((qy q1 * s0 + (- qy q2) * s1) * d)
         ((qz q1 * s0 + (- qz q2) * s1) * d) ((qw q1 * s0 + (- qw q2) * s1) * d)
    else
      Q4 ((qx q1 * s0 + qx q2 * s1) * d) ((qy q1 * s0 + qy q2 * s1) * d)
         ((qz q1 * s0 + qz q2 * s1) * d) ((qw q1 * s0 + qw q2 * s1) * d)
  else q1.
(** Quaternion.h 63-70 setRotation (axis, angle) *)
Definition qfromAxisAngle (axis : vec3 S) (angle : S) : quat S :=
  let d := vlength axis in
  let s := ssin (angle * half) / d in
  Q4 (vx axis * s) (vy axis * s) (vz axis * s) (scos (angle * half)).
(** Quaternion.h 75-90 setEuler (yaw about Y, pitch about X, roll about Z) *)
Definition qfromEuler (yaw pitch roll : S) : quat S :=
  let cosYaw := scos (yaw * half) in let sinYaw := ssin (yaw * half) in
  let cosPitch := scos (pitch * half) in let sinPitch := ssin (pitch * half) in
  let cosRoll := scos (roll * half) in let sinRoll := ssin (roll * half) in
  Q4 (cosRoll * sinPitch * cosYaw + sinRoll * cosPitch * sinYaw)
     (cosRoll * cosPitch * sinYaw - sinRoll * sinPitch * cosYaw)
     (sinRoll * cosPitch * cosYaw - cosRoll * sinPitch * sinYaw)
     (cosRoll * cosPitch * cosYaw + sinRoll * sinPitch * sinYaw).
(** Quaternion.h 95-110 setRPY *)
Definition qfromRPY (roll pitch yaw : S) : quat S :=
  let cosYaw := scos (yaw * half) in let sinYaw := ssin (yaw * half) in
  let cosPitch := scos (pitch * half) in let sinPitch := ssin (pitch * half) in
  let cosRoll := scos (roll * half) in let sinRoll := ssin (roll * half) in
  Q4 (sinRoll * cosPitch * cosYaw - cosRoll * sinPitch * sinYaw)
     (cosRoll * sinPitch * cosYaw + sinRoll * cosPitch * sinYaw)
     (cosRoll * cosPitch * sinYaw - sinRoll * sinPitch * cosYaw)
     (cosRoll * cosPitch * cosYaw + sinRoll * sinPitch * sinYaw).
(** Quaternion.h 437-443 quatRotate *)
Definition quatRotate (rotation : quat S) v : vec3 S :=
  let q := qmul (qmulv rotation v) (qinv rotation) in V3 (qx q) (qy q) (qz q).

(** ** Matrix3x3 *)
(** Matrix3x3.h 217-222 setIdentity *)
Definition midentity : mat3 S :=
  M3 (V3 sone szero szero) (V3 szero sone szero) (V3 szero szero sone).
(** Matrix3x3.h 148-160 setRotation(Quaternion) *)
Definition mfromQuat q : mat3 S :=
  let d := qlength2 q in
  let s := two / d in
  let xs := qx q * s in let ys := qy q * s in let zs := qz q * s in
  let wx := qw q * xs in let wy := qw q * ys in let wz := qw q * zs in
  let xx := qx q * xs in let xy := qx q * ys in let xz := qx q * zs in
  let yy := qy q * ys in let yz := qy q * zs in let zz := qz q * zs in
  M3 (V3 (sone - (yy + zz)) (xy - wz) (xz + wy))
     (V3 (xy + wz) (sone - (xx + zz)) (yz - wx))
     (V3 (xz - wy) (yz + wx) (sone - (xx + yy))).
(** Matrix3x3.h 182-198 setEulerYPR(eulerZ, eulerY, eulerX) *)
Definition mfromEulerYPR (eulerZ eulerY eulerX : S) : mat3 S :=
  let ci := scos eulerX in let cj := scos eulerY in let ch := scos eulerZ in
  let si := ssin eulerX in let sj := ssin eulerY in let sh := ssin eulerZ in
  let cc := ci * ch in let cs := ci * sh in let sc := si * ch in let ss := si * sh in
  M3 (V3 (cj * ch) (sj * sc - cs) (sj * cc + ss))
     (V3 (cj * sh) (sj * ss + cc) (sj * cs - sc))
     (V3 (- sj) (cj * si) (cj * ci)).
(** Matrix3x3.h 206-208 setRPY *)
Definition mfromRPY (roll pitch yaw : S) : mat3 S := mfromEulerYPR yaw pitch roll.
(** Matrix3x3.h 245-277 getRotation: the [i,j,k] indexing is unrolled into its three cases *)
Definition mgetRotation m : quat S :=
  let trace := vx (m0 m) + vy (m1 m) + vz (m2 m) in
  if sgtb trace szero then
    let s := ssqrt (trace + sone) in
    let t3 := s * half in
    let s := half / s in
    Q4 ((vy (m2 m) - vz (m1 m)) * s) ((vz (m0 m) - vx (m2 m)) * s)
       ((vx (m1 m) - vy (m0 m)) * s) t3
  else
    let i := if vx (m0 m) <? vy (m1 m) then (if vy (m1 m) <? vz (m2 m) then 2 else 1)
             else (if vx (m0 m) <? vz (m2 m) then 2 else 0) in
    match i with
    | 0 => (* i=0 j=1 k=2 *)
        let s := ssqrt (vx (m0 m) - vy (m1 m) - vz (m2 m) + sone) in
        let ti := s * half in
        let s := half / s in
        Q4 ti ((vx (m1 m) + vy (m0 m)) * s) ((vx (m2 m) + vz (m0 m)) * s)
           ((vy (m2 m) - vz (m1 m)) * s)
    | 1 => (* i=1 j=2 k=0 *)
        let s := ssqrt (vy (m1 m) - vz (m2 m) - vx (m0 m) + sone) in
        let ti := s * half in
        let s := half / s in
        Q4 ((vy (m0 m) + vx (m1 m)) * s) ti ((vy (m2 m) + vz (m1 m)) * s)
           ((vz (m0 m) - vx (m2 m)) * s)
    | _ => (* i=2 j=0 k=1 *)
        let s := ssqrt (vz (m2 m) - vx (m0 m) - vy (m1 m) + sone) in
        let ti := s * half in
        let s := half / s in
        Q4 ((vz (m0 m) + vx (m2 m)) * s) ((vz (m1 m) + vy (m2 m)) * s) ti
           ((vx (m1 m) - vy (m0 m)) * s)
    end.
(** Matrix3x3.h 294-359 getEulerYPR(yaw, pitch, roll, solution_number); result (yaw,pitch,roll) *)
Definition mgetEulerYPR m (solution_number : Z) : S * S * S :=
  if sgeb (sabs (vx (m2 m))) sone then
    let delta := satan2 (vy (m2 m)) (vz (m2 m)) in
    if vx (m2 m) <? szero then (szero, spi / two, delta)
    else (szero, (- spi) / two, delta)
  else
    let pitch1 := - tf2Asin (vx (m2 m)) in
    let pitch2 := spi - pitch1 in
    let roll1 := satan2 (vy (m2 m) / scos pitch1) (vz (m2 m) / scos pitch1) in
    let roll2 := satan2 (vy (m2 m) / scos pitch2) (vz (m2 m) / scos pitch2) in
    let yaw1 := satan2 (vx (m1 m) / scos pitch1) (vx (m0 m) / scos pitch1) in
    let yaw2 := satan2 (vx (m1 m) / scos pitch2) (vx (m0 m) / scos pitch2) in
    if Z.eqb solution_number 1 then (yaw1, pitch1, roll1) else (yaw2, pitch2, roll2).
(** Matrix3x3.h 401-412 tdotx, tdoty, tdotz *)
Definition mtdotx m v : S := vx (m0 m) * vx v + vx (m1 m) * vy v + vx (m2 m) * vz v.
Definition mtdoty m v : S := vy (m0 m) * vx v + vy (m1 m) * vy v + vy (m2 m) * vz v.
Definition mtdotz m v : S := vz (m0 m) * vx v + vz (m1 m) * vy v + vz (m2 m) * vz v.
(** Matrix3x3.h 602-606 Matrix * Vector *)
Definition mmulv m v : vec3 S := V3 (vdot (m0 m) v) (vdot (m1 m) v) (vdot (m2 m) v).
(** Matrix3x3.h 609-613 Vector * Matrix *)
Definition vmulm v m : vec3 S := V3 (mtdotx m v) (mtdoty m v) (mtdotz m v).
(** Matrix3x3.h 615-622 Matrix * Matrix; 510-517 operator*= has the same expressions *)
Definition mmul ma mb : mat3 S :=
  M3 (V3 (mtdotx mb (m0 ma)) (mtdoty mb (m0 ma)) (mtdotz mb (m0 ma)))
     (V3 (mtdotx mb (m1 ma)) (mtdoty mb (m1 ma)) (mtdotz mb (m1 ma)))
     (V3 (mtdotx mb (m2 ma)) (mtdoty mb (m2 ma)) (mtdotz mb (m2 ma))).
(** Matrix3x3.h 519-523 determinant *)
Definition mdet m : S := vtriple (m0 m) (m1 m) (m2 m).
(** Matrix3x3.h 535-541 transpose *)
Definition mtranspose m : mat3 S :=
  M3 (V3 (vx (m0 m)) (vx (m1 m)) (vx (m2 m)))
     (V3 (vy (m0 m)) (vy (m1 m)) (vy (m2 m)))
     (V3 (vz (m0 m)) (vz (m1 m)) (vz (m2 m))).
(** Matrix3x3.h 488-491 cofac, 543-549 adjoint: the index arguments are unrolled *)
Definition madjoint m : mat3 S :=
  M3 (V3 (vy (m1 m) * vz (m2 m) - vz (m1 m) * vy (m2 m))      (* cofac(1,1,2,2) *)
         (vz (m0 m) * vy (m2 m) - vy (m0 m) * vz (m2 m))      (* cofac(0,2,2,1) *)
         (vy (m0 m) * vz (m1 m) - vz (m0 m) * vy (m1 m)))     (* cofac(0,1,1,2) *)
     (V3 (vz (m1 m) * vx (m2 m) - vx (m1 m) * vz (m2 m))      (* cofac(1,2,2,0) *)
         (vx (m0 m) * vz (m2 m) - vz (m0 m) * vx (m2 m))      (* cofac(0,0,2,2) *)
         (vz (m0 m) * vx (m1 m) - vx (m0 m) * vz (m1 m)))     (* cofac(0,2,1,0) *)
     (V3 (vx (m1 m) * vy (m2 m) - vy (m1 m) * vx (m2 m))      (* cofac(1,0,2,1) *)
         (vy (m0 m) * vx (m2 m) - vx (m0 m) * vy (m2 m))      (* cofac(0,1,2,0) *)
         (vx (m0 m) * vy (m1 m) - vy (m0 m) * vx (m1 m))).    (* cofac(0,0,1,1) *)
(** Matrix3x3.h 551-561 inverse *)
Definition minverse m : mat3 S :=
  let A := madjoint m in
  let co := V3 (vx (m0 A)) (vx (m1 A)) (vx (m2 A)) in
  let det := vdot (m0 m) co in
  let s := sone / det in
  M3 (V3 (vx co * s) (vy (m0 A) * s) (vz (m0 A) * s))
     (V3 (vy co * s) (vy (m1 A) * s) (vz (m1 A) * s))
     (V3 (vz co * s) (vy (m2 A) * s) (vz (m2 A) * s)).
(** Matrix3x3.h 563-576 transposeTimes *)
Definition mtransposeTimes ma mb : mat3 S :=
  let e (f g : vec3 S -> S) :=
    f (m0 ma) * g (m0 mb) + f (m1 ma) * g (m1 mb) + f (m2 ma) * g (m2 mb) in
  M3 (V3 (e vx vx) (e vx vy) (e vx vz))
     (V3 (e vy vx) (e vy vy) (e vy vz))
     (V3 (e vz vx) (e vz vy) (e vz vz)).
(** Matrix3x3.h 578-586 timesTranspose *)
Definition mtimesTranspose ma mb : mat3 S :=
  M3 (V3 (vdot (m0 ma) (m0 mb)) (vdot (m0 ma) (m1 mb)) (vdot (m0 ma) (m2 mb)))
     (V3 (vdot (m1 ma) (m0 mb)) (vdot (m1 ma) (m1 mb)) (vdot (m1 ma) (m2 mb)))
     (V3 (vdot (m2 ma) (m0 mb)) (vdot (m2 ma) (m1 mb)) (vdot (m2 ma) (m2 mb))).
(** Matrix3x3.h 375-380 scaled *)
Definition mscaled m v : mat3 S :=
  let r (u : vec3 S) := V3 (vx u * vx v) (vy u * vy v) (vz u * vz v) in
  M3 (r (m0 m)) (r (m1 m)) (r (m2 m)).

(** ** Transform *)
(** Transform.h 46-50 constructor from quaternion and origin *)
Definition xfromQuat q v : xform S := XF (mfromQuat q) v.
(** Transform.h 197-201 getIdentity *)
Definition xidentity : xform S := XF midentity vzero.
(** Transform.h 91-96 operator()(Vector3) *)
Definition xapply t v : vec3 S :=
  V3 (vdot (m0 (xbasis t)) v + vx (xorigin t))
     (vdot (m1 (xbasis t)) v + vy (xorigin t))
     (vdot (m2 (xbasis t)) v + vz (xorigin t)).
(** Transform.h 119-123 getRotation *)
Definition xgetRotation t : quat S := mgetRotation (xbasis t).
(** Transform.h 105-108 operator*(Quaternion) *)
Definition xmulq t q : quat S := qmul (xgetRotation t) q.
(** Transform.h 236-241 operator*(Transform); 78-81 mult is the same *)
Definition xmul ta tb : xform S := XF (mmul (xbasis ta) (xbasis tb)) (xapply ta (xorigin tb)).
(** Transform.h 179-184 operator*= *)
Definition xmul_assign ta tb : xform S :=
  XF (mmul (xbasis ta) (xbasis tb)) (vadd (xorigin ta) (mmulv (xbasis ta) (xorigin tb))).
(** Transform.h 187-191 inverse *)
Definition xinverse t : xform S :=
  let inv := mtranspose (xbasis t) in XF inv (mmulv inv (vneg (xorigin t))).
(** Transform.h 220-225 invXform *)
Definition xinvXform t v : vec3 S := mmulv (mtranspose (xbasis t)) (vsub v (xorigin t)).
(** Transform.h 227-234 inverseTimes *)
Definition xinverseTimes ta tb : xform S :=
  XF (mtransposeTimes (xbasis ta) (xbasis tb)) (vmulm (vsub (xorigin tb) (xorigin ta)) (xbasis ta)).

(** ** impl/utils.h *)
(** utils.h 87-114 getEulerYPR(Quaternion); result (yaw, pitch, roll).
    [-2 * x] is [(-2) * x]; 0.99999 is a literal; std::asin is not clamped here. *)
Definition ugetEulerYPR q : S * S * S :=
  let sqx := qx q * qx q in let sqy := qy q * qy q in
  let sqz := qz q * qz q in let sqw := qw q * qw q in
  let sarg := slit (-2) 1 * (qx q * qz q - qw q * qy q) / (sqx + sqy + sqz + sqw) in
  if sgeb (slit (-99999) 100000) sarg then
    (slit (-2) 1 * satan2 (qy q) (qx q), slit (-1) 2 * spi, szero)
  else if sgeb sarg (slit 99999 100000) then
    (two * satan2 (qy q) (qx q), half * spi, szero)
  else
    (satan2 (two * (qx q * qy q + qw q * qz q)) (sqw + sqx - sqy - sqz),
     sasin sarg,
     satan2 (two * (qy q * qz q + qw q * qx q)) (sqw - sqx - sqy + sqz)).
(** utils.h 123-148 getYaw(Quaternion) *)
Definition ugetYaw q : S :=
  let sqx := qx q * qx q in let sqy := qy q * qy q in
  let sqz := qz q * qz q in let sqw := qw q * qw q in
  let sarg := slit (-2) 1 * (qx q * qz q - qw q * qy q) / (sqx + sqy + sqz + sqw) in
  if sgeb (slit (-99999) 100000) sarg then slit (-2) 1 * satan2 (qy q) (qx q)
  else if sgeb sarg (slit 99999 100000) then two * satan2 (qy q) (qx q)
  else satan2 (two * (qx q * qy q + qw q * qz q)) (sqw + sqx - sqy - sqz).
End LM.
