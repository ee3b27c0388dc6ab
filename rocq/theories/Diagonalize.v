(** * tf2::Matrix3x3::diagonalize

    Model of tf2/include/tf2/LinearMath/Matrix3x3.h 410-494: the Jacobi eigenvalue iteration
    for a symmetric 3x3 matrix.  The matrix it is called on and the output parameter [rot] are
    assumed to be different objects.  Expressions keep the C++ evaluation order. *)
From Coq Require Import ZArith Bool.
From Verif Require Import Scalar LinearMath LinearExtra.
Local Open Scope S_scope.

Section Diag.
Context {S : Scalar}.
Implicit Types (v : vec3 S) (m rot : mat3 S).

(** Vector3.h / QuadWord.h: [v[i]] for reading and writing, i in 0..2 *)
Definition vget v (i : nat) : S := match i with 0%nat => vx v | 1%nat => vy v | _ => vz v end.
Definition vset v (i : nat) (a : S) : vec3 S :=
  match i with 0%nat => V3 a (vy v) (vz v) | 1%nat => V3 (vx v) a (vz v) | _ => V3 (vx v) (vy v) a end.
(** Matrix3x3.h 84-98 operator[](i): row i; [m[i][j]] for reading and writing *)
Definition mrow m (i : nat) : vec3 S := match i with 0%nat => m0 m | 1%nat => m1 m | _ => m2 m end.
Definition msetrow m (i : nat) v : mat3 S :=
  match i with 0%nat => M3 v (m1 m) (m2 m) | 1%nat => M3 (m0 m) v (m2 m) | _ => M3 (m0 m) (m1 m) v end.
Definition mget m (i j : nat) : S := vget (mrow m i) j.
Definition mset m (i j : nat) (a : S) : mat3 S := msetrow m i (vset (mrow m i) j a).

(** Matrix3x3.h 423-442: the off-diagonal element [p][q] of largest magnitude, the third index r,
    and the magnitude *)
Definition diag_pivot m : nat * nat * nat * S :=
  let p := 0%nat in let q := 1%nat in let r := 2%nat in
  let max := sabs (mget m 0 1) in
  let v := sabs (mget m 0 2) in
  let '(q, r, max) := if sgtb v max then (2%nat, 1%nat, v) else (q, r, max) in
  let v := sabs (mget m 1 2) in
  if sgtb v max then (1%nat, 2%nat, 0%nat, v) else (p, q, r, max).

(** Matrix3x3.h 454-473: (t, cos, sin) of the rotation for the pivot [p][q] *)
Definition diag_angle m (p q : nat) : S * S * S :=
  let mpq := mget m p q in
  let theta := (mget m q q - mget m p p) / (two * mpq) in
  let theta2 := theta * theta in
  if theta2 * theta2 <? slit 10 1 / seps then
    let t := if sgeb theta szero then sone / (theta + ssqrt (sone + theta2))
             else sone / (theta - ssqrt (sone + theta2)) in
    let c := sone / ssqrt (sone + t * t) in
    (t, c, c * t)
  else
    let t := sone / (theta * (two + half / theta2)) in
    let c := sone - half * t * t in
    (t, c, c * t).

(** Matrix3x3.h 475-482: "this = J^T * this * J" *)
Definition diag_apply m (p q r : nat) (t c s : S) : mat3 S :=
  let mpq := mget m p q in
  let m := mset m q p szero in
  let m := mset m p q szero in
  let m := mset m p p (mget m p p - t * mpq) in
  let m := mset m q q (mget m q q + t * mpq) in
  let mrp := mget m r p in
  let mrq := mget m r q in
  let m := mset m p r (c * mrp - s * mrq) in
  let m := mset m r p (c * mrp - s * mrq) in
  let m := mset m q r (c * mrq + s * mrp) in
  mset m r q (c * mrq + s * mrp).

(** Matrix3x3.h 484-492: "rot = rot * J", row by row *)
Definition diag_row v (p q : nat) (c s : S) : vec3 S :=
  let mrp := vget v p in
  let mrq := vget v q in
  vset (vset v p (c * mrp - s * mrq)) q (c * mrq + s * mrp).
Definition diag_rot rot (p q : nat) (c s : S) : mat3 S :=
  M3 (diag_row (m0 rot) p q c s) (diag_row (m1 rot) p q c s) (diag_row (m2 rot) p q c s).

(** Matrix3x3.h 421-493: the loop [for (step = maxSteps; step > 0; step--)]; the assignment
    [step = 1] inside it makes the current iteration the last one.  Result (rot, *this). *)
Fixpoint diag_loop (steps : nat) (threshold : S) rot m : mat3 S * mat3 S :=
  match steps with
  | 0%nat => (rot, m)
  | Datatypes.S k =>
      let '(p, q, r, max) := diag_pivot m in
      let t := threshold * (sabs (mget m 0 0) + sabs (mget m 1 1) + sabs (mget m 2 2)) in
      let last := sleb max t in
      if last && sleb max (seps * t) then (rot, m)
      else
        let '(t, c, s) := diag_angle m p q in
        let m' := diag_apply m p q r t c s in
        let rot' := diag_rot rot p q c s in
        if last then (rot', m') else diag_loop k threshold rot' m'
  end.

(** Matrix3x3.h 418-420: diagonalize(rot, threshold, maxSteps); result (rot, *this) *)
Definition mdiagonalize m (threshold : S) (maxSteps : Z) : mat3 S * mat3 S :=
  diag_loop (Z.to_nat maxSteps) threshold midentity m.
End Diag.
