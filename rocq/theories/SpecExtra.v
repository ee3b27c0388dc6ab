(** * Specification vocabulary for the vector and angle helpers: textbook formulas over R *)
From Coq Require Import ZArith Bool Reals List.
From Verif Require Import Scalar LinearMath Instances RealSlerp SpecReal.
Open Scope R_scope.

Definition inner (v w : vec3 RS) : R := vx v * vx w + vy v * vy w + vz v * vz w.
Definition norm (v : vec3 RS) : R := sqrt (inner v v).
Definition outer (v w : vec3 RS) : vec3 RS :=
  @V3 RS (vy v * vz w - vz v * vy w) (vz v * vx w - vx v * vz w) (vx v * vy w - vy v * vx w).
Definition minus (v w : vec3 RS) : vec3 RS := @V3 RS (vx v - vx w) (vy v - vy w) (vz v - vz w).
Definition times (a : R) (v : vec3 RS) : vec3 RS := @V3 RS (a * vx v) (a * vy v) (a * vz v).
(** component number [i] *)
Definition comp (v : vec3 RS) (i : nat) : R := match i with 0%nat => vx v | 1%nat => vy v | _ => vz v end.
(** a right-handed orthonormal frame *)
Definition orthonormal (n p q : vec3 RS) : Prop :=
  inner n n = 1 /\ inner p p = 1 /\ inner q q = 1 /\ inner n p = 0 /\ inner n q = 0 /\ inner p q = 0 /\ q = outer n p.
(** [f] turns every vector by [angle] about the unit vector [k]: Rodrigues' formula *)
Definition turns_about (k : vec3 RS) (angle : R) (f : vec3 RS -> vec3 RS) : Prop :=
  inner k k = 1 /\
  forall v, f v = @V3 RS
    (vx k * inner k v + (vx v - vx k * inner k v) * cos angle + vx (outer k v) * sin angle)
    (vy k * inner k v + (vy v - vy k * inner k v) * cos angle + vy (outer k v) * sin angle)
    (vz k * inner k v + (vz v - vz k * inner k v) * cos angle + vz (outer k v) * sin angle).
(** C's fmod on reals: the remainder with the sign of the dividend *)
Definition truncate (x : R) : Z := if Rle_dec 0 x then (up x - 1)%Z else (1 - up (- x))%Z.
Definition Rfmod (x y : R) : R := x - IZR (truncate (x / y)) * y.
