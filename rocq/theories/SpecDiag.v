(** * Specification vocabulary for the eigenvalue iteration: textbook matrix notions over R *)
From Coq Require Import ZArith Reals.
From Verif Require Import Scalar LinearMath Instances.
Open Scope R_scope.

(** row [i], column [j] *)
Definition entry (m : mat3 RS) (i j : nat) : R :=
  let row := match i with 0%nat => m0 m | 1%nat => m1 m | _ => m2 m end in
  match j with 0%nat => vx row | 1%nat => vy row | _ => vz row end.
Definition symmetric (m : mat3 RS) : Prop := forall i j, entry m i j = entry m j i.
Definition sq (x : R) : R := x * x.
(** the Frobenius norm: the root of the sum of the squares of the nine entries *)
Definition frob (m : mat3 RS) : R :=
  sqrt (sq (entry m 0 0) + sq (entry m 0 1) + sq (entry m 0 2) + sq (entry m 1 0) + sq (entry m 1 1) + sq (entry m 1 2)
        + sq (entry m 2 0) + sq (entry m 2 1) + sq (entry m 2 2)).
(** the same of the six entries off the diagonal *)
Definition off (m : mat3 RS) : R :=
  sqrt (sq (entry m 0 1) + sq (entry m 0 2) + sq (entry m 1 0) + sq (entry m 1 2) + sq (entry m 2 0) + sq (entry m 2 1)).
(** sum of the magnitudes of the diagonal; trace *)
Definition diagsum (m : mat3 RS) : R := Rabs (entry m 0 0) + Rabs (entry m 1 1) + Rabs (entry m 2 2).
Definition trace (m : mat3 RS) : R := entry m 0 0 + entry m 1 1 + entry m 2 2.
Definition mminus (a b : mat3 RS) : mat3 RS :=
  let d i j := entry a i j - entry b i j in
  @M3 RS (@V3 RS (d 0 0 : R)%nat (d 0 1)%nat (d 0 2)%nat) (@V3 RS (d 1 0)%nat (d 1 1)%nat (d 1 2)%nat) (@V3 RS (d 2 0)%nat (d 2 1)%nat (d 2 2)%nat).
