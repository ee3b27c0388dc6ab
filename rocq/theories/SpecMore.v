(** * Specification vocabulary for C97 *)
From Coq Require Import ZArith Bool Reals List.
From Verif Require Import Instances Single LinearMore.
Import ListNotations.
Open Scope R_scope.

(** [k] is the position of the first greatest of the numbers that exceed [-10^30]; -1 if none does *)
Definition first_greatest (l : list R) (k : Z) : Prop :=
  (k = (-1)%Z /\ forall x, In x l -> x <= - (10 ^ 30)) \/
  exists n m, k = Z.of_nat n /\ nth_error l n = Some m /\ - (10 ^ 30) < m /\
    (forall x, In x l -> x <= m) /\ forall j x, (j < n)%nat -> nth_error l j = Some x -> x < m.
(** the same for the least and [10^30] *)
Definition first_least (l : list R) (k : Z) : Prop :=
  (k = (-1)%Z /\ forall x, In x l -> 10 ^ 30 <= x) \/
  exists n m, k = Z.of_nat n /\ nth_error l n = Some m /\ m < 10 ^ 30 /\
    (forall x, In x l -> m <= x) /\ forall j x, (j < n)%nat -> nth_error l j = Some x -> m < x.
