(** * tf2Scalar

    tf2/include/tf2/LinearMath/Scalar.h 159-183: tf2Scalar is [double].
    The model is parametric in the scalar type: a record of operations with NO laws.
    Theorems stated for every [S : Scalar] therefore hold for IEEE-754 doubles with any
    libm; theorems about geometry instantiate [S] with the real numbers. *)
From Coq Require Import ZArith Bool.

Record Scalar := mkScalar {
  scar :> Type;
  slit : Z -> Z -> scar;            (* literal n/d, correctly rounded *)
  sadd : scar -> scar -> scar;
  ssub : scar -> scar -> scar;
  smul : scar -> scar -> scar;
  sdiv : scar -> scar -> scar;
  sopp : scar -> scar;
  sabs : scar -> scar;
  ssqrt : scar -> scar;             (* Scalar.h 177 *)
  ssin : scar -> scar;              (* Scalar.h 180 *)
  scos : scar -> scar;              (* Scalar.h 179 *)
  sacos : scar -> scar;             (* std::acos, before the clamp of Scalar.h 182 *)
  sasin : scar -> scar;             (* std::asin, before the clamp of Scalar.h 183 *)
  satan2 : scar -> scar -> scar;    (* Scalar.h 185 *)
  sltb : scar -> scar -> bool;      (* a < b *)
  seqb : scar -> scar -> bool;      (* a == b *)
  sisnan : scar -> bool;
  sofns : Z -> scar;                (* ros::Duration::toSec of a nanosecond count *)
  spi : scar                        (* M_PI / TF2SIMD_PI *)
}.
Arguments slit {_} _ _.
Arguments sadd {_} _ _.
Arguments ssub {_} _ _.
Arguments smul {_} _ _.
Arguments sdiv {_} _ _.
Arguments sopp {_} _.
Arguments sabs {_} _.
Arguments ssqrt {_} _.
Arguments ssin {_} _.
Arguments scos {_} _.
Arguments sacos {_} _.
Arguments sasin {_} _.
Arguments satan2 {_} _ _.
Arguments sltb {_} _ _.
Arguments seqb {_} _ _.
Arguments sisnan {_} _.
Arguments sofns {_} _.
Arguments spi {_}.

Declare Scope S_scope.
Delimit Scope S_scope with S.
Infix "+" := sadd : S_scope.
Infix "-" := ssub : S_scope.
Infix "*" := smul : S_scope.
Infix "/" := sdiv : S_scope.
Notation "- x" := (sopp x) : S_scope.
Infix "<?" := sltb : S_scope.
Infix "=?" := seqb : S_scope.
(** a > b and a >= b in C++ terms; for NaN all comparisons are false, so
    [a >= b] is [b < a || a == b], not the negation of [a < b]. *)
Definition sgtb {S : Scalar} (a b : S) : bool := sltb b a.
Definition sgeb {S : Scalar} (a b : S) : bool := orb (sltb b a) (seqb a b).

Definition szero {S : Scalar} : S := slit 0 1.
Definition sone {S : Scalar} : S := slit 1 1.
