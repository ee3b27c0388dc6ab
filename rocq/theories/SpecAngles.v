(** * Specification vocabulary: angles in binary64 *)
From Coq Require Import ZArith Reals Floats.SpecFloat.
From Verif Require Import Scalar LinearMath Instances SpecRound.
Open Scope R_scope.

(** sin and cos of the C library are right to within four units in the last place of 1, for every
    finite angle. *)
Definition accurate_trig (lm : libm) : Prop :=
  forall x, finite x ->
    (finite (lm_sin lm x) /\ Rabs (val (lm_sin lm x) - sin (val x)) <= 4 * uro) /\
    (finite (lm_cos lm x) /\ Rabs (val (lm_cos lm x) - cos (val x)) <= 4 * uro).
(** The rotation by three angles, exactly. *)
Definition exact_rpy (roll pitch yaw : f64) : quat RS := @qfromRPY RS (val roll) (val pitch) (val yaw).
