(** * Specification vocabulary for rounding in binary32 *)
From Coq Require Import ZArith Bool Reals Floats.SpecFloat.
From Verif Require Import Scalar Instances Single.
Open Scope R_scope.

(** A float that is neither an infinity nor a NaN; [valid_binary] is Coq's description of the
    mantissa/exponent pairs a format has.  [SpecRound.val] is the number it stands for. *)
Definition finite32 (x : f32) : Prop :=
  match x with
  | S754_zero _ => True
  | S754_finite _ _ _ => valid_binary prec32 emax32 x = true
  | _ => False
  end.
(** unit roundoff of binary32, and half its smallest positive number *)
Definition u32 : R := / IZR (2 ^ 24).
Definition eta32 : R := / IZR (2 ^ 150).
