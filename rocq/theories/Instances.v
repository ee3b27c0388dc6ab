(** * Scalar instances

    - [RS]: Coq's real numbers, for geometric laws.
    - [F64]: IEEE-754 binary64 with round-to-nearest-even (Coq's SpecFloat, computable and
      axiom free), for NaN/infinity statements and witnesses.  The transcendental functions
      of libm are not specified by IEEE-754: they are a parameter. *)
From Coq Require Import ZArith Bool Reals Floats.SpecFloat.
From Verif Require Import Scalar.

(** ** Real numbers *)
Open Scope R_scope.

Definition Rltb (a b : R) : bool := if Rlt_dec a b then true else false.
Definition Reqb (a b : R) : bool := if Req_EM_T a b then true else false.

(** std::atan2 on reals (C standard, F.10.1.4, without signed zeros) *)
Definition Ratan2 (y x : R) : R :=
  if Rlt_dec 0 x then atan (y / x)
  else if Rlt_dec x 0 then
    (if Rle_dec 0 y then atan (y / x) + PI else atan (y / x) - PI)
  else if Rlt_dec 0 y then PI / 2
  else if Rlt_dec y 0 then - (PI / 2)
  else 0.

Definition RS : Scalar := {|
  scar := R;
  slit := fun n d => IZR n / IZR d;
  sadd := Rplus; ssub := Rminus; smul := Rmult; sdiv := Rdiv; sopp := Ropp;
  sabs := Rabs; ssqrt := sqrt; ssin := sin; scos := cos; sacos := acos; sasin := asin;
  satan2 := Ratan2; sltb := Rltb; seqb := Reqb; sisnan := fun _ => false;
  sofns := fun n => IZR n / IZR (10 ^ 9);
  spi := PI |}.

(** ** binary64 *)
Definition prec64 : Z := 53%Z.
Definition emax64 : Z := 1024%Z.
Definition f64 := spec_float.

Record libm := mkLibm {
  lm_sin : f64 -> f64; lm_cos : f64 -> f64; lm_acos : f64 -> f64; lm_asin : f64 -> f64;
  lm_atan2 : f64 -> f64 -> f64
}.

(** an integer, correctly rounded *)
Definition f64_of_Z (n : Z) : f64 := binary_normalize prec64 emax64 n 0 false.

Definition f64_isnan (x : f64) : bool := match x with S754_nan => true | _ => false end.

(** ros::DurationBase::toSec: sec + 1e-9 * nsec, both converted to double (rostime) *)
Definition f64_ofns (n : Z) : f64 :=
  SFadd prec64 emax64 (f64_of_Z (n / 10 ^ 9))
    (SFmul prec64 emax64 (SFdiv prec64 emax64 (f64_of_Z 1) (f64_of_Z (10 ^ 9)))
       (f64_of_Z (n mod 10 ^ 9))).

Definition F64 (lm : libm) : Scalar := {|
  scar := f64;
  slit := fun n d => SFdiv prec64 emax64 (f64_of_Z n) (f64_of_Z d);
  sadd := SFadd prec64 emax64; ssub := SFsub prec64 emax64; smul := SFmul prec64 emax64;
  sdiv := SFdiv prec64 emax64; sopp := SFopp; sabs := SFabs; ssqrt := SFsqrt prec64 emax64;
  ssin := lm_sin lm; scos := lm_cos lm; sacos := lm_acos lm; sasin := lm_asin lm;
  satan2 := lm_atan2 lm; sltb := SFltb; seqb := SFeqb; sisnan := f64_isnan;
  sofns := f64_ofns;
  (* M_PI = 884279719003555 * 2^-48 = 7074237752028440 * 2^-51 *)
  spi := S754_finite false 7074237752028440 (-51) |}.

(** A stand-in libm for examples that do not depend on transcendental functions. *)
Definition libm0 : libm := {|
  lm_sin := fun x => x; lm_cos := fun _ => S754_finite false 4503599627370496 (-52);
  lm_acos := fun _ => S754_zero false; lm_asin := fun x => x;
  lm_atan2 := fun _ _ => S754_zero false |}.
