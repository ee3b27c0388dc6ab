(** * binary32, the type of the coordinates of a point cloud

    [F32]: IEEE-754 binary32 with round-to-nearest-even, as [F64] is binary64.  [narrow32]: the
    conversion of a double to float (C++ [conv.double]: the nearest float where the machine
    follows IEEE-754).  [enc32] and [dec32]: the four bytes of a float, little-endian, as
    [*reinterpret_cast<float*>] reads and writes them on such a machine.  This is the instance
    of [SensorMsgs]'s [narrow], [dec] and [enc] for tf2_sensor_msgs.h 66-94. *)
From Coq Require Import ZArith Bool List Floats.SpecFloat.
From Flocq Require Import IEEE754.Bits.
From Verif Require Import Scalar Instances.
Import ListNotations.
Open Scope Z_scope.

Definition prec32 : Z := 24.
Definition emax32 : Z := 128.
Definition f32 := spec_float.
Definition f32_of_Z (n : Z) : f32 := binary_normalize prec32 emax32 n 0 false.
Definition F32 (lm : libm) : Scalar := {|
  scar := f32;
  slit := fun n d => SFdiv prec32 emax32 (f32_of_Z n) (f32_of_Z d);
  sadd := SFadd prec32 emax32; ssub := SFsub prec32 emax32; smul := SFmul prec32 emax32;
  sdiv := SFdiv prec32 emax32; sopp := SFopp; sabs := SFabs; ssqrt := SFsqrt prec32 emax32;
  ssin := lm_sin lm; scos := lm_cos lm; sacos := lm_acos lm; sasin := lm_asin lm;
  satan2 := lm_atan2 lm; sltb := SFltb; seqb := SFeqb; sisnan := f64_isnan;
  (* no point cloud code uses these two *)
  sofns := fun n => SFdiv prec32 emax32 (f32_of_Z n) (f32_of_Z (10 ^ 9));
  spi := S754_finite false 13176795 (-22) |}.

Definition narrow32 (x : f64) : f32 :=
  match x with
  | S754_finite s m e => binary_round prec32 emax32 s m e
  | _ => x
  end.

(** The 32 bits: sign, 8 bits of exponent, 23 of mantissa (Flocq's join_bits); a NaN is the quiet
    one with no payload. *)
Definition bits32 (x : f32) : Z :=
  match x with
  | S754_zero s => join_bits 23 8 s 0 0
  | S754_infinity s => join_bits 23 8 s 0 255
  | S754_nan => join_bits 23 8 false (2 ^ 22) 255
  | S754_finite s m e =>
      if 2 ^ 23 <=? Zpos m then join_bits 23 8 s (Zpos m - 2 ^ 23) (e + 150) else join_bits 23 8 s (Zpos m) 0
  end.
Definition of_bits32 (n : Z) : f32 :=
  let '(s, m, e) := split_bits 23 8 n in
  if e =? 0 then match m with Zpos p => S754_finite s p (-149) | _ => S754_zero s end
  else if e =? 255 then if m =? 0 then S754_infinity s else S754_nan
  else match m + 2 ^ 23 with Zpos p => S754_finite s p (e - 150) | _ => S754_nan end.
(** four bytes, each a number from 0 to 255 *)
Definition enc32 (x : f32) : list Z :=
  let n := bits32 x in [n mod 256; n / 256 mod 256; n / 65536 mod 256; n / 16777216 mod 256].
Definition dec32 (l : list Z) : f32 :=
  match l with
  | [a; b; c; d] => of_bits32 (a + 256 * b + 65536 * c + 16777216 * d)
  | _ => S754_nan
  end.

(** [dec32] reads what [enc32] wrote *)
Lemma bytes_back : forall n, 0 <= n < 2 ^ 32 ->
  n mod 256 + 256 * (n / 256 mod 256) + 65536 * (n / 65536 mod 256) + 16777216 * (n / 16777216 mod 256) = n.
Proof.
  intros n Hn. assert (D : n / 16777216 < 256) by (apply Z.div_lt_upper_bound; [reflexivity|exact (proj2 Hn)]).
  rewrite (Z.mod_small (n / 16777216)) by (split; [apply Z.div_pos; [exact (proj1 Hn)|reflexivity]|exact D]).
  pose proof (Z.div_mod n 256 ltac:(discriminate)) as E1. pose proof (Z.div_mod (n / 256) 256 ltac:(discriminate)) as E2. pose proof (Z.div_mod (n / 65536) 256 ltac:(discriminate)) as E3.
  rewrite Z.div_div in E2 by (discriminate || reflexivity). rewrite Z.div_div in E3 by (discriminate || reflexivity).
  change (256 * 256) with 65536 in E2. change (65536 * 256) with 16777216 in E3.
  rewrite E1 at 5. rewrite E2 at 2. rewrite E3 at 2. ring.
Qed.
