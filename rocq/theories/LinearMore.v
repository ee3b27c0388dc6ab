(** * The rest of tf2/LinearMath: four-component vectors, serialization, selection and byte order

    tf2/include/tf2/LinearMath/Scalar.h, MinMax.h, Vector3.h, Matrix3x3.h and Transform.h, as far as
    [LinearMath], [LinearExtra] and [Diagonalize] leave them. *)
From Coq Require Import ZArith Bool List Floats.SpecFloat.
From Verif Require Import RosTime Scalar Instances LinearMath LinearExtra Single.
Import ListNotations.
Open Scope Z_scope.

(** ** integers of 32 bits, as numbers from 0 to 2^32 - 1 *)
(** the conversion of an unsigned to int (two's complement) *)
Definition to_int (u : Z) : Z := if u <? 2 ^ 31 then u else u - 2 ^ 32.
(** Scalar.h 263-272 tf2Select for unsigned values.  [-(int)condition] overflows for -2^31, which is
    undefined; [>>] on a negative int is the arithmetic shift the comment there asks for. *)
Definition tf2Select_unsigned (condition valueIfConditionNonZero valueIfConditionZero : Z) : res Z :=
  let c := to_int condition in
  if c =? - 2 ^ 31 then UB
  else
    let testNz := Z.shiftr (Z.lor c (- c)) 31 mod 2 ^ 32 in
    let testEqz := Z.lnot testNz mod 2 ^ 32 in
    Ok (Z.lor (Z.land valueIfConditionNonZero testNz) (Z.land valueIfConditionZero testEqz)).
(** Scalar.h 273-278 tf2Select for ints: they are converted to unsigned and back *)
Definition tf2Select_int (condition valueIfConditionNonZero valueIfConditionZero : Z) : res Z :=
  let c := to_int condition in
  if c =? - 2 ^ 31 then UB
  else
    let testNz := Z.shiftr (Z.lor c (- c)) 31 mod 2 ^ 32 in
    let testEqz := Z.lnot testNz mod 2 ^ 32 in
    Ok (to_int (Z.lor (Z.land (valueIfConditionNonZero mod 2 ^ 32) testNz) (Z.land (valueIfConditionZero mod 2 ^ 32) testEqz))).
(** Scalar.h 279-286 tf2Select for floats (TF2_HAVE_NATIVE_FSEL is not defined) *)
Definition tf2Select_float {A} (condition : Z) (valueIfConditionNonZero valueIfConditionZero : A) : A :=
  if negb (condition =? 0) then valueIfConditionNonZero else valueIfConditionZero.

(** Scalar.h 297-300 tf2SwapEndian(unsigned), and 307-310 for int, which converts to unsigned *)
Definition tf2SwapEndian32 (val : Z) : Z :=
  Z.lor (Z.lor (Z.lor (Z.shiftr (Z.land val 4278190080) 24) (Z.shiftr (Z.land val 16711680) 8)) (Z.shiftl (Z.land val 65280) 8)) (Z.shiftl (Z.land val 255) 24).
(** Scalar.h 302-305 tf2SwapEndian(unsigned short), and 312-315 for short *)
Definition tf2SwapEndian16 (val : Z) : Z := Z.lor (Z.shiftr (Z.land val 65280) 8) (Z.shiftl (Z.land val 255) 8).

(** The bytes of an object of [n] bytes on a little-endian machine, and the object with given bytes *)
Fixpoint bytes_of (n : nat) (v : Z) : list Z := match n with O => [] | Datatypes.S n' => v mod 256 :: bytes_of n' (v / 256) end.
Fixpoint of_bytes (l : list Z) : Z := match l with [] => 0 | b :: l' => b + 256 * of_bytes l' end.
(** dst[0] = src[3]; ... dst[3] = src[0]; and the like with 8 bytes *)
Definition nth_byte (l : list Z) (i : nat) : Z := nth i l 0.
(** Scalar.h 323-334 tf2SwapEndianFloat *)
Definition tf2SwapEndianFloat (d : f32) : Z :=
  let src := bytes_of 4 (bits32 d) in of_bytes [nth_byte src 3; nth_byte src 2; nth_byte src 1; nth_byte src 0].
(** Scalar.h 337-349 tf2UnswapEndianFloat *)
Definition tf2UnswapEndianFloat (a : Z) : f32 :=
  let src := bytes_of 4 a in of_bits32 (of_bytes [nth_byte src 3; nth_byte src 2; nth_byte src 1; nth_byte src 0]).
(** Scalar.h 353-366 tf2SwapEndianDouble, 369-384 tf2UnswapEndianDouble and Vector3.h 621-633 tf2SwapScalarEndian: the eight bytes of
    the double in the other order *)
Definition tf2SwapEndian64 (src : list Z) : list Z :=
  [nth_byte src 7; nth_byte src 6; nth_byte src 5; nth_byte src 4; nth_byte src 3; nth_byte src 2; nth_byte src 1; nth_byte src 0].

(** ** four components *)
Record quad (A : Type) := W4 { w0 : A; w1 : A; w2 : A; w3 : A }.
Arguments W4 {A}. Arguments w0 {A}. Arguments w1 {A}. Arguments w2 {A}. Arguments w3 {A}.
Definition qmap {A B} (f : A -> B) (q : quad A) : quad B := W4 (f (w0 q)) (f (w1 q)) (f (w2 q)) (f (w3 q)).

Section More.
Context {S : Scalar}.
Open Scope S_scope.
Implicit Types (a b eps lb ub : S) (q : quad S).

(** Scalar.h 161 TF2_LARGE_FLOAT *)
Definition large_float : S := slit (10 ^ 30) 1.
(** Vector3.h 505-512 tf2Vector4::absolute4 *)
Definition absolute4 q : quad S := W4 (sabs (w0 q)) (sabs (w1 q)) (sabs (w2 q)) (sabs (w3 q)).
(** Vector3.h 519-548 tf2Vector4::maxAxis4 ([a > b] is [b < a]) *)
Definition maxAxis4 q : Z :=
  let '(maxIndex, maxVal) := ((-1)%Z, sopp large_float) in
  let '(maxIndex, maxVal) := if sltb maxVal (w0 q) then (0%Z, w0 q) else (maxIndex, maxVal) in
  let '(maxIndex, maxVal) := if sltb maxVal (w1 q) then (1%Z, w1 q) else (maxIndex, maxVal) in
  let '(maxIndex, maxVal) := if sltb maxVal (w2 q) then (2%Z, w2 q) else (maxIndex, maxVal) in
  if sltb maxVal (w3 q) then 3%Z else maxIndex.
(** Vector3.h 551-577 tf2Vector4::minAxis4 *)
Definition minAxis4 q : Z :=
  let '(minIndex, minVal) := ((-1)%Z, large_float) in
  let '(minIndex, minVal) := if sltb (w0 q) minVal then (0%Z, w0 q) else (minIndex, minVal) in
  let '(minIndex, minVal) := if sltb (w1 q) minVal then (1%Z, w1 q) else (minIndex, minVal) in
  let '(minIndex, minVal) := if sltb (w2 q) minVal then (2%Z, w2 q) else (minIndex, minVal) in
  if sltb (w3 q) minVal then 3%Z else minIndex.
(** Vector3.h 580-583 tf2Vector4::closestAxis4 *)
Definition closestAxis4 q : Z := maxAxis4 (absolute4 q).

(** MinMax.h 21-31 tf2Min and tf2Max *)
Definition tf2Min a b : S := if sltb a b then a else b.
Definition tf2Max a b : S := if sltb b a then a else b.
(** MinMax.h 33-37 GEN_clamped *)
Definition GEN_clamped a lb ub : S := if sltb a lb then lb else if sltb ub a then ub else a.
(** MinMax.h 57-68 GEN_clamp *)
Definition GEN_clamp a lb ub : S := if sltb a lb then lb else if sltb ub a then ub else a.
(** Scalar.h 221 tf2FuzzyZero *)
Definition tf2FuzzyZero a : bool := sltb (sabs a) seps.
(** Scalar.h 223-225 tf2Equal *)
Definition tf2Equal a eps : bool := sleb a eps && negb (sltb a (sopp eps)).
(** Scalar.h 226-228 tf2GreaterEqual *)
Definition tf2GreaterEqual a eps : bool := negb (sleb a eps).
(** Scalar.h 231-233 tf2IsNegative *)
Definition tf2IsNegative a : Z := if sltb a (slit 0 1) then 1%Z else 0%Z.
(** Scalar.h 192 TF2SIMD_2_PI, 195-196, 235-236: [spi] stands for half of TF2SIMD_2_PI *)
Definition two_pi : S := slit 2 1 * spi.
Definition tf2Radians a : S := a * (two_pi / slit 360 1).
Definition tf2Degrees a : S := a * (slit 360 1 / two_pi).
(** Scalar.h 241-244 tf2Fsel *)
Definition tf2Fsel {A} a (b c : A) : A := if sleb (slit 0 1) a then b else c.
(** Scalar.h 205-219 tf2Atan2Fast *)
Definition tf2Atan2Fast (y x : S) : S :=
  let coeff_1 := spi / slit 4 1 in
  let coeff_2 := slit 3 1 * coeff_1 in
  let abs_y := sabs y in
  let angle :=
    if sleb (slit 0 1) x then let r := (x - abs_y) / (x + abs_y) in coeff_1 - coeff_1 * r
    else let r := (x + abs_y) / (abs_y - x) in coeff_2 - coeff_1 * r in
  if sltb y (slit 0 1) then sopp angle else angle.
End More.

(** ** serialization *)
(** A Vector3 is four numbers: its constructors and setValue set the fourth to 0 (Vector3.h 78-84, 283-289) *)
Definition rows (A : Type) := (quad A * quad A * quad A)%type.
Record frame (A : Type) := mkFrame { fr_basis : rows A; fr_origin : quad A }.
Arguments mkFrame {A}. Arguments fr_basis {A}. Arguments fr_origin {A}.
Definition rmap {A B} (f : quad A -> quad B) (m : rows A) : rows B := let '(a, b, c) := m in (f a, f b, f c).
(** Vector3.h 716-728 serialize, deSerialize, and 702-714 serializeDouble, deSerializeDouble: copies *)
Definition vserialize {A} (v : quad A) : quad A := qmap (fun x => x) v.
Definition vdeSerialize {A} (v : quad A) : quad A := qmap (fun x => x) v.
(** the conversion of a float to double, which is exact: the same number with the mantissa shifted into place *)
Definition widen64 (x : f32) : f64 := match x with S754_finite s m e => binary_round prec64 emax64 s m e | _ => x end.
(** Vector3.h 688-699 serializeFloat, deSerializeFloat *)
Definition vserializeFloat (v : quad f64) : quad f32 := qmap narrow32 v.
Definition vdeSerializeFloat (v : quad f32) : quad f64 := qmap widen64 v.
(** Matrix3x3.h 663-692: row by row *)
Definition mserialize {A} (m : rows A) : rows A := rmap vserialize m.
Definition mdeSerialize {A} (m : rows A) : rows A := rmap vdeSerialize m.
Definition mserializeFloat (m : rows f64) : rows f32 := rmap vserializeFloat m.
Definition mdeSerializeFloat (m : rows f32) : rows f64 := rmap vdeSerializeFloat m.
(** Transform.h 266-295 *)
Definition xserialize {A} (t : frame A) : frame A := mkFrame (mserialize (fr_basis t)) (vserialize (fr_origin t)).
Definition xdeSerialize {A} (t : frame A) : frame A := mkFrame (mdeSerialize (fr_basis t)) (vdeSerialize (fr_origin t)).
Definition xserializeFloat (t : frame f64) : frame f32 := mkFrame (mserializeFloat (fr_basis t)) (vserializeFloat (fr_origin t)).
Definition xdeSerializeFloat (t : frame f32) : frame f64 := mkFrame (mdeSerializeFloat (fr_basis t)) (vdeSerializeFloat (fr_origin t)).
(** the numbers a frame is made of *)
Definition numbers4 {A} (v : quad A) : list A := [w0 v; w1 v; w2 v; w3 v].
Definition numbers {A} (t : frame A) : list A :=
  let '(a, b, c) := fr_basis t in numbers4 a ++ numbers4 b ++ numbers4 c ++ numbers4 (fr_origin t).
