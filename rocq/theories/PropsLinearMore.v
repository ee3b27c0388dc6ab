(** * C97: the rest of LinearMath *)
From Coq Require Import ZArith Bool Reals List Floats.SpecFloat Lia Lra Psatz.
From Flocq Require Import Zaux Raux Defs Float_prop Generic_fmt FLT Round_NE BinarySingleNaN Bits.
From Verif Require Import RosTime Scalar Instances LinearMath LinearExtra DiagProofs RealSlerp RealEuler SpecRound FloatErr Single SpecSingle SingleErr SingleOps LinearMore LinearMoreProofs SerialProofs Atan2Fast SpecMore ExampleBuffers.
Import ListNotations.
Open Scope Z_scope.

(** tf2Select chooses; it is undefined for exactly one condition, 2^31. *)
Theorem C97_select : forall c, 0 <= c < 2 ^ 32 ->
  (c <> 2 ^ 31 ->
    (forall a b, 0 <= a < 2 ^ 32 -> 0 <= b < 2 ^ 32 -> tf2Select_unsigned c a b = Ok (if c =? 0 then b else a)) /\
    (forall a b, - 2 ^ 31 <= a < 2 ^ 31 -> - 2 ^ 31 <= b < 2 ^ 31 -> tf2Select_int c a b = Ok (if c =? 0 then b else a))) /\
  (forall (A : Type) (a b : A), tf2Select_float c a b = if c =? 0 then b else a).
Proof.
  intros c H. split; [intros Ne; split; intros a b; [apply select_ok|apply select_int_ok]; assumption|].
  intros A a b. unfold tf2Select_float. destruct (c =? 0); reflexivity.
Qed.
Print Assumptions C97_select.
Theorem C97_select_total_refuted : forall a b, tf2Select_unsigned (2 ^ 31) a b = UB /\ tf2Select_int (2 ^ 31) a b = UB.
Proof. intros a b. split; reflexivity. Qed.
Print Assumptions C97_select_total_refuted.

(** The byte-order functions reverse the bytes; doing it twice gives the number back. *)
Theorem C97_byte_order :
  (forall v, 0 <= v < 2 ^ 32 -> bytes_of 4 (tf2SwapEndian32 v) = rev (bytes_of 4 v) /\ tf2SwapEndian32 (tf2SwapEndian32 v) = v) /\
  (forall v, 0 <= v < 2 ^ 16 -> bytes_of 2 (tf2SwapEndian16 v) = rev (bytes_of 2 v) /\ tf2SwapEndian16 (tf2SwapEndian16 v) = v) /\
  (forall d, valid_binary prec32 emax32 d = true -> tf2SwapEndianFloat d = tf2SwapEndian32 (bits32 d) /\ tf2UnswapEndianFloat (tf2SwapEndianFloat d) = d) /\
  (forall l, List.length l = 8%nat -> tf2SwapEndian64 l = rev l /\ tf2SwapEndian64 (tf2SwapEndian64 l) = l).
Proof.
  assert (R32 : forall v, 0 <= v < 2 ^ 32 -> 0 <= tf2SwapEndian32 v < 2 ^ 32).
  { intros v H. rewrite swap32_sum by exact H. pose proof (Z.mod_pos_bound (v / 2 ^ 24) 256 eq_refl). pose proof (Z.mod_pos_bound (v / 2 ^ 16) 256 eq_refl). pose proof (Z.mod_pos_bound (v / 2 ^ 8) 256 eq_refl). pose proof (Z.mod_pos_bound v 256 eq_refl). lia. }
  assert (R16 : forall v, 0 <= v < 2 ^ 16 -> 0 <= tf2SwapEndian16 v < 2 ^ 16).
  { intros v H. rewrite swap16_sum by exact H. pose proof (Z.mod_pos_bound (v / 2 ^ 8) 256 eq_refl). pose proof (Z.mod_pos_bound v 256 eq_refl). lia. }
  split; [|split; [|split]].
  - intros v H. split; [apply swap32_bytes, H|]. rewrite <- (of_bytes_of 4 (tf2SwapEndian32 (tf2SwapEndian32 v))) by (apply R32, R32, H).
    rewrite swap32_bytes by (apply R32, H). rewrite swap32_bytes by exact H. rewrite rev_involutive. apply of_bytes_of. exact H.
  - intros v H. split; [apply swap16_bytes, H|]. rewrite <- (of_bytes_of 2 (tf2SwapEndian16 (tf2SwapEndian16 v))) by (apply R16, R16, H).
    rewrite swap16_bytes by (apply R16, H). rewrite swap16_bytes by exact H. rewrite rev_involutive. apply of_bytes_of. exact H.
  - intros d V. destruct (bits_range d V) as (R1 & B).
    assert (E : tf2SwapEndianFloat d = tf2SwapEndian32 (bits32 d)).
    { unfold tf2SwapEndianFloat. rewrite <- (of_bytes_of 4 (tf2SwapEndian32 (bits32 d))) by (apply R32, R1). rewrite swap32_bytes by exact R1. reflexivity. }
    split; [exact E|]. rewrite E. unfold tf2UnswapEndianFloat. cbv zeta. rewrite swap32_bytes by exact R1. transitivity (of_bits32 (bits32 d)); [|exact B]. apply (f_equal of_bits32).
    destruct (bytes_are 4 (bits32 d)) as [L F]. transitivity (of_bytes (bytes_of 4 (bits32 d))); [|apply of_bytes_of; exact R1]. revert L. generalize (bytes_of 4 (bits32 d)). intros l L. do 4 (destruct l as [|? l]; [discriminate L|]). destruct l; [reflexivity|discriminate L].
  - intros l L. do 8 (destruct l as [|? l]; [discriminate L|]). destruct l; [|discriminate L]. split; reflexivity.
Qed.
Print Assumptions C97_byte_order.

(** ** the axes of a tf2Vector4 *)
Open Scope R_scope.
Lemma big30 : @large_float RS = 10 ^ 30.
Proof. unfold large_float. runf. unfold Rdiv. rewrite Rinv_1, Rmult_1_r. rewrite (pow_IZR 10 30). reflexivity. Qed.
Lemma ltb_RS : forall a b : RS, sltb a b = true <-> a < b.
Proof. intros a b. cbn [RS sltb]. unfold Rltb. destruct (Rlt_dec a b); split; intros; try assumption; try reflexivity; try discriminate; contradiction. Qed.
Theorem C97_axes : forall q : quad RS,
  first_greatest (numbers4 q) (maxAxis4 q) /\ first_least (numbers4 q) (minAxis4 q) /\
  first_greatest (numbers4 (qmap Rabs q)) (closestAxis4 q) /\ (0 <= closestAxis4 q <= 3)%Z.
Proof.
  assert (GG : forall q : quad RS, first_greatest (numbers4 q) (maxAxis4 q)).
  { intros [a b c d]. unfold maxAxis4, numbers4, first_greatest. cbn [w0 w1 w2 w3]. rewrite big30. cbn [RS sltb sopp scar]. unfold Rltb. set (B := 10 ^ 30). clearbody B.
    repeat (match goal with |- context [Rlt_dec ?x ?y] => destruct (Rlt_dec x y) end);
    try (left; split; [reflexivity|]; cbn [In]; intros x [E|[E|[E|[E|[]]]]]; lra);
    right;
    try (exists 3%nat, d; split; [reflexivity|]; split; [reflexivity|]; split; [lra|]; split; [cbn [In]; intros x [E|[E|[E|[E|[]]]]]; lra|]; intros [|[|[|[|j]]]] x L E; cbn [nth_error] in E; try (exfalso; lia); injection E as <-; lra);
    try (exists 2%nat, c; split; [reflexivity|]; split; [reflexivity|]; split; [lra|]; split; [cbn [In]; intros x [E|[E|[E|[E|[]]]]]; lra|]; intros [|[|[|[|j]]]] x L E; cbn [nth_error] in E; try (exfalso; lia); injection E as <-; lra);
    try (exists 1%nat, b; split; [reflexivity|]; split; [reflexivity|]; split; [lra|]; split; [cbn [In]; intros x [E|[E|[E|[E|[]]]]]; lra|]; intros [|[|[|[|j]]]] x L E; cbn [nth_error] in E; try (exfalso; lia); injection E as <-; lra);
    (exists 0%nat, a; split; [reflexivity|]; split; [reflexivity|]; split; [lra|]; split; [cbn [In]; intros x [E|[E|[E|[E|[]]]]]; lra|]; intros [|[|[|[|j]]]] x L E; cbn [nth_error] in E; try (exfalso; lia); injection E as <-; lra). }
  intros q. split; [apply GG|]. split.
  - destruct q as [a b c d]. unfold minAxis4, numbers4, first_least. cbn [w0 w1 w2 w3]. rewrite big30. cbn [RS sltb scar]. unfold Rltb. set (B := 10 ^ 30). clearbody B.
    repeat (match goal with |- context [Rlt_dec ?x ?y] => destruct (Rlt_dec x y) end);
    try (left; split; [reflexivity|]; cbn [In]; intros x [E|[E|[E|[E|[]]]]]; lra);
    right;
    try (exists 3%nat, d; split; [reflexivity|]; split; [reflexivity|]; split; [lra|]; split; [cbn [In]; intros x [E|[E|[E|[E|[]]]]]; lra|]; intros [|[|[|[|j]]]] x L E; cbn [nth_error] in E; try (exfalso; lia); injection E as <-; lra);
    try (exists 2%nat, c; split; [reflexivity|]; split; [reflexivity|]; split; [lra|]; split; [cbn [In]; intros x [E|[E|[E|[E|[]]]]]; lra|]; intros [|[|[|[|j]]]] x L E; cbn [nth_error] in E; try (exfalso; lia); injection E as <-; lra);
    try (exists 1%nat, b; split; [reflexivity|]; split; [reflexivity|]; split; [lra|]; split; [cbn [In]; intros x [E|[E|[E|[E|[]]]]]; lra|]; intros [|[|[|[|j]]]] x L E; cbn [nth_error] in E; try (exfalso; lia); injection E as <-; lra);
    (exists 0%nat, a; split; [reflexivity|]; split; [reflexivity|]; split; [lra|]; split; [cbn [In]; intros x [E|[E|[E|[E|[]]]]]; lra|]; intros [|[|[|[|j]]]] x L E; cbn [nth_error] in E; try (exfalso; lia); injection E as <-; lra).
  - assert (G : first_greatest (numbers4 (qmap Rabs q)) (closestAxis4 q)) by exact (GG (absolute4 q)). split; [exact G|].
    destruct G as [(_ & H)|(n & m & -> & N & _)].
    + exfalso. assert (I : In (Rabs (w0 q)) (numbers4 (qmap Rabs q))) by (left; reflexivity). apply H in I. pose proof (Rabs_pos (w0 q)). pose proof (pow_lt 10 30 ltac:(lra)). lra.
    + assert (L : (n < 4)%nat) by (change 4%nat with (List.length (numbers4 (qmap Rabs q))); apply nth_error_Some; rewrite N; discriminate). lia.
Qed.
Print Assumptions C97_axes.

(** ** small scalar functions *)
Theorem C97_scalar_functions : forall a b eps lb ub : R,
  (@tf2Min RS a b = Rmin a b /\ @tf2Max RS a b = Rmax a b) /\
  (lb <= ub -> @GEN_clamped RS a lb ub = @GEN_clamp RS a lb ub /\ lb <= @GEN_clamped RS a lb ub <= ub /\ (lb <= a <= ub -> @GEN_clamped RS a lb ub = a)) /\
  (@tf2FuzzyZero RS a = true <-> Rabs a < / 2 ^ 52) /\
  (@tf2Equal RS a eps = true <-> Rabs a <= eps) /\
  (@tf2IsNegative RS a = 1%Z <-> a < 0) /\
  (@tf2Degrees RS (@tf2Radians RS a) = a /\ @tf2Radians RS (@tf2Degrees RS a) = a /\ @tf2Radians RS 180 = PI) /\
  (@tf2Fsel RS R a b eps = if Rle_dec 0 a then b else eps).
Proof.
  intros a b eps lb ub. pose proof PI_RGT_0 as P0. split; [|split; [|split; [|split; [|split; [|split]]]]].
  - unfold tf2Min, tf2Max. cbn [RS sltb scar]. unfold Rltb, Rmin, Rmax. split.
    + destruct (Rlt_dec a b), (Rle_dec a b); try reflexivity; cbn [RS scar] in *; lra.
    + destruct (Rlt_dec b a), (Rle_dec a b); try reflexivity; cbn [RS scar] in *; lra.
  - intros L. split; [reflexivity|]. unfold GEN_clamped. cbn [RS sltb scar]. unfold Rltb. destruct (Rlt_dec a lb); [split; [|intros]; lra|]. destruct (Rlt_dec ub a); split; [|intros| |intros]; lra.
  - unfold tf2FuzzyZero, seps. rewrite ltb_RS. runf. replace (1 / 4503599627370496) with (/ 2 ^ 52) by (replace (2 ^ 52) with 4503599627370496 by (rewrite (pow_IZR 2 52); reflexivity); lra). tauto.
  - unfold tf2Equal. rewrite andb_true_iff, negb_true_iff, (sleb_RS a eps). cbn [RS sltb sopp scar]. unfold Rltb. destruct (Rlt_dec a (- eps)); split.
    + intros [_ E]. discriminate E.
    + intros H. apply Rabs_le_inv in H. exfalso. lra.
    + intros [H _]. apply Rabs_le. lra.
    + intros H. apply Rabs_le_inv in H. split; [lra|reflexivity].
  - unfold tf2IsNegative. cbn [RS sltb slit scar]. unfold Rltb. destruct (Rlt_dec a (0 / 1)); split; intros; try reflexivity; try discriminate; try lra.
  - unfold tf2Degrees, tf2Radians, two_pi. runf. split; [|split]; field; lra.
  - unfold tf2Fsel. destruct (sleb (slit 0 1 : RS) a) eqn:E.
    + apply sleb_RS in E. cbn [RS slit scar] in E. destruct (Rle_dec 0 a); [reflexivity|lra].
    + apply sleb_RS_false in E. cbn [RS slit scar] in E. destruct (Rle_dec 0 a); [lra|reflexivity].
Qed.
Print Assumptions C97_scalar_functions.
(** "tf2GreaterEqual a b says whether a >= b": false, it is strict. *)
Theorem C97_greater_equal_refuted : (forall a b : R, @tf2GreaterEqual RS a b = true <-> b < a) /\ exists a : R, a >= a /\ @tf2GreaterEqual RS a a = false.
Proof.
  assert (H : forall a b : R, @tf2GreaterEqual RS a b = true <-> b < a).
  { intros a b. unfold tf2GreaterEqual. destruct (@sleb RS a b) eqn:E; [apply sleb_RS in E|apply sleb_RS_false in E]; cbn [negb]; split; intros; try reflexivity; try discriminate; lra. }
  split; [exact H|]. exists 0. split; [lra|]. destruct (@tf2GreaterEqual RS 0 0) eqn:E; [|reflexivity]. apply H in E. lra.
Qed.
Print Assumptions C97_greater_equal_refuted.

(** For the point at distance k and angle t, tf2Atan2Fast is within 1/8 rad (7.2 degrees) of t. *)
Theorem C97_atan2_fast : forall k t : R, 0 < k -> - PI < t <= PI -> Rabs (@tf2Atan2Fast RS (k * sin t) (k * cos t) - t) <= / 8.
Proof.
  intros k t K T. rewrite <- (atan2_angle t k T K) at 3. apply atan2_fast. intros (A & B). pose proof (sin2_cos2 t) as P. unfold Rsqr in P.
  assert (S0 : sin t = 0) by (apply (Rmult_eq_reg_l k); lra). assert (C0 : cos t = 0) by (apply (Rmult_eq_reg_l k); lra). rewrite S0, C0 in P. lra.
Qed.
Print Assumptions C97_atan2_fast.

(** ** serialization *)

(** A frame written to TransformData or TransformDoubleData and read back is the same frame; one written to TransformFloatData keeps
    every number to single precision, and exactly if it is a float already; what was read from floats is written back bit for bit. *)
Theorem C97_serialization :
  (forall (A : Type) (t : frame A), numbers (xserialize t) = numbers t /\ xdeSerialize (xserialize t) = t) /\
  (forall t : frame f64, (forall x, In x (numbers t) -> finite x /\ Rabs (val x) <= IZR (2 ^ 127)) ->
    Forall2 (fun x y : f64 => finite y /\ Rabs (val y - val x) <= u32 * Rabs (val x) + eta32) (numbers t) (numbers (xdeSerializeFloat (xserializeFloat t)))) /\
  (forall t : frame f64, (forall x, In x (numbers t) -> finite x) ->
    Forall2 (fun x y : f64 => forall f, finite32 f -> val x = val f -> finite y /\ val y = val x) (numbers t) (numbers (xdeSerializeFloat (xserializeFloat t)))) /\
  (forall t : frame f32, (forall x, In x (numbers t) -> valid_binary prec32 emax32 x = true) -> xserializeFloat (xdeSerializeFloat t) = t).
Proof.
  split; [|split; [|split]].
  - intros A [[[[a0 a1 a2 a3] [b0 b1 b2 b3]] [c0 c1 c2 c3]] [o0 o1 o2 o3]]. split; reflexivity.
  - intros [[[[a0 a1 a2 a3] [b0 b1 b2 b3]] [c0 c1 c2 c3]] [o0 o1 o2 o3]] H.
    assert (K : forall x : f64, finite x /\ Rabs (val x) <= IZR (2 ^ 127) -> finite (widen64 (narrow32 x)) /\ Rabs (val (widen64 (narrow32 x)) - val x) <= u32 * Rabs (val x) + eta32).
    { intros x (F & B). destruct (ap_narrow x F B) as (F1 & E1). destruct (widen_ok _ F1) as (F2 & E2). split; [exact F2|]. rewrite E2. exact E1. }
    cbv [numbers fr_basis fr_origin numbers4 app w0 w1 w2 w3 xdeSerializeFloat xserializeFloat mserializeFloat mdeSerializeFloat rmap vserializeFloat vdeSerializeFloat qmap In] in H |- *.
    repeat (constructor; [apply K, H; tauto|]). constructor.
  - intros [[[[a0 a1 a2 a3] [b0 b1 b2 b3]] [c0 c1 c2 c3]] [o0 o1 o2 o3]] H.
    assert (K : forall x : f64, finite x -> forall f, finite32 f -> val x = val f -> finite (widen64 (narrow32 x)) /\ val (widen64 (narrow32 x)) = val x).
    { intros x F f Ff E. destruct (narrow_float x f F Ff E) as (F1 & E1). destruct (widen_ok _ F1) as (F2 & E2). split; [exact F2|]. rewrite E2, E1. symmetry. exact E. }
    cbv [numbers fr_basis fr_origin numbers4 app w0 w1 w2 w3 xdeSerializeFloat xserializeFloat mserializeFloat mdeSerializeFloat rmap vserializeFloat vdeSerializeFloat qmap In] in H |- *.
    repeat (constructor; [apply K, H; tauto|]). constructor.
  - intros [[[[a0 a1 a2 a3] [b0 b1 b2 b3]] [c0 c1 c2 c3]] [o0 o1 o2 o3]] H.
    cbv [numbers fr_basis fr_origin numbers4 app w0 w1 w2 w3 In] in H.
    unfold xserializeFloat, xdeSerializeFloat, mserializeFloat, mdeSerializeFloat, rmap, vserializeFloat, vdeSerializeFloat, qmap. cbn [fr_basis fr_origin w0 w1 w2 w3].
    rewrite !narrow_widen by (apply H; tauto). reflexivity.
Qed.
Print Assumptions C97_serialization.

(** ** concrete cases *)
Definition third : f64 := SFdiv prec64 emax64 (f64_of_Z 1) (f64_of_Z 3).
Example C97_example :
  (tf2Select_unsigned 7 10 20 = Ok 10%Z /\ tf2Select_unsigned 0 10 20 = Ok 20%Z /\ tf2Select_int (2 ^ 32 - 1) (-5) 20 = Ok (-5)%Z) /\
  (tf2SwapEndian32 305419896 = 2018915346%Z /\ tf2SwapEndian16 4660 = 13330%Z /\ tf2SwapEndianFloat (narrow32 (f64_of_Z 1)) = 32831%Z) /\
  (valid_binary prec32 emax32 (narrow32 (f64_of_Z 1)) = true) /\
  (finite third /\ valid_binary prec32 emax32 (narrow32 third) = true /\ widen64 (narrow32 third) <> third /\ widen64 (narrow32 (f64_of_Z 5)) = f64_of_Z 5).
Proof.
  split; [split; [|split]; vm_compute; reflexivity|]. split; [split; [|split]; vm_compute; reflexivity|]. split; [vm_compute; reflexivity|].
  split; [vm_compute; reflexivity|]. split; [vm_compute; reflexivity|]. split; [vm_compute; discriminate|vm_compute; reflexivity].
Qed.
Example C97_axis_example : first_greatest [1; -7; 3; 7] 3 /\ first_greatest (numbers4 (qmap Rabs (W4 1 (-7) 3 7))) 1 /\ first_least [1; -7; 3; 7] 1.
Proof.
  split; [|split].
  - right. exists 3%nat, 7. split; [reflexivity|]. split; [reflexivity|]. split; [pose proof (pow_lt 10 30 ltac:(lra)); lra|]. split; [cbn [In]; intros x [E|[E|[E|[E|[]]]]]; lra|].
    intros [|[|[|j]]] x L E; cbn [nth_error] in E; try (exfalso; lia); injection E as <-; lra.
  - change (numbers4 (qmap Rabs (W4 1 (-7) 3 7))) with [Rabs 1; Rabs (-7); Rabs 3; Rabs 7]. rewrite (Rabs_left (-7)), (Rabs_right 1), (Rabs_right 3), (Rabs_right 7) by lra.
    right. exists 1%nat, (- (-7)). split; [reflexivity|]. split; [reflexivity|]. 
    split; [pose proof (pow_lt 10 30 ltac:(lra)); lra|]. split; [intros x [E|[E|[E|[E|[]]]]]; lra|].
    intros [|j] x L E; cbn [nth_error] in E; try (exfalso; lia); injection E as <-; lra.
  - right. exists 1%nat, (-7). split; [reflexivity|]. split; [reflexivity|]. split; [pose proof (pow_lt 10 30 ltac:(lra)); lra|]. split; [cbn [In]; intros x [E|[E|[E|[E|[]]]]]; lra|].
    intros [|j] x L E; cbn [nth_error] in E; try (exfalso; lia); injection E as <-; lra.
Qed.
