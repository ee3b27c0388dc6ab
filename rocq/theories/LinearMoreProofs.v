(** * Selection and byte order (C97) *)
From Coq Require Import ZArith Bool List Lia.
From Verif Require Import RosTime Scalar Instances LinearMath LinearExtra Single LinearMore.
Import ListNotations.
Open Scope Z_scope.

(** ** tf2Select *)
Lemma mask_ok : forall c, - 2 ^ 31 < c < 2 ^ 31 -> Z.shiftr (Z.lor c (- c)) 31 = if c =? 0 then 0 else -1.
Proof.
  intros c H. rewrite Z.shiftr_lor.
  assert (A : forall z, 0 <= z < 2 ^ 31 -> Z.shiftr z 31 = 0) by (intros z Hz; rewrite Z.shiftr_div_pow2 by lia; apply Z.div_small; exact Hz).
  assert (B : forall z, - 2 ^ 31 <= z < 0 -> Z.shiftr z 31 = -1) by (intros z Hz; rewrite Z.shiftr_div_pow2 by lia; symmetry; apply (Z.div_unique z (2 ^ 31) (-1) (z + 2 ^ 31)); lia).
  destruct (Z.eqb_spec c 0) as [->|N]; [reflexivity|]. destruct (Z_lt_le_dec c 0) as [L|L].
  - rewrite (B c) by lia. rewrite (A (- c)) by lia. reflexivity.
  - rewrite (A c) by lia. rewrite (B (- c)) by lia. reflexivity.
Qed.
Lemma to_int_eq : forall u, 0 <= u < 2 ^ 32 -> (to_int u = - 2 ^ 31 <-> u = 2 ^ 31) /\ - 2 ^ 31 <= to_int u < 2 ^ 31 /\ (to_int u = 0 <-> u = 0).
Proof. intros u H. unfold to_int. destruct (Z.ltb_spec u (2 ^ 31)); lia. Qed.
Lemma land_all : forall a, 0 <= a < 2 ^ 32 -> Z.land a (2 ^ 32 - 1) = a.
Proof. intros a H. change (2 ^ 32 - 1) with (Z.ones 32). rewrite Z.land_ones by lia. apply Z.mod_small, H. Qed.
Lemma select_ok : forall c a b, 0 <= c < 2 ^ 32 -> c <> 2 ^ 31 -> 0 <= a < 2 ^ 32 -> 0 <= b < 2 ^ 32 -> tf2Select_unsigned c a b = Ok (if c =? 0 then b else a).
Proof.
  intros c a b Hc Ne Ha Hb. unfold tf2Select_unsigned. destruct (to_int_eq c Hc) as (I1 & I2 & I3). cbv zeta.
  destruct (Z.eqb_spec (to_int c) (- 2 ^ 31)) as [E|E]; [exfalso; apply Ne, I1, E|].
  rewrite mask_ok by lia. destruct (Z.eqb_spec (to_int c) 0) as [E0|E0], (Z.eqb_spec c 0) as [E1|E1]; try (exfalso; tauto).
  - change (Z.lnot (0 mod 2 ^ 32) mod 2 ^ 32) with (2 ^ 32 - 1). change (0 mod 2 ^ 32) with 0. rewrite Z.land_0_r, land_all by exact Hb. reflexivity.
  - change (Z.lnot (-1 mod 2 ^ 32) mod 2 ^ 32) with 0. change (-1 mod 2 ^ 32) with (2 ^ 32 - 1). rewrite Z.land_0_r, land_all, Z.lor_0_r by exact Ha. reflexivity.
Qed.
Lemma to_int_back : forall a, - 2 ^ 31 <= a < 2 ^ 31 -> to_int (a mod 2 ^ 32) = a.
Proof.
  intros a H. unfold to_int. destruct (Z_lt_le_dec a 0) as [L|L].
  - replace (a mod 2 ^ 32) with (a + 2 ^ 32) by (apply (Z.mod_unique a (2 ^ 32) (-1)); lia). destruct (Z.ltb_spec (a + 2 ^ 32) (2 ^ 31)); lia.
  - rewrite Z.mod_small by lia. destruct (Z.ltb_spec a (2 ^ 31)); lia.
Qed.
Lemma select_int_ok : forall c a b, 0 <= c < 2 ^ 32 -> c <> 2 ^ 31 -> - 2 ^ 31 <= a < 2 ^ 31 -> - 2 ^ 31 <= b < 2 ^ 31 -> tf2Select_int c a b = Ok (if c =? 0 then b else a).
Proof.
  intros c a b Hc Ne Ha Hb. pose proof (select_ok c (a mod 2 ^ 32) (b mod 2 ^ 32) Hc Ne (Z.mod_pos_bound a (2 ^ 32) eq_refl) (Z.mod_pos_bound b (2 ^ 32) eq_refl)) as E.
  unfold tf2Select_unsigned in E. unfold tf2Select_int. cbv zeta in *. destruct (to_int c =? - 2 ^ 31); [discriminate|]. apply (f_equal (fun r : res Z => match r with Ok x => x | _ => 0 end)) in E. cbv beta iota in E. rewrite E.
  destruct (c =? 0); rewrite to_int_back by assumption; reflexivity.
Qed.

(** ** byte order *)
Definition is_byte (b : Z) : Prop := 0 <= b < 256.
Lemma lor_add : forall a b k, 0 <= k -> 0 <= a < 2 ^ k -> Z.lor a (Z.shiftl b k) = a + Z.shiftl b k.
Proof.
  intros a b k K Ha. assert (D : Z.land a (Z.shiftl b k) = 0).
  { apply Z.bits_inj'. intros n Hn. rewrite Z.land_spec, Z.bits_0. destruct (Z_lt_le_dec n k) as [L|L].
    - rewrite (Z.shiftl_spec_low b k n L). apply andb_false_r.
    - replace (Z.testbit a n) with false; [reflexivity|]. symmetry. destruct (Z.eq_dec a 0) as [->|N]; [apply Z.bits_0|].
      apply Z.bits_above_log2; [lia|]. assert (Z.log2 a < k) by (apply Z.log2_lt_pow2; lia). lia. }
  rewrite Z.add_nocarry_lxor by exact D. rewrite Z.lxor_lor by exact D. reflexivity.
Qed.
Lemma pick : forall v k, 0 <= k -> Z.land v (Z.shiftl 255 k) = Z.shiftl ((v / 2 ^ k) mod 256) k.
Proof.
  intros v k K. replace (Z.shiftl ((v / 2 ^ k) mod 256) k) with (Z.shiftl (Z.land (Z.shiftr v k) 255) k).
  - apply Z.bits_inj'. intros n Hn. rewrite Z.land_spec. destruct (Z_lt_le_dec n k) as [L|L].
    + rewrite !Z.shiftl_spec_low by exact L. apply andb_false_r.
    + rewrite !Z.shiftl_spec_high by lia. rewrite Z.land_spec, Z.shiftr_spec by lia. replace (n - k + k) with n by lia. reflexivity.
  - rewrite Z.shiftr_div_pow2 by exact K. change 255 with (Z.ones 8). rewrite Z.land_ones by lia. reflexivity.
Qed.
Lemma swap32_sum : forall v, 0 <= v < 2 ^ 32 ->
  tf2SwapEndian32 v = v / 2 ^ 24 mod 256 + 2 ^ 8 * (v / 2 ^ 16 mod 256) + 2 ^ 16 * (v / 2 ^ 8 mod 256) + 2 ^ 24 * (v mod 256).
Proof.
  intros v H. unfold tf2SwapEndian32.
  change 4278190080 with (Z.shiftl 255 24). change 16711680 with (Z.shiftl 255 16). change 65280 with (Z.shiftl 255 8). replace (Z.land v 255) with (Z.shiftl (v / 2 ^ 0 mod 256) 0) by (rewrite <- pick by lia; reflexivity).
  rewrite !pick by lia. change (2 ^ 0) with 1. rewrite Z.div_1_r.
  assert (B : forall x, 0 <= x mod 256 < 256) by (intros x; apply Z.mod_pos_bound; reflexivity).
  pose proof (B (v / 2 ^ 24)) as B1. pose proof (B (v / 2 ^ 16)) as B2. pose proof (B (v / 2 ^ 8)) as B3. pose proof (B v) as B4.
  set (a := v / 2 ^ 24 mod 256) in *. set (b := v / 2 ^ 16 mod 256) in *. set (c := v / 2 ^ 8 mod 256) in *. set (d := v mod 256) in *. clearbody a b c d. clear B.
  replace (Z.shiftr (Z.shiftl a 24) 24) with a by (rewrite Z.shiftr_shiftl_l by lia; symmetry; apply Z.shiftl_0_r).
  replace (Z.shiftr (Z.shiftl b 16) 8) with (Z.shiftl b 8) by (rewrite Z.shiftr_shiftl_l by lia; reflexivity).
  rewrite !Z.shiftl_shiftl by lia. change (8 + 8) with 16. change (0 + 24) with 24.
  rewrite (lor_add a) by (change (2 ^ 8) with 256; lia). rewrite (lor_add (a + Z.shiftl b 8)) by (rewrite ?Z.shiftl_mul_pow2 by lia; change (2 ^ 8) with 256; change (2 ^ 16) with 65536; lia).
  rewrite (lor_add (a + Z.shiftl b 8 + Z.shiftl c 16)) by (rewrite ?Z.shiftl_mul_pow2 by lia; change (2 ^ 8) with 256; change (2 ^ 16) with 65536; change (2 ^ 24) with 16777216; lia).
  rewrite !Z.shiftl_mul_pow2 by lia. lia.
Qed.
Lemma swap16_sum : forall v, 0 <= v < 2 ^ 16 -> tf2SwapEndian16 v = v / 2 ^ 8 mod 256 + 2 ^ 8 * (v mod 256).
Proof.
  intros v H. unfold tf2SwapEndian16. change 65280 with (Z.shiftl 255 8). replace (Z.land v 255) with (Z.shiftl (v / 2 ^ 0 mod 256) 0) by (rewrite <- pick by lia; reflexivity).
  rewrite !pick by lia. change (2 ^ 0) with 1. rewrite Z.div_1_r.
  pose proof (Z.mod_pos_bound (v / 2 ^ 8) 256 eq_refl) as B1. set (a := v / 2 ^ 8 mod 256) in *. set (d := v mod 256) in *. clearbody a d.
  replace (Z.shiftr (Z.shiftl a 8) 8) with a by (rewrite Z.shiftr_shiftl_l by lia; symmetry; apply Z.shiftl_0_r).
  rewrite Z.shiftl_shiftl by lia. change (0 + 8) with 8. rewrite (lor_add a) by (change (2 ^ 8) with 256; lia). rewrite Z.shiftl_mul_pow2 by lia. lia.
Qed.
Lemma bytes_sum : forall n l, List.length l = n -> Forall is_byte l -> bytes_of n (of_bytes l) = l.
Proof.
  induction n as [|n IH]; intros [|b l] L F; try discriminate; [reflexivity|]. inversion F as [|? ? B F']; subst. unfold is_byte in B. cbn [bytes_of of_bytes].
  replace ((b + 256 * of_bytes l) mod 256) with b by (apply (Z.mod_unique _ 256 (of_bytes l)); lia).
  replace ((b + 256 * of_bytes l) / 256) with (of_bytes l) by (apply (Z.div_unique _ 256 _ b); lia).
  f_equal. apply IH; [injection L as L; exact L|exact F'].
Qed.
Lemma bytes_are : forall n v, List.length (bytes_of n v) = n /\ Forall is_byte (bytes_of n v).
Proof. induction n as [|n IH]; intros v; cbn [bytes_of]; [split; [reflexivity|constructor]|]. destruct (IH (v / 256)) as [A B]. split; [cbn [List.length]; rewrite A; reflexivity|]. constructor; [apply Z.mod_pos_bound; reflexivity|exact B]. Qed.
Lemma of_bytes_of : forall n v, 0 <= v < 256 ^ Z.of_nat n -> of_bytes (bytes_of n v) = v.
Proof.
  induction n as [|n IH]; intros v H; cbn [bytes_of of_bytes]; [change (256 ^ Z.of_nat 0) with 1 in H; lia|].
  rewrite Nat2Z.inj_succ, Z.pow_succ_r in H by lia. rewrite IH.
  - pose proof (Z.div_mod v 256 ltac:(discriminate)). lia.
  - split; [apply Z.div_pos; lia|]. apply Z.div_lt_upper_bound; lia.
Qed.
Lemma swap32_bytes : forall v, 0 <= v < 2 ^ 32 -> bytes_of 4 (tf2SwapEndian32 v) = rev (bytes_of 4 v).
Proof.
  intros v H. rewrite swap32_sum by exact H. destruct (bytes_are 4 v) as [L F]. rewrite <- (bytes_sum 4 (rev (bytes_of 4 v))); [|rewrite rev_length; exact L|apply Forall_rev; exact F].
  f_equal. cbn [bytes_of rev app of_bytes].
  replace (v / 256 / 256 / 256) with (v / 2 ^ 24) by (rewrite !Z.div_div by lia; reflexivity). replace (v / 256 / 256) with (v / 2 ^ 16) by (rewrite !Z.div_div by lia; reflexivity).
  change (v / 256) with (v / 2 ^ 8). set (a := v / 2 ^ 24 mod 256). set (b := v / 2 ^ 16 mod 256). set (c := v / 2 ^ 8 mod 256). set (d := v mod 256). clearbody a b c d. lia.
Qed.
Lemma swap16_bytes : forall v, 0 <= v < 2 ^ 16 -> bytes_of 2 (tf2SwapEndian16 v) = rev (bytes_of 2 v).
Proof.
  intros v H. rewrite swap16_sum by exact H. destruct (bytes_are 2 v) as [L F]. rewrite <- (bytes_sum 2 (rev (bytes_of 2 v))); [|rewrite rev_length; exact L|apply Forall_rev; exact F].
  f_equal. cbn [bytes_of rev app of_bytes]. change (v / 256) with (v / 2 ^ 8). set (c := v / 2 ^ 8 mod 256). set (d := v mod 256). clearbody c d. lia.
Qed.
