(** * binary32: the conversion from double, the bytes, and error bounds of the operations *)
From Coq Require Import ZArith Bool Reals List Floats.SpecFloat Lia Lra.
From Flocq Require Import Zaux Raux Defs Float_prop Generic_fmt FLT Round_NE BinarySingleNaN Bits.
From Verif Require Import Scalar LinearMath Instances SpecRound FloatErr Single SpecSingle SingleErr.
Import ListNotations.
Open Scope R_scope.
#[local] Instance Hprec32' : FLX.Prec_gt_0 prec32 := eq_refl _.
#[local] Instance Hmax32' : Prec_lt_emax prec32 emax32 := eq_refl _.
Local Notation u := u32.

Lemma narrow_ok : forall x : f64, finite x -> Rabs (val x) <= big32 ->
  finite32 (narrow32 x) /\ val (narrow32 x) = rnd32 (val x).
Proof.
  intros x F H. destruct x as [s|s| |s m e]; try contradiction.
  - cbn [narrow32 val]. split; [exact I|]. symmetry. apply round_0. apply valid_rnd_N.
  - cbn [narrow32]. rewrite binary_round_equiv. pose proof (binary_round_correct prec32 emax32 Hprec32' Hmax32' mode_NE s m e) as C.
    cbv zeta in C. destruct C as (V & C). set (z := BinarySingleNaN.binary_round prec32 emax32 mode_NE s m e) in *.
    assert (E : F2R (Float radix2 (cond_Zopp s (Zpos m)) e) = val (S754_finite s m e)) by (rewrite val_SF2R; reflexivity).
    rewrite E in C. rewrite Rlt_bool_true in C by (apply rnd_small32; exact H). destruct C as (C1 & C2 & _).
    split.
    + clear - V C2. clearbody z. destruct z; try exact I; try discriminate. exact V.
    + rewrite val_SF2R, C1. reflexivity.
Qed.

(** ** The bytes *)
Definition in32 (x : f32) : Prop := valid_binary prec32 emax32 x = true.
Lemma bits_range : forall x, in32 x -> (0 <= bits32 x < 2 ^ 32)%Z /\ of_bits32 (bits32 x) = x.
Proof.
  intros x V. unfold in32 in V.
  assert (J : forall s m e, (0 <= m < 2 ^ 23)%Z -> (0 <= e < 2 ^ 8)%Z -> (0 <= join_bits 23 8 s m e < 2 ^ 32)%Z /\ split_bits 23 8 (join_bits 23 8 s m e) = (s, m, e)).
  { intros s m e Hm He. split; [exact (join_bits_range 23 8 s m e Hm He)|exact (split_join_bits 23 8 s m e Hm He)]. }
  destruct x as [s|s| |s m e].
  - destruct (J s 0%Z 0%Z ltac:(split; [discriminate|reflexivity]) ltac:(split; [discriminate|reflexivity])) as (R1 & S1). split; [exact R1|]. unfold of_bits32. cbn [bits32]. rewrite S1. reflexivity.
  - destruct (J s 0%Z 255%Z ltac:(split; [discriminate|reflexivity]) ltac:(split; [discriminate|reflexivity])) as (R1 & S1). split; [exact R1|]. unfold of_bits32. cbn [bits32]. rewrite S1. reflexivity.
  - destruct (J false (2 ^ 22)%Z 255%Z ltac:(split; [discriminate|reflexivity]) ltac:(split; [discriminate|reflexivity])) as (R1 & S1). split; [exact R1|]. unfold of_bits32. cbn [bits32]. rewrite S1. reflexivity.
  - cbn [valid_binary] in V. unfold bounded, canonical_mantissa in V. apply andb_prop in V. destruct V as (V1 & V2). apply Zeq_bool_eq in V1. apply Zle_bool_imp_le in V2.
    unfold SpecFloat.fexp, SpecFloat.emin, prec32, emax32 in V1, V2.
    rewrite Digits.Zpos_digits2_pos in V1. set (d := Digits.Zdigits radix2 (Zpos m)) in *.
    pose proof (Digits.Zdigits_correct radix2 (Zpos m)) as D. fold d in D. cbv zeta in D. rewrite Z.abs_eq in D by lia.
    assert (D0 : (0 < d)%Z) by (apply Digits.Zdigits_gt_0; discriminate).
    cbn [bits32]. destruct (2 ^ 23 <=? Zpos m)%Z eqn:B.
    + apply Z.leb_le in B. assert (D1 : (23 < d)%Z).
      { apply Z.nle_gt. intros C. assert (X : (Z.pow radix2 d <= Z.pow radix2 23)%Z) by (apply Z.pow_le_mono_r; [reflexivity|exact C]). change (radix_val radix2) with 2%Z in *. change (radix2 : Z) with 2%Z in *. lia. }
      assert (D2 : (d = 24)%Z) by lia. rewrite D2 in D. change (radix2 : Z) with 2%Z in D. change (2 ^ (24 - 1))%Z with 8388608%Z in D. change (2 ^ 24)%Z with 16777216%Z in D.
      destruct (J s (Zpos m - 2 ^ 23)%Z (e + 150)%Z) as (R1 & S1). { change (2 ^ 23)%Z with 8388608%Z. lia. } { change (2 ^ 8)%Z with 256%Z. lia. }
      split; [exact R1|]. unfold of_bits32. rewrite S1. rewrite (proj2 (Z.eqb_neq (e + 150) 0)) by lia. rewrite (proj2 (Z.eqb_neq (e + 150) 255)) by lia.
      replace (Zpos m - 2 ^ 23 + 2 ^ 23)%Z with (Zpos m) by ring. f_equal. lia.
    + apply Z.leb_gt in B. assert (D1 : (d <= 23)%Z).
      { apply Z.nlt_ge. intros C. assert (X : (Z.pow radix2 23 <= Z.pow radix2 (d - 1))%Z) by (apply Z.pow_le_mono_r; [reflexivity|lia]). change (radix2 : Z) with 2%Z in *. lia. }
      destruct (J s (Zpos m) 0%Z) as (R1 & S1). { change (2 ^ 23)%Z with 8388608%Z in *. lia. } { change (2 ^ 8)%Z with 256%Z. lia. }
      split; [exact R1|]. unfold of_bits32. rewrite S1. cbn [Z.eqb]. f_equal. lia.
Qed.
Lemma dec_enc : forall x, in32 x -> dec32 (enc32 x) = x.
Proof. intros x V. destruct (bits_range x V) as (R1 & B). unfold enc32, dec32. cbv zeta. rewrite bytes_back by exact R1. exact B. Qed.
Lemma finite_in : forall x, finite32 x -> in32 x.
Proof. intros x F. destruct x; try contradiction; [reflexivity|exact F]. Qed.

(** ** Errors *)
Lemma u32_val : u32 = / 16777216.
Proof. reflexivity. Qed.
Lemma u32_pos : 0 < u32.
Proof. rewrite u32_val. lra. Qed.
Lemma eta32_val : eta32 = / 1427247692705959881058285969449495136382746624.
Proof. reflexivity. Qed.
Lemma big32_val : big32 = 170141183460469231731687303715884105728.
Proof. reflexivity. Qed.

(** [x] is finite and approximates the number [r] within [e]. *)
Definition ap (x : f32) (r e : R) : Prop := finite32 x /\ Rabs (val x - r) <= e.
Lemma ap_abs : forall x r e, ap x r e -> Rabs (val x) <= Rabs r + e.
Proof. intros x r e (_ & H). replace (val x) with (r + (val x - r)) by ring. eapply Rle_trans; [apply Rabs_triang|]. lra. Qed.
Lemma ap_exact : forall x, finite32 x -> ap x (val x) 0.
Proof. intros x F. split; [exact F|]. rewrite Rminus_eq_0, Rabs_R0. lra. Qed.
Lemma ap_weaken : forall x r e e', ap x r e -> e <= e' -> ap x r e'.
Proof. intros x r e e' (F & H) L. split; [exact F|lra]. Qed.
Lemma ap_near : forall x r r' e d, ap x r e -> Rabs (r - r') <= d -> ap x r' (e + d).
Proof. intros x r r' e d (F & H) L. split; [exact F|]. replace (val x - r') with ((val x - r) + (r - r')) by ring. eapply Rle_trans; [apply Rabs_triang|]. lra. Qed.
Lemma rnd_close : forall s t e A, Rabs (s - t) <= e -> Rabs t <= A -> Rabs (rnd32 s - t) <= e + u * (A + e) + eta32.
Proof.
  intros s t e A H HA. pose proof (rnd_err32 s) as E. replace (rnd32 s - t) with ((rnd32 s - s) + (s - t)) by ring.
  eapply Rle_trans; [apply Rabs_triang|]. assert (B : Rabs s <= A + e).
  { replace s with (t + (s - t)) by ring. eapply Rle_trans; [apply Rabs_triang|]. lra. }
  pose proof u32_pos. assert (u * Rabs s <= u * (A + e)) by (apply Rmult_le_compat_l; lra). lra.
Qed.
Lemma abs_close : forall s t e A, Rabs (s - t) <= e -> Rabs t <= A -> Rabs s <= A + e.
Proof. intros s t e A H HA. replace s with (t + (s - t)) by ring. eapply Rle_trans; [apply Rabs_triang|]. lra. Qed.
Lemma ap_narrow : forall x, finite x -> Rabs (val x) <= big32 -> ap (narrow32 x) (val x) (u * Rabs (val x) + eta32).
Proof. intros x F H. destruct (narrow_ok x F H) as (F' & V). split; [exact F'|]. rewrite V. apply rnd_err32. Qed.
Lemma ap_add : forall x y r s e f A, ap x r e -> ap y s f -> Rabs (r + s) <= A -> A + e + f <= big32 ->
  ap (SFadd prec32 emax32 x y) (r + s) (e + f + u * (A + (e + f)) + eta32).
Proof.
  intros x y r s e f A (Fx & Hx) (Fy & Hy) HA HB.
  assert (E : Rabs (val x + val y - (r + s)) <= e + f).
  { replace (val x + val y - (r + s)) with ((val x - r) + (val y - s)) by ring. eapply Rle_trans; [apply Rabs_triang|]. lra. }
  destruct (fadd32_ok x y Fx Fy) as (F & V).
  { pose proof (abs_close _ _ _ _ E HA). lra. }
  split; [exact F|]. rewrite V. apply rnd_close; assumption.
Qed.
Lemma ap_sub : forall x y r s e f A, ap x r e -> ap y s f -> Rabs (r - s) <= A -> A + e + f <= big32 ->
  ap (SFsub prec32 emax32 x y) (r - s) (e + f + u * (A + (e + f)) + eta32).
Proof.
  intros x y r s e f A (Fx & Hx) (Fy & Hy) HA HB.
  assert (E : Rabs (val x - val y - (r - s)) <= e + f).
  { replace (val x - val y - (r - s)) with ((val x - r) + - (val y - s)) by ring. eapply Rle_trans; [apply Rabs_triang|]. rewrite Rabs_Ropp. lra. }
  destruct (fsub32_ok x y Fx Fy) as (F & V).
  { pose proof (abs_close _ _ _ _ E HA). lra. }
  split; [exact F|]. rewrite V. apply rnd_close; assumption.
Qed.
Lemma ap_mul2 : forall x y r s e f A B, ap x r e -> ap y s f -> Rabs (val x) <= A -> Rabs (r * s) <= B -> Rabs s * e + A * f + B <= big32 ->
  ap (SFmul prec32 emax32 x y) (r * s) (Rabs s * e + A * f + u * (B + (Rabs s * e + A * f)) + eta32).
Proof.
  intros x y r s e f A B (Fx & Hx) (Fy & Hy) HA HB HC.
  assert (E : Rabs (val x * val y - r * s) <= Rabs s * e + A * f).
  { replace (val x * val y - r * s) with (s * (val x - r) + val x * (val y - s)) by ring. eapply Rle_trans; [apply Rabs_triang|]. rewrite !Rabs_mult.
    apply Rplus_le_compat; [apply Rmult_le_compat_l; [apply Rabs_pos|exact Hx]|]. apply Rmult_le_compat; try apply Rabs_pos; assumption. }
  destruct (fmul32_ok x y Fx Fy) as (F & V); [pose proof (abs_close _ _ _ _ E HB); lra|]. split; [exact F|]. rewrite V. apply rnd_close; assumption.
Qed.
