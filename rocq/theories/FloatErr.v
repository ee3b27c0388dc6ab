(** * binary64 operations as rounded real operations *)
From Coq Require Import ZArith Bool Reals List Floats.SpecFloat Lia Lra.
From Flocq Require Import Zaux Raux Defs Float_prop Generic_fmt FLT FLX Round_NE Relative BinarySingleNaN.
From Verif Require Import Scalar LinearMath Instances SpecRound.
Open Scope R_scope.

#[local] Instance Hprec : FLX.Prec_gt_0 prec64 := eq_refl _.
#[local] Instance Hmax : Prec_lt_emax prec64 emax64 := eq_refl _.
Notation bf := (binary_float prec64 emax64).
Notation rnd := (round radix2 (FLT_exp (-1074) 53) ZnearestE).

Lemma round_nearest_even_equiv s m l : round_nearest_even m l = choice_mode mode_NE s m l.
Proof.
  case l; [reflexivity|intro c]. case c; [|reflexivity..].
  now simpl; unfold Round.cond_incr; case Z.even.
Qed.
Lemma binary_round_aux_equiv sx mx ex lx :
  SpecFloat.binary_round_aux prec64 emax64 sx mx ex lx = BinarySingleNaN.binary_round_aux prec64 emax64 mode_NE sx mx ex lx.
Proof.
  unfold SpecFloat.binary_round_aux, BinarySingleNaN.binary_round_aux.
  set (mrse' := shr_fexp _ _ _ _ _). case mrse'; intros mrs' e'; simpl.
  now rewrite (round_nearest_even_equiv sx).
Qed.
Lemma binary_round_equiv s m e :
  SpecFloat.binary_round prec64 emax64 s m e = BinarySingleNaN.binary_round prec64 emax64 mode_NE s m e.
Proof.
  unfold SpecFloat.binary_round, BinarySingleNaN.binary_round, shl_align_fexp.
  set (mez := shl_align _ _ _); case mez as [mz ez]. apply binary_round_aux_equiv.
Qed.
Lemma binary_normalize_equiv m e szero :
  SpecFloat.binary_normalize prec64 emax64 m e szero
  = B2SF (BinarySingleNaN.binary_normalize prec64 emax64 Hprec Hmax mode_NE m e szero).
Proof.
  case m as [ | p | p]; [now simpl| |]; simpl; rewrite B2SF_SF2B; apply binary_round_equiv.
Qed.

Lemma SFadd_equiv : forall x y : bf, SFadd prec64 emax64 (B2SF x) (B2SF y) = B2SF (Bplus mode_NE x y).
Proof.
  intros [sx|sx| |sx mx ex Bx] [sy|sy| |sy my ey By]; [now (trivial || simpl; case Bool.eqb).. | ].
  apply binary_normalize_equiv.
Qed.
Lemma SFsub_equiv : forall x y : bf, SFsub prec64 emax64 (B2SF x) (B2SF y) = B2SF (Bminus mode_NE x y).
Proof.
  intros [sx|sx| |sx mx ex Bx] [sy|sy| |sy my ey By]; [now (trivial || simpl; case Bool.eqb).. | ].
  simpl. unfold Zminus. rewrite <- cond_Zopp_negb. apply binary_normalize_equiv.
Qed.
Lemma SFmul_equiv : forall x y : bf, SFmul prec64 emax64 (B2SF x) (B2SF y) = B2SF (Bmult mode_NE x y).
Proof.
  intros [sx|sx| |sx mx ex Bx] [sy|sy| |sy my ey By]; [now trivial.. | ].
  simpl. rewrite B2SF_SF2B. apply binary_round_aux_equiv.
Qed.
Lemma SFdiv_equiv : forall x y : bf, SFdiv prec64 emax64 (B2SF x) (B2SF y) = B2SF (Bdiv mode_NE x y).
Proof.
  intros [sx|sx| |sx mx ex Bx] [sy|sy| |sy my ey By]; [now (trivial || simpl; case Bool.eqb).. | ].
  simpl. rewrite B2SF_SF2B. set (melz := SFdiv_core_binary _ _ _ _ _ _). case melz as [[mz ez] lz].
  apply binary_round_aux_equiv.
Qed.
Lemma SFsqrt_equiv : forall x : bf, SFsqrt prec64 emax64 (B2SF x) = B2SF (Bsqrt mode_NE x).
Proof.
  intros [sx|sx| |sx mx ex Bx]; [now (trivial || case sx).. | ].
  case sx; [reflexivity | ]. simpl. rewrite B2SF_SF2B. set (melz := SFsqrt_core_binary _ _ _ _).
  case melz as [[mz ez] lz]. apply binary_round_aux_equiv.
Qed.

(** ** from [f64] to Flocq *)
Lemma val_SF2R : forall x, val x = SF2R radix2 x.
Proof.
  intros [s|s| |s m e]; try reflexivity. cbn [val SF2R]. unfold F2R. cbn [Fnum Fexp].
  rewrite (bpow_powerRZ radix2). change (IZR radix2) with 2. f_equal. destruct s; cbn [cond_Zopp Z.opp].
  - change (IZR (Z.neg m)) with (- IZR (Z.pos m)). ring.
  - ring.
Qed.
Lemma finite_B : forall x, finite x -> exists b : bf, B2SF b = x /\ is_finite b = true /\ B2R b = val x.
Proof.
  intros x F. assert (V : valid_binary prec64 emax64 x = true) by (destruct x; try reflexivity; try contradiction; exact F).
  exists (SF2B x V). split; [apply B2SF_SF2B|]. split.
  - rewrite is_finite_SF2B. destruct x; try reflexivity; contradiction.
  - rewrite B2R_SF2B. symmetry. apply val_SF2R.
Qed.
Lemma B_finite : forall b : bf, is_finite b = true -> finite (B2SF b) /\ val (B2SF b) = B2R b.
Proof.
  intros b F. split.
  - destruct b; try discriminate; [exact I|]. cbn. assumption.
  - rewrite val_SF2R. apply SF2R_B2SF.
Qed.

Definition big : R := IZR (2 ^ 1023).
Lemma rnd_small : forall r, Rabs r <= big -> Rabs (rnd r) < bpow radix2 1024.
Proof.
  intros r H. apply Rle_lt_trans with (bpow radix2 1023).
  - apply abs_round_le_generic; [apply FLT_exp_valid; reflexivity|apply valid_rnd_N| |].
    + apply generic_format_FLT_bpow; [reflexivity|lia].
    + change (bpow radix2 1023) with (IZR (Z.pow_pos 2 1023)). exact H.
  - apply bpow_lt. lia.
Qed.
(** the rounding error *)
Lemma rnd_err : forall r, Rabs (rnd r - r) <= uro * Rabs r + eta.
Proof.
  intros r. destruct (error_N_FLT radix2 (-1074) 53 eq_refl (fun x => negb (Z.even x)) r) as (e & h & He & Hh & _ & E).
  rewrite E. replace (r * (1 + e) + h - r) with (e * r + h) by ring.
  eapply Rle_trans; [apply Rabs_triang|]. rewrite Rabs_mult. apply Rplus_le_compat.
  - apply Rmult_le_compat_r; [apply Rabs_pos|]. eapply Rle_trans; [exact He|].
    change (-53 + 1)%Z with (-52)%Z. unfold uro. cbn [bpow]. change (Z.pow_pos radix2 52) with (2 ^ 52)%Z.
    change (2 ^ 53)%Z with (2 * 2 ^ 52)%Z. rewrite mult_IZR, Rinv_mult. apply Rle_refl.
  - eapply Rle_trans; [exact Hh|]. unfold eta. cbn [bpow]. change (Z.pow_pos radix2 1074) with (2 ^ 1074)%Z.
    change (2 ^ 1075)%Z with (2 * 2 ^ 1074)%Z. rewrite mult_IZR, Rinv_mult. apply Rle_refl.
Qed.
Lemma rnd_mono : forall a b, a <= b -> rnd a <= rnd b.
Proof. intros a b H. apply round_le; [apply FLT_exp_valid; reflexivity|apply valid_rnd_N|exact H]. Qed.
Lemma rnd_val : forall x, finite x -> rnd (val x) = val x.
Proof.
  intros x F. destruct (finite_B x F) as (b & _ & _ & E). rewrite <- E.
  apply round_generic; [apply valid_rnd_N|]. apply (generic_format_B2R prec64 emax64).
Qed.
Lemma rnd_0 : rnd 0 = 0.
Proof. apply round_0. apply valid_rnd_N. Qed.

Lemma fadd_ok : forall x y, finite x -> finite y -> Rabs (val x + val y) <= big ->
  finite (SFadd prec64 emax64 x y) /\ val (SFadd prec64 emax64 x y) = rnd (val x + val y).
Proof.
  intros x y Fx Fy H. destruct (finite_B x Fx) as (a & <- & Fa & Ea). destruct (finite_B y Fy) as (b & <- & Fb & Eb).
  rewrite <- Ea, <- Eb in *. rewrite SFadd_equiv. pose proof (Bplus_correct prec64 emax64 _ _ mode_NE a b Fa Fb) as C.
  rewrite Rlt_bool_true in C by (apply rnd_small; exact H). destruct C as (C1 & C2 & _).
  destruct (B_finite _ C2) as (F & V). split; [exact F|]. rewrite V, C1. reflexivity.
Qed.
Lemma fsub_ok : forall x y, finite x -> finite y -> Rabs (val x - val y) <= big ->
  finite (SFsub prec64 emax64 x y) /\ val (SFsub prec64 emax64 x y) = rnd (val x - val y).
Proof.
  intros x y Fx Fy H. destruct (finite_B x Fx) as (a & <- & Fa & Ea). destruct (finite_B y Fy) as (b & <- & Fb & Eb).
  rewrite <- Ea, <- Eb in *. rewrite SFsub_equiv. pose proof (Bminus_correct prec64 emax64 _ _ mode_NE a b Fa Fb) as C.
  rewrite Rlt_bool_true in C by (apply rnd_small; exact H). destruct C as (C1 & C2 & _).
  destruct (B_finite _ C2) as (F & V). split; [exact F|]. rewrite V, C1. reflexivity.
Qed.
Lemma fmul_ok : forall x y, finite x -> finite y -> Rabs (val x * val y) <= big ->
  finite (SFmul prec64 emax64 x y) /\ val (SFmul prec64 emax64 x y) = rnd (val x * val y).
Proof.
  intros x y Fx Fy H. destruct (finite_B x Fx) as (a & <- & Fa & Ea). destruct (finite_B y Fy) as (b & <- & Fb & Eb).
  rewrite <- Ea, <- Eb in *. rewrite SFmul_equiv. pose proof (Bmult_correct prec64 emax64 _ _ mode_NE a b) as C.
  rewrite Rlt_bool_true in C by (apply rnd_small; exact H). destruct C as (C1 & C2 & _).
  rewrite Fa, Fb in C2. destruct (B_finite _ C2) as (F & V). split; [exact F|]. rewrite V, C1. reflexivity.
Qed.
Lemma fdiv_ok : forall x y, finite x -> finite y -> val y <> 0 -> Rabs (val x / val y) <= big ->
  finite (SFdiv prec64 emax64 x y) /\ val (SFdiv prec64 emax64 x y) = rnd (val x / val y).
Proof.
  intros x y Fx Fy N H. destruct (finite_B x Fx) as (a & <- & Fa & Ea). destruct (finite_B y Fy) as (b & <- & Fb & Eb).
  rewrite <- Ea, <- Eb in *. rewrite SFdiv_equiv. pose proof (Bdiv_correct prec64 emax64 _ _ mode_NE a b N) as C.
  rewrite Rlt_bool_true in C by (apply rnd_small; exact H). destruct C as (C1 & C2 & _).
  rewrite Fa in C2. destruct (B_finite _ C2) as (F & V). split; [exact F|]. rewrite V, C1. reflexivity.
Qed.
Lemma fopp_ok : forall x, finite x -> finite (SFopp x) /\ val (SFopp x) = - val x.
Proof.
  intros [s|s| |s m e] F; try contradiction; cbn [SFopp val].
  - split; [exact I|ring].
  - split; [exact F|]. destruct s; cbn [negb]; ring.
Qed.
Lemma fofZ_ok : forall n, Rabs (IZR n) <= big -> finite (f64_of_Z n) /\ val (f64_of_Z n) = rnd (IZR n).
Proof.
  intros n H. unfold f64_of_Z. rewrite binary_normalize_equiv.
  pose proof (binary_normalize_correct prec64 emax64 Hprec Hmax mode_NE n 0 false) as C. cbv zeta in C.
  assert (E : F2R (Float radix2 n 0) = IZR n) by (unfold F2R; cbn; ring). rewrite E in C.
  rewrite Rlt_bool_true in C by (apply rnd_small; exact H). destruct C as (C1 & C2 & _).
  destruct (B_finite _ C2) as (F & V). split; [exact F|]. rewrite V, C1. reflexivity.
Qed.
