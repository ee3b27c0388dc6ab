(** * More binary64 operations as real operations: square root, comparison, and an ideal libm *)
From Coq Require Import ZArith Bool Reals List Floats.SpecFloat Lia Lra Psatz.
From Flocq Require Import Zaux Raux Defs Float_prop Generic_fmt Ulp FLT FLX Round_NE Relative BinarySingleNaN.
From Verif Require Import Scalar LinearMath Instances SpecRound SpecInterp FloatErr RoundOps.
Open Scope R_scope.
#[local] Existing Instance FloatErr.Hprec.
#[local] Existing Instance FloatErr.Hmax.

Lemma fsqrt_ok : forall x, finite x -> 0 < val x -> finite (SFsqrt prec64 emax64 x) /\ val (SFsqrt prec64 emax64 x) = rnd (sqrt (val x)).
Proof.
  intros x Fx P. destruct (finite_B x Fx) as (a & <- & Fa & Ea). rewrite <- Ea in *. rewrite SFsqrt_equiv.
  destruct (Bsqrt_correct prec64 emax64 _ _ mode_NE a) as (C1 & C2 & _).
  assert (C3 : is_finite (Bsqrt mode_NE a) = true).
  { rewrite C2. destruct a as [s|s| |s m e B]; try reflexivity; try discriminate. destruct s; [|reflexivity]. exfalso.
    cbn [B2R] in P. assert (F2R (Float radix2 (cond_Zopp true (Zpos m)) e) < 0); [|lra]. apply F2R_lt_0. reflexivity. }
  destruct (B_finite _ C3) as (F & V). split; [exact F|]. rewrite V, C1. reflexivity.
Qed.
Lemma fcompare : forall x y, finite x -> finite y -> SFcompare x y = Some (Rcompare (val x) (val y)).
Proof.
  intros x y Fx Fy. destruct (finite_B x Fx) as (a & <- & Fa & Ea). destruct (finite_B y Fy) as (b & <- & Fb & Eb).
  rewrite <- Ea, <- Eb. exact (Bcompare_correct prec64 emax64 a b Fa Fb).
Qed.
Lemma fltb_ok : forall x y, finite x -> finite y -> SFltb x y = true <-> val x < val y.
Proof.
  intros x y Fx Fy. unfold SFltb. rewrite fcompare by assumption. destruct (Rcompare_spec (val x) (val y)); split; intros H0; try discriminate; try reflexivity; lra.
Qed.
Lemma feqb_ok : forall x y, finite x -> finite y -> SFeqb x y = true <-> val x = val y.
Proof.
  intros x y Fx Fy. unfold SFeqb. rewrite fcompare by assumption. destruct (Rcompare_spec (val x) (val y)); split; intros H0; try discriminate; try reflexivity; lra.
Qed.
(** the largest double below 1 *)
Lemma below_one : forall x, finite x -> val x < 1 -> val x <= 1 - uro.
Proof.
  intros x F H. destruct (finite_B x F) as (b & _ & _ & E). rewrite <- E in *.
  assert (G1 : generic_format radix2 (FLT_exp (-1074) 53) 1).
  { change 1 with (bpow radix2 0). apply generic_format_FLT_bpow; [reflexivity|lia]. }
  assert (P : B2R b <= pred radix2 (FLT_exp (-1074) 53) 1).
  { apply pred_ge_gt; [apply FLT_exp_valid; reflexivity|apply (generic_format_B2R prec64 emax64)|exact G1|exact H]. }
  change 1 with (bpow radix2 0) in P. rewrite pred_bpow in P. cbn in P. unfold uro. exact P.
Qed.

(** the double nearest to a real number *)
Definition f64_of_R (r : R) : f64 :=
  SpecFloat.binary_normalize prec64 emax64 (ZnearestE (scaled_mantissa radix2 (FLT_exp (-1074) 53) r)) (cexp radix2 (FLT_exp (-1074) 53) r) false.
Lemma fofR_ok : forall r, Rabs r <= big -> finite (f64_of_R r) /\ val (f64_of_R r) = rnd r.
Proof.
  intros r H. unfold f64_of_R. rewrite binary_normalize_equiv.
  match goal with |- context [BinarySingleNaN.binary_normalize _ _ _ _ _ ?m ?e _] =>
    pose proof (binary_normalize_correct prec64 emax64 FloatErr.Hprec FloatErr.Hmax mode_NE m e false) as C; cbv zeta in C;
    change (F2R (Float radix2 m e)) with (rnd r) in C end.
  assert (I : round radix2 (SpecFloat.fexp prec64 emax64) (round_mode mode_NE) (rnd r) = rnd r).
  { apply round_generic; [apply valid_rnd_N|]. apply (generic_format_round radix2 (FLT_exp (-1074) 53)). apply valid_rnd_N. }
  rewrite I in C. rewrite Rlt_bool_true in C by (apply rnd_small; exact H). destruct C as (C1 & C2 & _).
  destruct (B_finite _ C2) as (F & V). split; [exact F|]. rewrite V, C1. reflexivity.
Qed.
Lemma rnd_rel : forall r, / IZR (2 ^ 900) <= Rabs r -> Rabs (rnd r - r) <= 1001 / 1000 * uro * Rabs r.
Proof.
  intros r H. pose proof (rnd_err r) as E. pose proof eta_small as S. pose proof uro_pos as U.
  assert (eta <= 1 / 1000 * uro * Rabs r); [|lra]. pose proof eta_tiny as T.
  assert (B : 0 < IZR (2 ^ 900)) by (apply IZR_lt; reflexivity). pose proof eta_pos.
  assert (X : eta * (1000 * IZR (2 ^ 900)) <= uro).
  { eapply Rle_trans; [|exact T]. apply Rmult_le_compat_l; [lra|]. rewrite <- mult_IZR. apply IZR_le. intros C. discriminate C. }
  assert (Y : 1000 * eta <= uro * / IZR (2 ^ 900)).
  { apply (Rmult_le_reg_r (IZR (2 ^ 900))); [exact B|]. rewrite (Rmult_assoc uro), Rinv_l, Rmult_1_r by lra. lra. }
  assert (uro * / IZR (2 ^ 900) <= uro * Rabs r) by (apply Rmult_le_compat_l; lra). lra.
Qed.
