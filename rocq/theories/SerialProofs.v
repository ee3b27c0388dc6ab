(** * float and double: widening and narrowing (C97) *)
From Coq Require Import ZArith Bool Reals List Floats.SpecFloat Lia Lra.
From Flocq Require Import Zaux Raux Defs Float_prop Generic_fmt FLT Round_NE BinarySingleNaN.
From Verif Require Import RosTime Scalar Instances LinearMath SpecRound FloatErr Single SpecSingle SingleErr SingleOps LinearMore.
Import ListNotations.
Open Scope R_scope.

Lemma widen_ok : forall x : f32, finite32 x -> finite (widen64 x) /\ val (widen64 x) = val x.
Proof.
  intros x F. destruct x as [s|s| |s m e]; try contradiction; [split; [exact I|reflexivity]|].
  pose proof (rnd_val32 _ F) as G0.
  assert (G : generic_format radix2 (FLT_exp (-149) 24) (val (S754_finite s m e))) by (rewrite <- G0; apply generic_format_round; [apply FLT_exp_valid; reflexivity|apply valid_rnd_N]).
  assert (B : Rabs (val (S754_finite s m e)) < bpow radix2 128).
  { destruct (finite_B32 _ F) as (b & _ & _ & E). rewrite <- E. apply (abs_B2R_lt_emax prec32 emax32). }
  cbn [widen64]. rewrite FloatErr.binary_round_equiv. pose proof (binary_round_correct prec64 emax64 FloatErr.Hprec FloatErr.Hmax mode_NE s m e) as C.
  cbv zeta in C. destruct C as (V & C). set (z := BinarySingleNaN.binary_round prec64 emax64 mode_NE s m e) in *.
  assert (E : F2R (Float radix2 (cond_Zopp s (Zpos m)) e) = val (S754_finite s m e)) by (rewrite val_SF2R; reflexivity).
  rewrite E in C.
  assert (R : round radix2 (SpecFloat.fexp prec64 emax64) (round_mode mode_NE) (val (S754_finite s m e)) = val (S754_finite s m e)).
  { apply round_generic; [apply valid_rnd_N|]. apply (generic_inclusion_mag radix2 (FLT_exp (-149) 24)); [|exact G]. intros _. unfold FLT_exp, SpecFloat.fexp, SpecFloat.emin. change prec64 with 53%Z. change emax64 with 1024%Z. lia. }
  rewrite R in C. rewrite Rlt_bool_true in C by (eapply Rlt_trans; [exact B|apply bpow_lt; reflexivity]). destruct C as (C1 & C2 & _).
  split.
  - clear - V C2. clearbody z. destruct z; try exact I; try discriminate. exact V.
  - rewrite val_SF2R, C1. reflexivity.
Qed.
Lemma float_bound : forall x : f32, finite32 x -> Rabs (val x) < bpow radix2 128.
Proof. intros x F. destruct (finite_B32 _ F) as (b & _ & _ & E). rewrite <- E. apply (abs_B2R_lt_emax prec32 emax32). Qed.
(** a double that is small enough, or is a float, narrows to the nearest float *)
Lemma narrow_float : forall (x : f64) (f : f32), finite x -> finite32 f -> val x = val f -> finite32 (narrow32 x) /\ val (narrow32 x) = val f.
Proof.
  intros x f F Ff E0. pose proof (rnd_val32 _ Ff) as G0. pose proof (float_bound _ Ff) as B. rewrite <- E0 in G0, B. destruct x as [s|s| |s m e]; try contradiction; [split; [exact I|exact E0]|].
  cbn [narrow32]. rewrite SingleErr.binary_round_equiv. pose proof (binary_round_correct prec32 emax32 SingleOps.Hprec32' SingleOps.Hmax32' mode_NE s m e) as C.
  cbv zeta in C. destruct C as (V & C). set (z := BinarySingleNaN.binary_round prec32 emax32 mode_NE s m e) in *.
  assert (E : F2R (Float radix2 (cond_Zopp s (Zpos m)) e) = val (S754_finite s m e)) by (rewrite val_SF2R; reflexivity).
  rewrite E in C. change (round radix2 (SpecFloat.fexp prec32 emax32) (round_mode mode_NE) (val (S754_finite s m e))) with (round radix2 (FLT_exp (-149) 24) ZnearestE (val (S754_finite s m e))) in C.
  rewrite G0 in C. rewrite Rlt_bool_true in C by exact B. destruct C as (C1 & C2 & _).
  split.
  - clear - V C2. clearbody z. destruct z; try exact I; try discriminate. exact V.
  - rewrite val_SF2R, C1. exact E0.
Qed.
(** widening and narrowing again gives the same float, whatever it is *)
Lemma sign_of_val : forall s m e, (val (S754_finite s m e) < 0 <-> s = true) /\ val (S754_finite s m e) <> 0.
Proof.
  intros s m e. cbn [val]. assert (P : 0 < IZR (Zpos m) * powerRZ 2 e) by (apply Rmult_lt_0_compat; [apply IZR_lt; reflexivity|apply powerRZ_lt; lra]).
  rewrite Rmult_assoc. destruct s; split; try lra; split; intros; try reflexivity; try discriminate; lra.
Qed.
Lemma same_float : forall x y : f32, finite32 x -> finite32 y -> val x = val y -> val x <> 0 -> x = y.
Proof.
  intros x y Fx Fy E N. destruct (finite_B32 _ Fx) as (a & A1 & A2 & A3). destruct (finite_B32 _ Fy) as (b & B1 & B2 & B3).
  rewrite <- A1, <- B1. f_equal. apply B2R_inj.
  - destruct a; try discriminate; [exfalso; cbn in A3; lra|reflexivity].
  - destruct b; try discriminate; [exfalso; cbn in B3; lra|reflexivity].
  - rewrite A3, B3. exact E.
Qed.
Lemma narrow_widen : forall x : f32, valid_binary prec32 emax32 x = true -> narrow32 (widen64 x) = x.
Proof.
  intros x V. destruct x as [s|s| |s m e]; try reflexivity.
  assert (F : finite32 (S754_finite s m e)) by exact V. destruct (widen_ok _ F) as (F' & E'). destruct (narrow_float (widen64 (S754_finite s m e)) _ F' F E') as (F'' & E'').
  symmetry. apply same_float; [exact F|exact F''|symmetry; exact E''|]. apply sign_of_val.
Qed.
