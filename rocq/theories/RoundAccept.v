(** * What the checks of setTransform imply about the rotation they let through *)
From Coq Require Import ZArith Bool Reals Floats.SpecFloat List String Lia Lra Psatz.
From Flocq Require Import Zaux Raux Defs Generic_fmt FLT Round_NE BinarySingleNaN.
From Verif Require Import RosTime Scalar LinearMath Cache BufferCore Instances SpecCore SpecRound SpecInterp FloatErr RoundNorm RoundOps FloatMore RoundSlerp RoundInterp.
Open Scope R_scope.
Local Notation u := uro.
#[local] Existing Instance FloatErr.Hprec.
#[local] Existing Instance FloatErr.Hmax.

Definition nospec (x : f64) : Prop := match x with S754_zero _ | S754_finite _ _ _ => True | _ => False end.
Lemma double_B : forall x, double x -> exists b : bf, B2SF b = x.
Proof. intros x V. exists (SF2B x V). apply B2SF_SF2B. Qed.
Lemma nospec_fin : forall b : bf, nospec (B2SF b) -> is_finite b = true.
Proof. intros [s|s| |s m e B]; cbn; intros H; try reflexivity; contradiction. Qed.
Lemma double_sub : forall x y, double x -> double y -> double (SFsub prec64 emax64 x y).
Proof. intros x y X Y. destruct (double_B x X) as (a & <-). destruct (double_B y Y) as (b & <-). rewrite SFsub_equiv. apply valid_binary_B2SF. Qed.
Lemma double_add : forall x y, double x -> double y -> double (SFadd prec64 emax64 x y).
Proof. intros x y X Y. destruct (double_B x X) as (a & <-). destruct (double_B y Y) as (b & <-). rewrite SFadd_equiv. apply valid_binary_B2SF. Qed.
Lemma double_mul : forall x y, double x -> double y -> double (SFmul prec64 emax64 x y).
Proof. intros x y X Y. destruct (double_B x X) as (a & <-). destruct (double_B y Y) as (b & <-). rewrite SFmul_equiv. apply valid_binary_B2SF. Qed.
Lemma finite_double : forall x, finite x -> double x.
Proof. intros x F. destruct x; try reflexivity; try contradiction. exact F. Qed.

Lemma add_inv : forall x y, double x -> double y -> nospec (SFadd prec64 emax64 x y) ->
  finite x /\ finite y /\ finite (SFadd prec64 emax64 x y) /\ val (SFadd prec64 emax64 x y) = rnd (val x + val y).
Proof.
  intros x y X Y. destruct (double_B x X) as (a & <-). destruct (double_B y Y) as (b & <-). rewrite SFadd_equiv. intros N. apply nospec_fin in N as C2.
  assert (FA : is_finite a = true /\ is_finite b = true).
  { destruct a as [s|s| |s m e Ba], b as [s'|s'| |s' m' e' Bb]; try (split; reflexivity); try (cbn in C2; discriminate).
    cbn in C2. destruct (Bool.eqb s s'); discriminate. }
  destruct FA as (Fa & Fb). pose proof (Bplus_correct prec64 emax64 _ _ mode_NE a b Fa Fb) as C.
  destruct (B_finite _ Fa) as (F1 & V1). destruct (B_finite _ Fb) as (F2 & V2). split; [exact F1|]. split; [exact F2|]. rewrite V1, V2.
  destruct (B_finite _ C2) as (F & V). split; [exact F|]. rewrite V.
  destruct (Rlt_bool _ _); [destruct C as (C1 & _); rewrite C1; reflexivity|].
  destruct C as (C & _). rewrite C in N. destruct (Bsign a); contradiction.
Qed.
Lemma sub_inv : forall x y, double x -> double y -> nospec (SFsub prec64 emax64 x y) ->
  finite x /\ finite y /\ finite (SFsub prec64 emax64 x y) /\ val (SFsub prec64 emax64 x y) = rnd (val x - val y).
Proof.
  intros x y X Y. destruct (double_B x X) as (a & <-). destruct (double_B y Y) as (b & <-). rewrite SFsub_equiv. intros N. apply nospec_fin in N as C2.
  assert (FA : is_finite a = true /\ is_finite b = true).
  { destruct a as [s|s| |s m e Ba], b as [s'|s'| |s' m' e' Bb]; try (split; reflexivity); try (cbn in C2; discriminate).
    cbn in C2. destruct (Bool.eqb s (negb s')); discriminate. }
  destruct FA as (Fa & Fb). pose proof (Bminus_correct prec64 emax64 _ _ mode_NE a b Fa Fb) as C.
  destruct (B_finite _ Fa) as (F1 & V1). destruct (B_finite _ Fb) as (F2 & V2). split; [exact F1|]. split; [exact F2|]. rewrite V1, V2.
  destruct (B_finite _ C2) as (F & V). split; [exact F|]. rewrite V.
  destruct (Rlt_bool _ _); [destruct C as (C1 & _); rewrite C1; reflexivity|].
  destruct C as (C & _). rewrite C in N. destruct (Bsign a); contradiction.
Qed.
Lemma mul_inv : forall x y, double x -> double y -> nospec (SFmul prec64 emax64 x y) ->
  finite x /\ finite y /\ finite (SFmul prec64 emax64 x y) /\ val (SFmul prec64 emax64 x y) = rnd (val x * val y).
Proof.
  intros x y X Y. destruct (double_B x X) as (a & <-). destruct (double_B y Y) as (b & <-). rewrite SFmul_equiv. intros N. apply nospec_fin in N as C2.
  assert (FA : is_finite a = true /\ is_finite b = true).
  { destruct a as [s|s| |s m e Ba], b as [s'|s'| |s' m' e' Bb]; try (split; reflexivity); cbn in C2; discriminate. }
  destruct FA as (Fa & Fb). pose proof (Bmult_correct prec64 emax64 _ _ mode_NE a b) as C.
  destruct (B_finite _ Fa) as (F1 & V1). destruct (B_finite _ Fb) as (F2 & V2). split; [exact F1|]. split; [exact F2|]. rewrite V1, V2.
  destruct (B_finite _ C2) as (F & V). split; [exact F|]. rewrite V.
  destruct (Rlt_bool _ _); [destruct C as (C1 & _); rewrite C1; reflexivity|].
  rewrite C in N. destruct (xorb (Bsign a) (Bsign b)); contradiction.
Qed.
Lemma abs_lt_inv : forall e c, finite c -> SFltb (SFabs e) c = true -> nospec e /\ (finite e -> Rabs (val e) < val c).
Proof.
  intros e c Fc H. split.
  - destruct e as [s|s| |s m x]; cbn; try exact I; unfold SFltb in H; cbn in H; [|destruct c; discriminate].
    destruct c as [s'|s'| |s' m' e']; try contradiction; discriminate.
  - intros Fe. assert (A : finite (SFabs e) /\ val (SFabs e) = Rabs (val e)).
    { destruct e as [s|s| |s m x]; try contradiction; cbn [SFabs].
      - split; [exact I|]. cbn. rewrite Rabs_R0. reflexivity.
      - split; [exact Fe|]. cbn [val]. rewrite !Rabs_mult.
        assert (P : 0 < powerRZ 2 x) by (apply powerRZ_lt; lra).
        rewrite (Rabs_pos_eq (powerRZ 2 x)) by lra. rewrite (Rabs_pos_eq (IZR (Zpos m))) by (apply IZR_le; lia).
        destruct s; [rewrite Rabs_left by lra|rewrite Rabs_R1]; ring. }
    destruct A as (A1 & A2). apply fltb_ok in H; [|exact A1|exact Fc]. lra.
Qed.

Section A.
Context {lm : libm}.
Notation fq := (quat (F64 lm)).
(** A rotation of doubles that passes the norm check is finite and nearly a unit. *)
Theorem quat_valid_norm : forall q : fq, double (qx q) -> double (qy q) -> double (qz q) -> double (qw q) -> quat_valid q = true ->
  qfinite q /\ 99 / 100 <= qnorm (qval q) <= 1006 / 1000.
Proof.
  intros [x y z w] Dx Dy Dz Dw H. cbn [qx qy qz qw] in *. unfold quat_valid in H. cbn [qx qy qz qw] in H.
  cbn [F64 sltb sabs ssub sadd smul scar] in H. destruct (@one_ok lm) as (Fo & Vo).
  set (o := @sone (F64 lm)) in *. change (val o = 1) in Vo. change (finite o) in Fo. clearbody o.
  assert (Lt : finite (@slit (F64 lm) 1 100) /\ val (@slit (F64 lm) 1 100) <= 10001 / 1000000).
  { destruct (fofZ_exact 1 eq_refl) as (F1 & V1). destruct (fofZ_exact 100 eq_refl) as (F2 & V2). cbn [F64 slit]. pose proof big_big as BB.
    destruct (fdiv_ok _ _ F1 F2) as (F & V); [rewrite V2; lra|rewrite V1, V2, Rabs_pos_eq; lra|]. split; [exact F|]. rewrite V, V1, V2.
    pose proof (rnd_err (1 / 100)) as E. rewrite (Rabs_pos_eq (1 / 100)) in E by lra. pose proof (Rle_abs (rnd (1 / 100) - 1 / 100)). pose proof eta_u. rewrite uro_val in *. lra. }
  destruct Lt as (Fc & Vc). set (c := @slit (F64 lm) 1 100) in *. change (SFdiv prec64 emax64 (f64_of_Z 1) (f64_of_Z 100)) with c in H. clearbody c.
  apply abs_lt_inv in H as (H1 & H2); [|exact Fc].
  assert (D1 : double o) by (apply finite_double, Fo).
  assert (NS : forall a, finite a -> nospec a) by (intros a Fa; destruct a; try exact I; contradiction).
  set (W := SFmul prec64 emax64 w w) in *. set (X := SFmul prec64 emax64 x x) in *. set (Y := SFmul prec64 emax64 y y) in *. set (Z := SFmul prec64 emax64 z z) in *.
  assert (DW : double W) by (apply double_mul; assumption). assert (DX : double X) by (apply double_mul; assumption).
  assert (DY : double Y) by (apply double_mul; assumption). assert (DZ : double Z) by (apply double_mul; assumption).
  assert (DD : double (SFadd prec64 emax64 (SFadd prec64 emax64 (SFadd prec64 emax64 W X) Y) Z)) by (repeat apply double_add; assumption).
  destruct (sub_inv _ _ DD D1 H1) as (FDD & _ & FE & VE).
  destruct (add_inv (SFadd prec64 emax64 (SFadd prec64 emax64 W X) Y) Z ltac:(repeat apply double_add; assumption) DZ (NS _ FDD)) as (F1 & FZ & FD & VD).
  destruct (add_inv (SFadd prec64 emax64 W X) Y ltac:(repeat apply double_add; assumption) DY (NS _ F1)) as (F2 & FY & _ & V1).
  destruct (add_inv W X DW DX (NS _ F2)) as (FW & FX & _ & V2).
  destruct (mul_inv w w Dw Dw (NS _ FW)) as (Fw & _ & _ & VW). destruct (mul_inv x x Dx Dx (NS _ FX)) as (Fx & _ & _ & VX).
  destruct (mul_inv y y Dy Dy (NS _ FY)) as (Fy & _ & _ & VY). destruct (mul_inv z z Dz Dz (NS _ FZ)) as (Fz & _ & _ & VZ).
  split; [repeat split; assumption|].
  fold W in VW. fold X in VX. fold Y in VY. fold Z in VZ.
  set (S2 := SFadd prec64 emax64 W X) in *. set (S3 := SFadd prec64 emax64 S2 Y) in *. set (D := SFadd prec64 emax64 S3 Z) in *.
  pose proof uro_pos as U. pose proof eta_pos as E0. pose proof eta_u as EU. pose proof big_big as BB.
  assert (DV : Rabs (val D - 1) <= 102 / 10000).
  { specialize (H2 FE). rewrite VE, Vo in H2.
    pose proof (rnd_err (val D - 1)) as E. set (t := val D - 1) in *.
    assert (T : Rabs t <= Rabs (rnd t) + Rabs (rnd t - t)).
    { replace t with (rnd t + - (rnd t - t)) at 1 by ring. eapply Rle_trans; [apply Rabs_triang|]. rewrite Rabs_Ropp. lra. }
    rewrite uro_val in *. lra. }
  assert (P : forall r, 0 <= rnd (r * r)) by (intros r; rewrite <- rnd_0; apply rnd_mono; nra).
  pose proof (P (val w)) as PW. pose proof (P (val x)) as PX. pose proof (P (val y)) as PY. pose proof (P (val z)) as PZ. rewrite <- VW in PW. rewrite <- VX in PX. rewrite <- VY in PY. rewrite <- VZ in PZ.
  assert (M : forall a b, finite a -> 0 <= b -> val a <= rnd (val a + b)) by (intros a b Fa Hb; rewrite <- (rnd_val a Fa) at 1; apply rnd_mono; lra).
  assert (M' : forall a b, finite a -> 0 <= b -> val a <= rnd (b + val a)) by (intros a b Fa Hb; rewrite <- (rnd_val a Fa) at 1; apply rnd_mono; lra).
  pose proof (M W (val X) FW PX) as L1. rewrite <- V2 in L1. pose proof (M' X (val W) FX PW) as L2. rewrite <- V2 in L2.
  pose proof (M S2 (val Y) F2 PY) as L3. rewrite <- V1 in L3. pose proof (M' Y (val S2) FY ltac:(lra)) as L4. rewrite <- V1 in L4.
  pose proof (M S3 (val Z) F1 PZ) as L5. rewrite <- VD in L5. pose proof (M' Z (val S3) FZ ltac:(lra)) as L6. rewrite <- VD in L6.
  pose proof (Rle_abs (val D - 1)) as Q1. pose proof (Rle_abs (- (val D - 1))) as Q2. rewrite Rabs_Ropp in Q2.
  assert (A : forall a A, finite A -> val A = rnd (val a * val a) -> val A <= 2 -> ap A (val a * val a) (u * (val a * val a) + eta) /\ 0 <= val a * val a <= 3).
  { intros a A FA VA LA. assert (S : 0 <= val a * val a) by nra. pose proof (rnd_err (val a * val a)) as E. rewrite <- VA, (Rabs_pos_eq (val a * val a)) in E by exact S.
    split; [split; [exact FA|exact E]|]. split; [exact S|]. pose proof (Rle_abs (- (val A - val a * val a))) as Q. rewrite Rabs_Ropp in Q. rewrite uro_val in *. lra. }
  destruct (A w W FW VW ltac:(lra)) as (AW & BW). destruct (A x X FX VX ltac:(lra)) as (AX & BX).
  destruct (A y Y FY VY ltac:(lra)) as (AY & BY). destruct (A z Z FZ VZ ltac:(lra)) as (AZ & BZ).
  assert (N2 : qnorm (qval (@Q4 (F64 lm) x y z w)) * qnorm (qval (@Q4 (F64 lm) x y z w)) = val w * val w + val x * val x + val y * val y + val z * val z).
  { rewrite !qnorm_N4. cbn [qx qy qz qw qval]. rewrite N4_sq. ring. }
  pose proof (qnorm_pos (qval (@Q4 (F64 lm) x y z w))) as NP. set (n := qnorm (qval (@Q4 (F64 lm) x y z w))) in *. clearbody n.
  assert (pe : forall r, 0 <= r -> Rabs r <= r) by (intros r Hr; rewrite Rabs_pos_eq; lra).
  destruct (sum_ppp W X Y Z _ _ _ _ _ _ _ _ (n * n) AW AX AY AZ (pe _ (proj1 BW)) (pe _ (proj1 BX)) (pe _ (proj1 BY)) (pe _ (proj1 BZ)) ltac:(lra) ltac:(lra)) as (_ & E).
  rewrite <- N2 in E. change (Rabs (val D - n * n) <= 33 / 8 * u * (n * n) + 8 * eta) in E.
  pose proof (Rle_abs (val D - n * n)) as Q3. pose proof (Rle_abs (- (val D - n * n))) as Q4. rewrite Rabs_Ropp in Q4.
  assert (NN : 989 / 1000 <= n * n <= 1011 / 1000) by (rewrite uro_val in *; lra). nra.
Qed.
End A.
