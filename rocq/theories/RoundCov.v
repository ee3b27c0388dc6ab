(** * Rounding errors of transforming a covariance *)
From Coq Require Import ZArith Bool Reals Floats.SpecFloat List Lia Lra Psatz.
From Flocq Require Import Zaux Raux Defs BinarySingleNaN.
From Verif Require Import Scalar LinearMath Instances RealSlerp RealQuat RealMatrix SpecRound FloatErr FloatMore RoundNorm RoundOps RoundChain RoundSlerp SpecReal SpecApply RoundApply RoundPoint RoundPose.
Open Scope R_scope.
Local Notation u := uro.
Local Notation "a +! b" := (SFadd prec64 emax64 a b) (at level 50, left associativity).
Local Notation "a *! b" := (SFmul prec64 emax64 a b) (at level 40, left associativity).

Lemma fmul_comm : forall x y : f64, x *! y = y *! x.
Proof.
  intros [s|s| |s m e] [s'|s'| |s' m' e']; unfold SFmul; rewrite ?(xorb_comm s'); try reflexivity. rewrite (Pos.mul_comm m'), (Z.add_comm e'). reflexivity.
Qed.
Lemma row_sum : forall a b c : R, a * a + b * b + c * c = 1 -> Rabs a + Rabs b + Rabs c <= 7 / 4.
Proof.
  intros a b c H. pose proof (N4_cauchy_abs a b c 0 1 1 1 0) as C. rewrite !Rmult_1_r, Rmult_0_r, Rabs_R0, Rplus_0_r in C.
  assert (A : N4 a b c 0 <= 1) by (apply N4_sq_le; lra). assert (B : N4 1 1 1 0 <= 7 / 4) by (apply N4_sq_le; lra).
  pose proof (N4_pos a b c 0). pose proof (N4_pos 1 1 1 0).
  eapply Rle_trans; [exact C|]. replace (7 / 4) with (1 * (7 / 4)) by ring. apply Rmult_le_compat; lra.
Qed.
(** a product of an entry [r] of a rotation and a number of size [S] *)
Lemma term_ap : forall a b r s e f S, ap a r e -> ap b s f -> Rabs s <= S -> 0 <= e <= 19 * u -> 0 <= f <= 44 * u * S + 6 * eta -> S <= big / 64 ->
  Rabs r <= 1 ->
  ap (a *! b) (r * s) (S * e + Rabs r * f + u * (Rabs r * S) + u * S / 100 + 101 / 100 * eta) /\ Rabs (r * s) <= Rabs r * S.
Proof.
  intros a b r s e f S Ha Hb HS He Hf SB Hr. pose proof big_big as BB. pose proof uro_pos as U. pose proof eta_pos as E0. pose proof eta_1 as E1.
  pose proof (Rabs_pos s) as S0. pose proof (Rabs_pos r) as R0.
  assert (HB : Rabs (r * s) <= Rabs r * S) by (rewrite Rabs_mult; apply Rmult_le_compat_l; assumption). split; [|exact HB].
  assert (US : 0 <= u * S) by (apply Rmult_le_pos; lra).
  assert (G : forall t, 0 <= t -> 0 <= u * t <= t / 1000000).
  { intros t Ht. split; [apply Rmult_le_pos; lra|]. unfold Rdiv. rewrite (Rmult_comm t). apply Rmult_le_compat_r; [exact Ht|rewrite uro_val; lra]. }
  pose proof (G S ltac:(lra)) as GS. pose proof (G _ US) as GUS. pose proof (G eta ltac:(lra)) as GE.
  assert (X1 : Rabs s * e <= S * e) by (apply Rmult_le_compat_r; lra).
  assert (X0 : S * e <= 19 * (u * S)). { replace (19 * (u * S)) with (S * (19 * u)) by ring. apply Rmult_le_compat_l; lra. }
  assert (X0' : 0 <= S * e) by (apply Rmult_le_pos; lra).
  assert (RF : 0 <= Rabs r * f <= f). { split; [apply Rmult_le_pos; lra|]. rewrite <- (Rmult_1_l f) at 2. apply Rmult_le_compat_r; lra. }
  assert (EF : 0 <= e * f <= u * S / 1000 + eta / 1000).
  { split; [apply Rmult_le_pos; lra|]. apply Rle_trans with (19 * u * (44 * u * S + 6 * eta)); [apply Rmult_le_compat; lra|].
    replace (19 * u * (44 * u * S + 6 * eta)) with (19 * 44 * (u * (u * S)) + 19 * 6 * (u * eta)) by ring. lra. }
  assert (RS : 0 <= Rabs r * S <= S). { split; [apply Rmult_le_pos; lra|]. rewrite <- (Rmult_1_l S) at 2. apply Rmult_le_compat_r; lra. }
  pose proof (ap_abs _ _ _ Ha) as HA.
  assert (X2 : (Rabs r + e) * f = Rabs r * f + e * f) by ring.
  pose proof (ap_mul2 a b r s e f (Rabs r + e) (Rabs r * S) Ha Hb HA HB ltac:(lra)) as K. eapply ap_weaken; [exact K|]. rewrite X2.
  assert (UK : u * (Rabs r * S + (Rabs s * e + (Rabs r * f + e * f))) <= u * (Rabs r * S) + u * S / 1000 + eta / 1000).
  { rewrite Rmult_plus_distr_l. assert (u * (Rabs s * e + (Rabs r * f + e * f)) <= u * (100 * (u * S) + 7 * eta)) by (apply Rmult_le_compat_l; lra).
    assert (u * (100 * (u * S) + 7 * eta) = 100 * (u * (u * S)) + 7 * (u * eta)) by ring. lra. }
  lra.
Qed.
Lemma dot3_ap : forall a1 a2 a3 b1 b2 b3 r1 r2 r3 s1 s2 s3 e1 e2 e3 f S,
  ap a1 r1 e1 -> ap a2 r2 e2 -> ap a3 r3 e3 -> ap b1 s1 f -> ap b2 s2 f -> ap b3 s3 f ->
  Rabs s1 <= S -> Rabs s2 <= S -> Rabs s3 <= S -> 0 <= e1 <= 19 * u -> 0 <= e2 <= 19 * u -> 0 <= e3 <= 19 * u -> e1 + e2 + e3 <= 37 * u ->
  0 <= f <= 44 * u * S + 6 * eta -> S <= big / 64 -> r1 * r1 + r2 * r2 + r3 * r3 = 1 ->
  ap (a1 *! b1 +! a2 *! b2 +! a3 *! b3) (r1 * s1 + r2 * s2 + r3 * s3) (43 * u * S + 7 / 4 * f + 6 * eta) /\
  Rabs (r1 * s1 + r2 * s2 + r3 * s3) <= 7 / 4 * S.
Proof.
  intros a1 a2 a3 b1 b2 b3 r1 r2 r3 s1 s2 s3 e1 e2 e3 f S A1 A2 A3 B1 B2 B3 S1 S2 S3 E1 E2 E3 ES Hf SB Hr.
  pose proof big_big as BB. pose proof uro_pos as U. pose proof eta_pos as E0. pose proof eta_1 as E1'.
  assert (Q : forall x : R, 0 <= x * x) by (intros x; apply Rle_0_sqr).
  assert (L : forall x, x * x <= 1 -> Rabs x <= 1) by (intros x Hx; apply le_sq; [lra|]; rewrite <- Rabs_mult, Rabs_pos_eq by apply Q; lra).
  pose proof (Q r1). pose proof (Q r2). pose proof (Q r3).
  pose proof (row_sum r1 r2 r3 Hr) as RSum.
  destruct (term_ap a1 b1 r1 s1 e1 f S A1 B1 S1 E1 Hf SB (L r1 ltac:(lra))) as (K1 & M1).
  destruct (term_ap a2 b2 r2 s2 e2 f S A2 B2 S2 E2 Hf SB (L r2 ltac:(lra))) as (K2 & M2).
  destruct (term_ap a3 b3 r3 s3 e3 f S A3 B3 S3 E3 Hf SB (L r3 ltac:(lra))) as (K3 & M3).
  pose proof (Rabs_pos s1) as S0.
  assert (US : 0 <= u * S) by (apply Rmult_le_pos; lra).
  assert (G : forall t, 0 <= t -> 0 <= u * t <= t / 1000000).
  { intros t Ht. split; [apply Rmult_le_pos; lra|]. unfold Rdiv. rewrite (Rmult_comm t). apply Rmult_le_compat_r; [exact Ht|rewrite uro_val; lra]. }
  pose proof (G S ltac:(lra)) as GS. pose proof (G _ US) as GUS. pose proof (G eta ltac:(lra)) as GE. pose proof (G f ltac:(lra)) as GF.
  assert (P : forall r, 0 <= Rabs r * S /\ 0 <= u * (Rabs r * S) /\ 0 <= Rabs r * f).
  { intros r. pose proof (Rabs_pos r). split; [apply Rmult_le_pos; lra|]. split; [apply Rmult_le_pos; [lra|apply Rmult_le_pos; lra]|apply Rmult_le_pos; lra]. }
  pose proof (P r1) as P1. pose proof (P r2) as P2. pose proof (P r3) as P3.
  assert (SE : forall e, 0 <= e <= 19 * u -> 0 <= S * e) by (intros e He; apply Rmult_le_pos; lra). pose proof (SE e1 E1) as SE1. pose proof (SE e2 E2) as SE2. pose proof (SE e3 E3) as SE3.
  assert (Z1 : S * e1 + S * e2 + S * e3 <= 37 * (u * S)).
  { rewrite <- !Rmult_plus_distr_l. replace (37 * (u * S)) with (S * (37 * u)) by ring. apply Rmult_le_compat_l; lra. }
  assert (Z2 : Rabs r1 * S + Rabs r2 * S + Rabs r3 * S <= 7 / 4 * S) by (rewrite <- !Rmult_plus_distr_r; apply Rmult_le_compat_r; lra).
  assert (Z3 : Rabs r1 * f + Rabs r2 * f + Rabs r3 * f <= 7 / 4 * f) by (rewrite <- !Rmult_plus_distr_r; apply Rmult_le_compat_r; lra).
  assert (Z4 : u * (Rabs r1 * S) + u * (Rabs r2 * S) + u * (Rabs r3 * S) <= 7 / 4 * (u * S)).
  { rewrite <- !Rmult_plus_distr_l. replace (7 / 4 * (u * S)) with (u * (7 / 4 * S)) by ring. apply Rmult_le_compat_l; lra. }
  set (q1 := Rabs r1 * S) in *. set (q2 := Rabs r2 * S) in *. set (q3 := Rabs r3 * S) in *.
  set (h1 := Rabs r1 * f) in *. set (h2 := Rabs r2 * f) in *. set (h3 := Rabs r3 * f) in *.
  set (g1 := S * e1) in *. set (g2 := S * e2) in *. set (g3 := S * e3) in *. clearbody q1 q2 q3 h1 h2 h3 g1 g2 g3.
  set (D1 := g1 + h1 + u * q1 + u * S / 100 + 101 / 100 * eta) in *. set (D2 := g2 + h2 + u * q2 + u * S / 100 + 101 / 100 * eta) in *. set (D3 := g3 + h3 + u * q3 + u * S / 100 + 101 / 100 * eta) in *.
  assert (T1 : Rabs (r1 * s1 + r2 * s2) <= q1 + q2) by (apply abs2; assumption).
  assert (T2 : Rabs (r1 * s1 + r2 * s2 + r3 * s3) <= q1 + q2 + q3) by (apply abs2; assumption).
  assert (DB : 0 <= D1 /\ 0 <= D2 /\ 0 <= D3 /\ D1 + D2 + D3 <= 37 * (u * S) + 7 / 4 * f + 178 / 100 * (u * S) + 304 / 100 * eta) by (unfold D1, D2, D3; lra).
  assert (DS : D1 + D2 + D3 <= 200 * (u * S) + 20 * eta) by lra.
  assert (Z5 : u * q1 + u * q2 <= 7 / 4 * (u * S)) by lra.
  assert (UD : u * (D1 + D2) <= u * S / 1000 + eta / 1000).
  { apply Rle_trans with (u * (200 * (u * S) + 20 * eta)); [apply Rmult_le_compat_l; lra|]. replace (u * (200 * (u * S) + 20 * eta)) with (200 * (u * (u * S)) + 20 * (u * eta)) by ring. lra. }
  pose proof (ap_add _ _ _ _ _ _ (q1 + q2) K1 K2 T1 ltac:(lra)) as W1.
  assert (W1' : ap (a1 *! b1 +! a2 *! b2) (r1 * s1 + r2 * s2) (D1 + D2 + (7 / 4 * (u * S) + u * S / 1000 + 1001 / 1000 * eta))).
  { eapply ap_weaken; [exact W1|]. rewrite (Rmult_plus_distr_l u (q1 + q2)), (Rmult_plus_distr_l u q1). lra. }
  set (D12 := D1 + D2 + (7 / 4 * (u * S) + u * S / 1000 + 1001 / 1000 * eta)) in *.
  assert (D12B : D12 + D3 <= 210 * (u * S) + 22 * eta) by (unfold D12; lra).
  assert (UD2 : u * (D12 + D3) <= u * S / 1000 + eta / 1000).
  { apply Rle_trans with (u * (210 * (u * S) + 22 * eta)); [apply Rmult_le_compat_l; lra|]. replace (u * (210 * (u * S) + 22 * eta)) with (210 * (u * (u * S)) + 22 * (u * eta)) by ring. lra. }
  split; [|lra].
  pose proof (ap_add _ _ _ _ _ _ (q1 + q2 + q3) W1' K3 T2 ltac:(lra)) as W2. eapply ap_weaken; [exact W2|].
  rewrite (Rmult_plus_distr_l u (q1 + q2 + q3)), !(Rmult_plus_distr_l u _ q3), (Rmult_plus_distr_l u q1). unfold D12 in *. lra.
Qed.

(** ** One block: M C M^T *)
Section B.
Context {lm : libm}.
Notation fq := (quat (F64 lm)).
Notation fm := (mat3 (F64 lm)).
Definition m_val (M : fm) : mat3 RS :=
  @M3 RS (@V3 RS (val (vx (m0 M))) (val (vy (m0 M))) (val (vz (m0 M)))) (@V3 RS (val (vx (m1 M))) (val (vy (m1 M))) (val (vz (m1 M))))
         (@V3 RS (val (vx (m2 M))) (val (vy (m2 M))) (val (vz (m2 M)))).
Definition m_le (B : R) (M : fm) : Prop :=
  let ok (x : f64) := finite x /\ Rabs (val x) <= B in
  ok (vx (m0 M)) /\ ok (vy (m0 M)) /\ ok (vz (m0 M)) /\ ok (vx (m1 M)) /\ ok (vy (m1 M)) /\ ok (vz (m1 M)) /\ ok (vx (m2 M)) /\ ok (vy (m2 M)) /\ ok (vz (m2 M)).

Lemma first_row : forall a0 a1 a2 r0 r1 r2 e0 e1 e2 c0 c1 c2 B, ap a0 r0 e0 -> ap a1 r1 e1 -> ap a2 r2 e2 ->
  finite c0 /\ Rabs (val c0) <= B -> finite c1 /\ Rabs (val c1) <= B -> finite c2 /\ Rabs (val c2) <= B ->
  0 <= e0 <= 19 * u -> 0 <= e1 <= 19 * u -> 0 <= e2 <= 19 * u -> e0 + e1 + e2 <= 37 * u ->
  B <= big / 64 -> r0 * r0 + r1 * r1 + r2 * r2 = 1 ->
  ap (c0 *! a0 +! c1 *! a1 +! c2 *! a2) (r0 * val c0 + r1 * val c1 + r2 * val c2) (43 * u * B + 6 * eta) /\ Rabs (r0 * val c0 + r1 * val c1 + r2 * val c2) <= 7 / 4 * B.
Proof.
  intros a0 a1 a2 r0 r1 r2 e0 e1 e2 c0 c1 c2 B A0 A1 A2 (F0 & C0) (F1 & C1) (F2 & C2) E0 E1 E2 ES HB Hr. rewrite (fmul_comm c0), (fmul_comm c1), (fmul_comm c2).
  pose proof uro_pos. pose proof eta_pos. pose proof (Rabs_pos (val c0)). assert (0 <= u * B) by (apply Rmult_le_pos; lra).
  destruct (dot3_ap _ _ _ _ _ _ _ _ _ _ _ _ _ _ _ 0 B A0 A1 A2 (ap_exact c0 F0) (ap_exact c1 F1) (ap_exact c2 F2) C0 C1 C2 E0 E1 E2 ES ltac:(lra) HB Hr) as (K & L).
  split; [|exact L]. eapply ap_weaken; [exact K|lra].
Qed.
Lemma second_row : forall a0 a1 a2 r0 r1 r2 e0 e1 e2 y0 y1 y2 s0 s1 s2 B, ap a0 r0 e0 -> ap a1 r1 e1 -> ap a2 r2 e2 ->
  ap y0 s0 (43 * u * B + 6 * eta) /\ Rabs s0 <= 7 / 4 * B -> ap y1 s1 (43 * u * B + 6 * eta) /\ Rabs s1 <= 7 / 4 * B -> ap y2 s2 (43 * u * B + 6 * eta) /\ Rabs s2 <= 7 / 4 * B ->
  0 <= e0 <= 19 * u -> 0 <= e1 <= 19 * u -> 0 <= e2 <= 19 * u -> e0 + e1 + e2 <= 37 * u ->
  0 <= B <= big / 128 -> r0 * r0 + r1 * r1 + r2 * r2 = 1 ->
  ap (a0 *! y0 +! a1 *! y1 +! a2 *! y2) (r0 * s0 + r1 * s1 + r2 * s2) (151 * u * B + 17 * eta).
Proof.
  intros a0 a1 a2 r0 r1 r2 e0 e1 e2 y0 y1 y2 s0 s1 s2 B A0 A1 A2 (Y0 & C0) (Y1 & C1) (Y2 & C2) E0 E1 E2 ES HB Hr.
  pose proof uro_pos. pose proof eta_pos. assert (0 <= u * B) by (apply Rmult_le_pos; lra).
  destruct (dot3_ap _ _ _ _ _ _ _ _ _ _ _ _ _ _ _ (43 * u * B + 6 * eta) (7 / 4 * B) A0 A1 A2 Y0 Y1 Y2 C0 C1 C2 E0 E1 E2 ES ltac:(lra) ltac:(lra) Hr) as (K & _).
  eapply ap_weaken; [exact K|lra].
Qed.
Lemma block_near : forall (M C : fm) (R : mat3 RS) B, rotation R -> mnear (19 * u) (9 * u) M R -> m_le B C -> 0 <= B <= big / 128 ->
  mnear (151 * u * B + 17 * eta) (151 * u * B + 17 * eta) (mmul (mmul M C) (mtranspose M)) (mmul (mmul R (m_val C)) (mtranspose R)).
Proof.
  intros [[a00 a01 a02] [a10 a11 a12] [a20 a21 a22]] [[c00 c01 c02] [c10 c11 c12] [c20 c21 c22]] [[r00 r01 r02] [r10 r11 r12] [r20 r21 r22]] B HR.
  unfold mnear, m_le. cbn [vx vy vz m0 m1 m2]. intros (A00 & A01 & A02 & A10 & A11 & A12 & A20 & A21 & A22) (C00 & C01 & C02 & C10 & C11 & C12 & C20 & C21 & C22) HB.
  unfold rotation in HR. destruct HR as ((R0 & R1 & R2) & _). pose proof uro_pos as U. unfold m_val. cbn [vx vy vz m0 m1 m2].
  assert (HB' : B <= big / 64) by (pose proof big_big; lra).
  assert (r0f : forall c0 c1 c2, finite c0 /\ Rabs (val c0) <= B -> finite c1 /\ Rabs (val c1) <= B -> finite c2 /\ Rabs (val c2) <= B ->
    ap (c0 *! a00 +! c1 *! a01 +! c2 *! a02) (r00 * val c0 + r01 * val c1 + r02 * val c2) (43 * u * B + 6 * eta) /\ Rabs (r00 * val c0 + r01 * val c1 + r02 * val c2) <= 7 / 4 * B)
    by (intros; eapply first_row; try eassumption; lra).
  assert (r1f : forall c0 c1 c2, finite c0 /\ Rabs (val c0) <= B -> finite c1 /\ Rabs (val c1) <= B -> finite c2 /\ Rabs (val c2) <= B ->
    ap (c0 *! a10 +! c1 *! a11 +! c2 *! a12) (r10 * val c0 + r11 * val c1 + r12 * val c2) (43 * u * B + 6 * eta) /\ Rabs (r10 * val c0 + r11 * val c1 + r12 * val c2) <= 7 / 4 * B)
    by (intros; eapply first_row; try eassumption; lra).
  assert (r2f : forall c0 c1 c2, finite c0 /\ Rabs (val c0) <= B -> finite c1 /\ Rabs (val c1) <= B -> finite c2 /\ Rabs (val c2) <= B ->
    ap (c0 *! a20 +! c1 *! a21 +! c2 *! a22) (r20 * val c0 + r21 * val c1 + r22 * val c2) (43 * u * B + 6 * eta) /\ Rabs (r20 * val c0 + r21 * val c1 + r22 * val c2) <= 7 / 4 * B)
    by (intros; eapply first_row; try eassumption; lra).
  assert (S0 : forall y0 y1 y2 s0 s1 s2, ap y0 s0 (43 * u * B + 6 * eta) /\ Rabs s0 <= 7 / 4 * B -> ap y1 s1 (43 * u * B + 6 * eta) /\ Rabs s1 <= 7 / 4 * B -> ap y2 s2 (43 * u * B + 6 * eta) /\ Rabs s2 <= 7 / 4 * B ->
    ap (a00 *! y0 +! a01 *! y1 +! a02 *! y2) (r00 * s0 + r01 * s1 + r02 * s2) (151 * u * B + 17 * eta)) by (intros; eapply second_row; try eassumption; lra).
  assert (S1 : forall y0 y1 y2 s0 s1 s2, ap y0 s0 (43 * u * B + 6 * eta) /\ Rabs s0 <= 7 / 4 * B -> ap y1 s1 (43 * u * B + 6 * eta) /\ Rabs s1 <= 7 / 4 * B -> ap y2 s2 (43 * u * B + 6 * eta) /\ Rabs s2 <= 7 / 4 * B ->
    ap (a10 *! y0 +! a11 *! y1 +! a12 *! y2) (r10 * s0 + r11 * s1 + r12 * s2) (151 * u * B + 17 * eta)) by (intros; eapply second_row; try eassumption; lra).
  assert (S2 : forall y0 y1 y2 s0 s1 s2, ap y0 s0 (43 * u * B + 6 * eta) /\ Rabs s0 <= 7 / 4 * B -> ap y1 s1 (43 * u * B + 6 * eta) /\ Rabs s1 <= 7 / 4 * B -> ap y2 s2 (43 * u * B + 6 * eta) /\ Rabs s2 <= 7 / 4 * B ->
    ap (a20 *! y0 +! a21 *! y1 +! a22 *! y2) (r20 * s0 + r21 * s1 + r22 * s2) (151 * u * B + 17 * eta)) by (intros; eapply second_row; try eassumption; lra).
  clear A00 A01 A02 A10 A11 A12 A20 A21 A22.
  unfold mmul, mtranspose, mtdotx, mtdoty, mtdotz. cbn [vx vy vz m0 m1 m2]. cbn [F64 RS scar sadd smul] in *.
  assert (X : forall x r1 r2 e, ap x r1 e -> r2 = r1 -> ap x r2 e) by (intros x p q e H ->; exact H).
  repeat match goal with |- _ /\ _ => split end; (eapply X;
    [first [apply S0|apply S1|apply S2];
       (first [apply (r0f c00 c10 c20)|apply (r0f c01 c11 c21)|apply (r0f c02 c12 c22)|apply (r1f c00 c10 c20)|apply (r1f c01 c11 c21)|apply (r1f c02 c12 c22)
              |apply (r2f c00 c10 c20)|apply (r2f c01 c11 c21)|apply (r2f c02 c12 c22)]; assumption)|ring]).
Qed.
End B.
