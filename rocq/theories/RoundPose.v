(** * Rounding errors of Matrix3x3 products and getRotation *)
From Coq Require Import ZArith Bool Reals Floats.SpecFloat List Lia Lra Psatz.
From Flocq Require Import Zaux Raux Defs BinarySingleNaN.
From Verif Require Import Scalar LinearMath Instances RealSlerp RealQuat RealMatrix SpecRound FloatErr FloatMore RoundNorm RoundOps RoundChain RoundSlerp RoundRPY SpecReal SpecApply RoundApply RoundPoint.
Open Scope R_scope.
Local Notation u := uro.
Local Notation "a +! b" := (SFadd prec64 emax64 a b) (at level 50, left associativity).
Local Notation "a -! b" := (SFsub prec64 emax64 a b) (at level 50, left associativity).
Local Notation "a *! b" := (SFmul prec64 emax64 a b) (at level 40, left associativity).
Local Notation "a /! b" := (SFdiv prec64 emax64 a b) (at level 40, left associativity).

Definition sg (a : R) : R := if Rle_dec 0 a then 1 else -1.
Lemma sg_abs : forall a, sg a * a = Rabs a.
Proof. intros a. unfold sg. destruct (Rle_dec 0 a); [rewrite Rabs_pos_eq by lra|rewrite Rabs_left by lra]; ring. Qed.
Lemma sg_sq : forall a, sg a * sg a = 1.
Proof. intros a. unfold sg. destruct (Rle_dec 0 a); ring. Qed.

(** two approximated factors *)
Lemma ap_mul2 : forall x y r s e f A B, ap x r e -> ap y s f -> Rabs (val x) <= A -> Rabs (r * s) <= B -> Rabs s * e + A * f + B <= big ->
  ap (x *! y) (r * s) (Rabs s * e + A * f + u * (B + (Rabs s * e + A * f)) + eta).
Proof.
  intros x y r s e f A B (Fx & Hx) (Fy & Hy) HA HB HC.
  assert (E : Rabs (val x * val y - r * s) <= Rabs s * e + A * f).
  { replace (val x * val y - r * s) with (s * (val x - r) + val x * (val y - s)) by ring. eapply Rle_trans; [apply Rabs_triang|]. rewrite !Rabs_mult.
    apply Rplus_le_compat; [apply Rmult_le_compat_l; [apply Rabs_pos|exact Hx]|]. apply Rmult_le_compat; try apply Rabs_pos; assumption. }
  destruct (fmul_ok x y Fx Fy) as (F & V); [pose proof (abs_close _ _ _ _ E HB); lra|]. split; [exact F|]. rewrite V. apply rnd_close; assumption.
Qed.

Section Rec.
Variables (hf : f64).
Hypothesis (Fh : finite hf) (Vh : val hf = 1 / 2).
(** From 4 a^2 and 4 a b to |a| and b *)
Lemma recover : forall g a D, ap g (4 * (a * a)) D -> 0 <= D <= 170 * u -> 1 / 4 - 60 * u <= a * a <= 1 ->
  let s := SFsqrt prec64 emax64 g in
  ap (s *! hf) (sg a * a) (26 / 100 * D + 21 / 10 * u) /\
  forall n b N, ap n (4 * (a * b)) N -> 0 <= N <= 120 * u -> a * a + b * b <= 1 -> ap (n *! (hf /! s)) (sg a * b) (51 / 100 * N + 51 / 100 * D + 5 * u).
Proof.
  intros g a D (Fg & Hg) HD Ha s. pose proof big_big as BB. pose proof uro_pos as U. pose proof eta_pos as E0. pose proof eta_u as EU.
  rewrite sg_abs. set (p := Rabs a). assert (P0 : 0 <= p) by apply Rabs_pos. assert (PP : p * p = a * a) by (unfold p, Rabs; destruct (Rcase_abs a); ring).
  assert (P1 : 499 / 1000 <= p <= 1). { rewrite uro_val in Ha. split; [|nra]. apply Rnot_lt_le. intros C. assert (p * p < 499 / 1000 * (499 / 1000)) by nra. lra. }
  assert (Gb : 996 / 1000 <= val g <= 4 + 170 * u). { apply Rabs_le_inv in Hg. rewrite uro_val in *. lra. }
  destruct (fsqrt_ok g Fg ltac:(lra)) as (Fs & Vs). fold s in Fs, Vs.
  set (q := sqrt (val g)) in *. assert (Q0 : 0 <= q) by apply sqrt_pos. assert (QQ : q * q = val g) by (apply sqrt_sqrt; lra).
  assert (Q1 : 997 / 1000 <= q) by (apply Rnot_lt_le; intros C; assert (q * q < 997 / 1000 * (997 / 1000)) by nra; lra).
  assert (DQ : Rabs (q - 2 * p) <= 502 / 1000 * D).
  { assert (H : Rabs (q - 2 * p) * (q + 2 * p) <= D). { rewrite <- (Rabs_pos_eq (q + 2 * p)) by lra. rewrite <- Rabs_mult. replace ((q - 2 * p) * (q + 2 * p)) with (val g - 4 * (a * a)); [exact Hg|]. rewrite <- PP, <- QQ. ring. }
    pose proof (Rabs_pos (q - 2 * p)) as A0. assert (Rabs (q - 2 * p) * (1995 / 1000) <= Rabs (q - 2 * p) * (q + 2 * p)) by (apply Rmult_le_compat_l; lra). lra. }
  assert (Ss : ap s (2 * p) (502 / 1000 * D + 21 / 10 * u)).
  { split; [exact Fs|]. rewrite Vs. eapply Rle_trans; [apply (rnd_close _ _ _ 2 DQ); rewrite Rabs_pos_eq; lra|]. rewrite uro_val in *. lra. }
  set (ds := 502 / 1000 * D + 21 / 10 * u) in *. assert (Hds : 0 <= ds <= 90 * u) by (unfold ds; lra).
  assert (Sv : 996 / 1000 <= val s <= 2 + 90 * u). { destruct Ss as (_ & H). apply Rabs_le_inv in H. rewrite uro_val in *. lra. }
  split.
  - replace p with (2 * p * (1 / 2)) by field. destruct Ss as (_ & Hs).
    assert (E : Rabs (val s * val hf - 2 * p * (1 / 2)) <= 1 / 2 * ds).
    { rewrite Vh. replace (val s * (1 / 2) - 2 * p * (1 / 2)) with ((val s - 2 * p) * (1 / 2)) by ring. rewrite Rabs_mult, (Rabs_pos_eq (1 / 2)) by lra. lra. }
    destruct (fmul_ok s hf Fs Fh) as (F & V). { rewrite Vh. rewrite Rabs_pos_eq by lra. rewrite uro_val in *. lra. }
    split; [exact F|]. rewrite V. eapply Rle_trans; [apply (rnd_close _ _ _ 1 E); rewrite Rabs_pos_eq; lra|]. unfold ds in *. rewrite uro_val in *. lra.
  - intros n b N Hn HN Hb.
    assert (Hh : ap (hf /! s) (/ (4 * p)) (252 / 1000 * D + 162 / 100 * u)).
    { assert (E : Rabs (val hf / val s - / (4 * p)) <= 5015 / 10000 * ds).
      { destruct Ss as (_ & Hs). rewrite Vh. apply (Rmult_le_reg_r (val s * (2 * p))); [apply Rmult_lt_0_compat; lra|]. rewrite <- (Rabs_pos_eq (val s * (2 * p))) at 1 by (apply Rmult_le_pos; lra). rewrite <- Rabs_mult.
        replace ((1 / 2 / val s - / (4 * p)) * (val s * (2 * p))) with (- (1 / 2 * (val s - 2 * p))) by (field; lra). rewrite Rabs_Ropp, Rabs_mult, (Rabs_pos_eq (1 / 2)) by lra.
        assert (W : 994 / 1000 <= val s * (2 * p)) by nra.
        apply Rle_trans with (1 / 2 * ds); [lra|]. assert (K : 998 / 1000 <= 2 * p) by lra.
        assert (V2 : 9975 / 10000 <= val s * (2 * p)).
        { apply Rabs_le_inv in Hs. assert (1 - 240 * u <= (2 * p) * (2 * p)) by (replace (2 * p * (2 * p)) with (4 * (a * a)) by (rewrite <- PP; ring); rewrite uro_val in *; lra).
          assert (1 - 250 * u <= 2 * p) by (rewrite uro_val in *; nra). rewrite uro_val in *. nra. }
        apply Rle_trans with (5015 / 10000 * ds * (9975 / 10000)); [lra|]. apply Rmult_le_compat_l; lra. }
      assert (B : / (4 * p) <= 502 / 1000). { apply (Rmult_le_reg_r (4 * p)); [lra|]. rewrite Rinv_l by lra. lra. }
      assert (B0 : 0 < / (4 * p)) by (apply Rinv_0_lt_compat; lra).
      destruct (fdiv_ok hf s Fh Fs) as (F & V); [lra| |].
      { eapply Rle_trans; [apply (abs_close _ _ _ (502 / 1000) E); rewrite Rabs_pos_eq; lra|]. rewrite uro_val in *. lra. }
      split; [exact F|]. rewrite V. eapply Rle_trans; [apply (rnd_close _ _ _ (502 / 1000) E); rewrite Rabs_pos_eq; lra|]. unfold ds in *. rewrite uro_val in *. lra. }
    assert (SB : sg a * b = 4 * (a * b) * / (4 * p)). { assert (A0 : a <> 0) by (intros ->; rewrite uro_val in *; lra). unfold p, sg, Rabs. clear - A0. destruct (Rcase_abs a) as [C|C], (Rle_dec 0 a) as [C2|C2]; try (exfalso; lra); field; exact A0. }
    assert (AB : Rabs (4 * (a * b)) <= 2). { rewrite Rabs_mult, (Rabs_pos_eq 4) by lra. assert (Rabs (a * b) <= 1 / 2); [|lra]. pose proof (Rle_0_sqr (a - b)) as K1. pose proof (Rle_0_sqr (a + b)) as K2. unfold Rsqr in *. apply Rabs_le. lra. }
    assert (I0 : Rabs (/ (4 * p)) <= 502 / 1000). { rewrite Rabs_pos_eq by (left; apply Rinv_0_lt_compat; lra). apply (Rmult_le_reg_r (4 * p)); [lra|]. rewrite Rinv_l by lra. lra. }
    assert (VN : Rabs (val n) <= 2 + 120 * u) by (pose proof (ap_abs _ _ _ Hn); lra).
    assert (Bb : Rabs (4 * (a * b) * / (4 * p)) <= 1). { rewrite <- SB. rewrite Rabs_mult. assert (S1 : Rabs (sg a) = 1) by (unfold sg, Rabs; destruct (Rle_dec 0 a); destruct (Rcase_abs _); lra). rewrite S1, Rmult_1_l. pose proof (Rle_0_sqr a) as K1. unfold Rsqr in K1. clear - K1 Hb. apply Rabs_le. split; nra. }
    rewrite SB. set (h := 252 / 1000 * D + 162 / 100 * u) in *. assert (H0 : 0 <= h <= 45 * u) by (unfold h; lra).
    assert (C1 : Rabs (/ (4 * p)) * N <= 502 / 1000 * N) by (apply Rmult_le_compat_r; lra).
    assert (C2 : (2 + 120 * u) * h <= 2001 / 1000 * h) by (apply Rmult_le_compat_r; [lra|rewrite uro_val; lra]).
    assert (0 <= Rabs (/ (4 * p)) * N) by (apply Rmult_le_pos; [apply Rabs_pos|lra]). assert (0 <= (2 + 120 * u) * h) by (apply Rmult_le_pos; lra).
    eapply ap_weaken; [apply (ap_mul2 n (hf /! s) (4 * (a * b)) (/ (4 * p)) N h (2 + 120 * u) 1 Hn Hh VN Bb)|].
    + rewrite uro_val in *. lra.
    + set (c1 := Rabs (/ (4 * p)) * N) in *. set (c2 := (2 + 120 * u) * h) in *. clearbody c1 c2. unfold h in *. rewrite uro_val in *. lra.
Qed.
End Rec.

(** ** getRotation on a matrix near that of a unit quaternion *)
Lemma sum3 : forall c0 c1 c2 r0 r1 r2 E one, ap c0 r0 E -> ap c1 r1 E -> ap c2 r2 E -> 0 <= E <= 51 * u -> Rabs r0 <= 1 -> Rabs r1 <= 1 -> Rabs r2 <= 1 ->
  finite one -> val one = 1 ->
  ap (c0 +! c1 +! c2) (r0 + r1 + r2) (3 * E + 51 / 10 * u) /\ ap (c0 +! c1 +! c2 +! one) (r0 + r1 + r2 + 1) (3 * E + 92 / 10 * u) /\
  ap (c0 -! c1 -! c2 +! one) (r0 - r1 - r2 + 1) (3 * E + 92 / 10 * u).
Proof.
  intros c0 c1 c2 r0 r1 r2 E one H0 H1 H2 HE A0 A1 A2 Fo Vo. pose proof big_big as BB. pose proof uro_pos as U. pose proof eta_pos as E0. pose proof eta_u as EU.
  assert (O1 : ap one 1 0) by (split; [exact Fo|]; rewrite Vo, Rminus_eq_0, Rabs_R0; lra).
  assert (T2 : forall a b, Rabs a <= 1 -> Rabs b <= 1 -> Rabs (a + b) <= 2) by (intros a b P Q; pose proof (abs2 a b 1 1 P Q); lra).
  assert (T3 : Rabs (r0 + r1 + r2) <= 3) by (pose proof (abs2 (r0 + r1) r2 2 1 (T2 _ _ A0 A1) A2); lra).
  assert (T4 : Rabs (r0 + r1 + r2 + 1) <= 4) by (pose proof (abs2 (r0 + r1 + r2) 1 3 1 T3 ltac:(rewrite Rabs_pos_eq; lra)); lra).
  assert (M2 : Rabs (r0 - r1) <= 2) by (pose proof (abs2m _ _ _ _ A0 A1); lra).
  assert (M3 : Rabs (r0 - r1 - r2) <= 3) by (pose proof (abs2m _ _ _ _ M2 A2); lra).
  assert (M4 : Rabs (r0 - r1 - r2 + 1) <= 4) by (pose proof (abs2 (r0 - r1 - r2) 1 3 1 M3 ltac:(rewrite Rabs_pos_eq; lra)); lra).
  assert (S3 : ap (c0 +! c1 +! c2) (r0 + r1 + r2) (3 * E + 51 / 10 * u)).
  { eapply ap_weaken; [apply (ap_add _ _ _ _ _ _ 3 (ap_weaken _ _ _ (2 * E + 201 / 100 * u) (ap_add _ _ _ _ _ _ 2 H0 H1 (T2 _ _ A0 A1) ltac:(num)) ltac:(num)) H2 T3 ltac:(num))|]. num. }
  assert (D3 : ap (c0 -! c1 -! c2) (r0 - r1 - r2) (3 * E + 51 / 10 * u)).
  { eapply ap_weaken; [apply (ap_sub _ _ _ _ _ _ 3 (ap_weaken _ _ _ (2 * E + 201 / 100 * u) (ap_sub _ _ _ _ _ _ 2 H0 H1 M2 ltac:(num)) ltac:(num)) H2 M3 ltac:(num))|]. num. }
  split; [exact S3|]. split.
  - eapply ap_weaken; [apply (ap_add _ _ _ _ _ _ 4 S3 O1 T4 ltac:(num))|]. num.
  - eapply ap_weaken; [apply (ap_add _ _ _ _ _ _ 4 D3 O1 M4 ltac:(num))|]. num.
Qed.
Lemma pair2 : forall c d r s E, ap c r E -> ap d s E -> 0 <= E <= 51 * u -> Rabs r <= 1 -> Rabs s <= 1 ->
  ap (c +! d) (r + s) (2 * E + 201 / 100 * u) /\ ap (c -! d) (r - s) (2 * E + 201 / 100 * u).
Proof.
  intros c d r s E H1 H2 HE A1 A2. pose proof big_big as BB. pose proof uro_pos as U. pose proof eta_pos as E0. pose proof eta_u as EU.
  pose proof (abs2 _ _ _ _ A1 A2) as P. pose proof (abs2m _ _ _ _ A1 A2) as M. split.
  - eapply ap_weaken; [apply (ap_add _ _ _ _ _ _ 2 H1 H2 ltac:(lra) ltac:(num))|]. num.
  - eapply ap_weaken; [apply (ap_sub _ _ _ _ _ _ 2 H1 H2 ltac:(lra) ltac:(num))|]. num.
Qed.

Section Get.
Context {lm : libm}.
Notation fq := (quat (F64 lm)).
Notation fm := (mat3 (F64 lm)).
(** the entries of [M] near those of [R]: within [d] on the diagonal, within [o] off it *)
Definition mnear (d o : R) (M : fm) (R : mat3 RS) : Prop :=
  ap (vx (m0 M)) (vx (m0 R)) d /\ ap (vy (m0 M)) (vy (m0 R)) o /\ ap (vz (m0 M)) (vz (m0 R)) o /\
  ap (vx (m1 M)) (vx (m1 R)) o /\ ap (vy (m1 M)) (vy (m1 R)) d /\ ap (vz (m1 M)) (vz (m1 R)) o /\
  ap (vx (m2 M)) (vx (m2 R)) o /\ ap (vy (m2 M)) (vy (m2 R)) o /\ ap (vz (m2 M)) (vz (m2 R)) d.

Lemma assemble : forall E k x y z w (X Y Z W : f64) e1 e2 e3 e4, 0 <= E -> k = 1 \/ k = -1 ->
  ap X (k * x) e1 -> ap Y (k * y) e2 -> ap Z (k * z) e3 -> ap W (k * w) e4 ->
  (let C := 256 / 100 * E + 11 * u in let T := 78 / 100 * E + 45 / 10 * u in
   e1 = T /\ e2 = C /\ e3 = C /\ e4 = C \/ e1 = C /\ e2 = T /\ e3 = C /\ e4 = C \/ e1 = C /\ e2 = C /\ e3 = T /\ e4 = C \/ e1 = C /\ e2 = C /\ e3 = C /\ e4 = T) ->
  qfinite (@Q4 (F64 lm) X Y Z W) /\ exists q, same_rotation q (@Q4 RS x y z w) /\ qdist (qval (@Q4 (F64 lm) X Y Z W)) q <= 452 / 100 * E + 20 * u.
Proof.
  intros E k x y z w X Y Z W e1 e2 e3 e4 HE Hk (F1 & H1) (F2 & H2) (F3 & H3) (F4 & H4) HC. pose proof uro_pos as U.
  split; [repeat split; assumption|]. exists (@Q4 RS (k * x) (k * y) (k * z) (k * w)). split.
  - unfold same_rotation, qneg. cbn [qx qy qz qw]. runf. destruct Hk as [-> | ->]; [left|right]; f_equal; cbn [RS scar]; ring.
  - unfold qdist. rewrite qnorm_N4. cbn [qval qx qy qz qw].
    eapply Rle_trans; [apply (N4_mono _ _ _ _ e1 e2 e3 e4); assumption|]. apply N4_sq_le; [lra|].
    assert (P1 : 0 <= E * E) by (apply Rmult_le_pos; lra). assert (P2 : 0 <= E * u) by (apply Rmult_le_pos; lra). assert (P3 : 0 <= u * u) by (apply Rmult_le_pos; lra).
    cbv zeta in HC. destruct HC as [(-> & -> & -> & ->)|[(-> & -> & -> & ->)|[(-> & -> & -> & ->)|(-> & -> & -> & ->)]]]; lra.
Qed.

Lemma sg_or : forall a, sg a = 1 \/ sg a = -1.
Proof. intros a. unfold sg. destruct (Rle_dec 0 a); auto. Qed.

Lemma getRotation_near : forall E (p : quat RS) (M : fm), qunit p -> 0 <= E <= 51 * u -> mnear E E M (mfromQuat p) ->
  qfinite (mgetRotation M) /\ exists q, same_rotation q p /\ qdist (qval (mgetRotation M)) q <= 452 / 100 * E + 20 * u.
Proof.
  intros E [x y z w] M Up HE HM. rewrite mfromQuat_unit in HM by exact Up. unfold qunit in Up. cbn [qx qy qz qw] in *. unfold mnear, qpoly, V9 in HM. cbn [vx vy vz m0 m1 m2] in HM. cbn [RS scar] in *.
  destruct M as [[a00 a01 a02] [a10 a11 a12] [a20 a21 a22]]. cbn [vx vy vz m0 m1 m2] in HM. destruct HM as (H00 & H01 & H02 & H10 & H11 & H12 & H20 & H21 & H22).
  change (scar (F64 lm)) with f64 in *.
  pose proof (Rle_0_sqr x) as X2. pose proof (Rle_0_sqr y) as Y2. pose proof (Rle_0_sqr z) as Z2. pose proof (Rle_0_sqr w) as W2. unfold Rsqr in *.
  assert (Cx : forall a b : R, 2 * a * b <= a * a + b * b /\ - (a * a + b * b) <= 2 * a * b) by (intros a b; pose proof (Rle_0_sqr (a - b)) as K1; pose proof (Rle_0_sqr (a + b)) as K2; unfold Rsqr in *; lra).
  pose proof (Cx x y) as Cxy. pose proof (Cx x z) as Cxz. pose proof (Cx x w) as Cxw. pose proof (Cx y z) as Cyz. pose proof (Cx y w) as Cyw. pose proof (Cx z w) as Czw. clear Cx.
  assert (B00 : Rabs (w * w + x * x - y * y - z * z) <= 1) by (apply Rabs_le; lra). assert (B11 : Rabs (w * w - x * x + y * y - z * z) <= 1) by (apply Rabs_le; lra). assert (B22 : Rabs (w * w - x * x - y * y + z * z) <= 1) by (apply Rabs_le; lra).
  assert (B01 : Rabs (2 * (x * y - w * z)) <= 1) by (apply Rabs_le; lra). assert (B02 : Rabs (2 * (x * z + w * y)) <= 1) by (apply Rabs_le; lra). assert (B12 : Rabs (2 * (y * z - w * x)) <= 1) by (apply Rabs_le; lra).
  assert (B10 : Rabs (2 * (x * y + w * z)) <= 1) by (apply Rabs_le; lra). assert (B20 : Rabs (2 * (x * z - w * y)) <= 1) by (apply Rabs_le; lra). assert (B21 : Rabs (2 * (y * z + w * x)) <= 1) by (apply Rabs_le; lra).
  destruct (@one_ok lm) as (Fo & Vo). destruct (@half_ok lm) as (Fh & Vh). destruct (@zero_ok lm) as (F0 & V0). pose proof uro_pos as U.
  destruct (sum3 _ _ _ _ _ _ E _ H00 H11 H22 HE B00 B11 B22 Fo Vo) as (Tr & Gw & Gx).
  destruct (sum3 _ _ _ _ _ _ E _ H11 H22 H00 HE B11 B22 B00 Fo Vo) as (_ & _ & Gy). destruct (sum3 _ _ _ _ _ _ E _ H22 H00 H11 HE B22 B00 B11 Fo Vo) as (_ & _ & Gz).
  unfold mgetRotation. cbn [vx vy vz m0 m1 m2]. unfold sgtb. cbn [F64 scar sadd ssub smul sdiv ssqrt sltb].
  set (D := 3 * E + 92 / 10 * u) in *. assert (HD : 0 <= D <= 170 * u) by (unfold D; lra).
  assert (Tt : 26 / 100 * D + 21 / 10 * u <= 78 / 100 * E + 45 / 10 * u) by (unfold D; lra).
  destruct (pair2 _ _ _ _ E H21 H12 HE B21 B12) as (Pyz & Pwx). destruct (pair2 _ _ _ _ E H02 H20 HE B02 B20) as (Pxz' & Pwy). destruct (pair2 _ _ _ _ E H10 H01 HE B10 B01) as (Pxy & Pwz).
  destruct (pair2 _ _ _ _ E H20 H02 HE B20 B02) as (Pxz & _). destruct (pair2 _ _ _ _ E H01 H10 HE B01 B10) as (Pxy' & _). destruct (pair2 _ _ _ _ E H12 H21 HE B12 B21) as (Pyz' & _).
  set (N := 2 * E + 201 / 100 * u) in *. assert (HN : 0 <= N <= 120 * u) by (unfold N; lra).
  assert (Tc : 51 / 100 * N + 51 / 100 * D + 5 * u <= 256 / 100 * E + 11 * u) by (unfold D, N; lra).
  assert (Wd : val (a00 +! a11 +! a22) <= 4 * (w * w) - 1 + 205 * u /\ 4 * (w * w) - 1 - 205 * u <= val (a00 +! a11 +! a22)).
  { destruct Tr as (_ & Tr). apply Rabs_le_inv in Tr. replace (w * w + x * x - y * y - z * z + (w * w - x * x + y * y - z * z) + (w * w - x * x - y * y + z * z)) with (4 * (w * w) - 1) in Tr by (rewrite <- Up; ring). lra. }
  pose proof H00 as (F00 & V00). pose proof H11 as (F11 & V11). pose proof H22 as (F22 & V22). apply Rabs_le_inv in V00, V11, V22. pose proof Tr as (Ft & _).
  destruct (SFltb (@szero (F64 lm)) (a00 +! a11 +! a22)) eqn:Et.
  - apply (fltb_ok _ _ F0 Ft) in Et. rewrite V0 in Et.
    replace (w * w + x * x - y * y - z * z + (w * w - x * x + y * y - z * z) + (w * w - x * x - y * y + z * z) + 1) with (4 * (w * w)) in Gw by (rewrite <- Up; ring).
    destruct (recover _ Fh Vh _ w D Gw HD ltac:(lra)) as (Rw & Ro). cbv zeta in Ro, Rw.
    replace (2 * (y * z + w * x) - 2 * (y * z - w * x)) with (4 * (w * x)) in Pwx by ring. replace (2 * (x * z + w * y) - 2 * (x * z - w * y)) with (4 * (w * y)) in Pwy by ring. replace (2 * (x * y + w * z) - 2 * (x * y - w * z)) with (4 * (w * z)) in Pwz by ring.
    refine (assemble E (sg w) x y z w _ _ _ _ _ _ _ _ ltac:(lra) (sg_or w) (ap_weaken _ _ _ _ (Ro _ _ _ Pwx HN ltac:(lra)) Tc) (ap_weaken _ _ _ _ (Ro _ _ _ Pwy HN ltac:(lra)) Tc) (ap_weaken _ _ _ _ (Ro _ _ _ Pwz HN ltac:(lra)) Tc) (ap_weaken _ _ _ _ Rw Tt) _). cbv zeta. auto 10.
  - assert (Et' : val (a00 +! a11 +! a22) <= 0). { apply Rnot_lt_le. intros C. assert (X : SFltb (@szero (F64 lm)) (a00 +! a11 +! a22) = true) by (apply (fltb_ok _ _ F0 Ft); rewrite V0; exact C). rewrite X in Et. discriminate Et. }
    assert (Lt : forall a b, finite a -> finite b -> SFltb a b = false -> val b <= val a) by (intros a b Fa Fb Hf; apply Rnot_lt_le; intros C; apply (fltb_ok _ _ Fa Fb) in C; rewrite C in Hf; discriminate Hf).
    assert (i012 : forall i : nat, i = (if SFltb a00 a11 then if SFltb a11 a22 then 2 else 1 else if SFltb a00 a22 then 2 else 0)%nat ->
      i = 0%nat /\ val a11 <= val a00 /\ val a22 <= val a00 \/ i = 1%nat /\ val a00 <= val a11 /\ val a22 <= val a11 \/ i = 2%nat /\ val a00 <= val a22 /\ val a11 <= val a22).
    { intros i ->. destruct (SFltb a00 a11) eqn:C1.
      - apply (fltb_ok _ _ F00 F11) in C1. destruct (SFltb a11 a22) eqn:C2; [apply (fltb_ok _ _ F11 F22) in C2; right; right; split; [reflexivity|lra]|apply (Lt _ _ F11 F22) in C2; right; left; split; [reflexivity|lra]].
      - apply (Lt _ _ F00 F11) in C1. destruct (SFltb a00 a22) eqn:C2; [apply (fltb_ok _ _ F00 F22) in C2; right; right; split; [reflexivity|lra]|apply (Lt _ _ F00 F22) in C2; left; split; [reflexivity|lra]]. }
    set (i := if SFltb a00 a11 then _ else _). pose proof (i012 i eq_refl) as Hi. clearbody i. clear i012. destruct Hi as [(-> & L1 & L2)|[(-> & L1 & L2)|(-> & L1 & L2)]].
    + replace (w * w + x * x - y * y - z * z - (w * w - x * x + y * y - z * z) - (w * w - x * x - y * y + z * z) + 1) with (4 * (x * x)) in Gx by (rewrite <- Up; ring).
      destruct (recover _ Fh Vh _ x D Gx HD ltac:(lra)) as (Rw & Ro). cbv zeta in Ro, Rw.
      replace (2 * (x * y + w * z) + 2 * (x * y - w * z)) with (4 * (x * y)) in Pxy by ring. replace (2 * (x * z - w * y) + 2 * (x * z + w * y)) with (4 * (x * z)) in Pxz by ring. replace (2 * (y * z + w * x) - 2 * (y * z - w * x)) with (4 * (x * w)) in Pwx by ring.
      refine (assemble E (sg x) x y z w _ _ _ _ _ _ _ _ ltac:(lra) (sg_or x) (ap_weaken _ _ _ _ Rw Tt) (ap_weaken _ _ _ _ (Ro _ _ _ Pxy HN ltac:(lra)) Tc) (ap_weaken _ _ _ _ (Ro _ _ _ Pxz HN ltac:(lra)) Tc) (ap_weaken _ _ _ _ (Ro _ _ _ Pwx HN ltac:(lra)) Tc) _). cbv zeta. auto 10.
    + replace (w * w - x * x + y * y - z * z - (w * w - x * x - y * y + z * z) - (w * w + x * x - y * y - z * z) + 1) with (4 * (y * y)) in Gy by (rewrite <- Up; ring).
      destruct (recover _ Fh Vh _ y D Gy HD ltac:(lra)) as (Rw & Ro). cbv zeta in Ro, Rw.
      replace (2 * (x * y - w * z) + 2 * (x * y + w * z)) with (4 * (y * x)) in Pxy' by ring. replace (2 * (y * z + w * x) + 2 * (y * z - w * x)) with (4 * (y * z)) in Pyz by ring. replace (2 * (x * z + w * y) - 2 * (x * z - w * y)) with (4 * (y * w)) in Pwy by ring.
      refine (assemble E (sg y) x y z w _ _ _ _ _ _ _ _ ltac:(lra) (sg_or y) (ap_weaken _ _ _ _ (Ro _ _ _ Pxy' HN ltac:(lra)) Tc) (ap_weaken _ _ _ _ Rw Tt) (ap_weaken _ _ _ _ (Ro _ _ _ Pyz HN ltac:(lra)) Tc) (ap_weaken _ _ _ _ (Ro _ _ _ Pwy HN ltac:(lra)) Tc) _). cbv zeta. auto 10.
    + replace (w * w - x * x - y * y + z * z - (w * w + x * x - y * y - z * z) - (w * w - x * x + y * y - z * z) + 1) with (4 * (z * z)) in Gz by (rewrite <- Up; ring).
      destruct (recover _ Fh Vh _ z D Gz HD ltac:(lra)) as (Rw & Ro). cbv zeta in Ro, Rw.
      replace (2 * (x * z + w * y) + 2 * (x * z - w * y)) with (4 * (z * x)) in Pxz' by ring. replace (2 * (y * z - w * x) + 2 * (y * z + w * x)) with (4 * (z * y)) in Pyz' by ring. replace (2 * (x * y + w * z) - 2 * (x * y - w * z)) with (4 * (z * w)) in Pwz by ring.
      refine (assemble E (sg z) x y z w _ _ _ _ _ _ _ _ ltac:(lra) (sg_or z) (ap_weaken _ _ _ _ (Ro _ _ _ Pxz' HN ltac:(lra)) Tc) (ap_weaken _ _ _ _ (Ro _ _ _ Pyz' HN ltac:(lra)) Tc) (ap_weaken _ _ _ _ Rw Tt) (ap_weaken _ _ _ _ (Ro _ _ _ Pwz HN ltac:(lra)) Tc) _). cbv zeta. auto 10.
Qed.

(** ** The matrix of a quaternion, and products of such matrices *)
Lemma mfromQuat_near : forall q : fq, qfinite q -> 1 / 2 <= qnorm (qval q) <= 2 -> mnear (19 * u) (9 * u) (mfromQuat q) (mfromQuat (qval q)).
Proof.
  intros [x y z w] (Fx & Fy & Fz & Fw) Hq. cbn [qx qy qz qw] in *.
  assert (Sq : 1 / 4 <= val x * val x + val y * val y + val z * val z + val w * val w <= 4).
  { pose proof (qnorm_sq (qval (@Q4 (F64 lm) x y z w))) as S. cbn [qval qx qy qz qw] in S. cbn [RS scar] in S. rewrite <- S. set (n := qnorm _) in *. nra. }
  destruct (@two_ok lm) as (Ft & Vt). destruct (@one_ok lm) as (Fo & Vo).
  set (s := SFdiv prec64 emax64 (@two (F64 lm)) (x *! x +! y *! y +! z *! z +! w *! w)).
  set (A := 2 / (val x * val x + val y * val y + val z * val z + val w * val w)).
  pose proof (on_diag x y z w Fx Fy Fz Fw Sq _ Ft Vt _ Fo Vo) as Dg. cbv zeta in Dg. fold s A in Dg.
  pose proof (off_sub x y z w Fx Fy Fz Fw Sq _ Ft Vt) as Of. cbv zeta in Of. fold s A in Of.
  pose proof (Rle_0_sqr (val x)) as X2. pose proof (Rle_0_sqr (val y)) as Y2. pose proof (Rle_0_sqr (val z)) as Z2. pose proof (Rle_0_sqr (val w)) as W2. unfold Rsqr in *.
  destruct (Of x y w z Fx Fy Fw Fz ltac:(lra)) as (M01 & M10). destruct (Of x z w y Fx Fz Fw Fy ltac:(lra)) as (M20 & M02). destruct (Of y z w x Fy Fz Fw Fx ltac:(lra)) as (M12 & M21).
  pose proof (Dg y z Fy Fz ltac:(lra)) as M00. pose proof (Dg x z Fx Fz ltac:(lra)) as M11. pose proof (Dg x y Fx Fy ltac:(lra)) as M22. clear Dg Of.
  assert (ER : mfromQuat (qval (@Q4 (F64 lm) x y z w)) =
     @M3 RS (@V3 RS (1 - (val y * (val y * A) + val z * (val z * A))) (val x * (val y * A) - val w * (val z * A)) (val x * (val z * A) + val w * (val y * A)))
            (@V3 RS (val x * (val y * A) + val w * (val z * A)) (1 - (val x * (val x * A) + val z * (val z * A))) (val y * (val z * A) - val w * (val x * A)))
            (@V3 RS (val x * (val z * A) - val w * (val y * A)) (val y * (val z * A) + val w * (val x * A)) (1 - (val x * (val x * A) + val y * (val y * A))))).
  { unfold mfromQuat, qlength2, qdot, qval. cbn [qx qy qz qw]. runf. unfold A. meq; field; lra. }
  rewrite ER. unfold mnear. cbn [vx vy vz m0 m1 m2].
  split; [exact M00|]. split; [exact M01|]. split; [exact M02|]. split; [exact M10|]. split; [exact M11|]. split; [exact M12|]. split; [exact M20|]. split; [exact M21|exact M22].
Qed.

(** a computed column [n] near [s], times a computed row [m] near [r] *)
Lemma entry_near : forall n1 n2 n3 m1 m2 m3 s1 s2 s3 r1 r2 r3 e1 e2 e3 f1 f2 f3,
  ap n1 s1 e1 -> ap n2 s2 e2 -> ap n3 s3 e3 -> ap m1 r1 f1 -> ap m2 r2 f2 -> ap m3 r3 f3 ->
  e1 * e1 + e2 * e2 + e3 * e3 <= 23 * u * (23 * u) -> f1 * f1 + f2 * f2 + f3 * f3 <= 23 * u * (23 * u) -> 0 <= e1 -> 0 <= e2 -> 0 <= e3 -> 0 <= f1 -> 0 <= f2 -> 0 <= f3 ->
  s1 * s1 + s2 * s2 + s3 * s3 = 1 -> r1 * r1 + r2 * r2 + r3 * r3 = 1 ->
  ap (n1 *! m1 +! n2 *! m2 +! n3 *! m3) (s1 * r1 + s2 * r2 + s3 * r3) (51 * u).
Proof.
  intros n1 n2 n3 m1 m2 m3 s1 s2 s3 r1 r2 r3 e1 e2 e3 f1 f2 f3 N1 N2 N3 (Fm1 & M1) (Fm2 & M2) (Fm3 & M3) He Hf E1 E2 E3 P1 P2 P3 Hs Hr.
  pose proof big_big as BB. pose proof uro_pos as U. pose proof eta_pos as E0. pose proof eta_u as EU.
  assert (NE : N4 (val m1 - r1) (val m2 - r2) (val m3 - r3) 0 <= 23 * u).
  { apply Rle_trans with (N4 f1 f2 f3 0); [apply N4_mono; try assumption; rewrite Rabs_R0; lra|]. apply N4_sq_le; lra. }
  assert (NR : N4 r1 r2 r3 0 <= 1) by (apply N4_sq_le; lra). assert (NS : N4 s1 s2 s3 0 <= 1) by (apply N4_sq_le; lra).
  assert (NM : N4 (val m1) (val m2) (val m3) 0 <= 1 + 23 * u).
  { replace (val m1) with (r1 + (val m1 - r1)) by ring. replace (val m2) with (r2 + (val m2 - r2)) by ring. replace (val m3) with (r3 + (val m3 - r3)) by ring.
    replace 0 with (0 + 0) at 1 by ring. eapply Rle_trans; [apply N4_triangle|]. lra. }
  destruct (row_ap n1 n2 n3 m1 m2 m3 s1 s2 s3 e1 e2 e3 N1 N2 N3 He E1 E2 E3 ltac:(lra) Fm1 Fm2 Fm3 ltac:(num)) as (F & D). split; [exact F|].
  assert (C : Rabs (s1 * (val m1 - r1) + s2 * (val m2 - r2) + s3 * (val m3 - r3)) <= 23 * u).
  { pose proof (N4_cauchy s1 s2 s3 0 (val m1 - r1) (val m2 - r2) (val m3 - r3) 0) as C1. pose proof (N4_cauchy (- s1) (- s2) (- s3) 0 (val m1 - r1) (val m2 - r2) (val m3 - r3) 0) as C2.
    assert (NS' : N4 (- s1) (- s2) (- s3) 0 <= 1) by (apply N4_sq_le; lra).
    pose proof (N4_pos s1 s2 s3 0). pose proof (N4_pos (- s1) (- s2) (- s3) 0). pose proof (N4_pos (val m1 - r1) (val m2 - r2) (val m3 - r3) 0).
    set (K := N4 (val m1 - r1) (val m2 - r2) (val m3 - r3) 0) in *.
    assert (N4 s1 s2 s3 0 * K <= 1 * (23 * u)) by (apply Rmult_le_compat; lra). assert (N4 (- s1) (- s2) (- s3) 0 * K <= 1 * (23 * u)) by (apply Rmult_le_compat; lra).
    apply Rabs_le. lra. }
  replace (val (n1 *! m1 +! n2 *! m2 +! n3 *! m3) - (s1 * r1 + s2 * r2 + s3 * r3)) with
    (val (n1 *! m1 +! n2 *! m2 +! n3 *! m3) - (s1 * val m1 + s2 * val m2 + s3 * val m3) + (s1 * (val m1 - r1) + s2 * (val m2 - r2) + s3 * (val m3 - r3))) by ring.
  eapply Rle_trans; [apply Rabs_triang|]. set (K := N4 (val m1) (val m2) (val m3) 0) in *. assert (u * K <= u * (1 + 23 * u)) by (apply Rmult_le_compat_l; lra).
  assert (u * (1 + 23 * u) <= 1001 / 1000 * u) by (rewrite uro_val; lra). lra.
Qed.

Lemma mmul_near : forall (M N : fm) (R S : mat3 RS), rotation R -> rotation S -> mnear (19 * u) (9 * u) M R -> mnear (19 * u) (9 * u) N S -> mnear (51 * u) (51 * u) (mmul M N) (mmul R S).
Proof.
  intros [[a00 a01 a02] [a10 a11 a12] [a20 a21 a22]] [[b00 b01 b02] [b10 b11 b12] [b20 b21 b22]] [[r00 r01 r02] [r10 r11 r12] [r20 r21 r22]] [[s00 s01 s02] [s10 s11 s12] [s20 s21 s22]] HR HS.
  unfold mnear. cbn [vx vy vz m0 m1 m2]. intros (A00 & A01 & A02 & A10 & A11 & A12 & A20 & A21 & A22) (B00 & B01 & B02 & B10 & B11 & B12 & B20 & B21 & B22).
  pose proof (rotation_columns _ _ _ _ _ _ _ _ _ HS) as CS. unfold rotation in HR. destruct HR as ((R0 & R1 & R2) & _). destruct CS as ((S0 & S1 & S2) & _).
  pose proof uro_pos as U. unfold mmul, mtdotx, mtdoty, mtdotz. cbn [vx vy vz m0 m1 m2]. cbn [F64 RS scar sadd smul] in *.
  assert (Sm : forall e1 e2 e3, e1 = 19 * u /\ e2 = 9 * u /\ e3 = 9 * u \/ e1 = 9 * u /\ e2 = 19 * u /\ e3 = 9 * u \/ e1 = 9 * u /\ e2 = 9 * u /\ e3 = 19 * u -> e1 * e1 + e2 * e2 + e3 * e3 <= 23 * u * (23 * u)).
  { intros e1 e2 e3 D. assert (0 <= u * u) by (apply Rmult_le_pos; lra). destruct D as [(-> & -> & ->)|[(-> & -> & ->)|(-> & -> & ->)]]; lra. }
  split; [eapply entry_near; try eassumption; solve [apply Sm; auto|lra]|].
  split; [eapply entry_near; try eassumption; solve [apply Sm; auto|lra]|].
  split; [eapply entry_near; try eassumption; solve [apply Sm; auto|lra]|].
  split; [eapply entry_near; try eassumption; solve [apply Sm; auto|lra]|].
  split; [eapply entry_near; try eassumption; solve [apply Sm; auto|lra]|].
  split; [eapply entry_near; try eassumption; solve [apply Sm; auto|lra]|].
  split; [eapply entry_near; try eassumption; solve [apply Sm; auto|lra]|].
  split; [eapply entry_near; try eassumption; solve [apply Sm; auto|lra]|].
  eapply entry_near; try eassumption; solve [apply Sm; auto|lra].
Qed.

(** ** The rotation of a product, and of a quaternion taken through a matrix *)
Theorem product_rotation_err : forall p q : fq, qfinite p -> qfinite q -> 1 / 2 <= qnorm (qval p) <= 2 -> 1 / 2 <= qnorm (qval q) <= 2 ->
  let out := mgetRotation (mmul (mfromQuat p) (mfromQuat q)) in
  qfinite out /\ exists r, same_rotation r (qnormalized (qmul (qval p) (qval q))) /\ qdist (qval out) r <= 251 * u.
Proof.
  intros p q Fp Fq Hp Hq out. pose proof uro_pos as U. pose proof (nonzero_norm (qval p) ltac:(lra)) as Np. pose proof (nonzero_norm (qval q) ltac:(lra)) as Nq. pose proof (nonzero_mul _ _ Np Nq) as Npq.
  pose proof (mmul_near _ _ _ _ (mfromQuat_rotation _ Np) (mfromQuat_rotation _ Nq) (mfromQuat_near p Fp Hp) (mfromQuat_near q Fq Hq)) as M.
  rewrite <- (mfromQuat_mul _ _ Np Nq), <- (mfromQuat_normalized _ Npq) in M.
  destruct (getRotation_near (51 * u) _ _ (qnormalized_unit _ Npq) ltac:(lra) M) as (F & r & Sr & D). split; [exact F|]. exists r. split; [exact Sr|]. fold out in D. lra.
Qed.
Lemma mnear_weaken : forall d o e M R, mnear d o M R -> d <= e -> o <= e -> mnear e e M R.
Proof.
  intros d o e M R (A00 & A01 & A02 & A10 & A11 & A12 & A20 & A21 & A22) Hd Ho. repeat split; try (apply A00 || apply A01 || apply A02 || apply A10 || apply A11 || apply A12 || apply A20 || apply A21 || apply A22);
  match goal with |- Rabs (val ?a - ?b) <= _ => match goal with H : ap a b _ |- _ => eapply Rle_trans; [apply H|assumption] end end.
Qed.
Theorem matrix_and_back_err : forall q : fq, qfinite q -> 1 / 2 <= qnorm (qval q) <= 2 ->
  let out := mgetRotation (mfromQuat q) in
  qfinite out /\ exists r, same_rotation r (qnormalized (qval q)) /\ qdist (qval out) r <= 106 * u.
Proof.
  intros q Fq Hq out. pose proof uro_pos as U. pose proof (nonzero_norm (qval q) ltac:(lra)) as Nq.
  pose proof (mnear_weaken _ _ (19 * u) _ _ (mfromQuat_near q Fq Hq) ltac:(lra) ltac:(lra)) as M. rewrite <- (mfromQuat_normalized _ Nq) in M.
  destruct (getRotation_near (19 * u) _ _ (qnormalized_unit _ Nq) ltac:(lra) M) as (F & r & Sr & D). split; [exact F|]. exists r. split; [exact Sr|]. fold out in D. lra.
Qed.
End Get.
