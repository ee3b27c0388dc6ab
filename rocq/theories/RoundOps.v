(** * Rounding errors of the quaternion and vector operations in binary64 *)
From Coq Require Import ZArith Bool Reals Floats.SpecFloat Lia Lra Psatz.
From Verif Require Import Scalar LinearMath Instances RealSlerp RealQuat SpecCore SpecRound FloatErr RoundNorm.
Open Scope R_scope.

Local Notation u := uro.
Lemma uro_val : uro = / 9007199254740992.
Proof. reflexivity. Qed.
Lemma uro_pos : 0 < uro.
Proof. rewrite uro_val. lra. Qed.
Lemma eta_pos : 0 < eta.
Proof. unfold eta. apply Rinv_0_lt_compat. apply IZR_lt. reflexivity. Qed.
Lemma eta_tiny : eta * IZR (2 ^ 1000) <= u.
Proof.
  unfold eta, uro. change (2 ^ 1075)%Z with (2 ^ 75 * 2 ^ 1000)%Z. rewrite mult_IZR, Rinv_mult, Rmult_assoc, Rinv_l, Rmult_1_r.
  - apply Rinv_le_contravar; [apply IZR_lt; reflexivity|apply IZR_le; intros C; discriminate C].
  - apply not_0_IZR. intros C. discriminate C.
Qed.
Lemma eta_small : eta <= u / IZR (2 ^ 900).
Proof.
  pose proof eta_tiny as T. assert (P : 0 < IZR (2 ^ 900)) by (apply IZR_lt; reflexivity).
  apply (Rmult_le_reg_r (IZR (2 ^ 900))); [exact P|]. unfold Rdiv. rewrite Rmult_assoc, Rinv_l, Rmult_1_r by lra.
  eapply Rle_trans; [|exact T]. apply Rmult_le_compat_l; [left; apply eta_pos|]. apply IZR_le. intros C. discriminate C.
Qed.
Lemma eta_1 : eta <= 1 / 1048576.
Proof.
  unfold eta. unfold Rdiv. rewrite Rmult_1_l. apply Rinv_le_contravar; [lra|]. apply IZR_le. intros C. discriminate C.
Qed.
Lemma big_big : 1048576 <= big.
Proof. unfold big. apply IZR_le. intros C. discriminate C. Qed.

(** [x] is finite and approximates the number [r] within [e]. *)
Definition ap (x : f64) (r e : R) : Prop := finite x /\ Rabs (val x - r) <= e.
Lemma ap_abs : forall x r e, ap x r e -> Rabs (val x) <= Rabs r + e.
Proof. intros x r e (_ & H). replace (val x) with (r + (val x - r)) by ring. eapply Rle_trans; [apply Rabs_triang|]. lra. Qed.
Lemma ap_exact : forall x, finite x -> ap x (val x) 0.
Proof. intros x F. split; [exact F|]. rewrite Rminus_eq_0, Rabs_R0. lra. Qed.
Lemma ap_opp : forall x r e, ap x r e -> ap (SFopp x) (- r) e.
Proof.
  intros x r e (F & H). destruct (fopp_ok x F) as (F' & V). split; [exact F'|]. rewrite V.
  replace (- val x - - r) with (- (val x - r)) by ring. rewrite Rabs_Ropp. exact H.
Qed.
Lemma ap_weaken : forall x r e e', ap x r e -> e <= e' -> ap x r e'.
Proof. intros x r e e' (F & H) L. split; [exact F|lra]. Qed.

Lemma rnd_close : forall s t e A, Rabs (s - t) <= e -> Rabs t <= A -> Rabs (rnd s - t) <= e + u * (A + e) + eta.
Proof.
  intros s t e A H HA. pose proof (rnd_err s) as E. replace (rnd s - t) with ((rnd s - s) + (s - t)) by ring.
  eapply Rle_trans; [apply Rabs_triang|]. assert (B : Rabs s <= A + e).
  { replace s with (t + (s - t)) by ring. eapply Rle_trans; [apply Rabs_triang|]. lra. }
  pose proof uro_pos. assert (u * Rabs s <= u * (A + e)) by (apply Rmult_le_compat_l; lra). lra.
Qed.
Lemma abs_close : forall s t e A, Rabs (s - t) <= e -> Rabs t <= A -> Rabs s <= A + e.
Proof. intros s t e A H HA. replace s with (t + (s - t)) by ring. eapply Rle_trans; [apply Rabs_triang|]. lra. Qed.
Lemma ap_add : forall x y r s e f A, ap x r e -> ap y s f -> Rabs (r + s) <= A -> A + e + f <= big ->
  ap (SFadd prec64 emax64 x y) (r + s) (e + f + u * (A + (e + f)) + eta).
Proof.
  intros x y r s e f A (Fx & Hx) (Fy & Hy) HA HB.
  assert (E : Rabs (val x + val y - (r + s)) <= e + f).
  { replace (val x + val y - (r + s)) with ((val x - r) + (val y - s)) by ring. eapply Rle_trans; [apply Rabs_triang|]. lra. }
  destruct (fadd_ok x y Fx Fy) as (F & V).
  { pose proof (abs_close _ _ _ _ E HA). lra. }
  split; [exact F|]. rewrite V. apply rnd_close; assumption.
Qed.
Lemma ap_sub : forall x y r s e f A, ap x r e -> ap y s f -> Rabs (r - s) <= A -> A + e + f <= big ->
  ap (SFsub prec64 emax64 x y) (r - s) (e + f + u * (A + (e + f)) + eta).
Proof.
  intros x y r s e f A (Fx & Hx) (Fy & Hy) HA HB.
  assert (E : Rabs (val x - val y - (r - s)) <= e + f).
  { replace (val x - val y - (r - s)) with ((val x - r) + - (val y - s)) by ring. eapply Rle_trans; [apply Rabs_triang|]. rewrite Rabs_Ropp. lra. }
  destruct (fsub_ok x y Fx Fy) as (F & V).
  { pose proof (abs_close _ _ _ _ E HA). lra. }
  split; [exact F|]. rewrite V. apply rnd_close; assumption.
Qed.
Lemma ap_mul : forall x y A, finite x -> finite y -> Rabs (val x * val y) <= A -> A <= big ->
  ap (SFmul prec64 emax64 x y) (val x * val y) (u * A + eta).
Proof.
  intros x y A Fx Fy HA HB. destruct (fmul_ok x y Fx Fy) as (F & V); [lra|].
  split; [exact F|]. rewrite V. pose proof (rnd_err (val x * val y)) as E. pose proof uro_pos.
  assert (u * Rabs (val x * val y) <= u * A) by (apply Rmult_le_compat_l; lra). lra.
Qed.

(** sums of three and of four products *)
Ltac num := rewrite ?uro_val in *; lra.
Lemma abs2 : forall a b A B, Rabs a <= A -> Rabs b <= B -> Rabs (a + b) <= A + B.
Proof. intros. eapply Rle_trans; [apply Rabs_triang|]. lra. Qed.
Lemma abs2m : forall a b A B, Rabs a <= A -> Rabs b <= B -> Rabs (a - b) <= A + B.
Proof. intros. unfold Rminus. apply abs2; [assumption|]. rewrite Rabs_Ropp. assumption. Qed.

Section Sums.
Variables (p1 p2 p3 p4 : f64) (x1 x2 x3 x4 A1 A2 A3 A4 P : R).
Hypothesis (H1 : ap p1 x1 (u * A1 + eta)) (H2 : ap p2 x2 (u * A2 + eta)) (H3 : ap p3 x3 (u * A3 + eta)) (H4 : ap p4 x4 (u * A4 + eta)).
Hypothesis (B1 : Rabs x1 <= A1) (B2 : Rabs x2 <= A2) (B3 : Rabs x3 <= A3) (B4 : Rabs x4 <= A4).
Hypothesis (HP : A1 + A2 + A3 + A4 <= P) (HB : P <= big / 2).
Let Q1 : 0 <= A1. Proof. pose proof (Rabs_pos x1). lra. Qed.
Let Q2 : 0 <= A2. Proof. pose proof (Rabs_pos x2). lra. Qed.
Let Q3 : 0 <= A3. Proof. pose proof (Rabs_pos x3). lra. Qed.
Let Q4 : 0 <= A4. Proof. pose proof (Rabs_pos x4). lra. Qed.
Notation "a +. b" := (SFadd prec64 emax64 a b) (at level 50, left associativity).
Notation "a -. b" := (SFsub prec64 emax64 a b) (at level 50, left associativity).
Let E := eta_pos. Let E1 := eta_1. Let BB := big_big.
Lemma sum_ppm : ap (p1 +. p2 +. p3 -. p4) (x1 + x2 + x3 - x4) (33 / 8 * u * P + 8 * eta).
Proof using H1 H2 H3 H4 B1 B2 B3 B4 HP HB Q1 Q2 Q3 Q4 E E1 BB.
  pose proof (ap_add _ _ _ _ _ _ (A1 + A2) H1 H2 (abs2 _ _ _ _ B1 B2) ltac:(num)) as S1.
  pose proof (ap_add _ _ _ _ _ _ (A1 + A2 + A3) S1 H3 (abs2 _ _ _ _ (abs2 _ _ _ _ B1 B2) B3) ltac:(num)) as S2.
  pose proof (ap_sub _ _ _ _ _ _ (A1 + A2 + A3 + A4) S2 H4 (abs2m _ _ _ _ (abs2 _ _ _ _ (abs2 _ _ _ _ B1 B2) B3) B4) ltac:(num)) as S3.
  eapply ap_weaken; [exact S3|]. num.
Qed.
Lemma sum_mmm : ap (p1 -. p2 -. p3 -. p4) (x1 - x2 - x3 - x4) (33 / 8 * u * P + 8 * eta).
Proof using H1 H2 H3 H4 B1 B2 B3 B4 HP HB Q1 Q2 Q3 Q4 E E1 BB.
  pose proof (ap_sub _ _ _ _ _ _ (A1 + A2) H1 H2 (abs2m _ _ _ _ B1 B2) ltac:(num)) as S1.
  pose proof (ap_sub _ _ _ _ _ _ (A1 + A2 + A3) S1 H3 (abs2m _ _ _ _ (abs2m _ _ _ _ B1 B2) B3) ltac:(num)) as S2.
  pose proof (ap_sub _ _ _ _ _ _ (A1 + A2 + A3 + A4) S2 H4 (abs2m _ _ _ _ (abs2m _ _ _ _ (abs2m _ _ _ _ B1 B2) B3) B4) ltac:(num)) as S3.
  eapply ap_weaken; [exact S3|]. num.
Qed.
Lemma sum_pm : ap (p1 +. p2 -. p3) (x1 + x2 - x3) (25 / 8 * u * P + 6 * eta).
Proof using H1 H2 H3 B1 B2 B3 B4 HP HB Q1 Q2 Q3 Q4 E E1 BB.
  clear H4.
  pose proof (ap_add _ _ _ _ _ _ (A1 + A2) H1 H2 (abs2 _ _ _ _ B1 B2) ltac:(num)) as S1.
  pose proof (ap_sub _ _ _ _ _ _ (A1 + A2 + A3) S1 H3 (abs2m _ _ _ _ (abs2 _ _ _ _ B1 B2) B3) ltac:(num)) as S2.
  eapply ap_weaken; [exact S2|]. num.
Qed.
Lemma sum_mm : ap (p1 -. p2 -. p3) (x1 - x2 - x3) (25 / 8 * u * P + 6 * eta).
Proof using H1 H2 H3 B1 B2 B3 B4 HP HB Q1 Q2 Q3 Q4 E E1 BB.
  clear H4.
  pose proof (ap_sub _ _ _ _ _ _ (A1 + A2) H1 H2 (abs2m _ _ _ _ B1 B2) ltac:(num)) as S1.
  pose proof (ap_sub _ _ _ _ _ _ (A1 + A2 + A3) S1 H3 (abs2m _ _ _ _ (abs2m _ _ _ _ B1 B2) B3) ltac:(num)) as S2.
  eapply ap_weaken; [exact S2|]. num.
Qed.
End Sums.

Section Ops.
Context {lm : libm}.
Notation fq := (quat (F64 lm)).
Notation fv := (vec3 (F64 lm)).

Lemma qinv_val : forall q : fq, qfinite q -> qfinite (qinv q) /\ qval (qinv q) = qinv (qval q).
Proof.
  intros [x y z w] (Fx & Fy & Fz & Fw). cbn [qx qy qz qw] in *.
  destruct (fopp_ok x Fx) as (X & VX). destruct (fopp_ok y Fy) as (Y & VY). destruct (fopp_ok z Fz) as (Z & VZ).
  split; [repeat split; assumption|]. unfold qval, qinv. cbn [qx qy qz qw F64 sopp scar RS]. rewrite VX, VY, VZ. reflexivity.
Qed.
Lemma vneg_val : forall v : fv, vfinite v -> vfinite (vneg v) /\ vval (vneg v) = vneg (vval v).
Proof.
  intros [x y z] (Fx & Fy & Fz). cbn [vx vy vz] in *.
  destruct (fopp_ok x Fx) as (X & VX). destruct (fopp_ok y Fy) as (Y & VY). destruct (fopp_ok z Fz) as (Z & VZ).
  split; [repeat split; assumption|]. unfold vval, vneg. cbn [vx vy vz F64 sopp scar RS]. rewrite VX, VY, VZ. reflexivity.
Qed.

Lemma dist4 : forall a b c d a' b' c' d' e, 0 <= e -> Rabs (a - a') <= e -> Rabs (b - b') <= e -> Rabs (c - c') <= e -> Rabs (d - d') <= e ->
  N4 (a - a') (b - b') (c - c') (d - d') <= 2 * e.
Proof. intros. rewrite <- (N4_same e) by assumption. apply N4_mono; assumption. Qed.

Lemma qmul_err : forall p q : fq, qfinite p -> qfinite q -> qnorm (qval p) * qnorm (qval q) <= big / 2 ->
  qfinite (qmul p q) /\
  qdist (qval (qmul p q)) (qmul (qval p) (qval q)) <= 33 / 4 * u * (qnorm (qval p) * qnorm (qval q)) + 16 * eta.
Proof.
  intros [a b c d] [e f g h] (Fa & Fb & Fc & Fd) (Fe & Ff & Fg & Fh) HB. cbn [qx qy qz qw] in *.
  set (P := qnorm (qval (@Q4 (F64 lm) a b c d)) * qnorm (qval (@Q4 (F64 lm) e f g h))) in *.
  assert (EP : P = N4 (val a) (val b) (val c) (val d) * N4 (val e) (val f) (val g) (val h)) by reflexivity.
  clearbody P.
  pose proof big_big as BB. pose proof eta_pos as EE. pose proof uro_pos as UU.
  assert (PP : 0 <= P) by (rewrite EP; apply Rmult_le_pos; apply N4_pos).
  assert (CX := N4_cauchy_abs (val d) (val a) (val b) (val c) (val e) (val h) (val g) (val f)).
  assert (CY := N4_cauchy_abs (val d) (val b) (val c) (val a) (val f) (val h) (val e) (val g)).
  assert (CZ := N4_cauchy_abs (val d) (val c) (val a) (val b) (val g) (val h) (val f) (val e)).
  assert (CW := N4_cauchy_abs (val d) (val a) (val b) (val c) (val h) (val e) (val f) (val g)).
  assert (S1 : forall i j k l, N4 i j k l = sqrt (i * i + j * j + k * k + l * l)) by reflexivity.
  assert (QX : N4 (val d) (val a) (val b) (val c) * N4 (val e) (val h) (val g) (val f) = P) by (rewrite EP, !S1; f_equal; f_equal; ring).
  assert (QY : N4 (val d) (val b) (val c) (val a) * N4 (val f) (val h) (val e) (val g) = P) by (rewrite EP, !S1; f_equal; f_equal; ring).
  assert (QZ : N4 (val d) (val c) (val a) (val b) * N4 (val g) (val h) (val f) (val e) = P) by (rewrite EP, !S1; f_equal; f_equal; ring).
  assert (QW : N4 (val d) (val a) (val b) (val c) * N4 (val h) (val e) (val f) (val g) = P) by (rewrite EP, !S1; f_equal; f_equal; ring).
  rewrite QX in CX. rewrite QY in CY. rewrite QZ in CZ. rewrite QW in CW. clear S1 QX QY QZ QW EP.
  assert (M : forall x y, Rabs (val x * val y) <= P -> finite x -> finite y -> ap (SFmul prec64 emax64 x y) (val x * val y) (u * Rabs (val x * val y) + eta)).
  { intros x y H Fx Fy. apply ap_mul; [assumption|assumption|apply Rle_refl|lra]. }
  assert (pos : forall x, 0 <= Rabs x) by apply Rabs_pos.
  pose proof (pos (val d * val e)). pose proof (pos (val a * val h)). pose proof (pos (val b * val g)). pose proof (pos (val c * val f)).
  pose proof (pos (val d * val f)). pose proof (pos (val b * val h)). pose proof (pos (val c * val e)). pose proof (pos (val a * val g)).
  pose proof (pos (val d * val g)). pose proof (pos (val c * val h)). pose proof (pos (val a * val f)). pose proof (pos (val b * val e)).
  pose proof (pos (val d * val h)). pose proof (pos (val a * val e)). pose proof (pos (val b * val f)). pose proof (pos (val c * val g)).
  assert (X := sum_ppm _ _ _ _ _ _ _ _ _ _ _ _ P (M d e ltac:(lra) Fd Fe) (M a h ltac:(lra) Fa Fh) (M b g ltac:(lra) Fb Fg) (M c f ltac:(lra) Fc Ff)
    (Rle_refl _) (Rle_refl _) (Rle_refl _) (Rle_refl _) CX HB).
  assert (Y := sum_ppm _ _ _ _ _ _ _ _ _ _ _ _ P (M d f ltac:(lra) Fd Ff) (M b h ltac:(lra) Fb Fh) (M c e ltac:(lra) Fc Fe) (M a g ltac:(lra) Fa Fg)
    (Rle_refl _) (Rle_refl _) (Rle_refl _) (Rle_refl _) CY HB).
  assert (Z := sum_ppm _ _ _ _ _ _ _ _ _ _ _ _ P (M d g ltac:(lra) Fd Fg) (M c h ltac:(lra) Fc Fh) (M a f ltac:(lra) Fa Ff) (M b e ltac:(lra) Fb Fe)
    (Rle_refl _) (Rle_refl _) (Rle_refl _) (Rle_refl _) CZ HB).
  assert (W := sum_mmm _ _ _ _ _ _ _ _ _ _ _ _ P (M d h ltac:(lra) Fd Fh) (M a e ltac:(lra) Fa Fe) (M b f ltac:(lra) Fb Ff) (M c g ltac:(lra) Fc Fg)
    (Rle_refl _) (Rle_refl _) (Rle_refl _) (Rle_refl _) CW HB).
  destruct X as (X & EX), Y as (Y & EY), Z as (Z & EZ), W as (W & EW).
  split; [repeat split; assumption|]. unfold qdist. rewrite qnorm_N4.
  eapply Rle_trans; [apply dist4 with (e := 33 / 8 * u * P + 8 * eta)|]; [|exact EX|exact EY|exact EZ|exact EW|lra].
  assert (0 <= u * P) by (apply Rmult_le_pos; lra). lra.
Qed.

Lemma qmulv_err : forall (q : fq) (v : fv), qfinite q -> vfinite v -> qnorm (qval q) * vnorm (vval v) <= big / 2 ->
  qfinite (qmulv q v) /\
  qdist (qval (qmulv q v)) (qmul (qval q) (qpure (vval v))) <= 25 / 4 * u * (qnorm (qval q) * vnorm (vval v)) + 12 * eta.
Proof.
  intros [a b c d] [e f g] (Fa & Fb & Fc & Fd) (Fe & Ff & Fg) HB. cbn [qx qy qz qw vx vy vz] in *.
  set (P := qnorm (qval (@Q4 (F64 lm) a b c d)) * vnorm (vval (@V3 (F64 lm) e f g))) in *.
  assert (EP : P = N4 (val a) (val b) (val c) (val d) * N4 (val e) (val f) (val g) 0) by (unfold P; rewrite vnorm_N4; reflexivity).
  clearbody P.
  pose proof big_big as BB. pose proof eta_pos as EE. pose proof uro_pos as UU.
  assert (PP : 0 <= P) by (rewrite EP; apply Rmult_le_pos; apply N4_pos).
  assert (CX := N4_cauchy_abs (val d) (val b) (val c) (val a) (val e) (val g) (val f) 0).
  assert (CY := N4_cauchy_abs (val d) (val c) (val a) (val b) (val f) (val e) (val g) 0).
  assert (CZ := N4_cauchy_abs (val d) (val a) (val b) (val c) (val g) (val f) (val e) 0).
  assert (CW := N4_cauchy_abs (val a) (val b) (val c) (val d) (val e) (val f) (val g) 0).
  assert (S1 : forall i j k l, N4 i j k l = sqrt (i * i + j * j + k * k + l * l)) by reflexivity.
  assert (QX : N4 (val d) (val b) (val c) (val a) * N4 (val e) (val g) (val f) 0 = P) by (rewrite EP, !S1; f_equal; f_equal; ring).
  assert (QY : N4 (val d) (val c) (val a) (val b) * N4 (val f) (val e) (val g) 0 = P) by (rewrite EP, !S1; f_equal; f_equal; ring).
  assert (QZ : N4 (val d) (val a) (val b) (val c) * N4 (val g) (val f) (val e) 0 = P) by (rewrite EP, !S1; f_equal; f_equal; ring).
  rewrite QX in CX. rewrite QY in CY. rewrite QZ in CZ. rewrite <- EP in CW. clear S1 QX QY QZ EP.
  rewrite Rmult_0_r, Rabs_R0 in *.
  assert (M : forall x y, Rabs (val x * val y) <= P -> finite x -> finite y -> ap (SFmul prec64 emax64 x y) (val x * val y) (u * Rabs (val x * val y) + eta)).
  { intros x y H Fx Fy. apply ap_mul; [assumption|assumption|apply Rle_refl|lra]. }
  assert (pos : forall x, 0 <= Rabs x) by apply Rabs_pos.
  pose proof (pos (val d * val e)). pose proof (pos (val b * val g)). pose proof (pos (val c * val f)).
  pose proof (pos (val d * val f)). pose proof (pos (val c * val e)). pose proof (pos (val a * val g)).
  pose proof (pos (val d * val g)). pose proof (pos (val a * val f)). pose proof (pos (val b * val e)).
  pose proof (pos (val a * val e)). pose proof (pos (val b * val f)). pose proof (pos (val c * val g)).
  destruct (fopp_ok a Fa) as (FA & VA).
  assert (NA : ap (SFmul prec64 emax64 (SFopp a) e) (- val a * val e) (u * Rabs (val a * val e) + eta)).
  { rewrite <- VA. apply ap_mul; [assumption|assumption| |lra]. rewrite VA, Ropp_mult_distr_l_reverse, Rabs_Ropp. apply Rle_refl. }
  assert (X := sum_pm _ _ _ _ _ _ 0 _ _ _ 0 P (M d e ltac:(lra) Fd Fe) (M b g ltac:(lra) Fb Fg) (M c f ltac:(lra) Fc Ff)
    (Rle_refl _) (Rle_refl _) (Rle_refl _) ltac:(rewrite Rabs_R0; lra) CX HB).
  assert (Y := sum_pm _ _ _ _ _ _ 0 _ _ _ 0 P (M d f ltac:(lra) Fd Ff) (M c e ltac:(lra) Fc Fe) (M a g ltac:(lra) Fa Fg)
    (Rle_refl _) (Rle_refl _) (Rle_refl _) ltac:(rewrite Rabs_R0; lra) CY HB).
  assert (Z := sum_pm _ _ _ _ _ _ 0 _ _ _ 0 P (M d g ltac:(lra) Fd Fg) (M a f ltac:(lra) Fa Ff) (M b e ltac:(lra) Fb Fe)
    (Rle_refl _) (Rle_refl _) (Rle_refl _) ltac:(rewrite Rabs_R0; lra) CZ HB).
  assert (W := sum_mm _ _ _ _ _ _ 0 _ _ _ 0 P NA (M b f ltac:(lra) Fb Ff) (M c g ltac:(lra) Fc Fg)
    ltac:(rewrite Ropp_mult_distr_l_reverse, Rabs_Ropp; apply Rle_refl) (Rle_refl _) (Rle_refl _) ltac:(rewrite Rabs_R0; lra) CW HB).
  destruct X as (X & EX), Y as (Y & EY), Z as (Z & EZ), W as (W & EW).
  split; [repeat split; assumption|]. unfold qdist. rewrite qnorm_N4. cbn [qx qy qz qw qval qmulv qmul qpure vval vx vy vz].
  eapply Rle_trans; [apply dist4 with (e := 25 / 8 * u * P + 6 * eta)|]; [| | | | |lra].
  - assert (0 <= u * P) by (apply Rmult_le_pos; lra). lra.
  - eapply Rle_trans; [right|exact EX]. f_equal. cbn. ring.
  - eapply Rle_trans; [right|exact EY]. f_equal. cbn. ring.
  - eapply Rle_trans; [right|exact EZ]. f_equal. cbn. ring.
  - eapply Rle_trans; [right|exact EW]. f_equal. cbn. ring.
Qed.
End Ops.
