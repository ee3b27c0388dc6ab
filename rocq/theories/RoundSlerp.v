(** * Rounding error of spherical interpolation in binary64 *)
From Coq Require Import ZArith Bool Reals Floats.SpecFloat Lia Lra Psatz.
From Verif Require Import Scalar LinearMath Instances RealSlerp RealQuat SpecCore SpecRound SpecInterp FloatErr RoundNorm RoundOps FloatMore SlerpWeights.
Open Scope R_scope.
Local Notation u := uro.
Local Notation d4 p q := (qx p * qx q + qy p * qy q + qz p * qz q + qw p * qw q).

(** ** The angle *)
Lemma eta_u : eta <= u / 1000000000000.
Proof.
  eapply Rle_trans; [apply eta_small|]. pose proof uro_pos. unfold Rdiv. apply Rmult_le_compat_l; [lra|].
  apply Rinv_le_contravar; [lra|]. apply IZR_le. intros C. discriminate C.
Qed.
Lemma rnd_in : forall r t e A, Rabs (r - t) <= e -> Rabs t <= A -> 0 <= e <= 1 -> u / 1000 <= e -> Rabs (rnd r - t) <= 1001 / 1000 * e + u * A + u * e.
Proof.
  intros r t e A H HA (E0 & E1) E2. pose proof (rnd_close r t e A H HA). pose proof eta_u. pose proof uro_pos. rewrite uro_val in *. lra.
Qed.

Section Ang.
Context {lm : libm}.
Notation fq := (quat (F64 lm)).
Notation fadd := (SFadd prec64 emax64).

Lemma sum_ppp : forall (p1 p2 p3 p4 : f64) (x1 x2 x3 x4 A1 A2 A3 A4 P : R),
  ap p1 x1 (u * A1 + eta) -> ap p2 x2 (u * A2 + eta) -> ap p3 x3 (u * A3 + eta) -> ap p4 x4 (u * A4 + eta) ->
  Rabs x1 <= A1 -> Rabs x2 <= A2 -> Rabs x3 <= A3 -> Rabs x4 <= A4 ->
  A1 + A2 + A3 + A4 <= P -> P <= big / 2 ->
  ap (fadd (fadd (fadd p1 p2) p3) p4) (x1 + x2 + x3 + x4) (33 / 8 * u * P + 8 * eta).
Proof.
  intros p1 p2 p3 p4 x1 x2 x3 x4 A1 A2 A3 A4 P H1 H2 H3 H4 B1 B2 B3 B4 HP HB.
  pose proof (Rabs_pos x1). pose proof (Rabs_pos x2). pose proof (Rabs_pos x3). pose proof (Rabs_pos x4).
  pose proof eta_pos. pose proof eta_1. pose proof big_big.
  pose proof (ap_add _ _ _ _ _ _ (A1 + A2) H1 H2 (abs2 _ _ _ _ B1 B2) ltac:(num)) as S1.
  pose proof (ap_add _ _ _ _ _ _ (A1 + A2 + A3) S1 H3 (abs2 _ _ _ _ (abs2 _ _ _ _ B1 B2) B3) ltac:(num)) as S2.
  pose proof (ap_add _ _ _ _ _ _ (A1 + A2 + A3 + A4) S2 H4 (abs2 _ _ _ _ (abs2 _ _ _ _ (abs2 _ _ _ _ B1 B2) B3) B4) ltac:(num)) as S3.
  eapply ap_weaken; [exact S3|]. num.
Qed.
Lemma qdot_err : forall p q : fq, qfinite p -> qfinite q -> qnorm (qval p) * qnorm (qval q) <= big / 2 ->
  ap (qdot p q) (d4 (qval p) (qval q)) (33 / 8 * u * (qnorm (qval p) * qnorm (qval q)) + 8 * eta).
Proof.
  intros [a b c d] [e f g h] (Fa & Fb & Fc & Fd) (Fe & Ff & Fg & Fh) HB. cbn [qx qy qz qw] in *.
  unfold qdot. cbn [qx qy qz qw qval F64 sadd smul scar].
  set (P := qnorm (qval (@Q4 (F64 lm) a b c d)) * qnorm (qval (@Q4 (F64 lm) e f g h))) in *.
  assert (EP : P = N4 (val a) (val b) (val c) (val d) * N4 (val e) (val f) (val g) (val h)) by reflexivity.
  clearbody P. pose proof big_big as BB. assert (PP : 0 <= P) by (rewrite EP; apply Rmult_le_pos; apply N4_pos).
  assert (CX := N4_cauchy_abs (val a) (val b) (val c) (val d) (val e) (val f) (val g) (val h)). rewrite <- EP in CX.
  assert (M : forall x y, Rabs (val x * val y) <= P -> finite x -> finite y -> ap (SFmul prec64 emax64 x y) (val x * val y) (u * Rabs (val x * val y) + eta)).
  { intros x y H Fx Fy. apply ap_mul; [assumption|assumption|apply Rle_refl|lra]. }
  pose proof (Rabs_pos (val a * val e)). pose proof (Rabs_pos (val b * val f)). pose proof (Rabs_pos (val c * val g)). pose proof (Rabs_pos (val d * val h)).
  apply (sum_ppp _ _ _ _ _ _ _ _ _ _ _ _ P (M a e ltac:(lra) Fa Fe) (M b f ltac:(lra) Fb Ff) (M c g ltac:(lra) Fc Fg) (M d h ltac:(lra) Fd Fh)
    (Rle_refl _) (Rle_refl _) (Rle_refl _) (Rle_refl _) CX HB).
Qed.
Lemma d4_self : forall p : quat RS, d4 p p = qnorm p * qnorm p.
Proof. intros p. unfold qnorm. rewrite sqrt_sqrt; [reflexivity|]. cbn [RS scar] in *. nra. Qed.

(** the product of the lengths *)
Lemma len_err : forall p q : fq, qfinite p -> qfinite q -> 1 / 2 <= qnorm (qval p) <= 2 -> 1 / 2 <= qnorm (qval q) <= 2 ->
  let s := @ssqrt (F64 lm) (qlength2 p * qlength2 q)%S in
  finite s /\ Rabs (val s - qnorm (qval p) * qnorm (qval q)) <= 11 * u * (qnorm (qval p) * qnorm (qval q)).
Proof.
  intros p q Fp Fq Hp Hq. cbv zeta. unfold qlength2. cbn [F64 ssqrt smul scar].
  pose proof big_big as BB. pose proof uro_pos as U. pose proof eta_u as EU. pose proof eta_pos as E0.
  set (a := qnorm (qval p)) in *. set (b := qnorm (qval q)) in *.
  destruct (qdot_err p p Fp Fp) as (F1 & E1). { fold a. nra. }
  destruct (qdot_err q q Fq Fq) as (F2 & E2). { fold b. nra. }
  rewrite d4_self in E1, E2. fold a in E1. fold b in E2.
  set (x := qdot p p) in *. set (y := qdot q q) in *. clearbody x y a b. clear Fp Fq p q.
  assert (A : 1 / 4 <= a * a <= 4) by nra. assert (B : 1 / 4 <= b * b <= 4) by nra.
  set (A2 := a * a) in *. set (B2 := b * b) in *.
  assert (X : Rabs (val x - A2) <= 42 / 10 * u * A2) by (eapply Rle_trans; [exact E1|]; rewrite uro_val in *; lra).
  assert (Y : Rabs (val y - B2) <= 42 / 10 * u * B2) by (eapply Rle_trans; [exact E2|]; rewrite uro_val in *; lra).
  assert (AB : 1 / 16 <= A2 * B2 <= 16) by nra.
  assert (XY : Rabs (val x * val y - A2 * B2) <= 85 / 10 * u * (A2 * B2)).
  { replace (val x * val y - A2 * B2) with ((val x - A2) * B2 + (val y - B2) * A2 + (val x - A2) * (val y - B2)) by ring.
    assert (K1 : Rabs ((val x - A2) * B2) <= 42 / 10 * u * (A2 * B2)).
    { rewrite Rabs_mult, (Rabs_pos_eq B2) by lra. eapply Rle_trans; [apply Rmult_le_compat_r; [lra|exact X]|]. right. ring. }
    assert (K2 : Rabs ((val y - B2) * A2) <= 42 / 10 * u * (A2 * B2)).
    { rewrite Rabs_mult, (Rabs_pos_eq A2) by lra. eapply Rle_trans; [apply Rmult_le_compat_r; [lra|exact Y]|]. right. ring. }
    assert (K3 : Rabs ((val x - A2) * (val y - B2)) <= 1 / 100 * u * (A2 * B2)).
    { rewrite Rabs_mult. eapply Rle_trans; [apply Rmult_le_compat; [apply Rabs_pos|apply Rabs_pos|exact X|exact Y]|].
      replace (42 / 10 * u * A2 * (42 / 10 * u * B2)) with (42 / 10 * u * (42 / 10) * u * (A2 * B2)) by ring.
      apply Rmult_le_compat_r; [lra|]. apply Rmult_le_compat_r; [lra|]. rewrite uro_val. lra. }
    assert (0 <= u * (A2 * B2)) by (apply Rmult_le_pos; lra). eapply Rle_trans; [apply Rabs_triang|]. pose proof (Rabs_triang ((val x - A2) * B2) ((val y - B2) * A2)). lra. }
  destruct (fmul_ok x y F1 F2) as (FM & VM).
  { pose proof (abs_close _ _ _ _ XY (Rle_refl _)) as Q. rewrite (Rabs_pos_eq (A2 * B2)) in Q by lra. rewrite uro_val in *. lra. }
  set (m := SFmul prec64 emax64 x y) in *. clearbody m.
  assert (EM : Rabs (val m - A2 * B2) <= 97 / 10 * u * (A2 * B2)).
  { rewrite VM. eapply Rle_trans; [apply (rnd_close _ _ _ (A2 * B2) XY)|]; [rewrite Rabs_pos_eq; lra|]. rewrite uro_val in *. lra. }
  assert (PM : 0 < val m). { pose proof (Rle_abs (- (val m - A2 * B2))) as Q. rewrite Rabs_Ropp in Q. rewrite uro_val in *. lra. }
  destruct (fsqrt_ok m FM PM) as (FS & VS). split; [exact FS|]. rewrite VS.
  assert (ab : sqrt (A2 * B2) = a * b).
  { replace (A2 * B2) with ((a * b) * (a * b)) by (unfold A2, B2; ring). apply sqrt_square. nra. }
  assert (abp : 1 / 4 <= a * b <= 4) by nra.
  assert (SQ : Rabs (sqrt (val m) - a * b) <= 97 / 10 * u * (a * b)).
  { pose proof (sqrt_pos (val m)) as SP. pose proof (sqrt_sqrt (val m) ltac:(lra)) as SS. set (r := sqrt (val m)) in *. clearbody r.
    assert (Q : Rabs (r - a * b) * (r + a * b) <= 97 / 10 * u * (a * b) * (a * b)).
    { rewrite <- (Rabs_pos_eq (r + a * b)) by lra. rewrite <- Rabs_mult. replace ((r - a * b) * (r + a * b)) with (val m - A2 * B2).
      - eapply Rle_trans; [exact EM|]. right. unfold A2, B2. ring.
      - rewrite <- SS. unfold A2, B2. ring. }
    apply (Rmult_le_reg_r (a * b)); [lra|]. eapply Rle_trans; [|exact Q]. apply Rmult_le_compat_l; [apply Rabs_pos|lra]. }
  eapply Rle_trans; [apply (rnd_close _ _ _ (a * b) SQ)|]; [rewrite Rabs_pos_eq; lra|]. rewrite uro_val in *. lra.
Qed.

(** the computed cosine of the angle *)
Lemma cos_err : forall (p q : fq) (s : f64), qfinite p -> qfinite q -> 1 / 2 <= qnorm (qval p) <= 2 -> 1 / 2 <= qnorm (qval q) <= 2 ->
  finite s -> Rabs (val s - qnorm (qval p) * qnorm (qval q)) <= 11 * u * (qnorm (qval p) * qnorm (qval q)) ->
  let c := SFdiv prec64 emax64 (qdot p q) s in
  finite c /\ Rabs (val c - d4 (qval p) (qval q) / (qnorm (qval p) * qnorm (qval q))) <= 17 * u.
Proof.
  intros p q s Fp Fq Hp Hq Fs Es. cbv zeta.
  pose proof big_big as BB. pose proof uro_pos as U. pose proof eta_u as EU. pose proof eta_pos as E0.
  destruct (qdot_err p q Fp Fq) as (F1 & E1). { nra. }
  assert (CS : Rabs (d4 (qval p) (qval q)) <= qnorm (qval p) * qnorm (qval q)).
  { destruct p as [a b c d], q as [e f g h]. pose proof (N4_cauchy_abs (val a) (val b) (val c) (val d) (val e) (val f) (val g) (val h)) as K.
    cbn [qx qy qz qw qval] in *. change (qnorm (qval (@Q4 (F64 lm) a b c d))) with (N4 (val a) (val b) (val c) (val d)).
    change (qnorm (qval (@Q4 (F64 lm) e f g h))) with (N4 (val e) (val f) (val g) (val h)). eapply Rle_trans; [|exact K].
    repeat (eapply Rle_trans; [apply Rabs_triang|]; apply Rplus_le_compat_r || idtac). 
    all: try apply Rle_refl. }
  assert (HP : 1 / 4 <= qnorm (qval p) * qnorm (qval q) <= 4) by nra.
  set (P := qnorm (qval p) * qnorm (qval q)) in *. set (d := d4 (qval p) (qval q)) in *. set (x := qdot p q) in *. clearbody P d x. clear Fp Fq Hp Hq p q.
  assert (SP : P / 2 <= val s <= 2 * P). { pose proof (Rle_abs (val s - P)). pose proof (Rle_abs (- (val s - P))) as Q. rewrite Rabs_Ropp in Q. rewrite uro_val in *. lra. }
  set (c := d / P). assert (Ed : d = c * P) by (unfold c; field; lra).
  assert (C1 : Rabs c <= 1).
  { unfold c, Rdiv. rewrite Rabs_mult, Rabs_inv, (Rabs_pos_eq P) by lra. apply (Rmult_le_reg_r P); [lra|]. rewrite Rmult_assoc, Rinv_l by lra. lra. }
  assert (EX : Rabs (val x - d) <= 42 / 10 * u * P) by (eapply Rle_trans; [exact E1|]; rewrite uro_val in *; lra).
  assert (Q : Rabs (val x / val s - c) <= 155 / 10 * u).
  { apply (Rmult_le_reg_r (val s)); [lra|]. rewrite <- (Rabs_pos_eq (val s)) at 2 by lra. rewrite <- Rabs_mult.
    replace ((val x / val s - c) * val s) with ((val x - d) - c * (val s - P)) by (rewrite Ed; field; lra).
    assert (K : Rabs (c * (val s - P)) <= 11 * u * P).
    { rewrite Rabs_mult. rewrite <- (Rmult_1_l (11 * u * P)). apply Rmult_le_compat; try apply Rabs_pos; lra. }
    eapply Rle_trans; [apply Rabs_triang|]. rewrite Rabs_Ropp.
    assert (S2 : (1 - 11 * u) * P <= val s). { pose proof (Rle_abs (- (val s - P))) as Q. rewrite Rabs_Ropp in Q. lra. }
    assert (S3 : 155 / 10 * u * ((1 - 11 * u) * P) <= 155 / 10 * u * val s) by (apply Rmult_le_compat_l; lra).
    assert (S4 : 11 * u * (155 / 10 * u * P) <= 1 / 10 * u * P).
    { replace (11 * u * (155 / 10 * u * P)) with (11 * u * (155 / 10) * (u * P)) by ring. replace (1 / 10 * u * P) with (1 / 10 * (u * P)) by ring.
      apply Rmult_le_compat_r; [apply Rmult_le_pos; lra|]. rewrite uro_val. lra. }
    assert (0 <= u * P) by (apply Rmult_le_pos; lra). lra. }
  destruct (fdiv_ok x s F1 Fs) as (FD & VD); [lra| |].
  { pose proof (abs_close _ _ _ _ Q C1). rewrite uro_val in *. lra. }
  split; [exact FD|]. rewrite VD. eapply Rle_trans; [apply (rnd_close _ _ _ 1 Q C1)|]. rewrite uro_val in *. lra.
Qed.

Notation facos := (lm_acos lm).
(** clamping *)
Definition clamp (r : R) : R := Rmax (-1) (Rmin 1 r).
Lemma one_ok : finite (@sone (F64 lm)) /\ val (@sone (F64 lm)) = 1.
Proof.
  split; [vm_compute; reflexivity|]. replace (@sone (F64 lm)) with (S754_finite false 4503599627370496 (-52)) by (vm_compute; reflexivity).
  rewrite val_SF2R. unfold BinarySingleNaN.SF2R, Defs.F2R. cbn. lra.
Qed.
Lemma mone_ok : finite (@slit (F64 lm) (-1) 1) /\ val (@slit (F64 lm) (-1) 1) = -1.
Proof.
  split; [vm_compute; reflexivity|]. replace (@slit (F64 lm) (-1) 1) with (S754_finite true 4503599627370496 (-52)) by (vm_compute; reflexivity).
  rewrite val_SF2R. unfold BinarySingleNaN.SF2R, Defs.F2R. cbn. lra.
Qed.
Lemma two_ok : finite (@two (F64 lm)) /\ val (@two (F64 lm)) = 2.
Proof.
  split; [vm_compute; reflexivity|]. replace (@two (F64 lm)) with (S754_finite false 4503599627370496 (-51)) by (vm_compute; reflexivity).
  rewrite val_SF2R. unfold BinarySingleNaN.SF2R, Defs.F2R. cbn. lra.
Qed.
Lemma zero_ok : finite (@szero (F64 lm)) /\ val (@szero (F64 lm)) = 0.
Proof. split; [exact I|reflexivity]. Qed.
Lemma tf2Acos_arg : forall a : f64, finite a -> exists b, finite b /\ val b = clamp (val a) /\ @tf2Acos (F64 lm) a = facos b.
Proof.
  intros a F. unfold tf2Acos. cbv zeta. destruct one_ok as (F1 & V1). destruct mone_ok as (Fm & Vm). cbn [F64 sltb sacos scar].
  unfold sgtb. cbn [F64 sltb scar]. set (o := @sone (F64 lm)) in *. set (mo := SFdiv prec64 emax64 (f64_of_Z (-1)) (f64_of_Z 1)).
  change (finite mo) in Fm. change (val mo = -1) in Vm. change (val o = 1) in V1. change (finite o) in F1.
  change (@slit (F64 lm) (-1) 1) with mo. clearbody o mo. unfold clamp.
  destruct (SFltb a mo) eqn:E1.
  - apply fltb_ok in E1; [|assumption|assumption]. destruct (SFltb o mo) eqn:E2.
    + apply fltb_ok in E2; [|assumption|assumption]. lra.
    + exists mo. split; [exact Fm|]. split; [|reflexivity]. rewrite Vm. rewrite Rmin_right by lra. rewrite Rmax_left; lra.
  - assert (N1 : ~ val a < val mo) by (intros C; apply fltb_ok in C; [congruence|assumption|assumption]).
    destruct (SFltb o a) eqn:E2.
    + apply fltb_ok in E2; [|assumption|assumption]. exists o. split; [exact F1|]. split; [|reflexivity]. rewrite Rmin_left, Rmax_right by lra. lra.
    + assert (N2 : ~ val o < val a) by (intros C; apply fltb_ok in C; [congruence|assumption|assumption]).
      exists a. split; [exact F|]. split; [|reflexivity]. rewrite Rmin_right, Rmax_right by lra. reflexivity.
Qed.
Lemma clamp_range : forall r, -1 <= clamp r <= 1.
Proof. intros r. unfold clamp. split; [apply Rmax_l|]. apply Rmax_lub; [lra|apply Rmin_l]. Qed.
Lemma clamp_close : forall r c e, -1 <= c <= 1 -> Rabs (r - c) <= e -> Rabs (clamp r - c) <= e.
Proof.
  intros r c e Hc H. pose proof (Rle_abs (r - c)). pose proof (Rle_abs (- (r - c))) as Q. rewrite Rabs_Ropp in Q.
  unfold clamp. apply Rabs_le. destruct (Rle_dec r 1).
  - rewrite Rmin_right by lra. destruct (Rle_dec (-1) r); [rewrite Rmax_right by lra|rewrite Rmax_left by lra]; lra.
  - rewrite Rmin_left, Rmax_right by lra. lra.
Qed.

(** angles whose cosine is (almost) nonnegative *)
Lemma acos_17 : forall c, - (100 * u) <= c <= 1 -> 0 <= acos c <= 17 / 10.
Proof.
  intros c (H & H1). pose proof uro_pos as U. pose proof (acos_bound c) as (A0 & A1). split; [exact A0|].
  assert (C : cos (acos c) = c) by (apply cos_acos; rewrite uro_val in *; lra).
  destruct (Rle_or_lt (acos c) (PI / 2)) as [L|L]; [pose proof PI2_up; lra|].
  pose proof PI2_3_2 as P. pose proof PI2_up as P2. set (x := acos c - PI / 2). assert (X : 0 < x) by (unfold x; lra).
  assert (S : sin x = - c).
  { rewrite <- C. replace (acos c) with (PI / 2 + x) by (unfold x; lra). rewrite cos_plus, cos_PI2, sin_PI2. ring. }
  assert (XL : x <= 17 / 10) by (unfold x; lra). pose proof (sin_low x ltac:(lra)). unfold x in *. rewrite uro_val in *. lra.
Qed.
Lemma one_minus_cos : forall x, 0 <= x <= 17 / 10 -> x * x / 8 <= 1 - cos x <= x * x / 2.
Proof.
  intros x Hx. replace x with (2 * (x / 2)) at 3 4 by field. rewrite cos_2a_sin. pose proof (sin_low (x / 2) ltac:(lra)). pose proof (sin_le_x (x / 2) ltac:(lra)).
  assert (x / 2 / 2 * (x / 2 / 2) <= sin (x / 2) * sin (x / 2)) by (apply Rmult_le_compat; lra).
  assert (sin (x / 2) * sin (x / 2) <= x / 2 * (x / 2)) by (apply Rmult_le_compat; lra). lra.
Qed.

Lemma tiny_le : forall r, 1 / 1000000000000000000 <= r -> / IZR (2 ^ 900) <= r.
Proof.
  intros r H. eapply Rle_trans; [|exact H]. unfold Rdiv. rewrite Rmult_1_l. apply Rinv_le_contravar; [lra|]. apply IZR_le. intros C. discriminate C.
Qed.
Lemma rnd_rel_pos : forall r t e, 1 / 1000000000 <= t -> Rabs (r - t) <= e * t -> 0 <= e <= 1000 * u ->
  Rabs (rnd r - t) <= (e + 11 / 10 * u) * t.
Proof.
  intros r t e Ht H He. pose proof uro_pos as U.
  assert (et : e * t <= 1000 * u * t) by (apply Rmult_le_compat_r; lra).
  pose proof (Rle_abs (r - t)) as Q1. pose proof (Rle_abs (- (r - t))) as Q2. rewrite Rabs_Ropp in Q2.
  assert (R1 : t / 2 <= r <= 1001 / 1000 * t) by (rewrite uro_val in *; lra).
  pose proof (rnd_rel r) as E. rewrite (Rabs_pos_eq r) in E by lra. specialize (E (tiny_le r ltac:(lra))).
  replace (rnd r - t) with ((rnd r - r) + (r - t)) by ring. eapply Rle_trans; [apply Rabs_triang|].
  assert (1001 / 1000 * u * r <= 1001 / 1000 * u * (1001 / 1000 * t)) by (apply Rmult_le_compat_l; lra).
  assert (0 <= u * t) by (apply Rmult_le_pos; lra). lra.
Qed.

Hypothesis LM : accurate_libm lm.

Lemma angle_err : forall (c : f64) c0, finite c -> - (5 * u) <= c0 <= 1 -> Rabs (val c - c0) <= 17 * u ->
  let th := @sdiv (F64 lm) (smul (@tf2Acos (F64 lm) c) two) two in
  finite th /\ exists x, 0 <= x <= 17 / 10 /\ Rabs (cos x - c0) <= 17 * u /\
    ((x = 0 /\ val th = 0) \/ (1 / 100000000 <= x /\ Rabs (val th - x) <= 7 * u * x)).
Proof using LM.
  intros c c0 F H0 H. cbv zeta. destruct LM as (_ & LA). pose proof uro_pos as U. pose proof big_big as BB.
  destruct (tf2Acos_arg c F) as (b & Fb & Vb & ->).
  pose proof (clamp_range (val c)) as R1. rewrite <- Vb in R1.
  assert (H1 : Rabs (val b - c0) <= 17 * u) by (rewrite Vb; apply clamp_close; [rewrite uro_val in *; lra|exact H]).
  destruct (LA b Fb R1) as (Fy & Ey). set (y := facos b) in *.
  pose proof (Rle_abs (val b - c0)) as Q1. pose proof (Rle_abs (- (val b - c0))) as Q2. rewrite Rabs_Ropp in Q2.
  pose proof (acos_17 (val b) ltac:(lra)) as X. pose proof (cos_acos (val b) R1) as CX.
  destruct two_ok as (F2 & V2). cbn [F64 sdiv smul scar]. set (tw := @two (F64 lm)) in *. change (val tw = 2) in V2. change (finite tw) in F2. clearbody tw.
  set (x := acos (val b)) in *.
  pose proof (Rle_abs (val y - x)) as Y1. pose proof (Rle_abs (- (val y - x))) as Y2. rewrite Rabs_Ropp in Y2.
  assert (yx : Rabs (val y) <= 2). { apply Rabs_le. rewrite uro_val in *. lra. }
  destruct (fmul_ok y tw Fy F2) as (Fm & Vm). { rewrite V2, Rabs_mult, (Rabs_pos_eq 2) by lra. lra. }
  set (m := SFmul prec64 emax64 y tw) in *. clearbody m. rewrite V2 in Vm.
  destruct (Req_dec x 0) as [X0|X0].
  - assert (y0 : val y = 0). { rewrite X0 in *. rewrite Rmult_0_r in Ey. lra. }
    rewrite y0, Rmult_0_l, rnd_0 in Vm.
    destruct (fdiv_ok m tw Fm F2) as (Fd & Vd); [lra|rewrite Vm; unfold Rdiv; rewrite Rmult_0_l, Rabs_R0; lra|].
    split; [exact Fd|]. exists 0. split; [lra|]. split.
    + rewrite <- X0, CX. exact H1.
    + left. split; [reflexivity|]. rewrite Vd, Vm. unfold Rdiv. rewrite Rmult_0_l. apply rnd_0.
  - assert (b1 : val b < 1).
    { destruct (Rtotal_order (val b) 1) as [L|[L|L]]; [exact L| |lra]. exfalso. apply X0. unfold x. rewrite L. apply acos_1. }
    pose proof (below_one b Fb b1) as b2. pose proof (one_minus_cos x X) as (_ & O). rewrite CX in O.
    assert (xl : 1 / 100000000 <= x).
    { apply Rnot_lt_le. intros C. assert (x * x <= 1 / 100000000 * (1 / 100000000)) by (apply Rmult_le_compat; lra). rewrite uro_val in *. lra. }
    assert (E2 : Rabs (val m - 2 * x) <= (51 / 10 * u) * (2 * x)).
    { rewrite Vm. eapply Rle_trans; [apply (rnd_rel_pos (val y * 2) (2 * x) (4 * u)); [lra| |lra]|right; field].
      replace (val y * 2 - 2 * x) with (2 * (val y - x)) by ring. rewrite Rabs_mult, (Rabs_pos_eq 2) by lra. lra. }
    assert (m2 : Rabs (val m / 2 - x) <= 51 / 10 * u * x).
    { replace (val m / 2 - x) with ((val m - 2 * x) * / 2) by field. rewrite Rabs_mult, (Rabs_pos_eq (/ 2)) by lra. lra. }
    destruct (fdiv_ok m tw Fm F2) as (Fd & Vd); [lra| |].
    { rewrite V2. eapply Rle_trans; [apply (abs_close _ x _ (17 / 10) m2); apply Rabs_le; lra|]. rewrite uro_val in *. lra. }
    split; [exact Fd|]. exists x. split; [exact X|]. split; [rewrite CX; exact H1|]. right. split; [exact xl|].
    rewrite Vd, V2. eapply Rle_trans; [apply (rnd_rel_pos _ x (51 / 10 * u)); [lra|exact m2|lra]|].
    assert (0 <= u * x) by (apply Rmult_le_pos; lra). lra.
Qed.

(** ** The weights *)
Section Weights.
Variables (th : f64) (x : R).
Hypothesis (Fth : finite th) (X1 : 1 / 100000000 <= x) (X2 : x <= 17 / 10) (Eth : Rabs (val th - x) <= 7 * u * x).
Let U := uro_pos.
Let ux : 0 <= u * x. Proof. apply Rmult_le_pos; [left; exact U|lra]. Qed.
Let eu : eta <= u * x / 1000.
Proof. pose proof eta_u. assert (u * (1 / 100000000) <= u * x) by (apply Rmult_le_compat_l; [left; exact U|exact X1]). pose proof U. lra. Qed.
Let thr : x / 2 <= val th <= 1001 / 1000 * x.
Proof. pose proof (Rle_abs (val th - x)). pose proof (Rle_abs (- (val th - x))) as Q. rewrite Rabs_Ropp in Q. rewrite uro_val in *. lra. Qed.

Lemma sin_arg_err : forall (a : f64) a0, finite a -> 0 <= a0 <= 1 -> Rabs (val a - a0) <= 10 * u ->
  let s := lm_sin lm (SFmul prec64 emax64 a th) in
  finite s /\ Rabs (val s - sin (a0 * x)) <= 24 * u * x.
Proof using LM Fth X1 X2 Eth U ux eu thr.
  intros a a0 Fa A0 EA. cbv zeta. destruct LM as (LS & _). pose proof big_big as BB.
  pose proof (Rle_abs (val a - a0)) as Q1. pose proof (Rle_abs (- (val a - a0))) as Q2. rewrite Rabs_Ropp in Q2.
  assert (E1 : Rabs (val a * val th - a0 * x) <= 171 / 10 * u * x).
  { replace (val a * val th - a0 * x) with ((val a - a0) * val th + a0 * (val th - x)) by ring. eapply Rle_trans; [apply Rabs_triang|].
    assert (K1 : Rabs ((val a - a0) * val th) <= 10 * u * (1001 / 1000 * x)).
    { rewrite Rabs_mult, (Rabs_pos_eq (val th)) by lra. apply Rmult_le_compat; first [apply Rabs_pos | lra]. }
    assert (K2 : Rabs (a0 * (val th - x)) <= 7 * u * x).
    { rewrite Rabs_mult, (Rabs_pos_eq a0) by lra. rewrite <- (Rmult_1_l (7 * u * x)). apply Rmult_le_compat; first [apply Rabs_pos | lra]. }
    lra. }
  assert (ax : 0 <= a0 * x <= x) by (apply ax_range; lra).
  assert (AX : Rabs (a0 * x) <= x) by (rewrite Rabs_pos_eq; lra).
  destruct (fmul_ok a th Fa Fth) as (Fm & Vm).
  { eapply Rle_trans; [apply (abs_close _ _ _ _ E1 AX)|]. rewrite uro_val in *. lra. }
  assert (E2 : Rabs (val (SFmul prec64 emax64 a th) - a0 * x) <= 182 / 10 * u * x).
  { rewrite Vm. eapply Rle_trans; [apply (rnd_close _ _ _ x E1 AX)|].
    assert (u * (171 / 10 * u * x) <= 1 / 100 * (u * x)).
    { replace (u * (171 / 10 * u * x)) with (u * (171 / 10) * (u * x)) by ring. apply Rmult_le_compat_r; [exact ux|]. rewrite uro_val. lra. }
    pose proof eu. pose proof ux. lra. }
  set (m := SFmul prec64 emax64 a th) in *. clearbody m.
  assert (Bm : Rabs (val m) <= 101 / 100 * x). { eapply Rle_trans; [apply (abs_close _ _ _ _ E2 AX)|]. rewrite uro_val in *. lra. }
  destruct (LS m Fm ltac:(lra)) as (Fs & Es). split; [exact Fs|].
  replace (val (lm_sin lm m) - sin (a0 * x)) with ((val (lm_sin lm m) - sin (val m)) + (sin (val m) - sin (a0 * x))) by ring.
  eapply Rle_trans; [apply Rabs_triang|]. pose proof (sin_abs_le (val m) (a0 * x)) as S1.
  assert (S2 : Rabs (sin (val m)) <= 101 / 100 * x).
  { pose proof (sin_abs_le (val m) 0) as S. rewrite sin_0, !Rminus_0_r in S. lra. }
  assert (4 * u * Rabs (sin (val m)) <= 4 * u * (101 / 100 * x)) by (apply Rmult_le_compat_l; [pose proof U; lra|exact S2]).
  pose proof eu. pose proof ux. lra.
Qed.
(** the reciprocal of the sine of the angle *)
Lemma inv_sin_err : let d := SFdiv prec64 emax64 (@sone (F64 lm)) (lm_sin lm th) in
  finite d /\ Rabs (val d * sin x - 1) <= 26 * u.
Proof using LM Fth X1 X2 Eth U ux eu thr.
  cbv zeta. destruct LM as (LS & _). pose proof big_big as BB. destruct one_ok as (F1 & V1). pose proof U as U0. pose proof eu as eu0. pose proof thr as thr0. pose proof ux as ux0.
  set (o := @sone (F64 lm)) in *. change (val o = 1) in V1. change (finite o) in F1. clearbody o.
  assert (Bt : Rabs (val th) <= 101 / 100 * x) by (apply Rabs_le; lra).
  destruct (LS th Fth ltac:(lra)) as (Fs & Es). set (s := lm_sin lm th) in *. clearbody s.
  pose proof (sin_abs_le (val th) x) as S1. pose proof (sin_low x ltac:(lra)) as SL. pose proof (sin_le_x x ltac:(lra)) as SU.
  assert (S2 : Rabs (sin (val th)) <= 101 / 100 * x).
  { pose proof (sin_abs_le (val th) 0) as S. rewrite sin_0, !Rminus_0_r in S. lra. }
  assert (S3 : 4 * u * Rabs (sin (val th)) <= 4 * u * (101 / 100 * x)) by (apply Rmult_le_compat_l; lra).
  assert (E : Rabs (val s - sin x) <= 23 * u * sin x).
  { replace (val s - sin x) with ((val s - sin (val th)) + (sin (val th) - sin x)) by ring. eapply Rle_trans; [apply Rabs_triang|].
    assert (u * (x / 2) <= u * sin x) by (apply Rmult_le_compat_l; lra). lra. }
  set (S := sin x) in *. clearbody S.
  pose proof (Rle_abs (val s - S)) as Q1. pose proof (Rle_abs (- (val s - S))) as Q2. rewrite Rabs_Ropp in Q2.
  assert (S4 : 999 / 1000 * S <= val s <= 101 / 100 * S) by (rewrite uro_val in *; lra).
  assert (I1 : 0 < / val s <= 101 / 100 * / S).
  { split; [apply Rinv_0_lt_compat; lra|]. replace (101 / 100 * / S) with (/ (100 / 101 * S)) by (field; lra). apply Rinv_le_contravar; [lra|]. lra. }
  assert (I2 : / S <= 1000000000). { rewrite <- (Rinv_inv 1000000000). apply Rinv_le_contravar; lra. }
  destruct (fdiv_ok o s F1 Fs) as (Fd & Vd); [lra| |].
  { rewrite V1. unfold Rdiv. rewrite Rmult_1_l, Rabs_pos_eq by lra. eapply Rle_trans; [apply I1|].
    eapply Rle_trans; [apply Rmult_le_compat_l; [lra|exact I2]|]. unfold big. 
    replace (101 / 100 * 1000000000) with (IZR 1010000000) by lra. apply IZR_le. intros C. discriminate C. }
  split; [exact Fd|]. rewrite Vd, V1. unfold Rdiv. rewrite Rmult_1_l.
  assert (I3 : 1 / 2 <= / val s). { replace (1 / 2) with (/ 2) by lra. apply Rinv_le_contravar; lra. }
  pose proof (rnd_rel (/ val s)) as RR. rewrite (Rabs_pos_eq (/ val s)) in RR by lra. specialize (RR (tiny_le (/ val s) ltac:(lra))).
  replace (rnd (/ val s) * S - 1) with ((rnd (/ val s) - / val s) * S + (S - val s) * / val s) by (field; lra).
  eapply Rle_trans; [apply Rabs_triang|].
  assert (K1 : Rabs ((rnd (/ val s) - / val s) * S) <= 11 / 10 * u).
  { rewrite Rabs_mult, (Rabs_pos_eq S) by lra. eapply Rle_trans; [apply Rmult_le_compat_r; [lra|exact RR]|].
    assert (Z : / val s * S <= 101 / 100). { apply (Rmult_le_reg_r (/ S)); [apply Rinv_0_lt_compat; lra|]. rewrite Rmult_assoc, Rinv_r, Rmult_1_r by lra. lra. }
    replace (1001 / 1000 * u * / val s * S) with (1001 / 1000 * u * (/ val s * S)) by ring.
    assert (1001 / 1000 * u * (/ val s * S) <= 1001 / 1000 * u * (101 / 100)) by (apply Rmult_le_compat_l; lra). lra. }
  assert (K2 : Rabs ((S - val s) * / val s) <= 24 * u).
  { rewrite Rabs_mult, (Rabs_pos_eq (/ val s)), Rabs_minus_sym by lra.
    eapply Rle_trans; [apply Rmult_le_compat; [apply Rabs_pos|lra|exact E|apply I1]|].
    replace (23 * u * S * (101 / 100 * / S)) with (23 * u * (101 / 100)) by (field; lra). lra. }
  lra.
Qed.
End Weights.

(** one component of the answer: ((x1 * s0) + (x2 * s1)) * d *)
Lemma comp_err : forall (x1 x2 s0 s1 d : f64) (S0 S1 S x B : R), finite x1 -> finite x2 -> finite s0 -> finite s1 -> finite d ->
  1 / 100000000 <= x <= 17 / 10 -> x / 2 <= S -> 0 <= S0 <= x -> 0 <= S1 <= x ->
  Rabs (val s0 - S0) <= 24 * u * x -> Rabs (val s1 - S1) <= 24 * u * x -> Rabs (val d * S - 1) <= 26 * u ->
  Rabs (val x1) + Rabs (val x2) <= B -> B <= 10 ->
  let r := SFmul prec64 emax64 (SFadd prec64 emax64 (SFmul prec64 emax64 x1 s0) (SFmul prec64 emax64 x2 s1)) d in
  finite r /\ Rabs (val r - (S0 / S * val x1 + S1 / S * val x2)) <= 110 * u * B + 1000000000 * eta.
Proof.
  intros x1 x2 s0 s1 d S0 S1 S x B F1 F2 Fs0 Fs1 Fd X HS HS0 HS1 E0 E1 ED HB B10. cbv zeta.
  pose proof uro_pos as U. pose proof eta_pos as ET. pose proof eta_u as EU. pose proof big_big as BB.
  pose proof (Rabs_pos (val x1)) as P1. pose proof (Rabs_pos (val x2)) as P2.
  assert (ux : 0 <= u * x) by (apply Rmult_le_pos; lra).
  assert (bs0 : Rabs (val s0) <= 101 / 100 * x). { eapply Rle_trans; [apply (abs_close _ _ _ x E0); rewrite Rabs_pos_eq; lra|]. rewrite uro_val in *. lra. }
  assert (bs1 : Rabs (val s1) <= 101 / 100 * x). { eapply Rle_trans; [apply (abs_close _ _ _ x E1); rewrite Rabs_pos_eq; lra|]. rewrite uro_val in *. lra. }
  set (a1 := Rabs (val x1)) in *. set (a2 := Rabs (val x2)) in *.
  assert (M1 : Rabs (val x1 * val s0) <= 101 / 100 * (a1 * x)).
  { rewrite Rabs_mult. fold a1. eapply Rle_trans; [apply Rmult_le_compat_l; [exact P1|exact bs0]|]. right. ring. }
  assert (M2 : Rabs (val x2 * val s1) <= 101 / 100 * (a2 * x)).
  { rewrite Rabs_mult. fold a2. eapply Rle_trans; [apply Rmult_le_compat_l; [exact P2|exact bs1]|]. right. ring. }
  assert (ax1 : 0 <= a1 * x <= 17) by nra. assert (ax2 : 0 <= a2 * x <= 17) by nra.
  destruct (ap_mul x1 s0 _ F1 Fs0 M1 ltac:(lra)) as (Fp1 & Ep1). destruct (ap_mul x2 s1 _ F2 Fs1 M2 ltac:(lra)) as (Fp2 & Ep2).
  assert (G1 : Rabs (val (SFmul prec64 emax64 x1 s0) - val x1 * S0) <= 251 / 10 * u * (a1 * x) + eta).
  { replace (val (SFmul prec64 emax64 x1 s0) - val x1 * S0) with ((val (SFmul prec64 emax64 x1 s0) - val x1 * val s0) + val x1 * (val s0 - S0)) by ring.
    eapply Rle_trans; [apply Rabs_triang|]. assert (Rabs (val x1 * (val s0 - S0)) <= a1 * (24 * u * x)) by (rewrite Rabs_mult; fold a1; apply Rmult_le_compat_l; assumption).
    assert (0 <= u * (a1 * x)) by (apply Rmult_le_pos; lra). lra. }
  assert (G2 : Rabs (val (SFmul prec64 emax64 x2 s1) - val x2 * S1) <= 251 / 10 * u * (a2 * x) + eta).
  { replace (val (SFmul prec64 emax64 x2 s1) - val x2 * S1) with ((val (SFmul prec64 emax64 x2 s1) - val x2 * val s1) + val x2 * (val s1 - S1)) by ring.
    eapply Rle_trans; [apply Rabs_triang|]. assert (Rabs (val x2 * (val s1 - S1)) <= a2 * (24 * u * x)) by (rewrite Rabs_mult; fold a2; apply Rmult_le_compat_l; assumption).
    assert (0 <= u * (a2 * x)) by (apply Rmult_le_pos; lra). lra. }
  set (p1 := SFmul prec64 emax64 x1 s0) in *. set (p2 := SFmul prec64 emax64 x2 s1) in *. clearbody p1 p2.
  set (T := val x1 * S0 + val x2 * S1). set (B' := a1 + a2) in *.
  assert (uB : 0 <= u * (B' * x)) by (apply Rmult_le_pos; [lra|apply Rmult_le_pos; unfold B'; lra]).
  assert (TB : Rabs T <= B' * x).
  { unfold T. eapply Rle_trans; [apply Rabs_triang|]. rewrite !Rabs_mult. fold a1; fold a2. rewrite (Rabs_pos_eq S0), (Rabs_pos_eq S1) by lra. unfold B'.
    assert (a1 * S0 <= a1 * x) by (apply Rmult_le_compat_l; lra). assert (a2 * S1 <= a2 * x) by (apply Rmult_le_compat_l; lra). lra. }
  assert (G3 : Rabs (val p1 + val p2 - T) <= 251 / 10 * u * (B' * x) + 2 * eta).
  { replace (val p1 + val p2 - T) with ((val p1 - val x1 * S0) + (val p2 - val x2 * S1)) by (unfold T; ring). eapply Rle_trans; [apply Rabs_triang|]. unfold B'. lra. }
  assert (Bx : 0 <= B' * x <= 17) by (split; [apply Rmult_le_pos; unfold B' in *; lra|]; replace 17 with (10 * (17 / 10)) by field; apply Rmult_le_compat; unfold B' in *; lra).
  destruct (fadd_ok p1 p2 Fp1 Fp2) as (Fa & Va).
  { eapply Rle_trans; [apply (abs_close _ _ _ _ G3 TB)|]. rewrite uro_val in *. lra. }
  assert (G4 : Rabs (val (SFadd prec64 emax64 p1 p2) - T) <= 262 / 10 * u * (B' * x) + 4 * eta).
  { rewrite Va. eapply Rle_trans; [apply (rnd_close _ _ _ _ G3 TB)|]. rewrite uro_val in *. lra. }
  set (p := SFadd prec64 emax64 p1 p2) in *. clearbody p.
  assert (SP : 0 < S) by lra.
  assert (xS : x * / S <= 2). { apply (Rmult_le_reg_r S); [exact SP|]. rewrite Rmult_assoc, Rinv_l by lra. lra. }
  assert (iS : 0 < / S <= 200000000). { split; [apply Rinv_0_lt_compat, SP|]. rewrite <- (Rinv_inv 200000000). apply Rinv_le_contravar; lra. }
  assert (dS : Rabs (val d * S) <= 101 / 100).
  { eapply Rle_trans; [apply (abs_close _ 1 _ 1 ED); rewrite Rabs_R1; lra|]. rewrite uro_val in *. lra. }
  assert (G5 : Rabs (val p * val d - T / S) <= 107 * u * B' + 900000000 * eta).
  { replace (val p * val d - T / S) with (((val p - T) * (val d * S) + T * (val d * S - 1)) * / S) by (field; lra).
    rewrite Rabs_mult, (Rabs_pos_eq (/ S)) by lra.
    assert (H1 : Rabs ((val p - T) * (val d * S) + T * (val d * S - 1)) <= 53 * u * (B' * x) + 41 / 10 * eta).
    { eapply Rle_trans; [apply Rabs_triang|]. rewrite !Rabs_mult.
      assert (A1 : Rabs (val p - T) * Rabs (val d * S) <= (262 / 10 * u * (B' * x) + 4 * eta) * (101 / 100)) by (apply Rmult_le_compat; try apply Rabs_pos; assumption).
      rewrite Rabs_mult in A1.
      assert (A2 : Rabs T * Rabs (val d * S - 1) <= B' * x * (26 * u)) by (apply Rmult_le_compat; try apply Rabs_pos; assumption). lra. }
    eapply Rle_trans; [apply Rmult_le_compat_r; [lra|exact H1]|].
    replace ((53 * u * (B' * x) + 41 / 10 * eta) * / S) with (53 * (u * B') * (x * / S) + 41 / 10 * eta * / S) by ring.
    assert (uB' : 0 <= u * B') by (apply Rmult_le_pos; unfold B'; lra).
    assert (A1 : 53 * (u * B') * (x * / S) <= 53 * (u * B') * 2) by (apply Rmult_le_compat_l; lra).
    assert (A2 : 41 / 10 * eta * / S <= 41 / 10 * eta * 200000000) by (apply Rmult_le_compat_l; lra). lra. }
  assert (TS : Rabs (T / S) <= 2 * B').
  { unfold Rdiv. rewrite Rabs_mult, (Rabs_pos_eq (/ S)) by lra. eapply Rle_trans; [apply Rmult_le_compat_r; [lra|exact TB]|].
    rewrite Rmult_assoc. assert (B' * (x * / S) <= B' * 2) by (apply Rmult_le_compat_l; unfold B'; lra). lra. }
  assert (B0 : 0 <= B' <= B) by (unfold B' in *; lra).
  destruct (fmul_ok p d Fa Fd) as (Fr & Vr).
  { eapply Rle_trans; [apply (abs_close _ _ _ _ G5 TS)|]. rewrite uro_val in *. lra. }
  split; [exact Fr|]. rewrite Vr. replace (S0 / S * val x1 + S1 / S * val x2) with (T / S) by (unfold T; field; lra).
  eapply Rle_trans; [apply (rnd_close _ _ _ _ G5 TS)|].
  assert (u * (107 * u * B') <= 1 / 100 * (u * B')).
  { replace (u * (107 * u * B')) with (u * 107 * (u * B')) by ring. apply Rmult_le_compat_r; [apply Rmult_le_pos; lra|]. rewrite uro_val. lra. }
  assert (u * (900000000 * eta) <= eta) by (rewrite <- (Rmult_1_l eta) at 2; rewrite <- Rmult_assoc; apply Rmult_le_compat_r; [lra|rewrite uro_val; lra]).
  assert (u * B' <= u * B) by (apply Rmult_le_compat_l; lra). assert (0 <= u * B') by (apply Rmult_le_pos; lra). lra.
Qed.

(** ** The whole interpolation *)
Definition slerp_core {S : Scalar} (q1 qs : quat S) (s t : S) : quat S :=
  let theta := ((tf2Acos (qdot q1 qs / s) * two) / two)%S in
  if negb (theta =? szero)%S then
    let d := (sone / ssin theta)%S in
    let s0 := ssin ((sone - t) * theta)%S in
    let s1 := ssin (t * theta)%S in
    Q4 ((qx q1 * s0 + qx qs * s1) * d)%S ((qy q1 * s0 + qy qs * s1) * d)%S
       ((qz q1 * s0 + qz qs * s1) * d)%S ((qw q1 * s0 + qw qs * s1) * d)%S
  else q1.
Lemma slerp_core_eq : forall (S : Scalar) (q1 q2 : quat S) (t : S),
  qslerp q1 q2 t = slerp_core q1 (if (qdot q1 q2 <? szero)%S then qneg q2 else q2) (ssqrt (qlength2 q1 * qlength2 q2)%S) t.
Proof. intros S q1 q2 t. unfold qslerp, slerp_core, qangleShortestPath. cbv zeta. destruct (qdot q1 q2 <? szero)%S; reflexivity. Qed.

Lemma qneg_val : forall q : fq, qfinite q -> qfinite (qneg q) /\ qval (qneg q) = qneg (qval q) /\ qnorm (qval (qneg q)) = qnorm (qval q).
Proof.
  intros [x y z w] (Fx & Fy & Fz & Fw). cbn [qx qy qz qw] in *.
  destruct (fopp_ok x Fx) as (X & VX). destruct (fopp_ok y Fy) as (Y & VY). destruct (fopp_ok z Fz) as (Z & VZ). destruct (fopp_ok w Fw) as (W & VW).
  split; [repeat split; assumption|]. assert (E : qval (qneg (@Q4 (F64 lm) x y z w)) = qneg (qval (@Q4 (F64 lm) x y z w))).
  { unfold qval, qneg. cbn [qx qy qz qw F64 sopp scar RS]. rewrite VX, VY, VZ, VW. reflexivity. }
  split; [exact E|]. rewrite E. unfold qnorm, qval, qneg. cbn [qx qy qz qw RS sopp scar]. f_equal. ring.
Qed.

(** weights of an arc, moved from one angle to another *)
Lemma arc_move : forall a b a' b' (p q : quat RS) e, Rabs (a - a') <= e -> Rabs (b - b') <= e ->
  qdist (@Q4 RS (a * qx p + b * qx q) (a * qy p + b * qy q) (a * qz p + b * qz q) (a * qw p + b * qw q))
        (@Q4 RS (a' * qx p + b' * qx q) (a' * qy p + b' * qy q) (a' * qz p + b' * qz q) (a' * qw p + b' * qw q)) <= e * (qnorm p + qnorm q).
Proof.
  intros a b a' b' [x y z w] [i j k l] e Ha Hb. unfold qdist. rewrite qnorm_N4. cbn [qx qy qz qw]. cbn [RS scar] in *.
  replace (a * x + b * i - (a' * x + b' * i)) with ((a - a') * x + (b - b') * i) by ring.
  replace (a * y + b * j - (a' * y + b' * j)) with ((a - a') * y + (b - b') * j) by ring.
  replace (a * z + b * k - (a' * z + b' * k)) with ((a - a') * z + (b - b') * k) by ring.
  replace (a * w + b * l - (a' * w + b' * l)) with ((a - a') * w + (b - b') * l) by ring.
  eapply Rle_trans; [apply N4_triangle|]. rewrite !N4_scale, !qnorm_N4. cbn [qx qy qz qw].
  assert (Rabs (a - a') * N4 x y z w <= e * N4 x y z w) by (apply Rmult_le_compat_r; [apply N4_pos|assumption]).
  assert (Rabs (b - b') * N4 i j k l <= e * N4 i j k l) by (apply Rmult_le_compat_r; [apply N4_pos|assumption]). lra.
Qed.

Lemma slerp_core_err : forall (q1 qs : fq) (s t : f64) t0, qfinite q1 -> qfinite qs ->
  1 / 2 <= qnorm (qval q1) <= 2 -> 1 / 2 <= qnorm (qval qs) <= 2 ->
  finite s -> Rabs (val s - qnorm (qval q1) * qnorm (qval qs)) <= 11 * u * (qnorm (qval q1) * qnorm (qval qs)) ->
  - (5 * u) * (qnorm (qval q1) * qnorm (qval qs)) <= d4 (qval q1) (qval qs) ->
  finite t -> 0 <= t0 <= 1 -> Rabs (val t - t0) <= 8 * u ->
  qfinite (slerp_core q1 qs s t) /\
  ((slerp_core q1 qs s t = q1 /\ angle_between (qval q1) (qval qs) <= / 4194304) \/
   qdist (qval (slerp_core q1 qs s t)) (on_arc (qval q1) (qval qs) t0) <= 165 * u * (qnorm (qval q1) + qnorm (qval qs))).
Proof using LM.
  intros q1 qs s t t0 F1 Fs N1 Ns Fsq Es Hd Ft T0 Et.
  pose proof uro_pos as U. pose proof eta_pos as ET. pose proof eta_u as EU. pose proof big_big as BB.
  destruct (cos_err q1 qs s F1 Fs N1 Ns Fsq Es) as (Fc & Ec).
  set (c0 := d4 (qval q1) (qval qs) / (qnorm (qval q1) * qnorm (qval qs))) in *.
  assert (HP : 1 / 4 <= qnorm (qval q1) * qnorm (qval qs) <= 4) by nra.
  assert (C0 : - (5 * u) <= c0 <= 1).
  { unfold c0. split.
    - apply (Rmult_le_reg_r (qnorm (qval q1) * qnorm (qval qs))); [lra|]. unfold Rdiv. rewrite Rmult_assoc, Rinv_l, Rmult_1_r by lra. exact Hd.
    - apply (Rmult_le_reg_r (qnorm (qval q1) * qnorm (qval qs))); [lra|]. unfold Rdiv. rewrite Rmult_assoc, Rinv_l, Rmult_1_r by lra.
      rewrite Rmult_1_l. destruct q1 as [a b c d], qs as [e f g h]. exact (N4_cauchy (val a) (val b) (val c) (val d) (val e) (val f) (val g) (val h)). }
  set (c := SFdiv prec64 emax64 (qdot q1 qs) s) in *.
  destruct (angle_err c c0 Fc C0 Ec) as (Fth & x & X & Ex & D).
  unfold slerp_core. cbv zeta. change (qdot q1 qs / s)%S with c.
  set (th := ((@tf2Acos (F64 lm) c * two) / two)%S) in *.
  assert (AB : angle_between (qval q1) (qval qs) = acos c0) by reflexivity.
  assert (CA : cos (acos c0) = c0) by (apply cos_acos; rewrite uro_val in *; lra).
  pose proof (acos_17 c0 ltac:(lra)) as A17.
  destruct zero_ok as (F0 & V0). 
  destruct D as [(X0 & Th0)|(X1 & Eth)].
  - assert (B : (th =? szero)%S = true) by (apply feqb_ok; [exact Fth|exact F0|rewrite Th0; symmetry; exact V0]).
    rewrite B. cbn [negb]. split; [exact F1|]. left. split; [reflexivity|]. rewrite AB.
    pose proof (one_minus_cos _ A17) as (O & _). rewrite CA in O. rewrite X0, cos_0 in Ex. pose proof (Rle_abs (1 - c0)) as Q.
    apply Rnot_lt_le. intros C. assert (/ 4194304 * / 4194304 <= acos c0 * acos c0) by (apply Rmult_le_compat; lra).
    assert (/ 4194304 * / 4194304 < acos c0 * acos c0) by (apply Rmult_gt_0_lt_compat; lra). 
    rewrite uro_val in *. lra.
  - assert (B : (th =? szero)%S = false).
    { destruct (th =? szero)%S eqn:E; [|reflexivity]. exfalso. apply feqb_ok in E; [|exact Fth|exact F0]. rewrite V0 in E. rewrite E in Eth.
      rewrite Rminus_0_l, Rabs_Ropp, Rabs_pos_eq in Eth by lra. rewrite uro_val in *. lra. }
    rewrite B. cbn [negb]. clear B.
    destruct (inv_sin_err th x Fth X1 (proj2 X) Eth) as (Fd & Ed).
    destruct one_ok as (Fo & Vo).
    assert (E1t : ap (SFsub prec64 emax64 (@sone (F64 lm)) t) (1 - t0) (10 * u)).
    { assert (A1 : ap (@sone (F64 lm)) 1 0) by (split; [exact Fo|]; rewrite Vo, Rminus_eq_0, Rabs_R0; lra).
      eapply ap_weaken; [apply (ap_sub _ _ 1 t0 0 (8 * u) 1); [exact A1|split; [exact Ft|exact Et]|apply Rabs_le; lra|rewrite uro_val; lra]|]. rewrite uro_val in *. lra. }
    destruct E1t as (F1t & E1t).
    destruct (sin_arg_err th x Fth X1 (proj2 X) Eth _ (1 - t0) F1t ltac:(lra) E1t) as (Fs0 & Es0).
    destruct (sin_arg_err th x Fth X1 (proj2 X) Eth t t0 Ft T0 ltac:(lra)) as (Fs1 & Es1).
    change (@ssub (F64 lm) sone t) with (SFsub prec64 emax64 (@sone (F64 lm)) t).
    set (s0 := lm_sin lm (SFmul prec64 emax64 (SFsub prec64 emax64 (@sone (F64 lm)) t) th)) in *.
    set (s1 := lm_sin lm (SFmul prec64 emax64 t th)) in *.
    set (d := SFdiv prec64 emax64 (@sone (F64 lm)) (lm_sin lm th)) in *.
    cbn [F64 sadd smul ssin sdiv scar].
    change (lm_sin lm (SFmul prec64 emax64 (SFsub prec64 emax64 (@sone (F64 lm)) t) th)) with s0.
    change (lm_sin lm (SFmul prec64 emax64 t th)) with s1. change (SFdiv prec64 emax64 (@sone (F64 lm)) (lm_sin lm th)) with d.
    clearbody s0 s1 d. clear Fth Eth. clearbody th. clear th.
    assert (xN : x <> 0) by lra. pose proof (sin_low x X) as SL.
    destruct (ax_range (1 - t0) ltac:(lra) x ltac:(lra)) as (G1 & G2). destruct (ax_range t0 T0 x ltac:(lra)) as (G3 & G4).
    pose proof (sin_pos17 _ (conj G1 (Rle_trans _ _ _ G2 (proj2 X)))) as S0p. pose proof (sin_pos17 _ (conj G3 (Rle_trans _ _ _ G4 (proj2 X)))) as S1p.
    pose proof (sin_le_x _ G1) as S0u. pose proof (sin_le_x _ G3) as S1u.
    assert (CE : forall y1 y2 : f64, finite y1 -> finite y2 -> Rabs (val y1) <= 2 -> Rabs (val y2) <= 2 ->
      let r := SFmul prec64 emax64 (SFadd prec64 emax64 (SFmul prec64 emax64 y1 s0) (SFmul prec64 emax64 y2 s1)) d in
      finite r /\ Rabs (val r - (weight (1 - t0) x * val y1 + weight t0 x * val y2)) <= 110 * u * (Rabs (val y1) + Rabs (val y2)) + 1000000000 * eta).
    { intros y1 y2 Y1 Y2 B1 B2. unfold weight. destruct (Req_EM_T x 0) as [C|_]; [contradiction|].
      apply (comp_err y1 y2 s0 s1 d _ _ (sin x) x); try assumption; try lra. }
    destruct q1 as [a1 a2 a3 a4], qs as [b1 b2 b3 b4]. destruct F1 as (FA1 & FA2 & FA3 & FA4), Fs as (FB1 & FB2 & FB3 & FB4). cbn [qx qy qz qw] in *.
    pose proof (N4_comp (val a1) (val a2) (val a3) (val a4)) as (NA1 & NA2 & NA3 & NA4).
    pose proof (N4_comp (val b1) (val b2) (val b3) (val b4)) as (NB1 & NB2 & NB3 & NB4).
    change (qnorm (qval (@Q4 (F64 lm) a1 a2 a3 a4))) with (N4 (val a1) (val a2) (val a3) (val a4)) in *.
    change (qnorm (qval (@Q4 (F64 lm) b1 b2 b3 b4))) with (N4 (val b1) (val b2) (val b3) (val b4)) in *.
    destruct (CE a1 b1 FA1 FB1 ltac:(lra) ltac:(lra)) as (R1 & E1). destruct (CE a2 b2 FA2 FB2 ltac:(lra) ltac:(lra)) as (R2 & E2).
    destruct (CE a3 b3 FA3 FB3 ltac:(lra) ltac:(lra)) as (R3 & E3). destruct (CE a4 b4 FA4 FB4 ltac:(lra) ltac:(lra)) as (R4 & E4).
    split; [split; [exact R1|split; [exact R2|split; [exact R3|exact R4]]]|]. right.
    eapply Rle_trans; [apply (qdist_triangle _ (let a := weight (1 - t0) x in let b := weight t0 x in
      @Q4 RS (a * val a1 + b * val b1) (a * val a2 + b * val b2) (a * val a3 + b * val b3) (a * val a4 + b * val b4)))|].
    assert (W : forall a, 0 <= a <= 1 -> Rabs (weight a x - weight a (acos c0)) <= 51 * u).
    { intros a Ha. eapply Rle_trans; [apply weight_lip; assumption|]. rewrite CA. lra. }
    assert (P2 := arc_move _ _ _ _ (qval (@Q4 (F64 lm) a1 a2 a3 a4)) (qval (@Q4 (F64 lm) b1 b2 b3 b4)) _ (W (1 - t0) ltac:(lra)) (W t0 T0)).
    change (qnorm (qval (@Q4 (F64 lm) a1 a2 a3 a4))) with (N4 (val a1) (val a2) (val a3) (val a4)) in P2.
    change (qnorm (qval (@Q4 (F64 lm) b1 b2 b3 b4))) with (N4 (val b1) (val b2) (val b3) (val b4)) in P2.
    unfold on_arc. rewrite AB. cbv zeta. cbn [qx qy qz qw qval] in *.
    set (NA := N4 (val a1) (val a2) (val a3) (val a4)) in *. set (NB := N4 (val b1) (val b2) (val b3) (val b4)) in *.
    eapply Rle_trans; [apply Rplus_le_compat; [|exact P2]|].
    + unfold qdist. rewrite qnorm_N4. cbn [qx qy qz qw].
      eapply Rle_trans; [apply N4_mono; [exact E1|exact E2|exact E3|exact E4]|].
      eapply Rle_trans; [apply N4_triangle|]. rewrite N4_scale, N4_same by lra. rewrite (Rabs_pos_eq (110 * u)) by lra.
      apply Rplus_le_compat_r. apply Rmult_le_compat_l; [lra|]. eapply Rle_trans; [apply N4_triangle|]. rewrite !N4_abs. fold NA. fold NB. apply Rle_refl.
    + rewrite uro_val in *. lra.
Qed.

Theorem slerp_err : forall (q1 q2 : fq) (t : f64) t0, qfinite q1 -> qfinite q2 ->
  1 / 2 <= qnorm (qval q1) <= 2 -> 1 / 2 <= qnorm (qval q2) <= 2 ->
  finite t -> 0 <= t0 <= 1 -> Rabs (val t - t0) <= 8 * u ->
  qfinite (qslerp q1 q2 t) /\
  exists q : quat RS, (q = qval q2 \/ q = qneg (qval q2)) /\ - (5 * u) * (qnorm (qval q1) * qnorm q) <= d4 (qval q1) q /\
  ((qslerp q1 q2 t = q1 /\ angle_between (qval q1) q <= / 4194304) \/
   qdist (qval (qslerp q1 q2 t)) (on_arc (qval q1) q t0) <= 165 * u * (qnorm (qval q1) + qnorm q)).
Proof using LM.
  intros q1 q2 t t0 F1 F2 N1 N2 Ft T0 Et. pose proof uro_pos as U. pose proof eta_u as EU. pose proof big_big as BB.
  destruct (len_err q1 q2 F1 F2 N1 N2) as (Fs & Es). rewrite slerp_core_eq.
  set (s := @ssqrt (F64 lm) (qlength2 q1 * qlength2 q2)%S) in *. clearbody s.
  destruct (qdot_err q1 q2 F1 F2) as (Fd & Ed). { nra. }
  assert (HP : 1 / 4 <= qnorm (qval q1) * qnorm (qval q2) <= 4) by nra.
  assert (Ed' : Rabs (val (qdot q1 q2) - d4 (qval q1) (qval q2)) <= 5 * u * (qnorm (qval q1) * qnorm (qval q2))).
  { eapply Rle_trans; [exact Ed|]. rewrite uro_val in *. lra. }
  pose proof (Rle_abs (val (qdot q1 q2) - d4 (qval q1) (qval q2))) as Q1. pose proof (Rle_abs (- (val (qdot q1 q2) - d4 (qval q1) (qval q2)))) as Q2. rewrite Rabs_Ropp in Q2.
  destruct zero_ok as (F0 & V0). destruct (qneg_val q2 F2) as (Fn & Vn & Nn).
  destruct (qdot q1 q2 <? szero)%S eqn:E.
  - apply fltb_ok in E; [|exact Fd|exact F0]. rewrite V0 in E.
    assert (DN : d4 (qval q1) (qval (qneg q2)) = - d4 (qval q1) (qval q2)).
    { rewrite Vn. unfold qneg. cbn [qx qy qz qw qval RS sopp scar]. ring. }
    destruct (slerp_core_err q1 (qneg q2) s t t0) as (G1 & G2); try assumption; try (rewrite Nn; assumption).
    { rewrite Nn, DN. lra. }
    split; [exact G1|]. exists (qval (qneg q2)). split; [right; exact Vn|]. split; [rewrite Nn, DN; lra|]. exact G2.
  - assert (E' : ~ val (qdot q1 q2) < 0). { intros C. assert (C' : val (qdot q1 q2) < val (@szero (F64 lm))) by (rewrite V0; exact C). clear C. rename C' into C. apply fltb_ok in C; [|exact Fd|exact F0]. change (SFltb (qdot q1 q2) (@szero (F64 lm)) = false) in E. congruence. }
    destruct (slerp_core_err q1 q2 s t t0) as (G1 & G2); try assumption.
    { lra. }
    split; [exact G1|]. exists (qval q2). split; [left; reflexivity|]. split; [lra|]. exact G2.
Qed.
End Ang.
