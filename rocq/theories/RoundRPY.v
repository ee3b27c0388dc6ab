(** * Quaternions from angles in binary64, and near-unit quaternions are accepted *)
From Coq Require Import ZArith Bool Reals Floats.SpecFloat List String Lia Lra Psatz.
From Flocq Require Import Zaux Raux Defs Generic_fmt FLT Round_NE BinarySingleNaN Mult_error.
From Verif Require Import RosTime Scalar LinearMath Cache BufferCore Instances RealSlerp RealQuat SpecReal RealMatrix RealEuler
  SpecCore SpecRound SpecInterp SpecAngles FloatErr RoundNorm RoundOps FloatMore RoundSlerp RoundInterp RoundAccept.
Open Scope R_scope.
Local Notation u := uro.
#[local] Existing Instance FloatErr.Hprec.
#[local] Existing Instance FloatErr.Hmax.

(** Halving is exact but for the smallest numbers. *)
Lemma rnd_half : forall x, finite x -> Rabs (rnd (val x * (1 / 2)) - val x * (1 / 2)) <= 2 * eta.
Proof.
  intros x F. destruct (Rle_lt_dec (bpow radix2 (-1021)) (Rabs (val x))) as [L|L].
  - assert (G : rnd (val x * (1 / 2)) = val x * (1 / 2)).
    { destruct (finite_B x F) as (b & _ & _ & E). rewrite <- E in *. unfold rnd. apply round_generic; [apply valid_rnd_N|].
      replace (1 / 2) with (bpow radix2 (-1)) by (cbn; lra).
      apply (mult_bpow_exact_FLT radix2 (-1074) 53).
      - apply (generic_format_B2R prec64 emax64).
      - apply (mag_ge_bpow radix2 (B2R b) (-1020)) in L. lia. }
    rewrite G. unfold Rminus. rewrite Rplus_opp_r, Rabs_R0. pose proof eta_pos. lra.
  - pose proof (rnd_err (val x * (1 / 2))) as E. rewrite Rabs_mult, (Rabs_pos_eq (1 / 2)) in E by lra.
    assert (K : u * (Rabs (val x) * (1 / 2)) <= eta).
    { assert (B : u * bpow radix2 (-1021) <= 2 * eta).
      { unfold uro, eta. replace (/ IZR (2 ^ 53)) with (bpow radix2 (-53)) by reflexivity. replace (/ IZR (2 ^ 1075)) with (bpow radix2 (-1075)) by reflexivity.
        rewrite <- bpow_plus. replace (2 * bpow radix2 (-1075)) with (bpow radix2 1 * bpow radix2 (-1075)) by (cbn [bpow]; change (IZR (Z.pow_pos radix2 1)) with 2; reflexivity).
        rewrite <- bpow_plus. apply bpow_le. lia. }
      pose proof uro_pos. assert (u * Rabs (val x) <= u * bpow radix2 (-1021)) by (apply Rmult_le_compat_l; lra). lra. }
    lra.
Qed.

Lemma sin_le_abs : forall x, Rabs (sin x) <= Rabs x.
Proof.
  assert (P : forall x, 0 < x -> Rabs (sin x) <= x).
  { intros x Hx. pose proof (sin_lt_x x Hx). destruct (Rle_lt_dec 1 x) as [L|L]; [pose proof (SIN_bound x); apply Rabs_le; lra|].
    pose proof PI_RGT_0. assert (1 <= PI) by (pose proof PI2_1; unfold PI2 in *; lra).
    pose proof (sin_gt_0 x Hx ltac:(lra)). rewrite Rabs_pos_eq; lra. }
  intros x. destruct (Rtotal_order x 0) as [L|[->|L]].
  - rewrite <- (Rabs_Ropp x), (Rabs_pos_eq (- x)) by lra. rewrite <- Rabs_Ropp, <- sin_neg. apply P. lra.
  - rewrite sin_0. lra.
  - rewrite (Rabs_pos_eq x) by lra. apply P. lra.
Qed.
Lemma sin_close : forall a b, Rabs (sin a - sin b) <= Rabs (a - b).
Proof.
  intros a b. rewrite form4, !Rabs_mult, (Rabs_pos_eq 2) by lra.
  pose proof (sin_le_abs ((a - b) / 2)) as S. replace ((a - b) / 2) with ((a - b) * / 2) in S at 2 by reflexivity.
  rewrite Rabs_mult, (Rabs_pos_eq (/ 2)) in S by lra. pose proof (COS_bound ((a + b) / 2)) as C.
  assert (Rabs (cos ((a + b) / 2)) <= 1) by (apply Rabs_le; lra). pose proof (Rabs_pos (sin ((a - b) / 2))). pose proof (Rabs_pos (cos ((a + b) / 2))). nra.
Qed.
Lemma cos_close : forall a b, Rabs (cos a - cos b) <= Rabs (a - b).
Proof.
  intros a b. rewrite form2, !Rabs_mult. replace (Rabs (-2)) with 2 by (rewrite Rabs_left; lra).
  pose proof (sin_le_abs ((a - b) / 2)) as S. replace ((a - b) / 2) with ((a - b) * / 2) in S at 2 by reflexivity.
  rewrite Rabs_mult, (Rabs_pos_eq (/ 2)) in S by lra. pose proof (SIN_bound ((a + b) / 2)) as C.
  assert (Rabs (sin ((a + b) / 2)) <= 1) by (apply Rabs_le; lra). pose proof (Rabs_pos (sin ((a - b) / 2))). pose proof (Rabs_pos (sin ((a + b) / 2))). nra.
Qed.

Section T.
Context {lm : libm}.
Lemma half_ok : finite (@half (F64 lm)) /\ val (@half (F64 lm)) = 1 / 2.
Proof.
  destruct (fofZ_exact 1 eq_refl) as (F1 & V1). destruct (fofZ_exact 2 eq_refl) as (F2 & V2). unfold half. cbn [F64 slit]. pose proof big_big as BB.
  destruct (fdiv_ok _ _ F1 F2) as (F & V); [rewrite V2; lra|rewrite V1, V2, Rabs_pos_eq; lra|]. split; [exact F|]. rewrite V, V1, V2.
  unfold rnd. apply round_generic; [apply valid_rnd_N|]. replace (1 / 2) with (bpow radix2 (-1)) by (cbn; lra).
  apply generic_format_bpow. cbn. unfold FLT_exp. lia.
Qed.
Lemma half_angle : accurate_trig lm -> forall x : F64 lm, finite x ->
  ap (lm_sin lm (SFmul prec64 emax64 x (@half (F64 lm)))) (sin (val x * (1 / 2))) (5 * u) /\
  ap (lm_cos lm (SFmul prec64 emax64 x (@half (F64 lm)))) (cos (val x * (1 / 2))) (5 * u).
Proof.
  intros T x F. destruct half_ok as (Fh & Vh). 
  destruct (fmul_ok x (@half (F64 lm)) F Fh) as (Fm & Vm).
  { rewrite Vh. destruct (finite_B x F) as (b & _ & Fb & E). rewrite <- E, Rabs_mult, (Rabs_pos_eq (1 / 2)) by lra.
    pose proof (abs_B2R_lt_emax prec64 emax64 b) as L. change (bpow radix2 emax64) with (IZR (2 * 2 ^ 1023)) in L. rewrite mult_IZR in L. fold big in L. lra. }
  rewrite Vh in Vm. destruct (T _ Fm) as ((F1 & E1) & (F2 & E2)). pose proof (rnd_half x F) as H. rewrite <- Vm in H.
  pose proof eta_u as EU. pose proof uro_pos as U.
  split; (split; [assumption|]).
  - pose proof (sin_close (val (SFmul prec64 emax64 x (@half (F64 lm)))) (val x * (1 / 2))) as C.
    match goal with |- Rabs (?a - ?b) <= _ => replace (a - b) with ((a - sin (val (SFmul prec64 emax64 x (@half (F64 lm))))) + (sin (val (SFmul prec64 emax64 x (@half (F64 lm)))) - b)) by ring end.
    eapply Rle_trans; [apply Rabs_triang|]. lra.
  - pose proof (cos_close (val (SFmul prec64 emax64 x (@half (F64 lm)))) (val x * (1 / 2))) as C.
    match goal with |- Rabs (?a - ?b) <= _ => replace (a - b) with ((a - cos (val (SFmul prec64 emax64 x (@half (F64 lm))))) + (cos (val (SFmul prec64 emax64 x (@half (F64 lm)))) - b)) by ring end.
    eapply Rle_trans; [apply Rabs_triang|]. lra.
Qed.
(** One product of numbers of absolute value at most 1. *)
Lemma ap_prod : forall x y X Y a b, ap x X (a * u) -> ap y Y (b * u) -> Rabs X <= 1 -> Rabs Y <= 1 -> 0 <= a <= 100 -> 0 <= b <= 100 ->
  ap (SFmul prec64 emax64 x y) (X * Y) ((a + b + 3 / 2) * u) /\ Rabs (X * Y) <= 1.
Proof.
  intros x y X Y a b (Fx & Hx) (Fy & Hy) HX HY Ha Hb. pose proof eta_u as EU. pose proof uro_pos as U. pose proof big_big as BB.
  assert (XY : Rabs (X * Y) <= 1) by (rewrite Rabs_mult; pose proof (Rabs_pos X); pose proof (Rabs_pos Y); nra).
  split; [|exact XY].
  assert (D : Rabs (val x * val y - X * Y) <= a * u + b * u + a * u * (b * u)).
  { replace (val x * val y - X * Y) with (X * (val y - Y) + Y * (val x - X) + (val x - X) * (val y - Y)) by ring.
    eapply Rle_trans; [apply Rabs_triang|]. eapply Rle_trans; [apply Rplus_le_compat_r, Rabs_triang|]. rewrite !Rabs_mult.
    pose proof (Rabs_pos X). pose proof (Rabs_pos Y). pose proof (Rabs_pos (val x - X)). pose proof (Rabs_pos (val y - Y)).
    assert (Rabs X * Rabs (val y - Y) <= 1 * (b * u)) by (apply Rmult_le_compat; lra).
    assert (Rabs Y * Rabs (val x - X) <= 1 * (a * u)) by (apply Rmult_le_compat; lra).
    assert (Rabs (val x - X) * Rabs (val y - Y) <= a * u * (b * u)) by (apply Rmult_le_compat; lra). lra. }
  assert (AU : 0 <= a * u <= 100 * u) by nra. assert (BU : 0 <= b * u <= 100 * u) by nra.
  assert (AB : a * u * (b * u) <= 1 / 1000 * u) by (rewrite uro_val in *; nra).
  assert (M : Rabs (val x * val y) <= 2).
  { replace (val x * val y) with ((val x * val y - X * Y) + X * Y) by ring. eapply Rle_trans; [apply Rabs_triang|]. rewrite uro_val in *. lra. }
  destruct (fmul_ok x y Fx Fy) as (F & V); [lra|]. split; [exact F|]. rewrite V.
  pose proof (rnd_close _ _ _ 1 D XY) as E. eapply Rle_trans; [exact E|].
  assert (u * (1 + (a * u + b * u + a * u * (b * u))) <= u * (1 + 1 / 100)) by (apply Rmult_le_compat_l; [lra|rewrite uro_val in *; lra]). lra.
Qed.
Lemma ap_two : forall x y X Y, ap x X (18 * u) -> ap y Y (18 * u) ->
  (Rabs (X + Y) <= 1 -> ap (SFadd prec64 emax64 x y) (X + Y) (38 * u)) /\ (Rabs (X - Y) <= 1 -> ap (SFsub prec64 emax64 x y) (X - Y) (38 * u)).
Proof.
  intros x y X Y Hx Hy. pose proof eta_u as EU. pose proof uro_pos as U. pose proof big_big as BB.
  assert (K : 18 * u + 18 * u + u * (1 + (18 * u + 18 * u)) + eta <= 38 * u).
  { assert (u * (1 + (18 * u + 18 * u)) <= u * (1 + 1 / 100)) by (apply Rmult_le_compat_l; [lra|rewrite uro_val in *; lra]). lra. }
  split; intros B; (eapply ap_weaken; [|exact K]).
  - apply ap_add; auto. rewrite uro_val in *. lra.
  - apply ap_sub; auto. rewrite uro_val in *. lra.
Qed.
Lemma qunit_comp : forall q : quat RS, qunit q -> Rabs (qx q) <= 1 /\ Rabs (qy q) <= 1 /\ Rabs (qz q) <= 1 /\ Rabs (qw q) <= 1.
Proof. intros [a b c d] H. unfold qunit in H. cbn in *. repeat split; apply Rabs_le; nra. Qed.

(** The quaternion of three angles. *)
Theorem rpy_close : accurate_trig lm -> forall roll pitch yaw : F64 lm, finite roll -> finite pitch -> finite yaw ->
  qfinite (@qfromRPY (F64 lm) roll pitch yaw) /\ qdist (qval (@qfromRPY (F64 lm) roll pitch yaw)) (exact_rpy roll pitch yaw) <= 76 * u.
Proof.
  intros T r p y Fr Fp Fy. destruct (half_angle T r Fr) as (Sr & Cr). destruct (half_angle T p Fp) as (Sp & Cp). destruct (half_angle T y Fy) as (Sy & Cy).
  pose proof (proj1 (qfromRPY_ok (val r) (val p) (val y))) as Un. apply qunit_comp in Un.
  assert (SB : forall x, Rabs (sin x) <= 1) by (intros x; pose proof (SIN_bound x); apply Rabs_le; lra).
  assert (CB : forall x, Rabs (cos x) <= 1) by (intros x; pose proof (COS_bound x); apply Rabs_le; lra).
  unfold exact_rpy. unfold qfromRPY in *. cbn [RS F64 scar ssin scos smul sadd ssub] in *. 
  replace (@half RS) with (1 / 2) in * by reflexivity.
  set (sr := lm_sin lm (SFmul prec64 emax64 r (@half (F64 lm)))) in *. set (cr := lm_cos lm (SFmul prec64 emax64 r (@half (F64 lm)))) in *.
  set (sp := lm_sin lm (SFmul prec64 emax64 p (@half (F64 lm)))) in *. set (cp := lm_cos lm (SFmul prec64 emax64 p (@half (F64 lm)))) in *.
  set (sy := lm_sin lm (SFmul prec64 emax64 y (@half (F64 lm)))) in *. set (cy := lm_cos lm (SFmul prec64 emax64 y (@half (F64 lm)))) in *.
  clearbody sr cr sp cp sy cy.
  pose proof (SB (val r * (1 / 2))) as Sr1. pose proof (CB (val r * (1 / 2))) as Cr1. pose proof (SB (val p * (1 / 2))) as Sp1. pose proof (CB (val p * (1 / 2))) as Cp1.
  pose proof (SB (val y * (1 / 2))) as Sy1. pose proof (CB (val y * (1 / 2))) as Cy1.
  set (SR := sin (val r * (1 / 2))) in *. set (CR := cos (val r * (1 / 2))) in *. set (SP := sin (val p * (1 / 2))) in *. set (CP := cos (val p * (1 / 2))) in *.
  set (SY := sin (val y * (1 / 2))) in *. set (CY := cos (val y * (1 / 2))) in *. clearbody SR CR SP CP SY CY.
  cbn [qx qy qz qw] in Un. destruct Un as (U1 & U2 & U3 & U4).
  assert (Tr : forall a b c A B C, ap a A (5 * u) -> ap b B (5 * u) -> ap c C (5 * u) -> Rabs A <= 1 -> Rabs B <= 1 -> Rabs C <= 1 ->
     ap (SFmul prec64 emax64 (SFmul prec64 emax64 a b) c) (A * B * C) (18 * u)).
  { intros a b c A B C Ha Hb Hc HA HB HC. destruct (ap_prod a b A B 5 5 Ha Hb HA HB ltac:(lra) ltac:(lra)) as (P1 & P2).
    destruct (ap_prod _ c _ C _ 5 P1 Hc P2 HC ltac:(lra) ltac:(lra)) as (P3 & _). eapply ap_weaken; [exact P3|]. pose proof uro_pos. lra. }
  pose proof (proj2 (ap_two _ _ _ _ (Tr sr cp cy SR CP CY Sr Cp Cy Sr1 Cp1 Cy1) (Tr cr sp sy CR SP SY Cr Sp Sy Cr1 Sp1 Sy1)) U1) as Ax.
  pose proof (proj1 (ap_two _ _ _ _ (Tr cr sp cy CR SP CY Cr Sp Cy Cr1 Sp1 Cy1) (Tr sr cp sy SR CP SY Sr Cp Sy Sr1 Cp1 Sy1)) U2) as Ay.
  pose proof (proj2 (ap_two _ _ _ _ (Tr cr cp sy CR CP SY Cr Cp Sy Cr1 Cp1 Sy1) (Tr sr sp cy SR SP CY Sr Sp Cy Sr1 Sp1 Cy1)) U3) as Az.
  pose proof (proj1 (ap_two _ _ _ _ (Tr cr cp cy CR CP CY Cr Cp Cy Cr1 Cp1 Cy1) (Tr sr sp sy SR SP SY Sr Sp Sy Sr1 Sp1 Sy1)) U4) as Aw.
  destruct Ax as (Fx & Ex). destruct Ay as (Fy' & Ey). destruct Az as (Fz & Ez). destruct Aw as (Fw & Ew).
  split; [repeat split; assumption|]. unfold qdist. rewrite qnorm_N4. cbn [qx qy qz qw qval].
  eapply Rle_trans; [apply N4_mono; [exact Ex|exact Ey|exact Ez|exact Ew]|]. rewrite N4_same by (pose proof uro_pos; lra). lra.
Qed.

Lemma fabs_ok : forall e, finite e -> finite (SFabs e) /\ val (SFabs e) = Rabs (val e).
Proof.
  intros e Fe. destruct e as [s|s| |s m x]; try contradiction; cbn [SFabs].
  - split; [exact I|]. cbn. rewrite Rabs_R0. reflexivity.
  - split; [exact Fe|]. cbn [val]. rewrite !Rabs_mult.
    assert (P : 0 < powerRZ 2 x) by (apply powerRZ_lt; lra).
    rewrite (Rabs_pos_eq (powerRZ 2 x)) by lra. rewrite (Rabs_pos_eq (IZR (Zpos m))) by (apply IZR_le; lia).
    destruct s; [rewrite Rabs_left by lra|rewrite Rabs_R1]; ring.
Qed.
(** setTransform's norm check lets every finite quaternion through whose squared length is within
    99/10000 of 1. *)
Theorem near_unit_valid : forall q : quat (F64 lm), qfinite q -> Rabs (qnorm (qval q) * qnorm (qval q) - 1) <= 99 / 10000 -> quat_valid q = true.
Proof.
  intros [x y z w] (Fx & Fy & Fz & Fw) N. cbn [qx qy qz qw] in *. unfold quat_valid. cbn [qx qy qz qw].
  cbn [F64 sltb sabs ssub sadd smul scar]. destruct (@one_ok lm) as (Fo & Vo).
  set (o := @sone (F64 lm)) in *. change (val o = 1) in Vo. change (finite o) in Fo. clearbody o.
  assert (Lt : finite (@slit (F64 lm) 1 100) /\ 9999 / 1000000 <= val (@slit (F64 lm) 1 100)).
  { destruct (fofZ_exact 1 eq_refl) as (F1 & V1). destruct (fofZ_exact 100 eq_refl) as (F2 & V2). cbn [F64 slit]. pose proof big_big as BB.
    destruct (fdiv_ok _ _ F1 F2) as (F & V); [rewrite V2; lra|rewrite V1, V2, Rabs_pos_eq; lra|]. split; [exact F|]. rewrite V, V1, V2.
    pose proof (rnd_err (1 / 100)) as E. rewrite (Rabs_pos_eq (1 / 100)) in E by lra. pose proof (Rle_abs (- (rnd (1 / 100) - 1 / 100))) as Q. rewrite Rabs_Ropp in Q.
    pose proof eta_u. rewrite uro_val in *. lra. }
  destruct Lt as (Fc & Vc). set (c := @slit (F64 lm) 1 100) in *. change (SFdiv prec64 emax64 (f64_of_Z 1) (f64_of_Z 100)) with c. clearbody c.
  assert (N2 : qnorm (qval (@Q4 (F64 lm) x y z w)) * qnorm (qval (@Q4 (F64 lm) x y z w)) = val w * val w + val x * val x + val y * val y + val z * val z).
  { rewrite !qnorm_N4. cbn [qx qy qz qw qval]. rewrite N4_sq. ring. }
  pose proof uro_pos as U. pose proof eta_pos as E0. pose proof eta_u as EU. pose proof big_big as BB.
  set (n := qnorm (qval (@Q4 (F64 lm) x y z w)) * qnorm (qval (@Q4 (F64 lm) x y z w))) in *.
  pose proof (Rle_abs (n - 1)) as A1. pose proof (Rle_abs (- (n - 1))) as A2. rewrite Rabs_Ropp in A2.
  assert (A : forall a, finite a -> val a * val a <= n -> ap (SFmul prec64 emax64 a a) (val a * val a) (u * (val a * val a) + eta) /\ 0 <= val a * val a).
  { intros a Fa La. assert (S : 0 <= val a * val a) by nra. split; [|exact S]. apply ap_mul; try assumption; [rewrite Rabs_pos_eq; lra|lra]. }
  assert (Sq : forall r : R, 0 <= r * r) by (intros r; nra).
  pose proof (Sq (val w)). pose proof (Sq (val x)). pose proof (Sq (val y)). pose proof (Sq (val z)).
  destruct (A w Fw ltac:(lra)) as (AW & BW). destruct (A x Fx ltac:(lra)) as (AX & BX).
  destruct (A y Fy ltac:(lra)) as (AY & BY). destruct (A z Fz ltac:(lra)) as (AZ & BZ).
  assert (pe : forall r, 0 <= r -> Rabs r <= r) by (intros r Hr; rewrite Rabs_pos_eq; lra).
  pose proof (sum_ppp _ _ _ _ _ _ _ _ _ _ _ _ n AW AX AY AZ (pe _ BW) (pe _ BX) (pe _ BY) (pe _ BZ) ltac:(lra) ltac:(lra)) as AD.
  rewrite <- N2 in AD. set (D := SFadd _ _ (SFadd _ _ (SFadd _ _ (SFmul _ _ w w) _) _) _) in *. clearbody D.
  destruct AD as (FD & ED). pose proof (Rle_abs (val D - n)) as Q3. pose proof (Rle_abs (- (val D - n))) as Q4. rewrite Rabs_Ropp in Q4.
  assert (DV : Rabs (val D - val o) <= 9901 / 1000000) by (rewrite Vo; apply Rabs_le; rewrite uro_val in *; lra).
  destruct (fsub_ok D o FD Fo) as (FE & VE); [lra|].
  assert (AE : finite (SFabs (SFsub prec64 emax64 D o)) /\ val (SFabs (SFsub prec64 emax64 D o)) = Rabs (val (SFsub prec64 emax64 D o))).
  { apply fabs_ok. exact FE. }
  destruct AE as (FA & VA). apply fltb_ok; [exact FA|exact Fc|]. rewrite VA, VE.
  pose proof (rnd_err (val D - val o)) as E. set (t := val D - val o) in *.
  assert (Rabs (rnd t) <= Rabs t + Rabs (rnd t - t)). { replace (rnd t) with (t + (rnd t - t)) at 1 by ring. apply Rabs_triang. }
  rewrite uro_val in *. lra.
Qed.
End T.
