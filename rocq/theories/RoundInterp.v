(** * Rounding error of the interpolated sample in binary64 *)
From Coq Require Import ZArith Bool Reals Floats.SpecFloat List String Lia Lra Psatz.
From Flocq Require Import Zaux Raux Defs Generic_fmt FLT.
From Verif Require Import RosTime Scalar LinearMath Cache Instances RealSlerp RealQuat SpecCore SpecRound SpecInterp FloatErr RoundNorm RoundOps FloatMore SlerpWeights RoundSlerp.
Open Scope R_scope.
Local Notation u := uro.
Local Notation d4 p q := (qx p * qx q + qy p * qy q + qz p * qz q + qw p * qw q).

(** ** Seconds *)
Lemma Rabs_zero : forall r, Rabs r <= 0 -> r = 0.
Proof. intros r H. destruct (Req_dec r 0) as [E|N]; [exact E|]. apply Rabs_pos_lt in N. lra. Qed.
Lemma rnd_Z : forall n, (Z.abs n < 2 ^ 53)%Z -> rnd (IZR n) = IZR n.
Proof.
  intros n H. apply round_generic; [apply valid_rnd_N|]. apply generic_format_FLT.
  exists (Float radix2 n 0); [unfold F2R; cbn; ring|exact H|cbn; lia].
Qed.
Lemma fofZ_exact : forall n, (Z.abs n < 2 ^ 53)%Z -> finite (f64_of_Z n) /\ val (f64_of_Z n) = IZR n.
Proof.
  intros n H. destruct (fofZ_ok n) as (F & V).
  - rewrite <- abs_IZR. unfold big. apply IZR_le. apply Z.lt_le_incl. eapply Z.lt_trans; [exact H|]. apply Z.pow_lt_mono_r; lia.
  - split; [exact F|]. rewrite V. apply rnd_Z, H.
Qed.
Lemma rnd_rel0 : forall r, r = 0 \/ 1 / 1000000000000000000 <= r -> Rabs (rnd r - r) <= 1001 / 1000 * u * r.
Proof.
  intros r [->|H]; [rewrite rnd_0, Rminus_eq_0, Rabs_R0; lra|]. pose proof (rnd_rel r) as E. rewrite (Rabs_pos_eq r) in E by lra.
  apply E, tiny_le, H.
Qed.
Lemma ofns_err : forall n, (0 <= n < 2 ^ 62)%Z -> finite (f64_ofns n) /\ Rabs (val (f64_ofns n) - IZR n / 1000000000) <= 32 / 10 * u * (IZR n / 1000000000).
Proof.
  intros n H. unfold f64_ofns. change (10 ^ 9)%Z with 1000000000%Z.
  pose proof (Z.div_mod n 1000000000 ltac:(lia)) as DM. pose proof (Z.mod_pos_bound n 1000000000 ltac:(lia)) as MB.
  assert (DB : (0 <= n / 1000000000 < 2 ^ 53)%Z).
  { split; [apply Z.div_pos; lia|]. apply Z.div_lt_upper_bound; [lia|]. eapply Z.lt_le_trans; [apply H|]. intros C; discriminate C. }
  set (q := (n / 1000000000)%Z) in *. set (r := (n mod 1000000000)%Z) in *.
  destruct (fofZ_exact q ltac:(lia)) as (Fq & Vq). destruct (fofZ_exact r) as (Fr & Vr). { change (2 ^ 53)%Z with 9007199254740992%Z. lia. }
  destruct (fofZ_exact 1) as (F1 & V1); [reflexivity|]. destruct (fofZ_exact 1000000000) as (F9 & V9); [reflexivity|].
  set (fq := f64_of_Z q) in *. set (fr := f64_of_Z r) in *. set (f1 := f64_of_Z 1) in *. set (f9 := f64_of_Z 1000000000) in *. clearbody fq fr f1 f9.
  pose proof big_big as BB. pose proof uro_pos as U.
  destruct (fdiv_ok f1 f9 F1 F9) as (Fn & Vn); [rewrite V9; lra|rewrite V1, V9, Rabs_pos_eq; lra|]. rewrite V1, V9 in Vn.
  pose proof (rnd_rel0 (1 / 1000000000) ltac:(right; lra)) as En. rewrite <- Vn in En.
  set (fn := SFdiv prec64 emax64 f1 f9) in *. clearbody fn. clear V1 V9 F1 F9 f1 f9.
  assert (Rr : 0 <= IZR r <= 1000000000) by (split; apply IZR_le; lia).
  assert (Rq : 0 <= IZR q <= 9007199254740992) by (split; apply IZR_le; [lia|]; change 9007199254740992%Z with (2 ^ 53)%Z; lia).
  assert (En' : IZR n / 1000000000 = IZR q + IZR r / 1000000000) by (rewrite DM, plus_IZR, mult_IZR; field).
  set (e := IZR r / 1000000000) in *. assert (Re : 0 <= e <= 1) by (unfold e; lra).
  assert (E1 : Rabs (val fn * val fr - e) <= 1001 / 1000 * u * e).
  { rewrite Vr. replace (val fn * IZR r - e) with ((val fn - 1 / 1000000000) * IZR r) by (unfold e; field).
    rewrite Rabs_mult, (Rabs_pos_eq (IZR r)) by lra. eapply Rle_trans; [apply Rmult_le_compat_r; [lra|exact En]|]. unfold e. right. field. }
  assert (ae : Rabs e <= e) by (rewrite Rabs_pos_eq; lra).
  assert (ue : 0 <= u * e) by (apply Rmult_le_pos; lra).
  destruct (fmul_ok fn fr Fn Fr) as (Fm & Vm).
  { eapply Rle_trans; [apply (abs_close _ _ _ _ E1 ae)|]. rewrite uro_val in *. lra. }
  assert (E2 : Rabs (val (SFmul prec64 emax64 fn fr) - e) <= 21 / 10 * u * e).
  { rewrite Vm. replace (rnd (val fn * val fr) - e) with ((rnd (val fn * val fr) - val fn * val fr) + (val fn * val fr - e)) by ring.
    eapply Rle_trans; [apply Rabs_triang|].
    assert (Rabs (rnd (val fn * val fr) - val fn * val fr) <= 1001 / 1000 * u * (val fn * val fr)).
    { apply rnd_rel0. destruct (Z.eq_dec r 0) as [Z0|Z0].
      - left. rewrite Vr, Z0. ring.
      - right. assert (1 <= IZR r) by (apply IZR_le; lia).
        assert (E3 : 1 / 1000000000 <= e) by (unfold e; lra). pose proof (Rle_abs (- (val fn * val fr - e))) as Q. rewrite Rabs_Ropp in Q.
        rewrite uro_val in *. lra. }
    assert (val fn * val fr <= 1001 / 1000 * e). { pose proof (Rle_abs (val fn * val fr - e)). rewrite uro_val in *. lra. }
    assert (1001 / 1000 * u * (val fn * val fr) <= 1001 / 1000 * u * (1001 / 1000 * e)) by (apply Rmult_le_compat_l; lra). lra. }
  set (m := SFmul prec64 emax64 fn fr) in *. clearbody m.
  rewrite En'. set (q' := IZR q) in *.
  assert (E3 : Rabs (val fq + val m - (q' + e)) <= 21 / 10 * u * (q' + e)).
  { rewrite Vq. replace (q' + val m - (q' + e)) with (val m - e) by ring. assert (0 <= u * q') by (apply Rmult_le_pos; lra). lra. }
  assert (u2 : 0 <= u * (q' + e)) by (apply Rmult_le_pos; lra).
  assert (up : val fq + val m <= 1001 / 1000 * (q' + e)). { pose proof (Rle_abs (val fq + val m - (q' + e))). rewrite uro_val in *. lra. }
  assert (lo : 999 / 1000 * (q' + e) <= val fq + val m). { pose proof (Rle_abs (- (val fq + val m - (q' + e)))) as Q. rewrite Rabs_Ropp in Q. rewrite uro_val in *. lra. }
  destruct (fadd_ok fq m Fq Fm) as (Fa & Va).
  { rewrite Rabs_pos_eq by lra. unfold big. assert (IZR 10000000000000000 <= IZR (2 ^ 1023)) by (apply IZR_le; intros C; discriminate C). lra. }
  split; [exact Fa|]. rewrite Va.
  replace (rnd (val fq + val m) - (q' + e)) with ((rnd (val fq + val m) - (val fq + val m)) + (val fq + val m - (q' + e))) by ring.
  eapply Rle_trans; [apply Rabs_triang|].
  assert (Rabs (rnd (val fq + val m) - (val fq + val m)) <= 1001 / 1000 * u * (val fq + val m)).
  { apply rnd_rel0. destruct (Z.eq_dec n 0) as [Z0|Z0].
    - left. assert (q' + e = 0) by (rewrite <- En', Z0; lra). assert (e = 0) by lra. assert (q' = 0) by lra.
      assert (val m = 0). { replace e with 0 in E2 by lra. rewrite Rmult_0_r, Rminus_0_r in E2. apply Rabs_zero. lra. }
      rewrite Vq. lra.
    - right. assert (1 <= IZR n) by (apply IZR_le; lia). lra. }
  assert (1001 / 1000 * u * (val fq + val m) <= 1001 / 1000 * u * (1001 / 1000 * (q' + e))) by (apply Rmult_le_compat_l; lra). lra.
Qed.

(** ** The ratio *)
Lemma ratio_err : forall a b, (0 <= a <= b)%Z -> (0 < b < 2 ^ 62)%Z ->
  let r := SFdiv prec64 emax64 (f64_ofns a) (f64_ofns b) in
  finite r /\ 0 <= IZR a / IZR b <= 1 /\ Rabs (val r - IZR a / IZR b) <= 8 * u /\ (a = 0%Z -> val r = 0).
Proof.
  intros a b Ha Hb. cbv zeta. destruct (ofns_err a ltac:(lia)) as (Fa & Ea). destruct (ofns_err b ltac:(lia)) as (Fb & Eb).
  assert (B : 1 <= IZR b) by (apply IZR_le; lia). assert (A : 0 <= IZR a <= IZR b) by (split; apply IZR_le; lia).
  pose proof big_big as BB. pose proof uro_pos as U. pose proof eta_u as EU.
  set (x := IZR a / 1000000000) in *. set (y := IZR b / 1000000000) in *.
  assert (Y : 1 / 1000000000 <= y) by (unfold y; lra). assert (X : 0 <= x <= y) by (unfold x, y; lra).
  assert (XY : IZR a / IZR b = x / y) by (unfold x, y; field; lra). rewrite XY.
  set (fa := f64_ofns a) in *. set (fb := f64_ofns b) in *. clearbody fa fb.
  assert (uy : 0 <= u * y) by (apply Rmult_le_pos; lra). assert (ux : 0 <= u * x) by (apply Rmult_le_pos; lra).
  assert (yb : 999 / 1000 * y <= val fb). { pose proof (Rle_abs (- (val fb - y))) as Q. rewrite Rabs_Ropp in Q. rewrite uro_val in *. lra. }
  assert (R01 : 0 <= x / y <= 1).
  { split; [apply Rmult_le_pos; [lra|left; apply Rinv_0_lt_compat; lra]|]. apply (Rmult_le_reg_r y); [lra|]. unfold Rdiv. rewrite Rmult_assoc, Rinv_l by lra. lra. }
  assert (E : Rabs (val fa / val fb - x / y) <= 65 / 10 * u).
  { set (c := x / y) in *. assert (Ex : x = c * y) by (unfold c; field; lra).
    apply (Rmult_le_reg_r (val fb)); [lra|]. rewrite <- (Rabs_pos_eq (val fb)) at 2 by lra. rewrite <- Rabs_mult.
    replace ((val fa / val fb - c) * val fb) with ((val fa - x) - c * (val fb - y)) by (rewrite Ex; field; lra).
    assert (K : Rabs (c * (val fb - y)) <= 32 / 10 * u * y).
    { rewrite Rabs_mult. rewrite <- (Rmult_1_l (32 / 10 * u * y)). apply Rmult_le_compat; try apply Rabs_pos; [rewrite Rabs_pos_eq; lra|lra]. }
    assert (K2 : 32 / 10 * u * x <= 32 / 10 * u * y) by (apply Rmult_le_compat_l; lra).
    eapply Rle_trans; [apply Rabs_triang|]. rewrite Rabs_Ropp.
    assert (65 / 10 * u * (999 / 1000 * y) <= 65 / 10 * u * val fb) by (apply Rmult_le_compat_l; lra). lra. }
  assert (A1 : Rabs (x / y) <= 1) by (rewrite Rabs_pos_eq; lra).
  destruct (fdiv_ok fa fb Fa Fb) as (Fd & Vd); [lra| |].
  { eapply Rle_trans; [apply (abs_close _ _ _ _ E A1)|]. rewrite uro_val in *. lra. }
  split; [exact Fd|]. split; [exact R01|]. rewrite Vd. split.
  - eapply Rle_trans; [apply (rnd_close _ _ _ 1 E A1)|]. rewrite uro_val in *. lra.
  - intros Z0. assert (X0 : x = 0) by (unfold x; rewrite Z0; unfold Rdiv; ring). rewrite X0 in Ea.
    rewrite Rmult_0_r, Rminus_0_r in Ea. assert (V : val fa = 0) by (apply Rabs_zero; lra).
    rewrite V. unfold Rdiv. rewrite Rmult_0_l. apply rnd_0.
Qed.

(** ** The translation *)
Section I.
Context {lm : libm}.
Notation fq := (quat (F64 lm)).
Notation fv := (vec3 (F64 lm)).

Lemma lerp_comp : forall (s t x y : f64) s0 t0, finite s -> finite t -> finite x -> finite y -> 0 <= s0 <= 1 -> 0 <= t0 <= 1 ->
  Rabs (val s - s0) <= 10 * u -> Rabs (val t - t0) <= 10 * u -> Rabs (val x) + Rabs (val y) <= big / 2 ->
  let r := SFadd prec64 emax64 (SFmul prec64 emax64 s x) (SFmul prec64 emax64 t y) in
  finite r /\ Rabs (val r - (s0 * val x + t0 * val y)) <= 13 * u * (Rabs (val x) + Rabs (val y)) + 4 * eta.
Proof.
  intros s t x y s0 t0 Fs Ft Fx Fy S0 T0 Es Et HB. cbv zeta. pose proof big_big as BB. pose proof uro_pos as U. pose proof eta_u as EU. pose proof eta_pos as E0.
  pose proof (Rabs_pos (val x)) as X0. pose proof (Rabs_pos (val y)) as Y0. set (a := Rabs (val x)) in *. set (b := Rabs (val y)) in *.
  assert (G : forall (s x : f64) s0, finite s -> finite x -> 0 <= s0 <= 1 -> Rabs (val s - s0) <= 10 * u -> Rabs (val x) <= big / 2 ->
    ap (SFmul prec64 emax64 s x) (s0 * val x) (111 / 10 * u * Rabs (val x) + eta)).
  { clear. intros s x s0 Fs Fx S0 Es B. pose proof big_big as BB. pose proof uro_pos as U. pose proof eta_u as EU. pose proof eta_pos as E0. pose proof (Rabs_pos (val x)) as X0.
    assert (E : Rabs (val s * val x - s0 * val x) <= 10 * u * Rabs (val x)).
    { replace (val s * val x - s0 * val x) with ((val s - s0) * val x) by ring. rewrite Rabs_mult. apply Rmult_le_compat_r; assumption. }
    assert (A : Rabs (s0 * val x) <= Rabs (val x)). { rewrite Rabs_mult, (Rabs_pos_eq s0) by lra. rewrite <- (Rmult_1_l (Rabs (val x))) at 2. apply Rmult_le_compat_r; lra. }
    assert (ux : 0 <= u * Rabs (val x)) by (apply Rmult_le_pos; lra).
    destruct (fmul_ok s x Fs Fx) as (F & V). { eapply Rle_trans; [apply (abs_close _ _ _ _ E A)|]. rewrite uro_val in *. lra. }
    split; [exact F|]. rewrite V. eapply Rle_trans; [apply (rnd_close _ _ _ _ E A)|].
    assert (u * (10 * u * Rabs (val x)) <= 1 / 100 * (u * Rabs (val x))).
    { replace (u * (10 * u * Rabs (val x))) with (u * 10 * (u * Rabs (val x))) by ring. apply Rmult_le_compat_r; [exact ux|]. rewrite uro_val. lra. }
    lra. }
  pose proof (G s x s0 Fs Fx S0 Es ltac:(fold a; lra)) as P1. pose proof (G t y t0 Ft Fy T0 Et ltac:(fold b; lra)) as P2. fold a in P1. fold b in P2.
  assert (A : Rabs (s0 * val x + t0 * val y) <= a + b).
  { eapply Rle_trans; [apply Rabs_triang|]. rewrite !Rabs_mult, (Rabs_pos_eq s0), (Rabs_pos_eq t0) by lra. fold a; fold b.
    assert (s0 * a <= 1 * a) by (apply Rmult_le_compat_r; lra). assert (t0 * b <= 1 * b) by (apply Rmult_le_compat_r; lra). lra. }
  assert (ua : 0 <= u * a) by (apply Rmult_le_pos; lra). assert (ub : 0 <= u * b) by (apply Rmult_le_pos; lra).
  destruct (ap_add _ _ _ _ _ _ (a + b) P1 P2 A) as (F & E). { rewrite uro_val in *. lra. }
  split; [exact F|]. eapply Rle_trans; [exact E|].
  assert (u * (111 / 10 * u * a) <= 1 / 100 * (u * a)).
  { replace (u * (111 / 10 * u * a)) with (u * (111 / 10) * (u * a)) by ring. apply Rmult_le_compat_r; [exact ua|]. rewrite uro_val. lra. }
  assert (u * (111 / 10 * u * b) <= 1 / 100 * (u * b)).
  { replace (u * (111 / 10 * u * b)) with (u * (111 / 10) * (u * b)) by ring. apply Rmult_le_compat_r; [exact ub|]. rewrite uro_val. lra. }
  assert (u * eta <= 1 / 10 * eta) by (apply Rmult_le_compat_r; [lra|rewrite uro_val; lra]). lra.
Qed.
Lemma one_minus : forall (t : f64) t0, finite t -> 0 <= t0 <= 1 -> Rabs (val t - t0) <= 8 * u ->
  ap (SFsub prec64 emax64 (@sone (F64 lm)) t) (1 - t0) (10 * u).
Proof.
  intros t t0 Ft T0 Et. destruct (@one_ok lm) as (Fo & Vo). pose proof big_big as BB. pose proof uro_pos as U. pose proof eta_u as EU.
  assert (A1 : ap (@sone (F64 lm)) 1 0) by (split; [exact Fo|]; rewrite Vo, Rminus_eq_0, Rabs_R0; lra).
  eapply ap_weaken; [apply (ap_sub _ _ 1 t0 0 (8 * u) 1); [exact A1|split; [exact Ft|exact Et]|apply Rabs_le; lra|rewrite uro_val; lra]|]. rewrite uro_val in *. lra.
Qed.
Lemma vinterp_err : forall (v w : fv) (t : f64) t0, vfinite v -> vfinite w -> finite t -> 0 <= t0 <= 1 -> Rabs (val t - t0) <= 8 * u ->
  vnorm (vval v) + vnorm (vval w) <= big / 2 ->
  vfinite (vinterp v w t) /\
  vdist (vval (vinterp v w t)) (on_line (vval v) (vval w) t0) <= 13 * u * (vnorm (vval v) + vnorm (vval w)) + 8 * eta.
Proof.
  intros [x1 x2 x3] [y1 y2 y3] t t0 (FX1 & FX2 & FX3) (FY1 & FY2 & FY3) Ft T0 Et HB. cbn [vx vy vz] in *.
  rewrite !vnorm_N4 in *. cbn [vx vy vz vval] in *. destruct (one_minus t t0 Ft T0 Et) as (Fs & Es).
  pose proof uro_pos as U. pose proof eta_pos as E0.
  pose proof (N4_comp (val x1) (val x2) (val x3) 0) as (NA1 & NA2 & NA3 & _). pose proof (N4_comp (val y1) (val y2) (val y3) 0) as (NB1 & NB2 & NB3 & _).
  assert (Et' : Rabs (val t - t0) <= 10 * u) by lra.
  set (s := SFsub prec64 emax64 (@sone (F64 lm)) t) in *.
  destruct (lerp_comp s t x1 y1 (1 - t0) t0 Fs Ft FX1 FY1 ltac:(lra) T0 Es Et' ltac:(lra)) as (R1 & E1).
  destruct (lerp_comp s t x2 y2 (1 - t0) t0 Fs Ft FX2 FY2 ltac:(lra) T0 Es Et' ltac:(lra)) as (R2 & E2).
  destruct (lerp_comp s t x3 y3 (1 - t0) t0 Fs Ft FX3 FY3 ltac:(lra) T0 Es Et' ltac:(lra)) as (R3 & E3).
  unfold vinterp. cbv zeta. cbn [vx vy vz F64 sadd smul ssub scar]. change (SFsub prec64 emax64 (@sone (F64 lm)) t) with s. clearbody s.
  split; [split; [exact R1|split; [exact R2|exact R3]]|].
  unfold vdist. rewrite vnorm_N4. cbn [vx vy vz vval on_line].
  eapply Rle_trans; [apply N4_mono; [exact E1|exact E2|exact E3|]|].
  { instantiate (1 := 13 * u * (Rabs 0 + Rabs 0) + 4 * eta). rewrite !Rabs_R0. lra. }
  eapply Rle_trans; [apply N4_triangle|]. rewrite N4_scale, N4_same by lra. rewrite (Rabs_pos_eq (13 * u)) by lra.
  replace (8 * eta) with (2 * (4 * eta)) by ring. apply Rplus_le_compat_r. apply Rmult_le_compat_l; [lra|].
  eapply Rle_trans; [apply N4_triangle|]. rewrite !N4_abs. apply Rle_refl.
Qed.
(** at ratio zero the translation is exact *)
Lemma vinterp_zero : forall (v w : fv) (t : f64), vfinite v -> vfinite w -> finite t -> val t = 0 ->
  vnorm (vval v) <= big -> vval (vinterp v w t) = vval v.
Proof.
  intros [x1 x2 x3] [y1 y2 y3] t (FX1 & FX2 & FX3) (FY1 & FY2 & FY3) Ft T0 HB. cbn [vx vy vz] in *.
  rewrite vnorm_N4 in *. cbn [vx vy vz vval] in *. pose proof big_big as BB.
  pose proof (N4_comp (val x1) (val x2) (val x3) 0) as (NA1 & NA2 & NA3 & _).
  destruct (@one_ok lm) as (Fo & Vo). destruct (fsub_ok _ t Fo Ft) as (Fs & Vs).
  { rewrite Vo, T0, Rminus_0_r, Rabs_R1. lra. }
  rewrite Vo, T0, Rminus_0_r in Vs. rewrite <- Vo in Vs at 1. rewrite rnd_val, Vo in Vs by exact Fo.
  assert (G : forall x y, finite x -> finite y -> Rabs (val x) <= big ->
    val (SFadd prec64 emax64 (SFmul prec64 emax64 (SFsub prec64 emax64 (@sone (F64 lm)) t) x) (SFmul prec64 emax64 t y)) = val x).
  { intros x y Fx Fy B. destruct (fmul_ok _ x Fs Fx) as (F1 & V1); [rewrite Vs, Rmult_1_l; exact B|]. rewrite Vs, Rmult_1_l, rnd_val in V1 by exact Fx.
    destruct (fmul_ok t y Ft Fy) as (F2 & V2); [rewrite T0, Rmult_0_l, Rabs_R0; lra|]. rewrite T0, Rmult_0_l, rnd_0 in V2.
    destruct (fadd_ok _ _ F1 F2) as (F3 & V3); [rewrite V1, V2, Rplus_0_r; exact B|]. rewrite V3, V1, V2, Rplus_0_r. apply rnd_val, Fx. }
  unfold vinterp, vval. cbv zeta. cbn [vx vy vz F64 sadd smul ssub scar].
  rewrite (G x1 y1), (G x2 y2), (G x3 y3) by (assumption || lra). reflexivity.
Qed.

(** ** Arcs do not lengthen *)
Lemma arc_norm : forall (p q : quat RS) t M, 0 <= t <= 1 -> 0 < qnorm p <= M -> 0 < qnorm q <= M ->
  - (5 * u) * (qnorm p * qnorm q) <= d4 p q -> qnorm (on_arc p q t) <= M * (1 + 20 * u).
Proof.
  intros p q t M T Hp Hq Hd. unfold on_arc, angle_between. cbv zeta. set (c := d4 p q / (qnorm p * qnorm q)) in *.
  assert (PQ : 0 < qnorm p * qnorm q) by (apply Rmult_lt_0_compat; lra). pose proof uro_pos as U.
  assert (C : - (5 * u) <= c <= 1).
  { unfold c. split; apply (Rmult_le_reg_r (qnorm p * qnorm q)); try exact PQ; unfold Rdiv; rewrite Rmult_assoc, Rinv_l, Rmult_1_r by lra.
    - exact Hd.
    - rewrite Rmult_1_l. destruct p as [a1 a2 a3 a4], q as [b1 b2 b3 b4]. exact (N4_cauchy a1 a2 a3 a4 b1 b2 b3 b4). }
  pose proof (acos_17 c ltac:(lra)) as A17. assert (CA : cos (acos c) = c) by (apply cos_acos; rewrite uro_val in *; lra).
  pose proof (weight_circle t _ A17) as W. rewrite CA in W.
  pose proof (weight_range (1 - t) _ ltac:(lra) A17) as W0. pose proof (weight_range t _ T A17) as W1.
  set (a := weight (1 - t) (acos c)) in *. set (b := weight t (acos c)) in *. clearbody a b.
  assert (D : d4 p q = c * (qnorm p * qnorm q)) by (unfold c; field; lra).
  clearbody c. apply le_sq; [apply Rmult_le_pos; lra|]. unfold qnorm at 1 2. rewrite sqrt_sqrt by (cbn [RS scar]; nra).
  cbn [qx qy qz qw]. 
  match goal with |- ?l <= _ => replace l with (a * a * (d4 p p) + b * b * (d4 q q) + 2 * (a * b) * (d4 p q)) by (cbn [RS scar]; ring) end.
  rewrite !d4_self, D. set (m := qnorm p) in *. set (n := qnorm q) in *. clearbody m n. clear p q D Hd.
  assert (ab : 0 <= a * b <= 4) by nra.
  assert (mm : m * m <= M * M) by (apply Rmult_le_compat; lra). assert (nn : n * n <= M * M) by (apply Rmult_le_compat; lra).
  assert (mn : m * n <= M * M) by (apply Rmult_le_compat; lra).
  assert (K1 : a * a * (m * m) <= a * a * (M * M)) by (apply Rmult_le_compat_l; nra).
  assert (K2 : b * b * (n * n) <= b * b * (M * M)) by (apply Rmult_le_compat_l; nra).
  assert (K3 : c * (m * n) <= (c + 5 * u) * (M * M)).
  { assert (c * (m * n) <= (c + 5 * u) * (m * n)) by (apply Rmult_le_compat_r; lra). assert ((c + 5 * u) * (m * n) <= (c + 5 * u) * (M * M)) by (apply Rmult_le_compat_l; lra). lra. }
  assert (K4 : 2 * (a * b) * (c * (m * n)) <= 2 * (a * b) * ((c + 5 * u) * (M * M))) by (apply Rmult_le_compat_l; lra).
  assert (MM : 0 <= M * M) by nra.
  assert (K5 : 10 * (a * b) * (u * (M * M)) <= 40 * (u * (M * M))) by (apply Rmult_le_compat_r; [apply Rmult_le_pos; lra|lra]).
  replace (2 * (a * b) * ((c + 5 * u) * (M * M))) with (2 * a * b * c * (M * M) + 10 * (a * b) * (u * (M * M))) in K4 by ring.
  assert (W' : (a * a + b * b + 2 * a * b * c) * (M * M) = M * M) by (rewrite W; ring).
  replace (M * (1 + 20 * u) * (M * (1 + 20 * u))) with (M * M + 40 * (u * (M * M)) + 400 * (u * u) * (M * M)) by ring.
  assert (0 <= 400 * (u * u) * (M * M)) by (apply Rmult_le_pos; [|exact MM]; nra). lra.
Qed.
Lemma on_arc_0 : forall p q : quat RS, - (5 * u) * (qnorm p * qnorm q) <= d4 p q -> 0 < qnorm p -> 0 < qnorm q -> on_arc p q 0 = p.
Proof.
  intros p q Hd Hp Hq. unfold on_arc, angle_between. cbv zeta. set (c := d4 p q / (qnorm p * qnorm q)) in *.
  assert (PQ : 0 < qnorm p * qnorm q) by (apply Rmult_lt_0_compat; lra). pose proof uro_pos as U.
  assert (C : - (5 * u) <= c <= 1).
  { unfold c. split; apply (Rmult_le_reg_r (qnorm p * qnorm q)); try exact PQ; unfold Rdiv; rewrite Rmult_assoc, Rinv_l, Rmult_1_r by lra.
    - exact Hd.
    - rewrite Rmult_1_l. destruct p as [a1 a2 a3 a4], q as [b1 b2 b3 b4]. exact (N4_cauchy a1 a2 a3 a4 b1 b2 b3 b4). }
  pose proof (acos_17 c ltac:(lra)) as A17. pose proof (sin_low _ A17) as SL.
  assert (E1 : weight (1 - 0) (acos c) = 1).
  { unfold weight. destruct (Req_EM_T (acos c) 0); [ring|]. rewrite Rminus_0_r, Rmult_1_l. field. lra. }
  assert (E0 : weight 0 (acos c) = 0).
  { unfold weight. destruct (Req_EM_T (acos c) 0); [ring|]. rewrite Rmult_0_l, sin_0. field. lra. }
  rewrite E1, E0. destruct p as [a1 a2 a3 a4], q as [b1 b2 b3 b4]. cbn [qx qy qz qw]. cbn [RS scar]. f_equal; ring.
Qed.
End I.
