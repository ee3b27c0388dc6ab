(** * Rounding errors along a chain of transforms *)
From Coq Require Import ZArith Bool Reals Floats.SpecFloat List String Lia Lra Psatz.
From Flocq Require Import Zaux Raux Defs BinarySingleNaN.
From Verif Require Import Scalar LinearMath Cache BufferCore SpecCore Instances RealSlerp RealQuat SpecRound FloatErr RoundNorm RoundOps.
Import ListNotations.
Open Scope R_scope.
Local Notation u := uro.

Section C.
Context {lm : libm}.
Notation fq := (quat (F64 lm)).
Notation fv := (vec3 (F64 lm)).

Lemma vnorm_part : forall q : quat RS, vnorm (@V3 RS (qx q) (qy q) (qz q)) <= qnorm q.
Proof.
  intros [x y z w]. rewrite vnorm_N4, qnorm_N4. cbn [qx qy qz qw vx vy vz].
  rewrite <- (N4_abs x y z w). apply N4_mono; try apply Rle_refl. rewrite Rabs_R0. apply Rabs_pos.
Qed.

Lemma rotate_err : forall (q : fq) (v : fv), qfinite q -> vfinite v ->
  qnorm (qval q) * vnorm (vval v) <= big / 8 -> qnorm (qval q) * qnorm (qval q) * vnorm (vval v) <= big / 8 -> qnorm (qval q) <= big / 8 ->
  vfinite (quatRotate q v) /\
  vdist (vval (quatRotate q v)) (quatRotate (qval q) (vval v))
    <= 15 * u * (qnorm (qval q) * qnorm (qval q) * vnorm (vval v)) + (16 + 13 * qnorm (qval q)) * eta.
Proof.
  intros q v Fq Fv H1 H2 H3. pose proof big_big as BB. pose proof eta_pos as E0. pose proof eta_1 as E1. pose proof uro_pos as U0.
  destruct (qmulv_err q v Fq Fv) as (F1 & D1); [lra|]. destruct (qinv_val q Fq) as (FI & VI).
  set (a := qnorm (qval q)) in *. set (b := vnorm (vval v)) in *.
  assert (A0 : 0 <= a) by apply qnorm_pos. assert (B0 : 0 <= b) by apply vnorm_pos.
  set (w := qmulv q v) in *. set (W := qmul (qval q) (qpure (vval v))) in *.
  assert (NW : qnorm W = a * b) by (unfold W; rewrite qnorm_mul, qnorm_pure; reflexivity).
  assert (Bw : qnorm (qval w) <= a * b + (25 / 4 * u * (a * b) + 12 * eta)).
  { eapply Rle_trans; [apply (qnorm_dist _ W)|]. rewrite NW. lra. }
  assert (P1 : 0 <= a * b) by (apply Rmult_le_pos; assumption).
  assert (P2 : 0 <= a * a * b) by (apply Rmult_le_pos; [apply Rmult_le_pos|]; assumption).
  assert (Bwq : qnorm (qval w) * a <= a * a * b + (25 / 4 * u * (a * a * b) + 12 * (eta * a))).
  { eapply Rle_trans; [apply Rmult_le_compat_r; [exact A0|exact Bw]|]. right. ring. }
  assert (EA : 0 <= eta * a <= a / 1048576) by nra.
  destruct (qmul_err w (qinv q) F1 FI) as (F2 & D2).
  { rewrite VI, qnorm_inv. fold a. eapply Rle_trans; [exact Bwq|]. clear - H2 H3 EA BB P2. rewrite uro_val in *. lra. }
  rewrite VI, qnorm_inv in D2. fold a in D2.
  assert (D3 : qdist (qmul (qval w) (qinv (qval q))) (qmul W (qinv (qval q))) <= (25 / 4 * u * (a * b) + 12 * eta) * a).
  { rewrite qdist_mul_l, qnorm_inv. apply Rmult_le_compat_r; [exact A0|exact D1]. }
  destruct F2 as (Fx & Fy & Fz & Fw). split; [split; [exact Fx|split; [exact Fy|exact Fz]]|].
  assert (T : vdist (vval (quatRotate q v)) (quatRotate (qval q) (vval v)) <= qdist (qval (qmul w (qinv q))) (qmul W (qinv (qval q)))).
  { assert (Y : quatRotate (qval q) (vval v) = let r := qmul W (qinv (qval q)) in @V3 RS (qx r) (qy r) (qz r)).
    { cbv zeta. unfold W. rewrite quatRotate_pure. destruct (quatRotate (qval q) (vval v)); reflexivity. }
    rewrite Y. cbv zeta. change (quatRotate q v) with (let r := qmul w (qinv q) in @V3 (F64 lm) (qx r) (qy r) (qz r)). cbv zeta.
    generalize (qmul w (qinv q)) (qmul W (qinv (qval q))). intros [rx ry rz rw] [sx sy sz sw].
    exact (vnorm_part (@Q4 RS (val rx - sx) (val ry - sy) (val rz - sz) (val rw - sw))). }
  eapply Rle_trans; [exact T|]. eapply Rle_trans; [apply (qdist_triangle _ (qmul (qval w) (qinv (qval q))))|].
  assert (D4 : u * (qnorm (qval w) * a) <= u * (a * a * b + (25 / 4 * u * (a * a * b) + 12 * (eta * a)))) by (apply Rmult_le_compat_l; lra).
  replace (33 / 4 * u * (qnorm (qval w) * a)) with (33 / 4 * (u * (qnorm (qval w) * a))) in D2 by ring.
  replace ((25 / 4 * u * (a * b) + 12 * eta) * a) with (25 / 4 * u * (a * a * b) + 12 * (eta * a)) in D3 by ring.
  replace ((16 + 13 * a) * eta) with (16 * eta + 13 * (eta * a)) by ring.
  set (x := a * a * b) in *. set (y := eta * a) in *. set (z := u * (qnorm (qval w) * a)) in *. clearbody x y z.
  clear - D2 D3 D4 P2 EA E0. rewrite uro_val in *. lra.
Qed.

Lemma vadd_err : forall a b : fv, vfinite a -> vfinite b -> vnorm (vadd (vval a) (vval b)) <= big / 2 ->
  vfinite (vadd a b) /\ vdist (vval (vadd a b)) (vadd (vval a) (vval b)) <= u * vnorm (vadd (vval a) (vval b)) + 2 * eta.
Proof.
  intros [a b c] [d e f] (Fa & Fb & Fc) (Fd & Fe & Ff) H. cbn [vx vy vz] in *.
  pose proof big_big as BB. pose proof eta_pos as E0. pose proof uro_pos as U0.
  rewrite vnorm_N4 in *. unfold vdist. rewrite vnorm_N4. unfold vadd, vval in *. cbn [vx vy vz F64 RS sadd scar] in *.
  destruct (N4_comp (val a + val d) (val b + val e) (val c + val f) 0) as (K1 & K2 & K3 & _).
  destruct (fadd_ok a d Fa Fd) as (F1 & V1); [lra|]. destruct (fadd_ok b e Fb Fe) as (F2 & V2); [lra|]. destruct (fadd_ok c f Fc Ff) as (F3 & V3); [lra|].
  split; [repeat split; assumption|]. rewrite V1, V2, V3. cbn [ssub RS].
  eapply Rle_trans; [apply (N4_mono _ _ _ _ (u * Rabs (val a + val d) + eta) (u * Rabs (val b + val e) + eta) (u * Rabs (val c + val f) + eta) (u * 0 + eta))|];
    [apply rnd_err|apply rnd_err|apply rnd_err|rewrite Rabs_R0; lra|].
  eapply Rle_trans; [apply N4_triangle|]. rewrite N4_same by lra. rewrite N4_scale, (Rabs_pos_eq u) by lra.
  apply Rplus_le_compat_r, Rmult_le_compat_l; [lra|]. right. rewrite <- (N4_abs (val a + val d)), Rabs_R0. reflexivity.
Qed.

(** ** One more link *)
Section Step.
Variables (k L : R).
Hypothesis (Hk : 1 <= k) (HL : / IZR (2 ^ 900) <= L).
Let L0 : 0 < L.
Proof. eapply Rlt_le_trans; [|exact HL]. apply Rinv_0_lt_compat, IZR_lt. reflexivity. Qed.
Lemma eta_L : eta <= u * L / 1048576.
Proof using HL L0.
  pose proof eta_tiny as T. pose proof eta_pos as P. pose proof uro_pos as U.
  assert (S : 1048576 * IZR (2 ^ 900) <= IZR (2 ^ 1000)) by (rewrite <- mult_IZR; apply IZR_le; intros C; discriminate C).
  assert (B : 0 < IZR (2 ^ 900)) by (apply IZR_lt; reflexivity).
  assert (X : eta * (1048576 * IZR (2 ^ 900)) <= u) by (eapply Rle_trans; [apply Rmult_le_compat_l; [lra|exact S]|exact T]).
  assert (Y : 1048576 * eta <= u * / IZR (2 ^ 900)).
  { apply (Rmult_le_reg_r (IZR (2 ^ 900))); [exact B|]. rewrite (Rmult_assoc u), Rinv_l, Rmult_1_r by lra.
    eapply Rle_trans; [right|exact X]. ring. }
  assert (Z : u * / IZR (2 ^ 900) <= u * L) by (apply Rmult_le_compat_l; [lra|exact HL]). lra.
Qed.

(** how far the computed pose is from the exact one after [n] links *)
Definition close (n : nat) (a : pose (F64 lm)) (b : pose RS) : Prop :=
  qfinite (fst a) /\ vfinite (snd a) /\ qnorm (fst b) <= k ^ n /\ vnorm (snd b) <= k ^ n * k ^ n * (INR n * L) /\
  qdist (qval (fst a)) (fst b) <= ((1 + 20 * u) ^ n - 1) * k ^ n /\
  vdist (vval (snd a)) (snd b) <= ((1 + 20 * u) ^ n - 1) * (k ^ n * k ^ n * (INR n * L)).

Lemma pow_ge1 : forall n, 1 <= k ^ n.
Proof using Hk. intros n. apply pow_R1_Rle, Hk. Qed.
Lemma g_ge1 : forall n, 1 <= (1 + 20 * u) ^ n.
Proof. intros n. apply pow_R1_Rle. pose proof uro_pos. lra. Qed.
Lemma g_le : forall n, INR n <= 1048576 -> (1 + 20 * u) ^ n <= 1 + 21 * INR n * u.
Proof.
  induction n as [|n IH]; intros H; [cbn; lra|]. rewrite S_INR in *. pose proof (pos_INR n) as P. pose proof uro_pos as U.
  cbn [pow]. assert (Q : (1 + 20 * u) ^ n <= 1 + 21 * INR n * u) by (apply IH; lra). clear IH.
  eapply Rle_trans; [apply Rmult_le_compat_l; [lra|exact Q]|].
  assert (N : 420 * u * (INR n * u) <= u).
  { assert (INR n * u <= 1048576 * u) by (apply Rmult_le_compat_r; lra).
    assert (420 * u * (INR n * u) <= 420 * u * (1048576 * u)) by (apply Rmult_le_compat_l; lra).
    assert (420 * u * (1048576 * u) <= u) by (rewrite uro_val; lra). lra. }
  lra.
Qed.

Lemma close_id : close 0 pose_id pose_id.
Proof.
  assert (V1 : val (@sone (F64 lm)) = 1).
  { replace (@sone (F64 lm)) with (S754_finite false 4503599627370496 (-52)) by (vm_compute; reflexivity).
    rewrite val_SF2R. unfold SF2R, Defs.F2R. cbn. lra. }
  assert (F1 : finite (@sone (F64 lm))) by (vm_compute; reflexivity).
  unfold close, pose_id. cbn [fst snd pow INR].
  assert (F0 : finite (@szero (F64 lm))) by exact I.
  split; [split; [exact F0|split; [exact F0|split; [exact F0|exact F1]]]|]. split; [split; [exact F0|split; [exact F0|exact F0]]|]. split; [|split; [|split]].
  - rewrite qnorm_id. lra.
  - rewrite vnorm_zero. lra.
  - replace (qval qidentity) with (qidentity : quat RS); [rewrite qdist_self; lra|].
    unfold qval, qidentity. cbn [qx qy qz qw]. rewrite V1. cbn. f_equal; field.
  - replace (vval vzero) with (vzero : vec3 RS); [rewrite vdist_self; lra|].
    unfold vval, vzero. cbn [vx vy vz]. cbn. f_equal; field.
Qed.

Lemma close_step : forall n a b (d : storage (F64 lm) string), close n a b -> link_ok k L d ->
  INR n <= 1048575 -> k ^ S n * k ^ S n * (INR (S n) * L) <= big / 64 ->
  close (S n) (pose_mul (pose_of d) a) (pose_mul (pose_of (exact_link d)) b).
Proof using Hk HL L0.
  intros n [Q V] [E X] d (FQ & FV & BE & BX & DQ & DV) (Fq & Fs & Bq & Bs) Hn HB. cbn [fst snd] in *.
  unfold close, pose_mul, pose_of, exact_link. cbn [fst snd st_rot st_trans].
  set (q := st_rot d) in *. set (s := st_trans d) in *. clearbody q s. clear d.
  pose proof big_big as BB. pose proof eta_pos as E0. pose proof uro_pos as U0. pose proof eta_L as EL. pose proof (pos_INR n) as N0.
  pose proof (pow_ge1 n) as K1. pose proof (g_ge1 n) as G1. pose proof (g_le n ltac:(lra)) as G2.
  assert (G3 : (1 + 20 * u) ^ n <= 2).
  { assert (INR n * u <= 1048576 * u) by (apply Rmult_le_compat_r; lra). rewrite uro_val in *. lra. }
  cbn [pow] in HB. rewrite S_INR in *. cbn [pow].
  set (K := k ^ n) in *. set (g := (1 + 20 * u) ^ n) in *. set (D := INR n * L) in *. clearbody K g.
  set (a := qnorm (qval q)) in *. assert (A0 : 0 <= a) by apply qnorm_pos.
  assert (D0 : 0 <= D) by (apply Rmult_le_pos; lra).
  assert (NQ : qnorm (qval Q) <= g * K) by (eapply Rle_trans; [apply (qnorm_dist _ E)|]; lra).
  assert (NV : vnorm (vval V) <= g * (K * K * D)) by (eapply Rle_trans; [apply (vnorm_dist _ X)|]; lra).
  assert (M1 : 1 <= k * K) by (rewrite <- (Rmult_1_l 1); apply Rmult_le_compat; lra).
  assert (M2 : k <= k * K) by (rewrite <- (Rmult_1_r k) at 1; apply Rmult_le_compat_l; lra).
  assert (M3 : k * K <= k * K * (k * K)) by (rewrite <- (Rmult_1_r (k * K)) at 1; apply Rmult_le_compat_l; lra).
  assert (gD : 0 <= g * (K * K * D)) by (repeat apply Rmult_le_pos; lra).
  assert (KD : 0 <= K * K * D) by (repeat apply Rmult_le_pos; lra).
  (* sizes *)
  set (M := k * K * (k * K)) in *.
  assert (HBD : M * D + M * L <= big / 64).
  { unfold D. replace (M * (INR n * L) + M * L) with (M * ((INR n + 1) * L)) by ring. exact HB. }
  assert (MD0 : 0 <= M * D) by (apply Rmult_le_pos; [unfold M; nra|lra]).
  assert (ML0 : 0 <= M * L) by (apply Rmult_le_pos; [unfold M; nra|lra]).
  assert (kL : k * L <= M * L) by (apply Rmult_le_compat_r; lra).
  assert (MLL : L <= M * L) by (rewrite <- (Rmult_1_l L) at 1; apply Rmult_le_compat_r; lra).
  (* rotation *)
  assert (aQ : a * qnorm (qval Q) <= k * (g * K)) by (apply Rmult_le_compat; try lra; apply qnorm_pos).
  assert (kke : k * eta <= u * (M * L) / 1048576).
  { assert (k * eta <= k * (u * L / 1048576)) by (apply Rmult_le_compat_l; lra).
    assert (u * (k * L) <= u * (M * L)) by (apply Rmult_le_compat_l; lra). lra. }
  assert (Kb : k * (g * K) <= big / 2).
  { (* k K <= M and M L <= big/64, but L may be small: use 2^900 *)
    assert (BM : k * K <= big / 16).
    { destruct (Rle_or_lt (k * K) (big / 16)) as [Y|Y]; [exact Y|exfalso].
      assert (Y2 : big / 16 * (big / 16) <= M) by (unfold M; apply Rmult_le_compat; lra).
      assert (Y3 : big / 16 * (big / 16) * L <= big / 64) by (eapply Rle_trans; [apply Rmult_le_compat_r; [lra|exact Y2]|lra]).
      assert (Y4 : 1048576 <= big * L).
      { eapply Rle_trans; [|apply Rmult_le_compat_l; [lra|exact HL]]. unfold big.
        apply (Rmult_le_reg_r (IZR (2 ^ 900))); [apply IZR_lt; reflexivity|].
        rewrite Rmult_assoc, Rinv_l, Rmult_1_r by (apply not_0_IZR; intros C; discriminate C).
        rewrite <- mult_IZR. apply IZR_le. intros C; discriminate C. }
      assert (Y5 : big * 1048576 <= big * (big * L)) by (apply Rmult_le_compat_l; lra). lra. }
    replace (k * (g * K)) with (g * (k * K)) by ring.
    assert (g * (k * K) <= 2 * (big / 16)) by (apply Rmult_le_compat; lra). lra. }
  destruct (qmul_err q Q Fq FQ) as (FR & DR); [fold a; lra|]. fold a in DR.
  assert (Ka : k <= big / 8).
  { assert (k <= k * (g * K)) by (rewrite <- (Rmult_1_r k) at 1; apply Rmult_le_compat_l; [lra|]; rewrite <- (Rmult_1_l 1); apply Rmult_le_compat; lra).
    destruct (Rle_or_lt k (big / 8)) as [Y|Y]; [exact Y|exfalso].
    assert (Y2 : big / 8 * (big / 8) <= M) by (unfold M; apply Rmult_le_compat; lra).
    assert (Y3 : big / 8 * (big / 8) * L <= big / 64) by (eapply Rle_trans; [apply Rmult_le_compat_r; [lra|exact Y2]|lra]).
    assert (Y4 : 1048576 <= big * L).
    { eapply Rle_trans; [|apply Rmult_le_compat_l; [lra|exact HL]]. unfold big.
      apply (Rmult_le_reg_r (IZR (2 ^ 900))); [apply IZR_lt; reflexivity|].
      rewrite Rmult_assoc, Rinv_l, Rmult_1_r by (apply not_0_IZR; intros C; discriminate C).
      rewrite <- mult_IZR. apply IZR_le. intros C; discriminate C. }
    assert (Y5 : big * 1048576 <= big * (big * L)) by (apply Rmult_le_compat_l; lra). lra. }
  (* translation *)
  assert (gMD : g * (M * D) <= 2 * (M * D)) by (apply Rmult_le_compat_r; lra).
  assert (gMD' : M * D <= g * (M * D)) by (rewrite <- (Rmult_1_l (M * D)) at 1; apply Rmult_le_compat_r; lra).
  assert (gML : M * L <= g * (M * L)) by (rewrite <- (Rmult_1_l (M * L)) at 1; apply Rmult_le_compat_r; lra).
  assert (aa : a * a <= k * k) by (apply Rmult_le_compat; lra).
  assert (aaV : a * a * vnorm (vval V) <= g * (M * D)).
  { eapply Rle_trans; [apply Rmult_le_compat; [nra|apply vnorm_pos|exact aa|exact NV]|]. right. unfold M. ring. }
  assert (aV : a * vnorm (vval V) <= big / 8).
  { eapply Rle_trans; [apply Rmult_le_compat; [exact A0|apply vnorm_pos|exact Bq|exact NV]|].
    eapply Rle_trans; [|apply Rle_trans with (g * (M * D)); [apply Rle_refl|lra]].
    unfold M. replace (g * (k * K * (k * K) * D)) with (k * (k * (g * (K * K * D)))) by ring.
    apply Rmult_le_compat_l; [lra|]. rewrite <- (Rmult_1_l (g * (K * K * D))) at 1. apply Rmult_le_compat_r; lra. }
  destruct (rotate_err q V Fq FV) as (FT & DT); [fold a; lra|fold a; lra|fold a; lra|]. fold a in DT.
  set (T := quatRotate q V) in *. set (TX := quatRotate (qval q) X).
  assert (TT : vdist (vval T) TX <= 15 * u * (g * (M * D)) + 29 * (k * eta) + (g - 1) * (M * D)).
  { eapply Rle_trans; [apply (vdist_triangle _ (quatRotate (qval q) (vval V)))|].
    assert (P1 : 15 * u * (a * a * vnorm (vval V)) <= 15 * u * (g * (M * D))) by (apply Rmult_le_compat_l; lra).
    assert (P2 : (16 + 13 * a) * eta <= 29 * (k * eta)).
    { replace (29 * (k * eta)) with (29 * k * eta) by ring. apply Rmult_le_compat_r; lra. }
    assert (P3 : vdist (quatRotate (qval q) (vval V)) TX <= (g - 1) * (M * D)).
    { unfold TX. eapply Rle_trans; [apply vdist_rotate|]. rewrite qdist_self. fold a. rewrite Rmult_0_r, Rmult_0_l, Rplus_0_r.
      eapply Rle_trans; [apply Rmult_le_compat; [nra|apply vdist_pos|exact aa|exact DV]|]. right. unfold M. ring. }
    lra. }
  assert (NTX : vnorm TX <= M * D).
  { unfold TX. rewrite vnorm_rotate. fold a. eapply Rle_trans; [apply Rmult_le_compat; [nra|apply vnorm_pos|exact aa|exact BX]|].
    right. unfold M. ring. }
  assert (uML : 0 <= u * (M * L)) by (apply Rmult_le_pos; lra).
  assert (e29 : 29 * (k * eta) <= u * (M * L) / 1000) by lra.
  set (gMDv := g * (M * D)) in *. set (gMLv := g * (M * L)) in *. set (MDv := M * D) in *. set (MLv := M * L) in *.
  replace ((g - 1) * MDv) with (gMDv - MDv) in TT by (unfold gMDv, MDv; ring).
  assert (Nsum : vnorm (vadd (vval T) (vval s)) <= 15 * u * gMDv + u * MLv / 1000 + gMDv + L).
  { eapply Rle_trans; [apply vnorm_add|]. assert (vnorm (vval T) <= vnorm TX + vdist (vval T) TX) by apply vnorm_dist. lra. }
  assert (Nsum2 : vnorm (vadd (vval T) (vval s)) <= big / 2).
  { eapply Rle_trans; [exact Nsum|]. rewrite uro_val. lra. }
  destruct (vadd_err T s FT Fs Nsum2) as (FA & DA).
  split; [exact FR|]. split; [exact FA|]. split; [|split; [|split]].
  - rewrite qnorm_mul. fold a. apply Rmult_le_compat; try lra. apply qnorm_pos.
  - fold TX. replace (M * ((INR n + 1) * L)) with (MDv + MLv) by (unfold MDv, MLv, M, D; ring).
    eapply Rle_trans; [apply vnorm_add|]. lra.
  - eapply Rle_trans; [apply (qdist_triangle _ (qmul (qval q) (qval Q)))|].
    rewrite (qdist_mul_r (qval q) (qval Q)). fold a.
    assert (P1 : a * qdist (qval Q) E <= k * ((g - 1) * K)) by (apply Rmult_le_compat; try lra; apply qdist_pos).
    assert (P2 : 33 / 4 * u * (a * qnorm (qval Q)) <= 33 / 4 * u * (k * (g * K))) by (apply Rmult_le_compat_l; lra).
    assert (P3 : eta <= u * (k * (g * K)) / 1048576).
    { pose proof eta_1. pose proof eta_tiny as T1. assert (X1 : 1 <= k * (g * K)).
      { replace (k * (g * K)) with (g * (k * K)) by ring. rewrite <- (Rmult_1_l 1). apply Rmult_le_compat; lra. }
      assert (X2 : eta * 1048576 <= u).
      { eapply Rle_trans; [|exact T1]. apply Rmult_le_compat_l; [lra|]. apply IZR_le. intros C; discriminate C. }
      assert (X3 : u * 1 <= u * (k * (g * K))) by (apply Rmult_le_compat_l; lra). lra. }
    replace (k * ((g - 1) * K)) with (k * (g * K) - k * K) in P1 by ring.
    replace (((1 + 20 * u) * g - 1) * (k * K)) with ((1 + 20 * u) * (k * (g * K)) - k * K) by ring.
    assert (0 <= u * (k * (g * K))) by (repeat apply Rmult_le_pos; lra). lra.
  - fold TX. replace (((1 + 20 * u) * g - 1) * (M * ((INR n + 1) * L))) with ((1 + 20 * u) * (gMDv + gMLv) - MDv - MLv)
      by (unfold gMDv, gMLv, MDv, MLv, M, D; ring).
    eapply Rle_trans; [apply (vdist_triangle _ (vadd (vval T) (vval s)))|].
    assert (P1 : vdist (vadd (vval T) (vval s)) (vadd TX (vval s)) <= 15 * u * gMDv + u * MLv / 1000 + (gMDv - MDv)).
    { eapply Rle_trans; [apply vdist_add|]. rewrite vdist_self. lra. }
    assert (P2 : u * vnorm (vadd (vval T) (vval s)) <= u * (15 * u * gMDv + u * MLv / 1000 + gMDv + L)) by (apply Rmult_le_compat_l; lra).
    assert (uL : u * L <= u * MLv) by (apply Rmult_le_compat_l; lra).
    assert (uM : u * MLv <= u * gMLv) by (apply Rmult_le_compat_l; lra).
    set (z := u * vnorm (vadd (vval T) (vval s))) in *. clearbody z.
    clear - DA P1 P2 uL uM EL gML gMD' MD0 MLL U0 ML0. rewrite uro_val in *. lra.
Qed.

Lemma close_climb : forall ds : list (storage (F64 lm) string), Forall (link_ok k L) ds -> INR (List.length ds) <= 1048576 ->
  k ^ List.length ds * k ^ List.length ds * (INR (List.length ds) * L) <= big / 64 ->
  close (List.length ds) (climb_pose ds) (climb_pose (map exact_link ds)).
Proof using Hk HL L0.
  intros ds. induction ds as [|d ds IH] using rev_ind; intros F N B; [exact close_id|].
  rewrite app_length in *. cbn [List.length] in *. rewrite Nat.add_1_r in *. apply Forall_app in F. destruct F as (F & Fd).
  rewrite S_INR in N. unfold climb_pose. rewrite map_app, !fold_left_app. cbn [map fold_left].
  apply close_step; [apply IH; [exact F|lra|]|inversion Fd; assumption|lra|exact B].
  eapply Rle_trans; [|exact B]. pose proof (pow_ge1 (List.length ds)). cbn [pow].
  assert (k ^ List.length ds <= k * k ^ List.length ds) by (rewrite <- (Rmult_1_l (k ^ List.length ds)) at 1; apply Rmult_le_compat_r; lra).
  pose proof (pos_INR (List.length ds)). rewrite S_INR. apply Rmult_le_compat.
  - apply Rmult_le_pos; lra.
  - apply Rmult_le_pos; lra.
  - apply Rmult_le_compat; lra.
  - apply Rmult_le_compat_r; lra.
Qed.
End Step.
End C.
