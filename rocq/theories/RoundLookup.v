(** * Rounding error of a lookup in binary64 *)
From Coq Require Import ZArith Bool Reals Floats.SpecFloat List String Lia Lra Psatz.
From Verif Require Import RosTime Scalar LinearMath Cache SpecCache CacheProofs CacheQueries
  BufferCore SpecCore CoreInv Naturality CoreSet WalkSpec LctSpec Bridge WalkMain Sim Forget LookupBase LookupTheorems LookupTree
  History Instances RealSlerp RealQuat SpecReal LookupPose SpecRound FloatErr RoundNorm RoundOps RoundChain.
Import ListNotations.
Open Scope Z_scope.
Local Opaque MAX_GRAPH_DEPTH.
Local Notation u := uro.

(** [lookup_pose_cases] with the lengths of the climbs. *)
Theorem lookup_pose_lengths : forall (S : Scalar) (s : core S) tgt src t m, reachable s -> tgt <> src ->
  lookupTransform s tgt src t = Ok m ->
  exists ds dt c, climbs s (tm_stamp m) src ds c /\ climbs s (tm_stamp m) tgt dt c /\
    (List.length ds <= MAX_GRAPH_DEPTH)%nat /\ (List.length dt <= MAX_GRAPH_DEPTH)%nat /\
    ((dt = [] /\ msg_pose m = climb_pose ds) \/ (ds = [] /\ msg_pose m = pose_inv (climb_pose dt)) \/
     msg_pose m = pose_mul (pose_inv (climb_pose dt)) (climb_pose ds)).
Proof.
  intros S s tgt src t m R Ne H. apply reachable_wf in R as W.
  apply lookup_ok_inv in H as (P1 & K1 & P2 & K2 & a & e & ch & E & ->); [|assumption|assumption].
  unfold msg_pose. cbn [tm_stamp tm_rot tm_trans].
  destruct (known_live s tgt W K1) as (i & Li & Ni & Ei & _). destruct (known_live s src W K2) as (j & Lj & Nj & Ej & _).
  assert (D : j <> i) by congruence. rewrite Ei, Ej in E. clear Ei Ej.
  assert (At : forall u e0, @walk_at S (@taccum S) ta_gather ta_accum ta_finalize s u i j taccum0 e0 = Ok (NO_ERROR, a, e, ch) ->
    exists ds dt c, climbs s (ta_time a) src ds c /\ climbs s (ta_time a) tgt dt c /\
    (List.length ds <= MAX_GRAPH_DEPTH)%nat /\ (List.length dt <= MAX_GRAPH_DEPTH)%nat /\
    ((dt = [] /\ (ta_rq a, ta_rv a) = climb_pose ds) \/ (ds = [] /\ (ta_rq a, ta_rv a) = pose_inv (climb_pose dt)) \/
     (ta_rq a, ta_rv a) = pose_mul (pose_inv (climb_pose dt)) (climb_pose ds))).
  { intros u e0 Hu. pose proof (walk_at_outcome s u i j e0 W Lj Li) as O. rewrite Hu in O. clear Hu E.
    inversion O as [|ds a0 H1 H2 H3 H4 H5 H6| |ds m dt a0 H1 H2 H3 H4 H5 H6 H7 H8 H9|ds m dt a0 ch0 H1 H2 H3 H4 H5 H6 H7 H8 H9 H10
      |ds m dt m' a0 code err' H1 H2 H3 H4 H5 H6 H7 H8 H9 H10|]; subst a0.
    - subst u. destruct (iclimb_climbs s _ _ _ _ W Lj H1) as [C _]. rewrite Ni, Nj in C.
      eexists _, [], _. split; [exact C|]. split; [constructor|]. rewrite map_length. split; [exact H2|]. split; [cbn; lia|].
      left. split; [reflexivity|]. rewrite climb_pose_names. exact H6.
    - subst u. destruct (iclimb_climbs s _ _ _ _ W Li H5) as [C _]. rewrite Ni, Nj in C.
      eexists [], _, _. split; [constructor|]. split; [exact C|]. rewrite map_length. split; [cbn; lia|]. split; [exact H6|].
      right. left. split; [reflexivity|]. rewrite climb_pose_names. exact H9.
    - subst u. destruct (iclimb_climbs s _ _ _ _ W Lj H1) as [C1 Lm]. destruct (iclimb_climbs s _ _ _ _ W Li H5) as [C2 _].
      rewrite Ni in C2. rewrite Nj in C1.
      eexists _, _, _. split; [exact C1|]. split; [exact C2|]. rewrite !map_length. split; [exact H3|]. split; [exact H6|]. right. right.
      rewrite !climb_pose_names. exact H9.
    - destruct (getFrame s m'), (getFrame s m); discriminate. }
  destruct (Z.eq_dec t 0) as [->|Hz].
  - rewrite walk_zero in E by assumption.
    destruct (getLatestCommonTime s i j (Some EEmpty)) as [[[code ot] e1]| |]; cbn [bind] in E; try discriminate.
    destruct code; try discriminate. exact (At _ _ E).
  - rewrite walk_time in E by assumption. exact (At _ _ E).
Qed.

Open Scope R_scope.
Section C.
Context {lm : libm}.
Notation fq := (quat (F64 lm)).
Notation fv := (vec3 (F64 lm)).

(** a rotation of approximate data *)
Lemma rotate_err2 : forall (Q : fq) (V : fv) (E : quat RS) (X : vec3 RS) g K W, qfinite Q -> vfinite V ->
  1 <= g <= 1001 / 1000 -> 1 <= K -> 0 <= W ->
  qnorm E <= K -> vnorm X <= W -> qdist (qval Q) E <= (g - 1) * K -> vdist (vval V) X <= (g - 1) * W ->
  K * K * W <= big / 16 -> K <= big / 16 ->
  vfinite (quatRotate Q V) /\
  vdist (vval (quatRotate Q V)) (quatRotate E X) <= (151 / 10 * u + 301 / 100 * (g - 1)) * (K * K * W) + 30 * (K * eta) /\
  vnorm (quatRotate E X) <= K * K * W.
Proof.
  intros Q V E X g K W FQ FV (G1 & G2) K1 W0 BE BX DQ DV HB HK.
  pose proof big_big as BB. pose proof eta_pos as E0. pose proof uro_pos as U0.
  pose proof (qnorm_pos E). pose proof (vnorm_pos X). pose proof (qdist_pos (qval Q) E). pose proof (vdist_pos (vval V) X).
  assert (NQ : qnorm (qval Q) <= g * K) by (eapply Rle_trans; [apply (qnorm_dist _ E)|]; lra).
  assert (NV : vnorm (vval V) <= g * W) by (eapply Rle_trans; [apply (vnorm_dist _ X)|]; lra).
  pose proof (qnorm_pos (qval Q)) as Q0. pose proof (vnorm_pos (vval V)) as V0.
  assert (KKW : 0 <= K * K * W) by (repeat apply Rmult_le_pos; lra).
  assert (KW : K * W <= K * K * W) by (apply Rmult_le_compat_r; [lra|]; nra).
  assert (KW0 : 0 <= K * W) by (apply Rmult_le_pos; lra).
  assert (g2 : g * g <= 1003 / 1000) by nra. assert (g2' : 1 <= g * g) by nra.
  assert (g3 : g * g * g <= 1004 / 1000) by nra. assert (g3' : 0 <= g * g * g) by nra.
  assert (QV : qnorm (qval Q) * vnorm (vval V) <= g * g * (K * W)).
  { eapply Rle_trans; [apply Rmult_le_compat; [exact Q0|exact V0|exact NQ|exact NV]|]. right. ring. }
  assert (QQ : qnorm (qval Q) * qnorm (qval Q) <= g * g * (K * K)).
  { eapply Rle_trans; [apply Rmult_le_compat; [exact Q0|exact Q0|exact NQ|exact NQ]|]. right. ring. }
  assert (QQ0 : 0 <= qnorm (qval Q) * qnorm (qval Q)) by (apply Rmult_le_pos; lra).
  assert (QQV : qnorm (qval Q) * qnorm (qval Q) * vnorm (vval V) <= g * g * g * (K * K * W)).
  { eapply Rle_trans; [apply Rmult_le_compat; [exact QQ0|exact V0|exact QQ|exact NV]|]. right. ring. }
  assert (X1 : g * g * (K * W) <= 1003 / 1000 * (K * W)) by (apply Rmult_le_compat_r; lra).
  assert (X2 : g * g * g * (K * K * W) <= 1004 / 1000 * (K * K * W)) by (apply Rmult_le_compat_r; lra).
  assert (X3 : g * K <= 1001 / 1000 * K) by (apply Rmult_le_compat_r; lra).
  destruct (rotate_err Q V FQ FV) as (F & D); [lra|lra|lra|].
  split; [exact F|]. split.
  - eapply Rle_trans; [apply (vdist_triangle _ (quatRotate (qval Q) (vval V)))|].
    pose proof (vdist_rotate (qval Q) E (vval V) X) as D2.
    assert (P1 : qnorm (qval Q) * qnorm (qval Q) * vdist (vval V) X <= g * g * (K * K) * ((g - 1) * W)) by (apply Rmult_le_compat; lra).
    assert (P1' : g * g * ((g - 1) * (K * K * W)) <= 1003 / 1000 * ((g - 1) * (K * K * W))).
    { apply Rmult_le_compat_r; [apply Rmult_le_pos; lra|lra]. }
    replace (g * g * (K * K) * ((g - 1) * W)) with (g * g * ((g - 1) * (K * K * W))) in P1 by ring.
    assert (P2 : (qnorm (qval Q) + qnorm E) * qdist (qval Q) E <= ((g + 1) * K) * ((g - 1) * K)) by (apply Rmult_le_compat; lra).
    assert (P2' : (qnorm (qval Q) + qnorm E) * qdist (qval Q) E * vnorm X <= ((g + 1) * K) * ((g - 1) * K) * W).
    { apply Rmult_le_compat; try lra. apply Rmult_le_pos; lra. }
    replace ((g + 1) * K * ((g - 1) * K) * W) with ((g + 1) * ((g - 1) * (K * K * W))) in P2' by ring.
    assert (P3 : (g + 1) * ((g - 1) * (K * K * W)) <= 2001 / 1000 * ((g - 1) * (K * K * W))).
    { apply Rmult_le_compat_r; [apply Rmult_le_pos; lra|lra]. }
    assert (P4 : 15 * u * (qnorm (qval Q) * qnorm (qval Q) * vnorm (vval V)) <= 15 * u * (1004 / 1000 * (K * K * W))) by (apply Rmult_le_compat_l; lra).
    assert (P5 : (16 + 13 * qnorm (qval Q)) * eta <= 30 * K * eta) by (apply Rmult_le_compat_r; lra).
    replace (30 * (K * eta)) with (30 * K * eta) by ring.
    replace ((151 / 10 * u + 301 / 100 * (g - 1)) * (K * K * W)) with (151 / 10 * (u * (K * K * W)) + 301 / 100 * ((g - 1) * (K * K * W))) by ring.
    replace (15 * u * (1004 / 1000 * (K * K * W))) with (1506 / 100 * (u * (K * K * W))) in P4 by field.
    assert (0 <= u * (K * K * W)) by (apply Rmult_le_pos; lra). assert (0 <= (g - 1) * (K * K * W)) by (apply Rmult_le_pos; lra). lra.
  - rewrite vnorm_rotate. apply Rmult_le_compat; try lra; [apply Rmult_le_pos; lra|]. apply Rmult_le_compat; lra.
Qed.

(** the three shapes of an answer *)
Section Final.
Variables (k L : R) (n m : nat).
Hypothesis (Hk : 1 <= k) (HL : / IZR (2 ^ 900) <= L).
Let N := (n + m)%nat.
Hypothesis (HN : INR N <= 10000) (HB : k ^ N * k ^ N * (k ^ N * k ^ N) * (INR (S N) * L) <= big / 1048576).
Variables (a b : pose (F64 lm)) (ea eb : pose RS).
(** [a]: the source side, [b]: the target side *)
Hypothesis (Ca : close k L n a ea) (Cb : close k L m b eb).
Definition final_close (r : pose (F64 lm)) (e : pose RS) : Prop :=
  qfinite (fst r) /\ vfinite (snd r) /\
  qdist (qval (fst r)) (fst e) <= 21 * INR (S N) * u * k ^ N /\
  vdist (vval (snd r)) (snd e) <= 128 * (INR (S N) * INR (S N)) * u * (k ^ (4 * N) * L).

Let L0 : 0 < L.
Proof. eapply Rlt_le_trans; [|exact HL]. apply Rinv_0_lt_compat, IZR_lt. reflexivity. Qed.
Let K := k ^ N.
Let D := INR (S N) * L.
Let g := (1 + 20 * u) ^ N.
Let N0 : 0 <= INR N. Proof. apply pos_INR. Qed.
Let K1 : 1 <= K. Proof. apply pow_R1_Rle, Hk. Qed.
Let D0 : L <= D. Proof. unfold D. rewrite S_INR. rewrite <- (Rmult_1_l L) at 1. apply Rmult_le_compat_r; lra. Qed.
Let g1 : 1 <= g. Proof. apply g_ge1. Qed.
Let g2 : g - 1 <= 21 * (INR N * u).
Proof. unfold g. pose proof (g_le N ltac:(lra)). lra. Qed.
Let g3 : g <= 1001 / 1000.
Proof. assert (INR N * u <= 10000 * u) by (apply Rmult_le_compat_r; [pose proof uro_pos; lra|lra]). rewrite uro_val in *. lra. Qed.
Let KKKK : k ^ (4 * N) = K * K * (K * K).
Proof. unfold K. replace (4 * N)%nat with (N + N + (N + N))%nat by lia. rewrite !pow_add. reflexivity. Qed.
Let K2 : K <= K * K. Proof. rewrite <- (Rmult_1_r K) at 1. apply Rmult_le_compat_l; lra. Qed.
Let K4 : K * K <= K * K * (K * K). Proof. rewrite <- (Rmult_1_r (K * K)) at 1. apply Rmult_le_compat_l; lra. Qed.
Let HK : K <= big / 16.
Proof.
  destruct (Rle_or_lt K (big / 16)) as [Y|Y]; [exact Y|exfalso]. pose proof big_big as BB.
  assert (Y2 : big / 16 * (big / 16) <= K * K) by (apply Rmult_le_compat; lra).
  assert (Y3 : big / 16 * (big / 16) * L <= big / 1048576).
  { eapply Rle_trans; [|exact HB]. fold K; fold D. apply Rmult_le_compat; [nra|lra|lra|exact D0]. }
  assert (Y4 : 1048576 <= big * L).
  { eapply Rle_trans; [|apply Rmult_le_compat_l; [lra|exact HL]]. unfold big.
    apply (Rmult_le_reg_r (IZR (2 ^ 900))); [apply IZR_lt; reflexivity|].
    rewrite Rmult_assoc, Rinv_l, Rmult_1_r by (apply not_0_IZR; intros C; discriminate C).
    rewrite <- mult_IZR. apply IZR_le. intros C; discriminate C. }
  assert (Y5 : big * 1048576 <= big * (big * L)) by (apply Rmult_le_compat_l; lra). lra.
Qed.
Lemma pow_mono_le : forall i, (i <= N)%nat -> 1 <= k ^ i <= K.
Proof using Hk. intros i Hi. split; [apply pow_R1_Rle, Hk|apply Rle_pow; assumption]. Qed.
Lemma g_mono_le : forall i, (i <= N)%nat -> 1 <= (1 + 20 * u) ^ i <= g.
Proof. intros i Hi. split; [apply g_ge1|apply Rle_pow; [pose proof uro_pos; lra|assumption]]. Qed.
Lemma D_mono : forall i, (i <= N)%nat -> 0 <= INR i * L <= D.
Proof using L0 N0.
  intros i Hi. pose proof (pos_INR i). apply le_INR in Hi. split; [apply Rmult_le_pos; lra|]. unfold D. rewrite S_INR. apply Rmult_le_compat_r; lra.
Qed.
(** a side in the common bounds *)
Lemma side : forall i (p : pose (F64 lm)) (e : pose RS), close k L i p e -> (i <= N)%nat ->
  qfinite (fst p) /\ vfinite (snd p) /\ qnorm (fst e) <= K /\ vnorm (snd e) <= K * K * D /\
  qdist (qval (fst p)) (fst e) <= (g - 1) * K /\ vdist (vval (snd p)) (snd e) <= (g - 1) * (K * K * D).
Proof using Hk L0 N0.
  intros i p e (F1 & F2 & B1 & B2 & D1 & D2) Hi. pose proof (pow_mono_le i Hi) as Hp. pose proof (g_mono_le i Hi) as Hg. pose proof (D_mono i Hi) as HD.
  assert (Q : k ^ i * k ^ i * (INR i * L) <= K * K * D).
  { apply Rmult_le_compat; try lra; [apply Rmult_le_pos; lra|]. apply Rmult_le_compat; lra. }
  assert (Q0 : 0 <= k ^ i * k ^ i * (INR i * L)) by (apply Rmult_le_pos; [apply Rmult_le_pos; lra|lra]).
  split; [exact F1|]. split; [exact F2|]. split; [lra|]. split; [lra|]. split; (eapply Rle_trans; [eassumption|]); apply Rmult_le_compat; lra.
Qed.

Let Wpos : 0 <= K * K * D. Proof. apply Rmult_le_pos; [apply Rmult_le_pos; lra|lra]. Qed.
Lemma final_src : m = 0%nat -> final_close a ea.
Proof using Hk L0 N0 HN Ca g2 g1 KKKK K1 K4 D0 Wpos.
  intros _. destruct (side n a ea Ca ltac:(unfold N; lia)) as (F1 & F2 & _ & _ & D1 & D2).
  split; [exact F1|]. split; [exact F2|]. rewrite KKKK. pose proof uro_pos as U0. split.
  - eapply Rle_trans; [exact D1|]. fold K. apply Rmult_le_compat_r; [lra|]. rewrite S_INR. lra.
  - eapply Rle_trans; [exact D2|]. eapply Rle_trans; [apply Rmult_le_compat_r; [|exact g2]|].
    { exact Wpos. }
    unfold D. rewrite S_INR.
    assert (Z1 : 21 * (INR N * u) * (K * K * ((INR N + 1) * L)) <= 128 * ((INR N + 1) * u) * (K * K * (K * K) * ((INR N + 1) * L))).
    { assert (0 <= (INR N + 1) * L) by (apply Rmult_le_pos; lra).
      assert (0 <= INR N * u) by (apply Rmult_le_pos; lra). assert (0 <= K * K * ((INR N + 1) * L)) by (apply Rmult_le_pos; [apply Rmult_le_pos; lra|lra]).
      apply Rmult_le_compat; [lra|lra| |].
      - replace (21 * (INR N * u)) with (21 * INR N * u) by ring. replace (128 * ((INR N + 1) * u)) with (128 * (INR N + 1) * u) by ring.
        apply Rmult_le_compat_r; lra.
      - apply Rmult_le_compat_r; lra. }
    eapply Rle_trans; [exact Z1|]. right. ring.
Qed.

Let HBD : K * K * (K * K * D) <= big / 1048576.
Proof. unfold D, K. eapply Rle_trans; [right|exact HB]. ring. Qed.
Let KE : K * eta <= u * (K * K * (K * K * D)) / 1048576.
Proof.
  pose proof (eta_L L HL) as EL. pose proof uro_pos as U0. assert (A : K * eta <= K * (u * L / 1048576)) by (apply Rmult_le_compat_l; lra).
  assert (B : K * L <= K * K * (K * K) * D) by (apply Rmult_le_compat; lra).
  assert (C : u * (K * L) <= u * (K * K * (K * K) * D)) by (apply Rmult_le_compat_l; lra).
  replace (u * (K * K * (K * K * D))) with (u * (K * K * (K * K) * D)) by ring. lra.
Qed.
Lemma inv_side : let p := pose_inv b in let e := pose_inv eb in
  qfinite (fst p) /\ vfinite (snd p) /\ qnorm (fst e) <= K /\ vnorm (snd e) <= K * K * (K * K * D) /\
  qdist (qval (fst p)) (fst e) <= (g - 1) * K /\
  vdist (vval (snd p)) (snd e) <= (151 / 10 * u + 301 / 100 * (g - 1)) * (K * K * (K * K * D)) + 30 * (K * eta).
Proof using Hk L0 N0 HN Cb g2 g1 g3 K1 K4 D0 HBD HK Wpos.
  destruct (side m b eb Cb ltac:(unfold N; lia)) as (F1 & F2 & B1 & B2 & D1 & D2). cbv zeta. unfold pose_inv. cbn [fst snd].
  destruct (qinv_val (fst b) F1) as (FI & VI). destruct (vneg_val (snd b) F2) as (FN & VN). pose proof big_big as BB.
  rewrite VI, qnorm_inv, qdist_inv. split; [exact FI|].
  destruct (rotate_err2 (qinv (fst b)) (vneg (snd b)) (qinv (fst eb)) (vneg (snd eb)) g K (K * K * D) FI FN) as (F & De & Ne).
  - split; assumption.
  - exact K1.
  - exact Wpos.
  - rewrite qnorm_inv. exact B1.
  - rewrite vnorm_neg. exact B2.
  - rewrite VI, qdist_inv. exact D1.
  - rewrite VN, vdist_neg. exact D2.
  - lra.
  - exact HK.
  - split; [exact F|]. split; [exact B1|]. split; [exact Ne|]. split; [exact D1|]. exact De.
Qed.
Lemma final_tgt : n = 0%nat -> final_close (pose_inv b) (pose_inv eb).
Proof using Hk L0 N0 HN Cb g2 g1 g3 K1 K4 D0 HBD HK Wpos KE KKKK.
  intros _. destruct inv_side as (F1 & F2 & B1 & B2 & D1 & D2).
  split; [exact F1|]. split; [exact F2|]. rewrite KKKK. pose proof uro_pos as U0. split.
  - eapply Rle_trans; [exact D1|]. fold K. apply Rmult_le_compat_r; [lra|]. rewrite S_INR. lra.
  - eapply Rle_trans; [exact D2|]. set (Y := K * K * (K * K * D)) in *.
    assert (Y0 : 0 <= Y) by (unfold Y; apply Rmult_le_pos; [apply Rmult_le_pos; lra|exact Wpos]). assert (uY : 0 <= u * Y) by (apply Rmult_le_pos; lra).
    assert (gY : (g - 1) * Y <= 21 * (INR N * u) * Y) by (apply Rmult_le_compat_r; lra).
    replace (128 * (INR (S N) * INR (S N)) * u * (K * K * (K * K) * L)) with (128 * INR N * (u * Y) + 128 * (u * Y)) by (unfold Y, D; rewrite S_INR; ring).
    assert (0 <= INR N * (u * Y)) by (apply Rmult_le_pos; lra). lra.
Qed.
Lemma final_full : final_close (pose_mul (pose_inv b) a) (pose_mul (pose_inv eb) ea).
Proof using Hk L0 N0 HN Ca Cb g2 g1 g3 K1 K4 D0 HBD HK Wpos KE KKKK.
  destruct inv_side as (F1 & F2 & B1 & B2 & D1 & D2). destruct (side n a ea Ca ltac:(unfold N; lia)) as (G1 & G2 & C1 & C2 & E1 & E2).
  pose proof uro_pos as U0. pose proof eta_pos as E0. pose proof big_big as BB. unfold final_close, pose_mul. cbn [fst snd].
  set (p := pose_inv b) in *. set (e := pose_inv eb) in *.
  destruct (rotate_err2 (fst p) (snd a) (fst e) (snd ea) g K (K * K * D)) as (F & De & Ne); try assumption; [split; assumption|lra|].
  set (Y := K * K * (K * K * D)) in *.
  assert (Y0 : 0 <= Y) by (unfold Y; apply Rmult_le_pos; [apply Rmult_le_pos; lra|exact Wpos]). assert (uY : 0 <= u * Y) by (apply Rmult_le_pos; lra).
  assert (gY : (g - 1) * Y <= 21 * (INR N * u) * Y) by (apply Rmult_le_compat_r; lra).
  assert (gY2 : (g - 1) * Y <= 1 / 1000 * Y) by (apply Rmult_le_compat_r; lra).
  assert (gY0 : 0 <= (g - 1) * Y) by (apply Rmult_le_pos; lra).
  set (V := quatRotate (fst p) (snd a)) in *. set (X := quatRotate (fst e) (snd ea)) in *.
  replace ((151 / 10 * u + 301 / 100 * (g - 1)) * Y) with (151 / 10 * (u * Y) + 301 / 100 * ((g - 1) * Y)) in * by ring.
  assert (uYY : u * Y <= Y / 1000) by (rewrite uro_val; lra).
  assert (Dsum : vdist (vadd (vval V) (vval (snd p))) (vadd X (snd e)) <= 302 / 10 * (u * Y) + 602 / 100 * ((g - 1) * Y) + 60 * (K * eta)).
  { eapply Rle_trans; [apply vdist_add|]. lra. }
  assert (Nsum : vnorm (vadd (vval V) (vval (snd p))) <= 21 / 10 * Y).
  { eapply Rle_trans; [apply (vnorm_dist _ (vadd X (snd e)))|].
    assert (vnorm (vadd X (snd e)) <= Y + Y) by (eapply Rle_trans; [apply vnorm_add|lra]). lra. }
  destruct (vadd_err V (snd p) F F2) as (FV & DV); [lra|].
  (* rotation *)
  assert (Qe : qfinite (qmul (fst p) (fst a)) /\
    qdist (qval (qmul (fst p) (fst a))) (qmul (fst e) (fst ea)) <= 21 * INR (S N) * u * k ^ N).
  { destruct Ca as (_ & _ & A1 & _ & A2 & _). destruct Cb as (FQb & _ & A3 & _ & A4 & _).
    destruct (qinv_val (fst b) FQb) as (FI & VI).
    assert (Hn : 1 <= k ^ n) by (apply pow_R1_Rle, Hk). assert (Hm : 1 <= k ^ m) by (apply pow_R1_Rle, Hk).
    assert (Hnm : k ^ N = k ^ m * k ^ n) by (unfold N; rewrite pow_add; ring).
    assert (Hg : g = (1 + 20 * u) ^ m * (1 + 20 * u) ^ n) by (unfold g, N; rewrite pow_add; ring).
    pose proof (g_ge1 n) as gn. pose proof (g_ge1 m) as gm.
    change (fst p) with (qinv (fst b)) in *. change (fst e) with (qinv (fst eb)) in *.
    assert (N1 : qnorm (qval (fst b)) <= (1 + 20 * u) ^ m * k ^ m) by (eapply Rle_trans; [apply (qnorm_dist _ (fst eb))|]; lra).
    assert (N2 : qnorm (qval (fst a)) <= (1 + 20 * u) ^ n * k ^ n) by (eapply Rle_trans; [apply (qnorm_dist _ (fst ea))|]; lra).
    assert (NN : qnorm (qval (fst b)) * qnorm (qval (fst a)) <= g * k ^ N).
    { eapply Rle_trans; [apply Rmult_le_compat; [apply qnorm_pos|apply qnorm_pos|exact N1|exact N2]|]. rewrite Hg, Hnm. right. ring. }
    assert (gK : g * k ^ N <= 1001 / 1000 * k ^ N) by (fold K; apply Rmult_le_compat_r; lra).
    destruct (qmul_err (qinv (fst b)) (fst a) FI G1) as (FM & DM).
    { rewrite VI, qnorm_inv. eapply Rle_trans; [exact NN|]. fold K in gK |- *. lra. }
    split; [exact FM|]. rewrite VI, qnorm_inv in DM.
    eapply Rle_trans; [apply (qdist_triangle _ (qmul (qinv (qval (fst b))) (fst ea)))|].
    eapply Rle_trans; [apply Rplus_le_compat_r, (qdist_triangle _ (qmul (qinv (qval (fst b))) (qval (fst a))))|].
    rewrite qdist_mul_r, qdist_mul_l, qdist_inv, qnorm_inv.
    assert (P1 : qnorm (qval (fst b)) * qdist (qval (fst a)) (fst ea) <= (1 + 20 * u) ^ m * k ^ m * (((1 + 20 * u) ^ n - 1) * k ^ n)).
    { apply Rmult_le_compat; [apply qnorm_pos|apply qdist_pos|exact N1|exact A2]. }
    assert (P2 : qdist (qval (fst b)) (fst eb) * qnorm (fst ea) <= ((1 + 20 * u) ^ m - 1) * k ^ m * k ^ n).
    { apply Rmult_le_compat; [apply qdist_pos|apply qnorm_pos|exact A4|exact A1]. }
    assert (P3 : 33 / 4 * u * (qnorm (qval (fst b)) * qnorm (qval (fst a))) <= 33 / 4 * u * (1001 / 1000 * k ^ N)) by (apply Rmult_le_compat_l; lra).
    assert (P4 : eta * 1048576 <= u).
    { eapply Rle_trans; [|exact eta_tiny]. apply Rmult_le_compat_l; [lra|]. apply IZR_le. intros C; discriminate C. }
    assert (P5 : u * 1 <= u * k ^ N) by (apply Rmult_le_compat_l; [lra|]; exact K1).
    assert (P6 : (g - 1) * k ^ N <= 21 * (INR N * u) * k ^ N) by (apply Rmult_le_compat_r; [fold K; lra|exact g2]).
    assert (P7 : (1 + 20 * u) ^ m * k ^ m * (((1 + 20 * u) ^ n - 1) * k ^ n) + ((1 + 20 * u) ^ m - 1) * k ^ m * k ^ n = (g - 1) * k ^ N).
    { rewrite Hg, Hnm. ring. }
    rewrite S_INR. replace (21 * (INR N + 1) * u * k ^ N) with (21 * (INR N * u) * k ^ N + 21 * (u * k ^ N)) by ring. lra. }
  destruct Qe as (Q1 & Q2). split; [exact Q1|]. split; [exact FV|]. split; [exact Q2|].
  eapply Rle_trans; [apply (vdist_triangle _ (vadd (vval V) (vval (snd p))))|].
  rewrite KKKK.
  replace (128 * (INR (S N) * INR (S N)) * u * (K * K * (K * K) * L)) with (128 * INR N * (u * Y) + 128 * (u * Y) + 0 * (128 * (INR N + 1) * (INR N * (u * (K * K * (K * K) * L))))) by (unfold Y, D; rewrite S_INR; ring).
  assert (P1 : u * vnorm (vadd (vval V) (vval (snd p))) <= u * (21 / 10 * Y)) by (apply Rmult_le_compat_l; lra).
  pose proof KE as KE1. fold Y in KE1. assert (KEe : eta <= K * eta) by (rewrite <- (Rmult_1_l eta) at 1; apply Rmult_le_compat_r; lra).
  replace (21 * (INR N * u) * Y) with (21 * (INR N * (u * Y))) in gY by ring.
  assert (0 <= INR N * (u * Y)) by (apply Rmult_le_pos; lra).
  replace (128 * INR N * (u * Y)) with (128 * (INR N * (u * Y))) by ring. lra.
Qed.
End Final.
End C.

Lemma pow_le_8000 : forall k N, 1 <= k -> (N <= 2 * MAX_GRAPH_DEPTH)%nat -> k ^ N * k ^ N * (k ^ N * k ^ N) <= k ^ (8 * MAX_GRAPH_DEPTH).
Proof. intros k N Hk HN. rewrite <- !pow_add. apply Rle_pow; [exact Hk|lia]. Qed.

Lemma max_depth : INR MAX_GRAPH_DEPTH = 1000.
Proof. rewrite INR_IZR_INZ. reflexivity. Qed.
Theorem lookup_rounding : forall lm (s : core (F64 lm)) tgt src t msg (k L : R),
  reachable s -> tgt <> src -> lookupTransform s tgt src t = Ok msg ->
  (forall ds c, climbs s (tm_stamp msg) src ds c \/ climbs s (tm_stamp msg) tgt ds c -> Forall (link_ok k L) ds) ->
  1 <= k -> / IZR (2 ^ 900) <= L -> k ^ (8 * MAX_GRAPH_DEPTH) * L <= IZR (2 ^ 980) ->
  exists ds dt c, climbs s (tm_stamp msg) src ds c /\ climbs s (tm_stamp msg) tgt dt c /\
    (List.length ds <= MAX_GRAPH_DEPTH)%nat /\ (List.length dt <= MAX_GRAPH_DEPTH)%nat /\
    let N := (List.length ds + List.length dt)%nat in
    let e := pose_mul (pose_inv (climb_pose (map exact_link dt))) (climb_pose (map exact_link ds)) in
    qfinite (tm_rot msg) /\ vfinite (tm_trans msg) /\
    qdist (qval (tm_rot msg)) (fst e) <= 21 * INR (S N) * u * k ^ N /\
    vdist (vval (tm_trans msg)) (snd e) <= 128 * (INR (S N) * INR (S N)) * u * (k ^ (4 * N) * L).
Proof.
  intros lm s tgt src t msg k L R Ne H F Hk HL HB.
  assert (L0 : 0 < L) by (eapply Rlt_le_trans; [|exact HL]; apply Rinv_0_lt_compat, IZR_lt; reflexivity).
  destruct (lookup_pose_lengths _ s tgt src t msg R Ne H) as (ds & dt & c & Cs & Ct & Ls & Lt & Shape).
  exists ds, dt, c. split; [exact Cs|]. split; [exact Ct|]. split; [exact Ls|]. split; [exact Lt|].
  pose proof (F _ _ (or_introl Cs)) as Fs. pose proof (F _ _ (or_intror Ct)) as Ft. cbv zeta.
  set (n := List.length ds) in *. set (m := List.length dt) in *.
  assert (HN : INR (n + m) <= 2000) by (rewrite plus_INR; pose proof max_depth; apply le_INR in Ls, Lt; fold n in Ls; fold m in Lt; lra).
  assert (BL : IZR (2 ^ 980) * 2001 <= big / 1048576).
  { unfold big. apply (Rmult_le_reg_r 1048576); [lra|]. unfold Rdiv. rewrite (Rmult_assoc (IZR (2 ^ 1023))), Rinv_l, Rmult_1_r by lra.
    rewrite <- !mult_IZR. apply IZR_le. intros C; discriminate C. }
  assert (P0 : forall i, 1 <= k ^ i) by (intros i; apply pow_R1_Rle, Hk).
  assert (HBN : forall i j : nat, (i <= 2 * MAX_GRAPH_DEPTH)%nat -> INR j <= 2001 -> k ^ i * k ^ i * (k ^ i * k ^ i) * (INR j * L) <= big / 1048576).
  { intros i j Hi Hj. pose proof (pos_INR j) as J0. pose proof (pow_le_8000 k i Hk Hi) as P. pose proof (P0 i) as Pi. pose proof (P0 (8 * MAX_GRAPH_DEPTH)%nat) as P8.
    apply Rle_trans with (k ^ (8 * MAX_GRAPH_DEPTH) * (2001 * L)).
    - apply Rmult_le_compat; [repeat apply Rmult_le_pos; lra|apply Rmult_le_pos; lra|exact P|apply Rmult_le_compat_r; lra].
    - eapply Rle_trans; [|exact BL]. replace (k ^ (8 * MAX_GRAPH_DEPTH) * (2001 * L)) with (k ^ (8 * MAX_GRAPH_DEPTH) * L * 2001) by ring. apply Rmult_le_compat_r; lra. }
  pose proof big_big as BB.
  assert (HC : forall l : list (storage (F64 lm) string), Forall (link_ok k L) l -> (List.length l <= MAX_GRAPH_DEPTH)%nat ->
    close k L (List.length l) (climb_pose l) (climb_pose (map exact_link l))).
  { intros l Fl Hl. assert (Il : INR (List.length l) <= 2000).
    { pose proof max_depth. apply le_INR in Hl. lra. }
    apply close_climb; [exact Hk|exact HL|exact Fl|lra|].
    pose proof (HBN (List.length l) (List.length l) ltac:(lia) ltac:(lra)) as B. pose proof (P0 (List.length l)) as Pl.
    pose proof (pos_INR (List.length l)) as I0.
    eapply Rle_trans; [|apply Rle_trans with (big / 1048576); [exact B|lra]].
    apply Rmult_le_compat_r; [apply Rmult_le_pos; lra|]. rewrite <- (Rmult_1_r (k ^ _ * k ^ _)) at 1.
    apply Rmult_le_compat_l; [apply Rmult_le_pos; lra|]. rewrite <- (Rmult_1_r 1). apply Rmult_le_compat; lra. }
  pose proof (HC ds Fs Ls) as Ca. pose proof (HC dt Ft Lt) as Cb. fold n in Ca. fold m in Cb.
  assert (HB1 : k ^ (n + m) * k ^ (n + m) * (k ^ (n + m) * k ^ (n + m)) * (INR (S (n + m)) * L) <= big / 1048576).
  { apply HBN; [lia|]. rewrite S_INR. lra. }
  assert (Z : final_close k L n m (tm_rot msg, tm_trans msg)
    (pose_mul (pose_inv (climb_pose (map exact_link dt))) (climb_pose (map exact_link ds)))).
  { change (tm_rot msg, tm_trans msg) with (msg_pose msg). destruct Shape as [(E & ->)|[(E & ->)| ->]].
    - subst dt. cbn [map climb_pose fold_left]. rewrite pose_inv_id, pose_mul_id_l. apply (final_src k L n m); try assumption; [lra|reflexivity].
    - subst ds. cbn [map climb_pose fold_left]. rewrite pose_mul_id_r. apply (final_tgt k L n m); try assumption; [lra|reflexivity].
    - apply (final_full k L n m); try assumption. lra. }
  exact Z.
Qed.

(** the bound on the relative growth, for quaternions close to unit length *)
Lemma pow_near1 : forall e n, 0 <= e -> INR n * e <= 1 / 100 -> (1 + e) ^ n <= 1 + 102 / 100 * (INR n * e).
Proof.
  intros e n He. induction n as [|n IH]; intros H; [cbn; lra|]. rewrite S_INR in *. cbn [pow]. pose proof (pos_INR n) as N0.
  assert (A : 0 <= INR n * e) by (apply Rmult_le_pos; lra). specialize (IH ltac:(lra)).
  eapply Rle_trans; [apply Rmult_le_compat_l; [lra|exact IH]|].
  assert (INR n * e * e <= 1 / 100 * e) by (apply Rmult_le_compat_r; lra). nra.
Qed.
Theorem lookup_rounding_near_unit : forall lm (s : core (F64 lm)) tgt src t msg (L : R),
  reachable s -> tgt <> src -> lookupTransform s tgt src t = Ok msg ->
  (forall ds c, climbs s (tm_stamp msg) src ds c \/ climbs s (tm_stamp msg) tgt ds c -> Forall (link_ok (1 + / IZR (2 ^ 20)) L) ds) ->
  / IZR (2 ^ 900) <= L <= IZR (2 ^ 979) ->
  exists ds dt c, climbs s (tm_stamp msg) src ds c /\ climbs s (tm_stamp msg) tgt dt c /\
    let N := (List.length ds + List.length dt)%nat in
    let e := pose_mul (pose_inv (climb_pose (map exact_link dt))) (climb_pose (map exact_link ds)) in
    qdist (qval (tm_rot msg)) (fst e) <= 22 * INR (S N) * u /\
    vdist (vval (tm_trans msg)) (snd e) <= 130 * (INR (S N) * INR (S N)) * u * L.
Proof.
  intros lm s tgt src t msg L R Ne H F (HL1 & HL2).
  assert (L0 : 0 < L) by (eapply Rlt_le_trans; [|exact HL1]; apply Rinv_0_lt_compat, IZR_lt; reflexivity).
  set (k := 1 + / IZR (2 ^ 20)) in *.
  assert (K1 : 0 <= / IZR (2 ^ 20)) by (change (2 ^ 20)%Z with 1048576%Z; lra).
  assert (Kp : forall n, INR n <= 8000 -> 1 <= k ^ n <= 1 + 1 / 100).
  { intros n Hn. pose proof (pos_INR n). split; [apply pow_R1_Rle; unfold k; lra|]. unfold k. eapply Rle_trans; [apply pow_near1; [exact K1|]|];
    change (2 ^ 20)%Z with 1048576%Z; lra. }
  assert (M8 : INR (8 * MAX_GRAPH_DEPTH) = 8000) by (rewrite mult_INR, max_depth; cbn; lra).
  destruct (lookup_rounding lm s tgt src t msg k L R Ne H F) as (ds & dt & c & Cs & Ct & Ls & Lt & _ & _ & Dq & Dv).
  - unfold k; lra.
  - exact HL1.
  - destruct (Kp (8 * MAX_GRAPH_DEPTH)%nat ltac:(lra)) as (P1 & P2).
    apply Rle_trans with (2 * IZR (2 ^ 979)); [apply Rmult_le_compat; lra|]. rewrite <- mult_IZR. apply IZR_le. intros C; discriminate C.
  - exists ds, dt, c. split; [exact Cs|]. split; [exact Ct|]. cbv zeta in *. pose proof uro_pos as U0. pose proof max_depth as MD.
    apply le_INR in Ls, Lt. rewrite MD in Ls, Lt. pose proof (pos_INR (List.length ds)). pose proof (pos_INR (List.length dt)).
    set (N := (List.length ds + List.length dt)%nat) in *. assert (HN : INR N = INR (List.length ds) + INR (List.length dt)) by apply plus_INR.
    pose proof (pos_INR (S N)) as SN. split.
    + eapply Rle_trans; [exact Dq|]. destruct (Kp N ltac:(lra)) as (P1 & P2).
      assert (0 <= 21 * INR (S N) * u) by (repeat apply Rmult_le_pos; lra).
      assert (21 * INR (S N) * u * k ^ N <= 21 * INR (S N) * u * (1 + 1 / 100)) by (apply Rmult_le_compat_l; lra). lra.
    + eapply Rle_trans; [exact Dv|]. assert (H4 : INR (4 * N) = 4 * INR N) by (rewrite mult_INR; cbn; lra).
      destruct (Kp (4 * N)%nat ltac:(lra)) as (P1 & P2).
      assert (A : 0 <= INR (S N) * INR (S N) * u * L) by (repeat apply Rmult_le_pos; lra).
      replace (128 * (INR (S N) * INR (S N)) * u * (k ^ (4 * N) * L)) with (k ^ (4 * N) * (128 * (INR (S N) * INR (S N) * u * L))) by ring.
      assert (k ^ (4 * N) * (128 * (INR (S N) * INR (S N) * u * L)) <= (1 + 1 / 100) * (128 * (INR (S N) * INR (S N) * u * L))) by (apply Rmult_le_compat_r; lra).
      lra.
Qed.
