(** * Rounding errors: poses through looked-up transforms, and lookups through a fixed frame *)
From Coq Require Import ZArith Bool Reals Floats.SpecFloat List String Lia Lra Psatz.
From Verif Require Import RosTime Scalar LinearMath Cache BufferCore SpecCore CoreTheorems Instances RealSlerp RealQuat RealMatrix GeomMsgs BufferInterface SpecGeom GeomProofs
  SpecRound FloatErr RoundNorm RoundOps RoundChain RoundLookup RoundSlerp SpecReal SpecApply RoundApply RoundPoint RoundPose SpecPose RoundCarry.
Import ListNotations.
Open Scope R_scope.
Local Notation u := uro.

Lemma unit_near : forall p q : quat RS, 0 < qnorm p -> 998 / 1000 <= qnorm q -> qdist (unit_of p) (unit_of q) <= 201 / 100 * qdist p q.
Proof.
  intros p q Hp Hq. rewrite !unit_is by lra. eapply Rle_trans; [apply normalized_dist; lra|]. pose proof (qdist_pos p q) as D.
  apply (Rmult_le_reg_r (qnorm q)); [lra|]. unfold Rdiv at 1. rewrite Rmult_assoc, Rinv_l, Rmult_1_r by lra.
  assert (201 / 100 * qdist p q * (998 / 1000) <= 201 / 100 * qdist p q * qnorm q) by (apply Rmult_le_compat_l; lra). lra.
Qed.
Lemma qdist_self : forall q : quat RS, qdist q q = 0.
Proof. intros [x y z w]. unfold qdist, qnorm. cbn [qx qy qz qw]. cbn [RS scar]. rewrite !Rminus_diag_eq by reflexivity. rewrite !Rmult_0_l, !Rplus_0_r. apply sqrt_0. Qed.
Lemma qdist_mul_l : forall p q r : quat RS, qdist (qmul p r) (qmul q r) = qdist p q * qnorm r.
Proof.
  intros p q r. unfold qdist.
  match goal with |- qnorm ?a = qnorm ?b * _ => assert (E : a = qmul b r) end.
  { destruct p as [x y z w], q as [a b c d], r as [e f g h]. unfold qmul. cbn [qx qy qz qw]. runf. f_equal; cbn [RS scar]; ring. }
  rewrite E. apply qnorm_mul.
Qed.
(** units of products, when both factors are off *)
Lemma unit_mul_near : forall p q p' q' : quat RS, 0 < qnorm p -> 0 < qnorm q -> 998 / 1000 <= qnorm p' -> 998 / 1000 <= qnorm q' ->
  qdist (unit_of (qmul p q)) (unit_of (qmul p' q')) <= 201 / 100 * (qdist p p' + qdist q q').
Proof.
  intros p q p' q' Hp Hq Hp' Hq'. rewrite !unit_mul by lra. eapply Rle_trans; [apply (qdist_triangle _ (qmul (unit_of p') (unit_of q)))|].
  rewrite qdist_mul_l, qdist_mul_r, !unit_norm by lra. pose proof (unit_near p p' Hp Hp'). pose proof (unit_near q q' Hq Hq'). lra.
Qed.

Section T.
Context {lm : libm}.
Notation fT := (gtstamped (F64 lm)).
Notation fp := (gpose (F64 lm)).

Lemma turns_near : forall (q : gquat (F64 lm)) r r' d e, qdist (unit_of r) (unit_of r') <= e -> turns_like q r d -> turns_like q r' (d + e).
Proof.
  intros q r r' d e H (F & x & [-> | ->] & D); split; try exact F.
  - exists (unit_of r'). split; [left; reflexivity|]. eapply Rle_trans; [apply (qdist_triangle _ (unit_of r))|]. lra.
  - exists (qneg (unit_of r')). split; [right; reflexivity|]. eapply Rle_trans; [apply (qdist_triangle _ (qneg (unit_of r)))|]. rewrite qdist_neg. lra.
Qed.
Lemma turns_weaken : forall (q : gquat (F64 lm)) r d e, d <= e -> turns_like q r d -> turns_like q r e.
Proof. intros q r d e H (F & x & S & D). split; [exact F|]. exists x. split; [exact S|]. lra. Qed.

(** lookups, of a frame in itself included *)
Lemma lookup_bounds_any : forall (s : core (F64 lm)) tgt src t msg (L : R),
  reachable s -> lookupTransform s tgt src t = Ok msg ->
  (forall ds c, climbs s (tm_stamp msg) src ds c \/ climbs s (tm_stamp msg) tgt ds c -> Forall (link_near L) ds) ->
  / IZR (2 ^ 900) <= L <= IZR (2 ^ 979) ->
  exists ds dt c, climbs s (tm_stamp msg) src ds c /\ climbs s (tm_stamp msg) tgt dt c /\
    let M := INR (S (List.length ds + List.length dt)) in
    let e := pose_mul (pose_inv (climb_pose (map exact_link dt))) (climb_pose (map exact_link ds)) in
    qfinite (tm_rot msg) /\ vfinite (tm_trans msg) /\ 1 <= M <= 2001 /\ 998 / 1000 <= qnorm (fst e) <= 103 / 100 /\ 997 / 1000 <= qnorm (qval (tm_rot msg)) <= 2 /\
    qdist (qval (tm_rot msg)) (fst e) <= 2122 / 100 * (M * u) /\ vdist (vval (tm_trans msg)) (snd e) <= 1293 / 10 * (M * M * u * L) /\ vnorm (vval (tm_trans msg)) <= 12 / 10 * (M * L).
Proof.
  intros s tgt src t msg L R H F HL. destruct (string_dec tgt src) as [->|Ne]; [|exact (lookup_bounds s tgt src t msg L R Ne H F HL)].
  destruct (lookup_self s src t R) as (m & Hm & _ & _ & Qm & Vm & _). rewrite H in Hm. injection Hm as <-.
  exists [], [], src. split; [constructor|]. split; [constructor|]. cbn [List.length Nat.add map]. cbv zeta. rewrite Qm, Vm.
  destruct (@one_ok lm) as (Fo & Vo). destruct (@zero_ok lm) as (Fz & Vz). pose proof uro_pos as U.
  assert (L0 : 0 < L) by (eapply Rlt_le_trans; [|apply HL]; apply Rinv_0_lt_compat, IZR_lt; reflexivity).
  assert (E : pose_mul (pose_inv (climb_pose [])) (climb_pose []) = (@Q4 RS 0 0 0 1, @V3 RS 0 0 0)).
  { unfold climb_pose. cbn [fold_left]. rewrite pose_inv_id, pose_mul_id_l. unfold pose_id, qidentity, vzero. runf. f_equal; f_equal; cbn [RS scar]; field. }
  rewrite E. cbn [fst snd].
  assert (EQ : qval (@qidentity (F64 lm)) = @Q4 RS 0 0 0 1) by (unfold qval, qidentity; cbn [qx qy qz qw]; f_equal; assumption).
  assert (EV : vval (@vzero (F64 lm)) = @V3 RS 0 0 0) by (unfold vval, vzero; cbn [vx vy vz]; f_equal; assumption).
  rewrite EQ, EV, qdist_self, vdist_self. assert (N1 : qnorm (@Q4 RS 0 0 0 1) = 1) by (unfold qnorm; cbn [qx qy qz qw]; cbn [RS scar]; replace (0 * 0 + 0 * 0 + 0 * 0 + 1 * 1) with 1 by ring; apply sqrt_1).
  assert (N0 : vnorm (@V3 RS 0 0 0) = 0) by (unfold vnorm; cbn [vx vy vz]; cbn [RS scar]; replace (0 * 0 + 0 * 0 + 0 * 0) with 0 by ring; apply sqrt_0). rewrite N1, N0. cbn [INR].
  assert (0 <= 1 * 1 * u * L) by (repeat apply Rmult_le_pos; lra).
  split; [repeat split; assumption|]. split; [repeat split; assumption|]. repeat split; lra.
Qed.

Lemma msg_T : forall msg : tmsg (F64 lm), rot_val (to_message msg) = qval (tm_rot msg) /\ xyz_val (shift_of (to_message msg)) = vval (tm_trans msg) /\
  (qfinite (tm_rot msg) -> rot_finite (to_message msg)) /\ (vfinite (tm_trans msg) -> xyz_finite (shift_of (to_message msg))).
Proof. intros [st fr ch [a b c] [x y z w]]. repeat split; try exact (fun H => H); apply H. Qed.

Lemma big_L : forall L, L <= IZR (2 ^ 979) -> 12 / 10 * (2001 * L) <= big / 8.
Proof.
  intros L HL2. assert (0 <= IZR (2 ^ 979)) by (apply IZR_le; intros C; discriminate C). apply Rle_trans with (4096 * IZR (2 ^ 979)); [lra|]. unfold big. apply (Rmult_le_reg_l 8); [lra|]. replace (8 * (IZR (2 ^ 1023) / 8)) with (IZR (2 ^ 1023)) by field.
  rewrite <- !mult_IZR. apply IZR_le. intros C; discriminate C.
Qed.

(** a pose through a looked-up transform: the orientation *)
Theorem pose_lookup : forall (s : core (F64 lm)) tgt src t msg (L : R) (p : fp),
  reachable s -> lookupTransform s tgt src t = Ok msg ->
  (forall ds c, climbs s (tm_stamp msg) src ds c \/ climbs s (tm_stamp msg) tgt ds c -> Forall (link_near L) ds) ->
  / IZR (2 ^ 900) <= L <= IZR (2 ^ 979) -> pose_finite p -> 1 / 2 <= qnorm (pose_rot p) <= 2 -> vnorm (pose_pos p) <= IZR (2 ^ 1000) ->
  exists ds dt c, climbs s (tm_stamp msg) src ds c /\ climbs s (tm_stamp msg) tgt dt c /\
    let M := INR (S (List.length ds + List.length dt)) in
    let e := pose_mul (pose_inv (climb_pose (map exact_link dt))) (climb_pose (map exact_link ds)) in
    let out := pose_by (to_message msg) p in
    pose_finite out /\ turns_like (orientation out) (qmul (fst e) (pose_rot p)) ((43 * M + 251) * u) /\
    vdist (pose_pos out) (rplus (turned (fst e) (pose_pos p)) (snd e)) <= 142 * M * u * vnorm (pose_pos p) + 132 * (M * M) * u * L.
Proof.
  intros s tgt src t msg L p R H F (HL1 & HL2) Fp Hq Hp.
  destruct (lookup_bounds_any s tgt src t msg L R H F (conj HL1 HL2)) as (ds & dt & c & Cs & Ct & X). exists ds, dt, c. split; [exact Cs|]. split; [exact Ct|]. cbv zeta in *.
  set (M := INR (S (List.length ds + List.length dt))) in *. set (e := pose_mul _ _) in *. clearbody e M.
  destruct X as (Fq & Ft & M1 & Qe & Qq & Dq & Dv & Tb). destruct (msg_T msg) as (ER & EV & FR & FV). specialize (FR Fq). specialize (FV Ft).
  set (T := to_message msg) in *. clearbody T. set (q := qval (tm_rot msg)) in *. set (tr := vval (tm_trans msg)) in *. clearbody q tr. clear F H Cs Ct R Fq Ft msg ds dt c s tgt src t. pose proof uro_pos as U0.
  assert (L0 : 0 < L) by (eapply Rlt_le_trans; [|exact HL1]; apply Rinv_0_lt_compat, IZR_lt; reflexivity).
  assert (ML2 : M * L <= 2001 * L) by (apply Rmult_le_compat_r; lra). pose proof (big_L L HL2) as B1.
  assert (B2 : IZR (2 ^ 1000) <= big / 8). { unfold big. apply (Rmult_le_reg_l 8); [lra|]. replace (8 * (IZR (2 ^ 1023) / 8)) with (IZR (2 ^ 1023)) by field. rewrite <- !mult_IZR. apply IZR_le. intros C; discriminate C. }
  destruct (pose_one T p FR ltac:(rewrite ER; lra) FV Fp Hq ltac:(lra) ltac:(rewrite EV; lra)) as (Fo & To & Do). rewrite ER, EV in *.
  split; [exact Fo|]. split.
  - assert (UM : 0 <= M * u) by (apply Rmult_le_pos; lra). apply (turns_weaken _ _ (251 * u + 201 / 100 * (2122 / 100 * (M * u)))); [lra|].
    apply (turns_near _ (qmul q (pose_rot p))); [|exact To]. rewrite !unit_mul, qdist_mul_l, (unit_norm (pose_rot p)), Rmult_1_r by lra.
    eapply Rle_trans; [apply unit_near; lra|]. lra.
  - set (P := vnorm (pose_pos p)) in *. pose proof (vnorm_pos (pose_pos p)) as P0. fold P in P0.
    assert (MML : 0 <= M * M * u * L) by (repeat apply Rmult_le_pos; lra).
    eapply Rle_trans; [apply (vdist_triangle _ (rplus (turned q (pose_pos p)) tr))|].
    pose proof (vdist_add (turned q (pose_pos p)) tr (turned (fst e) (pose_pos p)) (snd e)) as D2. rewrite (vadd_rplus (turned q (pose_pos p))), (vadd_rplus (turned (fst e) (pose_pos p))) in D2.
    pose proof (turned_near q (fst e) (pose_pos p) ltac:(lra) ltac:(lra)) as D3. fold P in D3.
    assert (D4 : 4 * qdist q (fst e) / qnorm (fst e) * P <= 851 / 10 * (M * u) * P).
    { apply Rmult_le_compat_r; [exact P0|]. apply (Rmult_le_reg_r (qnorm (fst e))); [lra|]. unfold Rdiv at 1. rewrite Rmult_assoc, Rinv_l, Rmult_1_r by lra.
      assert (0 <= M * u) by (apply Rmult_le_pos; lra). apply Rle_trans with (851 / 10 * (M * u) * (998 / 1000)); [lra|]. apply Rmult_le_compat_l; lra. }
    assert (UP : 0 <= u * P) by (apply Rmult_le_pos; lra). assert (UM : u * P <= M * u * P) by (rewrite Rmult_assoc; rewrite <- (Rmult_1_l (u * P)) at 1; apply Rmult_le_compat_r; lra).
    assert (UT : 2 * u * vnorm tr <= 24 / 10 * (M * M * u * L)).
    { apply Rle_trans with (2 * u * (12 / 10 * (M * L))); [apply Rmult_le_compat_l; lra|]. replace (M * M * u * L) with (M * (u * (M * L))) by ring.
      assert (0 <= u * (M * L)) by (apply Rmult_le_pos; [lra|apply Rmult_le_pos; lra]). assert (1 * (u * (M * L)) <= M * (u * (M * L))) by (apply Rmult_le_compat_r; lra). lra. }
    assert (UE : 16 * eta <= 1 / 10 * (M * M * u * L)).
    { pose proof (eta_L L HL1) as EL. assert (u * L <= M * M * u * L); [|lra]. replace (M * M * u * L) with (M * M * (u * L)) by ring. rewrite <- (Rmult_1_l (u * L)) at 1.
      apply Rmult_le_compat_r; [apply Rmult_le_pos; lra|nra]. }
    replace (142 * M * u * P) with (142 * (M * u * P)) by ring. replace (132 * (M * M) * u * L) with (132 * (M * M * u * L)) by ring.
    replace (56 * u * P) with (56 * (u * P)) in Do by ring. replace (851 / 10 * (M * u) * P) with (851 / 10 * (M * u * P)) in D4 by ring. lra.
Qed.

(** lookups through a fixed frame *)
Theorem fixed_lookup : forall (s : core (F64 lm)) tgt ttgt src tsrc fix_ msg m1 m2 (L : R),
  reachable s -> lookupTransformFixed s tgt ttgt src tsrc fix_ = Ok msg ->
  lookupTransform s fix_ src tsrc = Ok m1 -> lookupTransform s tgt fix_ ttgt = Ok m2 ->
  (forall ds c, climbs s (tm_stamp m1) src ds c \/ climbs s (tm_stamp m1) fix_ ds c -> Forall (link_near L) ds) ->
  (forall ds c, climbs s (tm_stamp m2) fix_ ds c \/ climbs s (tm_stamp m2) tgt ds c -> Forall (link_near L) ds) ->
  / IZR (2 ^ 900) <= L <= IZR (2 ^ 979) ->
  exists ds df dg dt c d, climbs s (tm_stamp m1) src ds c /\ climbs s (tm_stamp m1) fix_ df c /\
    climbs s (tm_stamp m2) fix_ dg d /\ climbs s (tm_stamp m2) tgt dt d /\
    let M := INR (S (List.length ds + List.length df)) + INR (S (List.length dg + List.length dt)) in
    let e1 := pose_mul (pose_inv (climb_pose (map exact_link df))) (climb_pose (map exact_link ds)) in
    let e2 := pose_mul (pose_inv (climb_pose (map exact_link dt))) (climb_pose (map exact_link dg)) in
    turns_like (toMsg_Quaternion (tm_rot msg)) (qmul (fst e2) (fst e1)) ((43 * M + 251) * u) /\
    vfinite (tm_trans msg) /\ vdist (vval (tm_trans msg)) (rplus (turned (fst e2) (snd e1)) (snd e2)) <= 132 * (M * M) * u * L.
Proof.
  intros s tgt ttgt src tsrc fix_ msg m1 m2 L R H H1 H2 F1 F2 HL.
  destruct (lookup_bounds_any s fix_ src tsrc m1 L R H1 F1 HL) as (ds & df & c & Cs & Cf & X1).
  destruct (lookup_bounds_any s tgt fix_ ttgt m2 L R H2 F2 HL) as (dg & dt & d & Cg & Ct & X2).
  exists ds, df, dg, dt, c, d. do 4 (split; [assumption|]). clear F1 F2 Cs Cf Cg Ct. cbv zeta in *.
  assert (E : tm_trans msg = xapply (XF (mfromQuat (tm_rot m2)) (tm_trans m2)) (tm_trans m1) /\ tm_rot msg = mgetRotation (mmul (mfromQuat (tm_rot m2)) (mfromQuat (tm_rot m1)))).
  { unfold lookupTransformFixed in H. destruct (validateFrameId s _ tgt); cbn [bind] in H; try discriminate H. destruct (validateFrameId s _ src); cbn [bind] in H; try discriminate H.
    destruct (validateFrameId s _ fix_); cbn [bind] in H; try discriminate H. rewrite H1 in H. cbn [bind] in H. rewrite H2 in H. cbn [bind] in H. injection H as <-. split; reflexivity. }
  destruct E as (Et & Er). rewrite Et, Er. clear H H1 H2 Et Er R.
  set (A := INR (S (List.length ds + List.length df))) in *. set (B := INR (S (List.length dg + List.length dt))) in *. set (e1 := pose_mul (pose_inv (climb_pose (map exact_link df))) (climb_pose (map exact_link ds))) in *. set (e2 := pose_mul (pose_inv (climb_pose (map exact_link dt))) (climb_pose (map exact_link dg))) in *. clearbody A B e1 e2.
  destruct X1 as (Fq1 & Ft1 & A1 & Qe1 & Qq1 & Dq1 & Dv1 & Tb1). destruct X2 as (Fq2 & Ft2 & B1 & Qe2 & Qq2 & Dq2 & Dv2 & Tb2).
  set (q1 := tm_rot m1) in *. set (q2 := tm_rot m2) in *. set (v1 := tm_trans m1) in *. set (v2 := tm_trans m2) in *. clearbody q1 q2 v1 v2. clear m1 m2 msg ds df dg dt c d.
  destruct HL as (HL1 & HL2). pose proof uro_pos as U0. assert (L0 : 0 < L) by (eapply Rlt_le_trans; [|exact HL1]; apply Rinv_0_lt_compat, IZR_lt; reflexivity).
  pose proof (big_L L HL2) as BL. assert (AL : A * L <= 2001 * L) by (apply Rmult_le_compat_r; lra). assert (BL2 : B * L <= 2001 * L) by (apply Rmult_le_compat_r; lra).
  destruct (product_rotation_err q2 q1 Fq2 Fq1 ltac:(lra) ltac:(lra)) as (Fr & r & Sr & Dr). 
  destruct (apply_err q2 v2 v1 Fq2 Ft2 Ft1 ltac:(lra) ltac:(lra) ltac:(lra)) as (Fv & Dv).
  set (o := mgetRotation _) in *. set (w := xapply _ _) in *. clearbody o w. split; [|split; [exact Fv|]].
  - assert (0 <= A * u) by (apply Rmult_le_pos; lra). assert (0 <= B * u) by (apply Rmult_le_pos; lra). apply (turns_weaken _ _ (251 * u + 201 / 100 * (qdist (qval q2) (fst e2) + qdist (qval q1) (fst e1)))); [lra|].
    apply (turns_near _ (qmul (qval q2) (qval q1))); [apply unit_mul_near; lra|].
    assert (Eo : fromMsg_Quaternion (toMsg_Quaternion o) = o) by (destruct o; reflexivity). unfold turns_like. rewrite Eo. split; [exact Fr|]. exists r. rewrite unit_is by (rewrite qnorm_mul; apply Rmult_lt_0_compat; lra). split; [exact Sr|exact Dr].
  - eapply Rle_trans; [apply (vdist_triangle _ (rplus (turned (qval q2) (vval v1)) (vval v2)))|].
    assert (D2 : vdist (rplus (turned (qval q2) (vval v1)) (vval v2)) (rplus (turned (fst e2) (snd e1)) (snd e2)) <= vdist (turned (qval q2) (vval v1)) (turned (fst e2) (snd e1)) + vdist (vval v2) (snd e2)).
    { pose proof (vdist_add (turned (qval q2) (vval v1)) (vval v2) (turned (fst e2) (snd e1)) (snd e2)) as D. exact D. }
    pose proof (vdist_triangle (turned (qval q2) (vval v1)) (turned (fst e2) (vval v1)) (turned (fst e2) (snd e1))) as D3. rewrite turned_add in D3 by lra.
    pose proof (turned_near (qval q2) (fst e2) (vval v1) ltac:(lra) ltac:(lra)) as D4. pose proof (vnorm_pos (vval v1)) as P0. set (P := vnorm (vval v1)) in *.
    assert (D5 : 4 * qdist (qval q2) (fst e2) / qnorm (fst e2) * P <= 851 / 10 * (B * u) * P).
    { apply Rmult_le_compat_r; [exact P0|]. apply (Rmult_le_reg_r (qnorm (fst e2))); [lra|]. unfold Rdiv at 1. rewrite Rmult_assoc, Rinv_l, Rmult_1_r by lra.
      assert (0 <= B * u) by (apply Rmult_le_pos; lra). apply Rle_trans with (851 / 10 * (B * u) * (998 / 1000)); [lra|]. apply Rmult_le_compat_l; lra. }
    assert (BU : 0 <= B * u) by (apply Rmult_le_pos; lra). assert (UL : 0 <= u * L) by (apply Rmult_le_pos; lra).
    assert (D6 : 851 / 10 * (B * u) * P <= 1022 / 10 * (A * B * (u * L))).
    { apply Rle_trans with (851 / 10 * (B * u) * (12 / 10 * (A * L))); [apply Rmult_le_compat_l; lra|]. assert (0 <= A * B * (u * L)) by (repeat apply Rmult_le_pos; lra).
      replace (851 / 10 * (B * u) * (12 / 10 * (A * L))) with (10212 / 100 * (A * B * (u * L))) by field. lra. }
    assert (AB1 : 1 <= A * B) by nra. assert (AA : 1 <= A * A) by nra. assert (BB : 1 <= B * B) by nra. assert (AAB : A <= A * B) by (rewrite <- (Rmult_1_r A) at 1; apply Rmult_le_compat_l; lra). assert (BAB : B <= A * B) by (rewrite <- (Rmult_1_l B) at 1; apply Rmult_le_compat_r; lra).
    assert (D7 : 56 * u * P <= 672 / 10 * (A * B * (u * L))).
    { apply Rle_trans with (56 * u * (12 / 10 * (A * L))); [apply Rmult_le_compat_l; lra|]. replace (56 * u * (12 / 10 * (A * L))) with (672 / 10 * (A * (u * L))) by field. assert (A * (u * L) <= A * B * (u * L)) by (apply Rmult_le_compat_r; lra). lra. }
    assert (D8 : 2 * u * vnorm (vval v2) <= 24 / 10 * (A * B * (u * L))).
    { apply Rle_trans with (2 * u * (12 / 10 * (B * L))); [apply Rmult_le_compat_l; lra|]. replace (2 * u * (12 / 10 * (B * L))) with (24 / 10 * (B * (u * L))) by field. assert (B * (u * L) <= A * B * (u * L)) by (apply Rmult_le_compat_r; lra). lra. }
    assert (D9 : 16 * eta <= 1 / 10 * (A * B * (u * L))).
    { pose proof (eta_L L HL1) as EL. assert (1 * (u * L) <= A * B * (u * L)) by (apply Rmult_le_compat_r; lra). lra. }
    assert (0 <= A * A * (u * L)) by (apply Rmult_le_pos; lra). assert (0 <= B * B * (u * L)) by (apply Rmult_le_pos; lra). assert (0 <= A * B * (u * L)) by (apply Rmult_le_pos; lra).
    replace (132 * ((A + B) * (A + B)) * u * L) with (132 * (A * A * (u * L)) + 132 * (B * B * (u * L)) + 264 * (A * B * (u * L))) by ring.
    replace (A * A * u * L) with (A * A * (u * L)) in Dv1 by ring. replace (B * B * u * L) with (B * B * (u * L)) in Dv2 by ring. lra.
Qed.
End T.
