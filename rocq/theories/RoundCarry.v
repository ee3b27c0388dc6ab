(** * Rounding errors of poses carried through transforms *)
From Coq Require Import ZArith Bool Reals Floats.SpecFloat List String Lia Lra Psatz.
From Verif Require Import RosTime Scalar LinearMath Cache BufferCore SpecCore Instances RealSlerp RealQuat RealMatrix GeomMsgs BufferInterface SpecGeom GeomProofs
  SpecRound FloatErr RoundNorm RoundOps RoundChain RoundLookup RoundSlerp SpecReal SpecApply RoundApply RoundPoint RoundPose SpecPose.
Import ListNotations.
Open Scope R_scope.
Local Notation u := uro.

(** ** Unit quaternions *)
Lemma unit_is : forall q : quat RS, 0 < qnorm q -> unit_of q = qnormalized q.
Proof.
  intros q H. rewrite qnormalized_is by exact H. destruct q as [x y z w]. unfold unit_of, qscale. cbn [qx qy qz qw]. set (n := qnorm _) in *. runf. f_equal; cbn [RS scar]; field; lra.
Qed.
Lemma unit_norm : forall q : quat RS, 0 < qnorm q -> qnorm (unit_of q) = 1.
Proof. intros q H. rewrite unit_is by exact H. apply qnormalized_norm, H. Qed.
Lemma unit_mul : forall p q : quat RS, 0 < qnorm p -> 0 < qnorm q -> unit_of (qmul p q) = qmul (unit_of p) (unit_of q).
Proof.
  intros p q Hp Hq. unfold unit_of at 1. rewrite qnorm_mul. set (a := qnorm p) in *. set (b := qnorm q) in *. unfold unit_of. fold a b. clearbody a b.
  destruct p as [x y z w], q as [x' y' z' w']. unfold qmul. cbn [qx qy qz qw]. runf. f_equal; cbn [RS scar]; field; lra.
Qed.
Lemma qneg_mul_r : forall p q : quat RS, qmul p (qneg q) = qneg (qmul p q).
Proof. intros [x y z w] [a b c d]. unfold qmul, qneg. cbn [qx qy qz qw]. runf. f_equal; cbn [RS scar]; ring. Qed.
Lemma qneg_twice : forall q : quat RS, qneg (qneg q) = q.
Proof. intros [x y z w]. unfold qneg. cbn [qx qy qz qw]. runf. f_equal; cbn [RS scar]; ring. Qed.
Lemma qdist_neg : forall p q : quat RS, qdist (qneg p) (qneg q) = qdist p q.
Proof. intros [x y z w] [a b c d]. unfold qdist, qnorm, qneg. cbn [qx qy qz qw]. runf. f_equal. cbn [RS scar]. ring. Qed.
Lemma qnorm_neg : forall p : quat RS, qnorm (qneg p) = qnorm p.
Proof. intros [x y z w]. unfold qnorm, qneg. cbn [qx qy qz qw]. runf. f_equal. cbn [RS scar]. ring. Qed.
Lemma qdist_sym : forall p q : quat RS, qdist p q = qdist q p.
Proof. intros [x y z w] [a b c d]. unfold qdist, qnorm. cbn [qx qy qz qw]. cbn [RS scar]. f_equal. ring. Qed.
Lemma same_neg : forall p q : quat RS, same_rotation p q -> same_rotation (qneg p) q.
Proof. intros p q [-> | ->]; [right; reflexivity|left; apply qneg_twice]. Qed.
Lemma same_mul : forall t p q : quat RS, same_rotation p q -> same_rotation (qmul t p) (qmul t q).
Proof. intros t p q [-> | ->]; [left; reflexivity|right; apply qneg_mul_r]. Qed.
Lemma same_trans : forall p q r : quat RS, same_rotation p q -> same_rotation q r -> same_rotation p r.
Proof. intros p q r [-> | ->] H; [exact H|apply same_neg, H]. Qed.
Lemma same_sym : forall p q : quat RS, same_rotation p q -> same_rotation q p.
Proof. intros p q [-> | ->]; [left; reflexivity|right; symmetry; apply qneg_twice]. Qed.
Lemma same_norm : forall p q : quat RS, same_rotation p q -> qnorm p = qnorm q.
Proof. intros p q [-> | ->]; [reflexivity|apply qnorm_neg]. Qed.
(** within [d] of [q] up to sign: the sign may be moved to the other side *)
Lemma same_dist : forall (p q r : quat RS) d, same_rotation r q -> qdist p r <= d -> exists p', same_rotation p' p /\ qdist p' q <= d.
Proof.
  intros p q r d [-> | ->] H; [exists p; split; [left; reflexivity|exact H]|]. exists (qneg p). split; [right; reflexivity|]. rewrite <- (qneg_twice q), qdist_neg. exact H.
Qed.

(** projecting on the unit sphere, seen from a point of the sphere *)
Lemma unit_proj : forall a b : quat RS, 0 < qnorm a -> qnorm b = 1 ->
  qnorm a * (qdist (unit_of a) b * qdist (unit_of a) b) + (qnorm a - 1) * (qnorm a - 1) = qdist a b * qdist a b.
Proof.
  intros a b Ha Hb. assert (E : qnorm b * qnorm b = 1) by (rewrite Hb; ring). unfold qdist. rewrite !qnorm_sq. pose proof (qnorm_sq a) as A. rewrite qnorm_sq in E. set (n := qnorm a) in *. unfold unit_of. fold n. clearbody n.
  destruct a as [x y z w], b as [x' y' z' w']. cbn [qx qy qz qw] in *. cbn [RS scar] in *.
  assert (X : n * ((x / n - x') * (x / n - x') + (y / n - y') * (y / n - y') + (z / n - z') * (z / n - z') + (w / n - w') * (w / n - w')) =
    (x * x + y * y + z * z + w * w) / n - 2 * (x * x' + y * y' + z * z' + w * w') + n * (x' * x' + y' * y' + z' * z' + w' * w')) by (field; lra).
  rewrite X, <- A, E. replace (n * n / n) with n by (field; lra). 
  replace ((x - x') * (x - x') + (y - y') * (y - y') + (z - z') * (z - z') + (w - w') * (w - w')) with ((x * x + y * y + z * z + w * w) - 2 * (x * x' + y * y' + z * z' + w * w') + (x' * x' + y' * y' + z' * z' + w' * w')) by ring.
  rewrite <- A, E. ring.
Qed.
Lemma unit_closer : forall a b : quat RS, 1 - 251 * u <= qnorm a -> qnorm b = 1 -> qdist (unit_of a) b <= (1 + 127 * u) * qdist a b.
Proof.
  intros a b Ha Hb. pose proof uro_pos as U. assert (A0 : 0 < qnorm a) by (rewrite uro_val in *; lra). pose proof (unit_proj a b A0 Hb) as E. pose proof (qdist_pos a b) as D0. pose proof (qdist_pos (unit_of a) b) as X0.
  set (n := qnorm a) in *. set (X := qdist (unit_of a) b) in *. set (D := qdist a b) in *. clearbody n X D.
  apply le_sq; [apply Rmult_le_pos; lra|]. pose proof (Rle_0_sqr (n - 1)) as K. unfold Rsqr in K. assert (XX : 0 <= X * X) by (apply Rmult_le_pos; lra).
  assert (E1 : (1 - 251 * u) * (X * X) <= D * D) by (assert ((1 - 251 * u) * (X * X) <= n * (X * X)) by (apply Rmult_le_compat_r; lra); lra).
  replace ((1 + 127 * u) * D * ((1 + 127 * u) * D)) with ((1 + 127 * u) * (1 + 127 * u) * (D * D)) by ring.
  apply Rle_trans with ((1 + 127 * u) * (1 + 127 * u) * ((1 - 251 * u) * (X * X))); [|apply Rmult_le_compat_l; [apply Rmult_le_pos; lra|exact E1]].
  replace ((1 + 127 * u) * (1 + 127 * u) * ((1 - 251 * u) * (X * X))) with (((1 + 127 * u) * (1 + 127 * u) * (1 - 251 * u)) * (X * X)) by ring.
  rewrite <- (Rmult_1_l (X * X)) at 1. apply Rmult_le_compat_r; [exact XX|]. rewrite uro_val. lra.
Qed.

Section P.
Context {lm : libm}.
Notation fT := (gtstamped (F64 lm)).
Notation fp := (gpose (F64 lm)).

(** ** One transform *)
Lemma pose_one : forall (T : fT) (p : fp), rot_finite T -> 1 / 2 <= qnorm (rot_val T) <= 2 -> xyz_finite (shift_of T) -> pose_finite p -> 1 / 2 <= qnorm (pose_rot p) <= 2 ->
  vnorm (pose_pos p) <= big / 8 -> vnorm (xyz_val (shift_of T)) <= big / 8 ->
  pose_finite (pose_by T p) /\ turns_like (orientation (pose_by T p)) (qmul (rot_val T) (pose_rot p)) (251 * u) /\
  vdist (pose_pos (pose_by T p)) (rplus (turned (rot_val T) (pose_pos p)) (xyz_val (shift_of T))) <= 56 * u * vnorm (pose_pos p) + 2 * u * vnorm (xyz_val (shift_of T)) + 16 * eta.
Proof.
  intros T p Fq Hq Ft (Fo & Fp) Ho Bp Bt. rewrite pose_by_eq. unfold pose_value. 
  destruct (apply_err (fromMsg_Quaternion (g_rotation (t_transform T))) (fromMsg_xyz (shift_of T)) (fromMsg_xyz (position p)) Fq Ft Fp Hq Bp Bt) as (Fv & Dv).
  destruct (product_rotation_err (fromMsg_Quaternion (g_rotation (t_transform T))) (fromMsg_Quaternion (orientation p)) Fq Fo Hq Ho) as (Fr & r & Sr & Dr).
  set (A := mmul (mfromQuat (fromMsg_Quaternion (g_rotation (t_transform T)))) (mfromQuat (fromMsg_Quaternion (orientation p)))) in *.
  set (v := xapply (XF (mfromQuat (fromMsg_Quaternion (g_rotation (t_transform T)))) (fromMsg_xyz (shift_of T))) (fromMsg_xyz (position p))) in *.
  change (xmul (fromMsg_Transform (t_transform T)) (xfromQuat (fromMsg_Quaternion (orientation p)) (fromMsg_xyz (position p)))) with (XF A v).
  cbv zeta. cbn [xorigin position orientation]. unfold xgetRotation. cbn [xbasis].
  assert (Eq : fromMsg_Quaternion (toMsg_Quaternion (mgetRotation A)) = mgetRotation A) by (destruct (mgetRotation A); reflexivity).
  assert (Ev : fromMsg_xyz (toMsg_Vector3 v) = v) by (destruct v; reflexivity).
  unfold pose_finite, turns_like, pose_pos. cbn [orientation position]. rewrite Eq. split; [split; [exact Fr|]|].
  - clear - Fv. destruct v. exact Fv.
  - split.
    + split; [exact Fr|]. exists r. rewrite unit_is; [split; [exact Sr|exact Dr]|]. unfold pose_rot. rewrite qnorm_mul. apply Rmult_lt_0_compat; [|unfold pose_rot in Ho]; lra.
    + clear - Dv. destruct v as [a b c]. exact Dv.
Qed.

(** ** Many transforms *)
Lemma rot_after_norm : forall (Ts : list fT) q, Forall (fun T => 0 < qnorm (rot_val T)) Ts -> 0 < qnorm q -> 0 < qnorm (rot_after Ts q).
Proof. induction Ts as [|T Ts IH]; intros q H Hq; cbn [rot_after]; [exact Hq|]. inversion H; subst. apply IH; [assumption|]. rewrite qnorm_mul. apply Rmult_lt_0_compat; assumption. Qed.

(** one more step from an orientation already near its exact value *)
Lemma turns_norm : forall (q : gquat (F64 lm)) r d, 0 < qnorm r -> turns_like q r d -> 1 - d <= qnorm (qval (fromMsg_Quaternion q)) <= 1 + d.
Proof.
  intros q r d Hr (_ & r' & Sr & D). pose proof (same_norm _ _ Sr) as N. rewrite unit_norm in N by exact Hr.
  pose proof (qnorm_dist (qval (fromMsg_Quaternion q)) r') as D1. pose proof (qnorm_dist r' (qval (fromMsg_Quaternion q))) as D2. rewrite qdist_sym in D2. lra.
Qed.
Lemma turn_step : forall (T : fT) (q q' : gquat (F64 lm)) (e : quat RS) d, 0 < qnorm (rot_val T) -> 0 < qnorm e -> 0 <= d -> 1 - 251 * u <= qnorm (qval (fromMsg_Quaternion q)) ->
  turns_like q e d -> turns_like q' (qmul (rot_val T) (qval (fromMsg_Quaternion q))) (251 * u) -> turns_like q' (qmul (rot_val T) e) ((1 + 127 * u) * d + 251 * u).
Proof.
  intros T q q' e d HT He Hd Hq (_ & r & Sr & Dr) (Fq' & r' & Sr' & Dr'). split; [exact Fq'|]. pose proof uro_pos as U.
  set (a := qval (fromMsg_Quaternion q)) in *. assert (A0 : 0 < qnorm a) by (rewrite uro_val in *; lra).
  pose proof (same_norm _ _ Sr) as Nr. rewrite unit_norm in Nr by exact He. pose proof (unit_closer a r Hq Nr) as C.
  assert (C2 : qdist (unit_of a) r <= (1 + 127 * u) * d) by (eapply Rle_trans; [exact C|]; apply Rmult_le_compat_l; lra).
  rewrite unit_mul in Sr' by assumption. rewrite unit_mul by assumption.
  assert (C3 : qdist (qmul (unit_of (rot_val T)) (unit_of a)) (qmul (unit_of (rot_val T)) r) <= (1 + 127 * u) * d) by (rewrite qdist_mul_r, unit_norm, Rmult_1_l by exact HT; exact C2).
  set (x := qmul (unit_of (rot_val T)) (unit_of a)) in *. set (y := qmul (unit_of (rot_val T)) r) in *.
  assert (Sy : same_rotation y (qmul (unit_of (rot_val T)) (unit_of e))) by (apply same_mul; exact Sr).
  destruct Sr' as [-> | ->].
  - exists y. split; [exact Sy|]. eapply Rle_trans; [apply (qdist_triangle _ x)|]. lra.
  - exists (qneg y). split; [apply same_neg, Sy|]. eapply Rle_trans; [apply (qdist_triangle _ (qneg x))|]. rewrite qdist_neg. lra.
Qed.

Lemma turned_add : forall (q : quat RS) v w, 0 < qnorm q -> vdist (turned q v) (turned q w) = vdist v w.
Proof.
  intros q v w Hq. rewrite !turned_rotate by exact Hq. set (k := qnormalized q). assert (K : qnorm k = 1) by (apply qnormalized_norm, Hq). clearbody k.
  rewrite vdist_sub. replace (vsub (quatRotate k v) (quatRotate k w)) with (quatRotate k (vsub v w)).
  - rewrite vnorm_rotate, K, vdist_sub. ring.
  - destruct k as [x y z s], v as [a b c], w as [a' b' c']. unfold quatRotate, vsub, qmul, qmulv, qinv. cbn [qx qy qz qw vx vy vz]. runf. f_equal; cbn [RS scar]; ring.
Qed.
Lemma vdist_shift : forall a b c : vec3 RS, vdist (rplus a c) (rplus b c) = vdist a b.
Proof. intros [a1 a2 a3] [b1 b2 b3] [c1 c2 c3]. unfold vdist, vnorm, rplus. cbn [vx vy vz]. cbn [RS scar]. f_equal. ring. Qed.

(** the state after [k] of the transforms: orientation [q], position [v] exact; [m] more to come *)
Definition on_course (L : R) (k : nat) (p : fp) (q : quat RS) (v : vec3 RS) : Prop :=
  pose_finite p /\ 0 < qnorm q /\ 
  ((k = 0%nat /\ pose_rot p = q /\ 1 / 2 <= qnorm q <= 2) \/ (turns_like (orientation p) q (252 * INR k * u) /\ 1 - 251 * u <= qnorm (pose_rot p) <= 1 + 251 * u)) /\
  vnorm v <= (INR k + 1) * L /\ vdist (pose_pos p) v <= 31 * (INR k * (INR k + 1)) * u * L.

Lemma course_step : forall L k (T : fT) p q v, / IZR (2 ^ 900) <= L <= IZR (2 ^ 979) -> INR k <= 1048576 -> fair L T -> on_course L k p q v ->
  on_course L (S k) (pose_by T p) (qmul (rot_val T) q) (rplus (turned (rot_val T) v) (xyz_val (shift_of T))).
Proof.
  intros L k T p q v (HL1 & HL2) Hk (Fr & Hr & Fs & Hs) (Fp & Hq & Ho & Hv & Hd). pose proof uro_pos as U. pose proof (pos_INR k) as K0.
  assert (L0 : 0 < L) by (eapply Rlt_le_trans; [|exact HL1]; apply Rinv_0_lt_compat, IZR_lt; reflexivity).
  set (K := INR k) in *.
  assert (Kk : 0 <= K * (K + 1) <= 1048576 * (K + 1)) by (split; [apply Rmult_le_pos; lra|apply Rmult_le_compat_r; lra]).
  assert (KL : 0 <= (K + 1) * L <= 1048577 * L) by (split; [apply Rmult_le_pos; lra|apply Rmult_le_compat_r; lra]).
  assert (Er : 31 * (K * (K + 1)) * u * L <= (K + 1) * L / 1000).
  { replace (31 * (K * (K + 1)) * u * L) with ((31 * u * L) * (K * (K + 1))) by ring. apply Rle_trans with ((31 * u * L) * (1048576 * (K + 1))); [apply Rmult_le_compat_l; [repeat apply Rmult_le_pos; lra|lra]|].
    replace (31 * u * L * (1048576 * (K + 1))) with ((31 * 1048576 * u) * ((K + 1) * L)) by ring. unfold Rdiv. rewrite (Rmult_comm ((K + 1) * L)). apply Rmult_le_compat_r; [lra|]. rewrite uro_val. lra. }
  pose proof (vnorm_dist (pose_pos p) v) as Np.
  assert (Np2 : vnorm (pose_pos p) <= 1001 / 1000 * ((K + 1) * L)) by lra.
  assert (BG : 1048577 * L * 2 <= big / 8).
  { apply Rle_trans with (4194304 * IZR (2 ^ 979)); [lra|]. unfold big. apply (Rmult_le_reg_l 8); [lra|]. replace (8 * (IZR (2 ^ 1023) / 8)) with (IZR (2 ^ 1023)) by field. rewrite <- !mult_IZR. apply IZR_le. intros C; discriminate C. }
  assert (Hp : 1 / 2 <= qnorm (pose_rot p) <= 2). { destruct Ho as [(_ & -> & H)|(_ & H)]; [exact H|]. rewrite uro_val in *. lra. }
  destruct (pose_one T p Fr Hr Fs Fp Hp ltac:(lra) ltac:(lra)) as (F' & T' & D').
  assert (Q' : 0 < qnorm (rot_val T)) by lra.
  assert (N' : 1 - 251 * u <= qnorm (pose_rot (pose_by T p)) <= 1 + 251 * u) by (apply (turns_norm _ (qmul (rot_val T) (pose_rot p))); [rewrite qnorm_mul; apply Rmult_lt_0_compat; lra|exact T']).
  assert (EK : INR (S k) = K + 1) by apply S_INR. unfold on_course. rewrite EK.
  split; [exact F'|]. split; [rewrite qnorm_mul; apply Rmult_lt_0_compat; assumption|]. split; [|split].
  - right. split; [|exact N']. destruct Ho as [(E0 & Eq & _)|(To & Hn)].
    + destruct T' as (A & r & B & C). rewrite Eq in B. split; [exact A|]. exists r. split; [exact B|]. eapply Rle_trans; [exact C|]. assert (0 <= K * u) by (apply Rmult_le_pos; lra). lra.
    + assert (KU : 0 <= K * u) by (apply Rmult_le_pos; lra).
      destruct (turn_step T (orientation p) _ q (252 * K * u) Q' Hq ltac:(lra) (proj1 Hn) To T') as (A & r & B & C). split; [exact A|]. exists r. split; [exact B|]. eapply Rle_trans; [exact C|].
      assert (127 * u * (252 * K * u) <= u). { replace (127 * u * (252 * K * u)) with (u * (127 * 252 * (K * u))) by ring. rewrite <- (Rmult_1_r u) at 3. apply Rmult_le_compat_l; [lra|]. assert (K * u <= 1048576 * u) by (apply Rmult_le_compat_r; lra). rewrite uro_val in *. lra. }
      lra.
  - rewrite <- vadd_rplus. eapply Rle_trans; [apply vnorm_add|]. rewrite turned_norm by exact Q'. lra.
  - eapply Rle_trans; [apply (vdist_triangle _ (rplus (turned (rot_val T) (pose_pos p)) (xyz_val (shift_of T))))|]. rewrite vdist_shift, turned_add by exact Q'.
    assert (UL : 0 <= u * L) by (apply Rmult_le_pos; lra). assert (UKL : 0 <= u * ((K + 1) * L)) by (apply Rmult_le_pos; lra).
    assert (E1 : u * vnorm (pose_pos p) <= u * (1001 / 1000 * ((K + 1) * L))) by (apply Rmult_le_compat_l; lra).
    assert (E2 : u * vnorm (xyz_val (shift_of T)) <= u * L) by (apply Rmult_le_compat_l; lra).
    pose proof (eta_L L HL1) as E3.
    assert (E4 : u * L <= u * ((K + 1) * L)) by (apply Rmult_le_compat_l; [lra|]; rewrite <- (Rmult_1_l L) at 1; apply Rmult_le_compat_r; lra).
    replace (31 * ((K + 1) * (K + 1 + 1)) * u * L) with (31 * (K * (K + 1)) * u * L + 62 * (u * ((K + 1) * L))) by ring. lra.
Qed.
Lemma course_run : forall L (Ts : list fT), / IZR (2 ^ 900) <= L <= IZR (2 ^ 979) -> Forall (fair L) Ts -> forall k p q v, INR (k + List.length Ts) <= 1048576 -> on_course L k p q v ->
  on_course L (k + List.length Ts) (fold_left (fun p T => pose_by T p) Ts p) (rot_after Ts q) (pos_after Ts v).
Proof.
  intros L Ts HL F. induction F as [|T Ts HT F IH]; intros k p q v HN C; cbn [List.length fold_left rot_after pos_after] in *; [rewrite Nat.add_0_r; exact C|].
  replace (k + S (List.length Ts))%nat with (S k + List.length Ts)%nat in * by lia. apply IH; [exact HN|]. apply course_step; try assumption.
  eapply Rle_trans; [apply le_INR|exact HN]. lia.
Qed.
Lemma rot_after_neq : forall Ts : list fT, Ts <> [] -> List.length Ts <> 0%nat.
Proof. intros [|T Ts] H; [contradiction|discriminate]. Qed.
Theorem carried : forall L (Ts : list fT) (p : fp), Ts <> [] -> INR (List.length Ts) <= 1048576 -> / IZR (2 ^ 900) <= L <= IZR (2 ^ 979) -> Forall (fair L) Ts ->
  pose_finite p -> 1 / 2 <= qnorm (pose_rot p) <= 2 -> vnorm (pose_pos p) <= L ->
  let N := INR (List.length Ts) in let out := fold_left (fun p T => pose_by T p) Ts p in
  pose_finite out /\ turns_like (orientation out) (rot_after Ts (pose_rot p)) (252 * N * u) /\ Rabs (qnorm (pose_rot out) - 1) <= 251 * u /\
  vdist (pose_pos out) (pos_after Ts (pose_pos p)) <= 31 * (N * (N + 1)) * u * L.
Proof.
  intros L Ts p Ne HN HL F Fp Hq Hp N out. destruct (course_run L Ts HL F 0%nat p (pose_rot p) (pose_pos p) HN) as (A & B & C & D & E).
  - split; [exact Fp|]. split; [lra|]. split; [left; repeat split; try reflexivity; apply Hq|]. cbn [INR]. split; [lra|]. rewrite vdist_self. lra.
  - cbn [Nat.add] in *. split; [exact A|]. destruct C as [(C & _)|(C1 & C2)]; [exfalso; exact (rot_after_neq Ts Ne C)|]. split; [exact C1|]. split; [|exact E]. fold out in C2. destruct C2. apply Rabs_le. lra.
Qed.
End P.
