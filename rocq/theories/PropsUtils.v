(** * C98: tf2/utils.h *)
From Coq Require Import ZArith Bool Reals String List Floats.SpecFloat Lia Lra.
From Verif Require Import RosTime Scalar Instances LinearMath SpecReal SpecRound FloatErr RealSlerp RealMatrix RealEuler GeomMsgs ForeignGeom Utils.
Import ListNotations.
Open Scope R_scope.

(** the four numbers in the object *)
Definition holds {S : Scalar} (a : oriented S) (x y z w : S) : Prop :=
  match a with
  | OQuaternion q | OEigen q => qx q = x /\ qy q = y /\ qz q = z /\ qw q = w
  | OMessage g => gqx g = x /\ gqy g = y /\ gqz g = z /\ gqw g = w
  | OStampedMessage m => gqx (m_data m) = x /\ gqy (m_data m) = y /\ gqz (m_data m) = z /\ gqw (m_data m) = w
  | OStamped k | OEigenStamped k => qx (k_data k) = x /\ qy (k_data k) = y /\ qz (k_data k) = z /\ qw (k_data k) = w
  end.
Lemma holds_eq : forall (S : Scalar) (a : oriented S) x y z w, holds a x y z w -> toQuaternion a = Q4 x y z w.
Proof.
  intros S a x y z w H. destruct a as [[a1 a2 a3 a4]|[a1 a2 a3 a4]|[h [a1 a2 a3 a4]]|[[a1 a2 a3 a4] s f]|[a1 a2 a3 a4]|[[a1 a2 a3 a4] s f]]; cbn [holds qx qy qz qw gqx gqy gqz gqw m_data k_data] in H; destruct H as (-> & -> & -> & ->); reflexivity.
Qed.

(** The angles depend on the four numbers only: not on the type, the stamp or the frame; getYaw is the first. *)
Theorem C98_same_for_every_type : forall (S : Scalar) (a b : oriented S) x y z w, holds a x y z w -> holds b x y z w ->
  getEulerYPR_of a = getEulerYPR_of b /\ getYaw_of a = getYaw_of b /\ getYaw_of a = fst (fst (getEulerYPR_of a)).
Proof.
  intros S a b x y z w Ha Hb. unfold getEulerYPR_of, getYaw_of. rewrite (holds_eq _ _ _ _ _ _ Ha), (holds_eq _ _ _ _ _ _ Hb).
  split; [reflexivity|]. split; [reflexivity|]. apply ugetYaw_eq.
Qed.
Print Assumptions C98_same_for_every_type.

(** They give the rotation back, unless the pitch is within 0.26 degrees of straight up or down. *)
Theorem C98_rotation : forall (a : oriented RS) (x y z w : R), holds a x y z w -> x * x + y * y + z * z + w * w <> 0 ->
  - (99999 / 100000) < 2 * (w * y - x * z) / (x * x + y * y + z * z + w * w) < 99999 / 100000 ->
  of_ypr (getEulerYPR_of a) = mfromQuat (@Q4 RS x y z w).
Proof.
  intros a x y z w H N P. unfold getEulerYPR_of. rewrite (holds_eq _ _ _ _ _ _ H). apply ugetEuler_correct_iff; [exact N|]. left. exact P.
Qed.
Print Assumptions C98_rotation.

(** A rotation about the z axis by t, whatever the length and sign of the quaternion: yaw t, pitch 0, roll 0. *)
Theorem C98_planar : forall (a : oriented RS) (k t : R), k <> 0 -> - PI < t <= PI -> holds a 0 0 (k * sin (t / 2)) (k * cos (t / 2)) ->
  getEulerYPR_of a = (t, 0, 0) /\ getYaw_of a = t.
Proof.
  intros a k t K T H. unfold getYaw_of. rewrite ugetYaw_eq. unfold getEulerYPR_of. rewrite (holds_eq _ _ _ _ _ _ H).
  pose proof (sin2_cos2 (t / 2)) as P. unfold Rsqr in P. set (s := sin (t / 2)) in *. set (c := cos (t / 2)) in *.
  assert (K2 : 0 < k * k) by nra.
  assert (N : nonzero (@Q4 RS 0 0 (k * s) (k * c))). { unfold nonzero. cbn [qx qy qz qw RS scar]. replace (0 * 0 + 0 * 0 + k * s * (k * s) + k * c * (k * c)) with (k * k * (s * s + c * c)) by ring. rewrite P. lra. }
  assert (SP : sin_pitch (@Q4 RS 0 0 (k * s) (k * c)) = 0). { unfold sin_pitch. cbn [qx qy qz qw RS scar]. unfold Rdiv. replace (2 * (k * c * 0 - 0 * (k * s))) with 0 by ring. apply Rmult_0_l. }
  unfold ugetEulerYPR. cbn [qx qy qz qw]. runf. rewrite sarg_eq by exact N. rewrite SP.
  replace (Rltb 0 (-99999 / 100000)) with false by (symmetry; apply Rltb_false; lra).
  replace (Reqb (-99999 / 100000) 0) with false by (symmetry; apply Reqb_false; lra).
  replace (Rltb (99999 / 100000) 0) with false by (symmetry; apply Rltb_false; lra).
  replace (Reqb 0 (99999 / 100000)) with false by (symmetry; apply Reqb_false; lra). cbn [orb].
  assert (D : sin t = 2 * s * c /\ cos t = c * c - s * s). { unfold s, c. split; [rewrite <- sin_2a|rewrite <- cos_2a]; f_equal; field. }
  destruct D as (D1 & D2).
  replace (2 / 1 * (0 * 0 + k * c * (k * s))) with (k * k * sin t) by (rewrite D1; field).
  replace (k * c * (k * c) + 0 * 0 - 0 * 0 - k * s * (k * s)) with (k * k * cos t) by (rewrite D2; ring).
  rewrite atan2_angle by assumption. rewrite asin_0.
  assert (Z0 : Ratan2 (2 / 1 * (0 * (k * s) + k * c * 0)) (k * c * (k * c) - 0 * 0 - 0 * 0 + k * s * (k * s)) = 0).
  { transitivity (Ratan2 ((k * k) * sin 0) ((k * k) * cos 0)); [|apply atan2_angle; [pose proof PI_RGT_0; lra|exact K2]]. rewrite sin_0, cos_0.
    replace (2 / 1 * (0 * (k * s) + k * c * 0)) with (k * k * 0) by field.
    replace (k * c * (k * c) - 0 * 0 - 0 * 0 + k * s * (k * s)) with (k * k * (s * s + c * c)) by ring. rewrite P. reflexivity. }
  rewrite Z0. split; reflexivity.
Qed.
Print Assumptions C98_planar.

(** The length does not matter. *)
Theorem C98_length : forall (a b : oriented RS) (x y z w k : R), 0 < k -> holds a x y z w -> holds b (k * x) (k * y) (k * z) (k * w) -> getEulerYPR_of b = getEulerYPR_of a.
Proof.
  intros a b x y z w k K Ha Hb. unfold getEulerYPR_of. rewrite (holds_eq _ _ _ _ _ _ Ha), (holds_eq _ _ _ _ _ _ Hb).
  assert (K2 : 0 < k * k) by nra. unfold ugetEulerYPR. cbn [qx qy qz qw]. runf.
  assert (E : -2 / 1 * (k * x * (k * z) - k * w * (k * y)) / (k * x * (k * x) + k * y * (k * y) + k * z * (k * z) + k * w * (k * w)) = -2 / 1 * (x * z - w * y) / (x * x + y * y + z * z + w * w)).
  { replace (k * x * (k * x) + k * y * (k * y) + k * z * (k * z) + k * w * (k * w)) with ((k * k) * (x * x + y * y + z * z + w * w)) by ring.
    replace (-2 / 1 * (k * x * (k * z) - k * w * (k * y))) with ((k * k) * (-2 / 1 * (x * z - w * y))) by ring.
    destruct (Req_dec (x * x + y * y + z * z + w * w) 0) as [Z|Z].
    - rewrite Z, Rmult_0_r. assert (x = 0 /\ y = 0 /\ z = 0 /\ w = 0) as (-> & -> & -> & ->) by (repeat split; nra). unfold Rdiv. ring.
    - field. split; [exact Z|lra]. }
  rewrite E. set (sp := -2 / 1 * (x * z - w * y) / (x * x + y * y + z * z + w * w)).
  replace (Ratan2 (k * y) (k * x)) with (Ratan2 y x) by (rewrite (Rmult_comm k y), (Rmult_comm k x); symmetry; apply atan2_scale, K).
  replace (2 / 1 * (k * x * (k * y) + k * w * (k * z))) with (2 / 1 * (x * y + w * z) * (k * k)) by ring.
  replace (k * w * (k * w) + k * x * (k * x) - k * y * (k * y) - k * z * (k * z)) with ((w * w + x * x - y * y - z * z) * (k * k)) by ring.
  replace (2 / 1 * (k * y * (k * z) + k * w * (k * x))) with (2 / 1 * (y * z + w * x) * (k * k)) by ring.
  replace (k * w * (k * w) - k * x * (k * x) - k * y * (k * y) + k * z * (k * z)) with ((w * w - x * x - y * y + z * z) * (k * k)) by ring.
  rewrite !(atan2_scale (k * k)) by exact K2. reflexivity.
Qed.
Print Assumptions C98_length.

(** ** the identity, in doubles *)
Open Scope Z_scope.
Lemma identity_numbers : forall lm : libm,
  let g := @identity_message (F64 lm) in
  gx (translation g) = S754_zero false /\ gy (translation g) = S754_zero false /\ gz (translation g) = S754_zero false /\
  gqx (g_rotation g) = S754_zero false /\ gqy (g_rotation g) = S754_zero false /\ gqz (g_rotation g) = S754_zero false /\ gqw (g_rotation g) = f64_of_Z 1.
Proof. intros lm g. repeat split; vm_compute; reflexivity. Qed.
Lemma identity_basis : forall lm : libm,
  let t := @fromMsg_Transform (F64 lm) identity_message in
  (vx (m0 (xbasis t)) = f64_of_Z 1 /\ vy (m1 (xbasis t)) = f64_of_Z 1 /\ vz (m2 (xbasis t)) = f64_of_Z 1) /\
  (vy (m0 (xbasis t)) = S754_zero false /\ vz (m0 (xbasis t)) = S754_zero false /\ vx (m1 (xbasis t)) = S754_zero false /\
   vz (m1 (xbasis t)) = S754_zero false /\ vx (m2 (xbasis t)) = S754_zero false /\ vy (m2 (xbasis t)) = S754_zero false) /\
  (vx (xorigin t) = S754_zero false /\ vy (xorigin t) = S754_zero false /\ vz (xorigin t) = S754_zero false).
Proof. intros lm t. repeat split; vm_compute; reflexivity. Qed.
Open Scope R_scope.
Lemma val_one : val (f64_of_Z 1) = 1.
Proof. change (f64_of_Z 1) with (S754_finite false 4503599627370496 (-52)). cbn [val]. change (powerRZ 2 (-52)) with (/ 2 ^ 52). rewrite (pow_IZR 2 52). change (2 ^ Z.of_nat 52)%Z with 4503599627370496%Z. field. Qed.
(** a double that stands for [r] *)
Definition is (x : f64) (r : R) : Prop := finite x /\ val x = r.
Lemma is_times1 : forall x, finite x -> Rabs (val x) <= big -> is (SFmul prec64 emax64 (f64_of_Z 1) x) (val x).
Proof.
  intros x F B. destruct (fmul_ok (f64_of_Z 1) x) as (F' & V); [vm_compute; reflexivity|exact F|rewrite val_one, Rmult_1_l; exact B|].
  split; [exact F'|]. rewrite V, val_one, Rmult_1_l. apply rnd_val, F.
Qed.
Lemma is_times0 : forall x, finite x -> is (SFmul prec64 emax64 (S754_zero false) x) 0.
Proof. intros x F. destruct x as [s|s| |s m e]; try contradiction; split; try exact I; reflexivity. Qed.
Lemma big_pos : 0 <= big. Proof. apply IZR_le. apply Z.pow_nonneg. discriminate. Qed.
Lemma is_plus : forall x y r s, is x r -> is y s -> r = 0 \/ s = 0 -> Rabs (r + s) <= big -> is (SFadd prec64 emax64 x y) (r + s).
Proof.
  intros x y r s (Fx & <-) (Fy & <-) Z B. destruct (fadd_ok x y Fx Fy B) as (F & V). split; [exact F|]. rewrite V.
  destruct Z as [Z|Z]; rewrite Z; [rewrite Rplus_0_l; apply rnd_val, Fy|rewrite Rplus_0_r; apply rnd_val, Fx].
Qed.
(** getTransformIdentity is the identity to the last bit, and transforming a point or a vector by it changes no number. *)
Theorem C98_identity : forall (lm : libm) (T : gtstamped (F64 lm)), t_transform T = identity_message ->
  (let g := t_transform T in gx (translation g) = S754_zero false /\ gy (translation g) = S754_zero false /\ gz (translation g) = S754_zero false /\
    gqx (g_rotation g) = S754_zero false /\ gqy (g_rotation g) = S754_zero false /\ gqz (g_rotation g) = S754_zero false /\ gqw (g_rotation g) = f64_of_Z 1) /\
  forall (i o : nat) (m : mem (gxyz (F64 lm))) (p : gxyz (F64 lm)), m i = p ->
    (finite (gx p) /\ finite (gy p) /\ finite (gz p)) -> (Rabs (val (gx p)) <= IZR (2 ^ 1023) /\ Rabs (val (gy p)) <= IZR (2 ^ 1023) /\ Rabs (val (gz p)) <= IZR (2 ^ 1023)) ->
    forall m', m' = doTransform_Point (const_ref T) (at_loc i) (at_loc o) m \/ m' = doTransform_Vector3 (const_ref T) (at_loc i) (at_loc o) m ->
    (finite (gx (m' o)) /\ finite (gy (m' o)) /\ finite (gz (m' o))) /\ val (gx (m' o)) = val (gx p) /\ val (gy (m' o)) = val (gy p) /\ val (gz (m' o)) = val (gz p).
Proof.
  intros lm T E. split; [rewrite E; apply identity_numbers|]. intros i o m p Ep (F1 & F2 & F3) (B1 & B2 & B3) m' M.
  destruct (identity_basis lm) as ((D0 & D1 & D2) & (N1 & N2 & N3 & N4 & N5 & N6) & (O1 & O2 & O3)).
  set (t := @fromMsg_Transform (F64 lm) identity_message) in *. pose proof big_pos as BP. change (IZR (2 ^ 1023)) with big in *.
  assert (Z0 : is (S754_zero false) 0) by (split; [exact I|reflexivity]).
  set (v := @fromMsg_xyz (F64 lm) p) in *.
  assert (V1 : is (vdot (m0 (xbasis t)) v) (val (gx p))).
  { unfold vdot. rewrite D0, N1, N2. replace (val (gx p)) with (val (gx p) + 0 + 0) by ring.
    apply is_plus; [apply is_plus; [apply is_times1; assumption|apply is_times0; exact F2|right; reflexivity|rewrite Rplus_0_r; exact B1]|apply is_times0; exact F3|right; reflexivity|rewrite !Rplus_0_r; exact B1]. }
  assert (V2 : is (vdot (m1 (xbasis t)) v) (val (gy p))).
  { unfold vdot. rewrite D1, N3, N4. replace (val (gy p)) with (0 + val (gy p) + 0) by ring.
    apply is_plus; [apply is_plus; [apply is_times0; exact F1|apply is_times1; assumption|left; reflexivity|rewrite Rplus_0_l; exact B2]|apply is_times0; exact F3|right; reflexivity|rewrite Rplus_0_r, Rplus_0_l; exact B2]. }
  assert (V3' : is (vdot (m2 (xbasis t)) v) (val (gz p))).
  { unfold vdot. rewrite D2, N5, N6. replace (val (gz p)) with (0 + 0 + val (gz p)) by ring.
    apply is_plus; [apply is_plus; [apply is_times0; exact F1|apply is_times0; exact F2|left; reflexivity|rewrite Rplus_0_l, Rabs_R0; exact BP]|apply is_times1; assumption|left; ring|rewrite !Rplus_0_l; exact B3]. }
  destruct M as [-> | ->].
  - unfold doTransform_Point, toMsg_Point. cbn [rd const_ref]. rewrite E. fold t. cbn [rd at_loc]. rewrite Ep. fold v. unfold r_x, r_y, r_z, member. cbn [rd wr at_loc]. rewrite !Nat.eqb_refl. cbn [gx gy gz xapply vx vy vz].
    assert (P : forall x r, is x r -> Rabs r <= big -> is (SFadd prec64 emax64 x (S754_zero false)) r) by (intros x r H1 H2; rewrite <- (Rplus_0_r r); apply is_plus; [exact H1|exact Z0|right; reflexivity|rewrite Rplus_0_r; exact H2]).
    rewrite O1, O2, O3. destruct (P _ _ V1 B1) as (G1 & W1). destruct (P _ _ V2 B2) as (G2 & W2). destruct (P _ _ V3' B3) as (G3 & W3). split; [split; [exact G1|split; [exact G2|exact G3]]|]. split; [exact W1|split; [exact W2|exact W3]].
  - unfold doTransform_Vector3. cbn [rd const_ref]. rewrite E. fold t. cbn [rd at_loc]. rewrite Ep. change (@V3 (F64 lm) (gx p) (gy p) (gz p)) with v. unfold r_x, r_y, r_z, member. cbn [rd wr at_loc]. rewrite !Nat.eqb_refl. cbn [gx gy gz mmulv vx vy vz].
    destruct V1 as (G1 & W1). destruct V2 as (G2 & W2). destruct V3' as (G3 & W3). split; [split; [exact G1|split; [exact G2|exact G3]]|]. split; [exact W1|split; [exact W2|exact W3]].
Qed.
Print Assumptions C98_identity.

(** concrete cases *)
Example C98_example :
  (let a := @OStamped RS (mkTf2stamped (@Q4 RS 0 0 (2 * sin (PI / 2 / 2)) (2 * cos (PI / 2 / 2))) 5%Z "base"%string) in holds a 0 0 (2 * sin (PI / 2 / 2)) (2 * cos (PI / 2 / 2)) /\ getYaw_of a = PI / 2) /\
  (holds (@OStampedMessage RS (mkMstamped header0 (@mkGquat RS 1 1 1 1))) 1 1 1 1 /\ 1 * 1 + 1 * 1 + 1 * 1 + 1 * 1 <> 0 /\ - (99999 / 100000) < 2 * (1 * 1 - 1 * 1) / (1 * 1 + 1 * 1 + 1 * 1 + 1 * 1) < 99999 / 100000) /\
  (finite (f64_of_Z 7) /\ Rabs (val (f64_of_Z 1)) <= IZR (2 ^ 1023)).
Proof.
  split; [|split].
  - intros a. assert (H : holds a 0 0 (2 * sin (PI / 2 / 2)) (2 * cos (PI / 2 / 2))) by (repeat split). split; [exact H|]. apply (C98_planar a 2 (PI / 2)); [lra|pose proof PI_RGT_0; lra|exact H].
  - split; [repeat split|]. lra.
  - split; [vm_compute; reflexivity|]. rewrite val_one, Rabs_R1. apply IZR_le. change 1%Z with (2 ^ 0)%Z. apply Z.pow_le_mono_r; lia.
Qed.
