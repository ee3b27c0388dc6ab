(** * Properties C93: point clouds in binary32 *)
From Coq Require Import ZArith Bool Reals Floats.SpecFloat List String Lia Lra.
From Flocq Require Import Raux.
From Verif Require Import RosTime Scalar LinearMath Instances GeomMsgs SpecGeom SpecReal RealSlerp RealQuat RealMatrix ForeignGeom SensorMsgs SpecCloud PropsCloud SpecRound SpecApply RoundNorm RoundApply RoundPoint
  Single SpecSingle SingleErr SingleOps RoundCloud ExampleBuffers ExampleRound.
Import SingleOps.
Import ListNotations.
Open Scope R_scope.
Open Scope list_scope.

(** ** Vocabulary: the cloud's data are bytes, the coordinates little-endian IEEE binary32 *)
Definition coordinate (c : cloud Z) (k o : nat) : f32 := dec32 (bytes c k o).
(** neither an infinity nor a NaN (how invalid points are marked) *)
Definition valid_point (c : cloud Z) (k ox oy oz : nat) : Prop :=
  finite32 (coordinate c k ox) /\ finite32 (coordinate c k oy) /\ finite32 (coordinate c k oz).
Definition point_val (c : cloud Z) (k ox oy oz : nat) : vec3 RS :=
  @V3 RS (val (coordinate c k ox)) (val (coordinate c k oy)) (val (coordinate c k oz)).
Definition abs_sum (v : vec3 RS) : R := Rabs (vx v) + Rabs (vy v) + Rabs (vz v).

Lemma enc_len : forall x, List.length (enc32 x) = 4%nat.
Proof. reflexivity. Qed.

(** ** C93 *)
(** Every valid point of a transformed cloud is, in each coordinate, within 16 roundings to float of
    the point's |x| + |y| + |z| and about two of the translation's coordinate of the exact image.
    The code does not normalise the quaternion: [d] is how far its squared length is from 1.
    [i] and [o] may be the same object. *)
Theorem C93_cloud_accuracy :
  forall lm lm' (T : gtstamped (F64 lm)) (m : mem (cloud Z)) i o n ox oy oz d,
  layout (m i) n ox oy oz -> rot_finite T -> xyz_finite (shift_of T) ->
  Rabs (qnorm (rot_val T) * qnorm (rot_val T) - 1) <= d -> d <= 1 / 100 ->
  let t := xyz_val (shift_of T) in
  Rabs (vx t) <= IZR (2 ^ 100) -> Rabs (vy t) <= IZR (2 ^ 100) -> Rabs (vz t) <= IZR (2 ^ 100) ->
  exists m', doTransform_PointCloud2 (D := F64 lm) (F := F32 lm') narrow32 dec32 enc32 (at_loc i) (at_loc o) T m = Done m' /\
    forall k, (k < n)%nat -> valid_point (m i) k ox oy oz ->
      let p := point_val (m i) k ox oy oz in let p' := point_val (m' o) k ox oy oz in
      let image := rplus (turned (rot_val T) p) t in
      abs_sum p <= IZR (2 ^ 100) ->
      valid_point (m' o) k ox oy oz /\
      Rabs (vx p' - vx image) <= (16 * u32 + 21 / 10 * d) * abs_sum p + 21 / 10 * u32 * Rabs (vx t) + 8 * eta32 /\
      Rabs (vy p' - vy image) <= (16 * u32 + 21 / 10 * d) * abs_sum p + 21 / 10 * u32 * Rabs (vy t) + 8 * eta32 /\
      Rabs (vz p' - vz image) <= (16 * u32 + 21 / 10 * d) * abs_sum p + 21 / 10 * u32 * Rabs (vz t) + 8 * eta32.
Proof.
  intros lm lm' T m i o n ox oy oz d L Fq Ft Hd Hd2 t Tx Ty Tz.
  destruct (C55_every_point_and_nothing_else Z (F64 lm) (F32 lm') narrow32 dec32 enc32 T m i o n ox oy oz enc_len L) as (m' & E & _ & _ & P & _).
  exists m'. split; [exact E|]. intros k Hk (Va & Vb & Vc). cbv zeta. intros HS. destruct (P k Hk) as (Px & Py & Pz). clear P E.
  unfold valid_point, point_val, coordinate in *. rewrite Px, Py, Pz. clear Px Py Pz.
  set (a := dec32 (bytes (m i) k ox)) in *. set (b := dec32 (bytes (m i) k oy)) in *. set (c := dec32 (bytes (m i) k oz)) in *. clearbody a b c.
  assert (N0 : nonzero (rot_val T)).
  { apply nonzero_norm. pose proof (Rabs_pos (qnorm (rot_val T) * qnorm (rot_val T) - 1)) as D0. apply Rabs_le_inv in Hd. pose proof (RoundNorm.qnorm_pos (rot_val T)) as Q0. apply Rnot_le_lt. intros C. nra. }
  rewrite turned_matrix by exact N0. rewrite qnorm_sq in Hd.
  unfold t, shift_of in *. destruct T as [h ch [[t1 t2 t3] [x y z w]]]. destruct Fq as (Fx & Fy & Fz & Fw). destruct Ft as (F1 & F2 & F3).
  unfold rot_val, xyz_val, abs_sum in *. cbn [t_transform g_rotation translation gqx gqy gqz gqw gx gy gz vx vy vz qx qy qz qw] in *. cbn [RS scar] in Hd.
  set (n0 := val x * val x + val y * val y + val z * val z + val w * val w) in *.
  assert (EM : mfromQuat (S := RS) (@Q4 RS (val x) (val y) (val z) (val w)) =
    @M3 RS (@V3 RS (1 - (val y * (val y * (2 / n0)) + val z * (val z * (2 / n0)))) (val y * (val x * (2 / n0)) - val z * (val w * (2 / n0))) (val z * (val x * (2 / n0)) + val y * (val w * (2 / n0))))
       (@V3 RS (val y * (val x * (2 / n0)) + val z * (val w * (2 / n0))) (1 - (val x * (val x * (2 / n0)) + val z * (val z * (2 / n0)))) (val z * (val y * (2 / n0)) - val x * (val w * (2 / n0))))
       (@V3 RS (val z * (val x * (2 / n0)) - val y * (val w * (2 / n0))) (val z * (val y * (2 / n0)) + val x * (val w * (2 / n0))) (1 - (val x * (val x * (2 / n0)) + val y * (val y * (2 / n0)))))).
  { assert (Z0 : n0 <> 0) by (intros C; unfold nonzero in N0; cbn [qx qy qz qw] in N0; cbn [RS scar] in N0; unfold n0 in C; lra).
    unfold mfromQuat, qlength2, qdot. cbn [qx qy qz qw]. runf. fold n0. apply f_equal3; apply f_equal3; cbn [RS scar]; field; exact Z0. }
  rewrite EM. clear EM.
  unfold float_transform, transformToEigen. cbn [SpecGeom.shift SpecGeom.rot t_transform g_rotation translation gqx gqy gqz gqw gx gy gz].
  rewrite eig_coords. cbn [vx vy vz]. unfold mmulv, vdot, rplus. cbn [vx vy vz m0 m1 m2]. cbn [RS scar sadd smul]. cbn [F32 sadd ssub smul scar].
  pose proof (fun a b c e Fa Fb Fc Fe E => proj1 (off_ap (lm := lm') x y z w d Hd Hd2 a b c e Fa Fb Fc Fe E)) as OP.
  pose proof (fun a b c e Fa Fb Fc Fe E => proj2 (off_ap (lm := lm') x y z w d Hd Hd2 a b c e Fa Fb Fc Fe E)) as OM.
  pose proof (dg_ap (lm := lm') x y z w d Hd Hd2) as DG. fold n0 in OP, OM, DG.
  pose proof (fun m1 m2 m3 M1 M2 M3 t K1 K2 K3 Ft => coord_ap x y z w d Hd Hd2 m1 m2 m3 M1 M2 M3 a b c t K1 K2 K3 Va Vb Vc Ft HS) as CO. cbv zeta in OP, OM, DG, CO.
  pose proof (Rle_0_sqr (val x)) as X0. pose proof (Rle_0_sqr (val y)) as Y0. pose proof (Rle_0_sqr (val z)) as Z0. pose proof (Rle_0_sqr (val w)) as W0. unfold Rsqr in *.
  pose proof (CO _ _ _ _ _ _ t1 (DG y z Fy Fz ltac:(unfold n0; lra)) (OM y x z w Fy Fx Fz Fw ltac:(unfold n0; ring)) (OP z x y w Fz Fx Fy Fw ltac:(unfold n0; ring)) F1 Tx) as Cx.
  pose proof (CO _ _ _ _ _ _ t2 (OP y x z w Fy Fx Fz Fw ltac:(unfold n0; ring)) (DG x z Fx Fz ltac:(unfold n0; lra)) (OM z y x w Fz Fy Fx Fw ltac:(unfold n0; ring)) F2 Ty) as Cy.
  pose proof (CO _ _ _ _ _ _ t3 (OM z x y w Fz Fx Fy Fw ltac:(unfold n0; ring)) (OP z y x w Fz Fy Fx Fw ltac:(unfold n0; ring)) (DG x y Fx Fy ltac:(unfold n0; lra)) F3 Tz) as Cz.
  clear OP OM DG CO. destruct Cx as (Gx & Hx). destruct Cy as (Gy & Hy). destruct Cz as (Gz & Hz).
  match type of Gx with finite32 ?e => set (rx := e) in * end. match type of Gy with finite32 ?e => set (ry := e) in * end. match type of Gz with finite32 ?e => set (rz := e) in * end.
  clearbody rx ry rz. rewrite (dec_enc rx (finite_in rx Gx)), (dec_enc ry (finite_in ry Gy)), (dec_enc rz (finite_in rz Gz)).
  split; [split; [exact Gx|split; [exact Gy|exact Gz]]|]. split; [exact Hx|split; [exact Hy|exact Hz]].
Qed.
Print Assumptions C93_cloud_accuracy.

(** Invalid points: whatever the transform, a point with an infinite or NaN coordinate has three such
    coordinates afterwards, and one with a NaN has three NaNs. *)
Definition invalid (x : f32) : Prop := x = S754_nan \/ exists s, x = S754_infinity s.
Definition is_nan (x : f32) : Prop := x = S754_nan.
Lemma mul_invalid : forall a b, invalid b -> invalid (SFmul prec32 emax32 a b).
Proof. intros a b [->|(s & ->)]; destruct a as [t|t| |t m e]; unfold invalid; cbn [SFmul]; try (left; reflexivity); right; eexists; reflexivity. Qed.
Lemma add_invalid_l : forall a b, invalid a -> invalid (SFadd prec32 emax32 a b).
Proof.
  intros a b [->|(s & ->)]; destruct b as [t|t| |t m e]; unfold invalid; cbn [SFadd]; try (left; reflexivity); try (right; eexists; reflexivity).
  destruct (Bool.eqb s t); [right; eexists; reflexivity|left; reflexivity].
Qed.
Lemma add_invalid_r : forall a b, invalid b -> invalid (SFadd prec32 emax32 a b).
Proof.
  intros a b [->|(s & ->)]; destruct a as [t|t| |t m e]; unfold invalid; cbn [SFadd]; try (left; reflexivity); try (right; eexists; reflexivity).
  destruct (Bool.eqb t s); [right; eexists; reflexivity|left; reflexivity].
Qed.
Lemma mul_nan : forall a b, is_nan b -> is_nan (SFmul prec32 emax32 a b).
Proof. intros a b ->. destruct a; reflexivity. Qed.
Lemma add_nan_l : forall a b, is_nan a -> is_nan (SFadd prec32 emax32 a b).
Proof. intros a b ->. destruct b; reflexivity. Qed.
Lemma add_nan_r : forall a b, is_nan b -> is_nan (SFadd prec32 emax32 a b).
Proof. intros a b ->. destruct a; reflexivity. Qed.
Lemma row_all : forall (P : f32 -> Prop) m1 m2 m3 a b c t,
  (forall x y, P y -> P (SFmul prec32 emax32 x y)) -> (forall x y, P x -> P (SFadd prec32 emax32 x y)) -> (forall x y, P y -> P (SFadd prec32 emax32 x y)) ->
  P a \/ P b \/ P c ->
  P (SFadd prec32 emax32 (SFadd prec32 emax32 (SFadd prec32 emax32 (SFmul prec32 emax32 m1 a) (SFmul prec32 emax32 m2 b)) (SFmul prec32 emax32 m3 c)) t).
Proof. intros P m1 m2 m3 a b c t M L R0 [H|[H|H]]; apply L; [apply L, L, M, H|apply L, R0, M, H|apply R0, M, H]. Qed.

Theorem C93_invalid_points_stay_invalid :
  forall lm lm' (T : gtstamped (F64 lm)) (m : mem (cloud Z)) i o n ox oy oz,
  layout (m i) n ox oy oz ->
  exists m', doTransform_PointCloud2 (D := F64 lm) (F := F32 lm') narrow32 dec32 enc32 (at_loc i) (at_loc o) T m = Done m' /\
    forall k, (k < n)%nat ->
      let x := coordinate (m i) k ox in let y := coordinate (m i) k oy in let z := coordinate (m i) k oz in
      let x' := coordinate (m' o) k ox in let y' := coordinate (m' o) k oy in let z' := coordinate (m' o) k oz in
      (invalid x \/ invalid y \/ invalid z -> invalid x' /\ invalid y' /\ invalid z') /\
      (is_nan x \/ is_nan y \/ is_nan z -> is_nan x' /\ is_nan y' /\ is_nan z').
Proof.
  intros lm lm' T m i o n ox oy oz L.
  destruct (C55_every_point_and_nothing_else Z (F64 lm) (F32 lm') narrow32 dec32 enc32 T m i o n ox oy oz enc_len L) as (m' & E & _ & _ & P & _).
  exists m'. split; [exact E|]. intros k Hk. cbv zeta. destruct (P k Hk) as (Px & Py & Pz). clear P E.
  unfold coordinate in *. rewrite Px, Py, Pz. clear Px Py Pz.
  set (a := dec32 (bytes (m i) k ox)) in *. set (b := dec32 (bytes (m i) k oy)) in *. set (c := dec32 (bytes (m i) k oz)) in *. clearbody a b c.
  unfold float_transform. destruct (transformToEigen _) as [[[r1 r2 r3] [r4 r5 r6] [r7 r8 r9]] [t1 t2 t3]].
  unfold eig_apply, mmulv, vadd, vdot. cbn [vx vy vz m0 m1 m2 xbasis xorigin]. cbn [F32 sadd smul scar].
  assert (G : forall x, invalid x -> dec32 (enc32 x) = x) by (intros x [->|([|] & ->)]; apply dec_enc; reflexivity).
  assert (N : forall x, is_nan x -> dec32 (enc32 x) = x) by (intros x ->; apply dec_enc; reflexivity).
  pose proof (fun m1 m2 m3 t => row_all invalid m1 m2 m3 a b c t mul_invalid add_invalid_l add_invalid_r) as I.
  pose proof (fun m1 m2 m3 t => row_all is_nan m1 m2 m3 a b c t mul_nan add_nan_l add_nan_r) as J.
  specialize (I r1 r2 r3 t1) as I1. specialize (I r4 r5 r6 t2) as I2. specialize (I r7 r8 r9 t3) as I3.
  specialize (J r1 r2 r3 t1) as J1. specialize (J r4 r5 r6 t2) as J2. specialize (J r7 r8 r9 t3) as J3. clear I J.
  match type of I1 with _ -> invalid ?e => set (rx := e) in * end. match type of I2 with _ -> invalid ?e => set (ry := e) in * end. match type of I3 with _ -> invalid ?e => set (rz := e) in * end.
  clearbody rx ry rz. split; intros H.
  - rewrite (G rx (I1 H)), (G ry (I2 H)), (G rz (I3 H)). split; [exact (I1 H)|split; [exact (I2 H)|exact (I3 H)]].
  - rewrite (N rx (J1 H)), (N ry (J2 H)), (N rz (J3 H)). split; [exact (J1 H)|split; [exact (J2 H)|exact (J3 H)]].
Qed.
Print Assumptions C93_invalid_points_stay_invalid.

(** ** Nothing is lost under the identity *)
(** The identity transform (quaternion (0, 0, 0, 1), translation 0) leaves the number in every
    coordinate of a valid point exactly as it was. *)
Definition identity_message {lm} (h : header) (child : string) : gtstamped (F64 lm) :=
  mkTstamped h child (mkGtransform (@mkXyz (F64 lm) (f64_of_Z 0) (f64_of_Z 0) (f64_of_Z 0)) (@mkGquat (F64 lm) (f64_of_Z 0) (f64_of_Z 0) (f64_of_Z 0) (f64_of_Z 1))).
Definition one32 : f32 := S754_finite false 8388608 (-23).
Lemma one32_ok : finite32 one32 /\ val one32 = 1.
Proof. split; [vm_compute; reflexivity|]. cbn [val one32]. change (powerRZ 2 (-23)) with (/ 2 ^ 23). field. Qed.
Lemma zero_mul : forall s a, finite32 a -> finite32 (SFmul prec32 emax32 (S754_zero s) a) /\ val (SFmul prec32 emax32 (S754_zero s) a) = 0.
Proof. intros s a F. destruct a; try contradiction; split; reflexivity || exact I. Qed.
Lemma one_mul : forall a, finite32 a -> Rabs (val a) <= big32 -> finite32 (SFmul prec32 emax32 one32 a) /\ val (SFmul prec32 emax32 one32 a) = val a.
Proof.
  intros a F H. destruct one32_ok as (F1 & V1). destruct (fmul32_ok one32 a F1 F) as (G & V); [rewrite V1, Rmult_1_l; exact H|].
  split; [exact G|]. rewrite V, V1, Rmult_1_l. apply rnd_val32. exact F.
Qed.
Lemma add_zero : forall a b, finite32 a -> finite32 b -> val a = 0 \/ val b = 0 -> Rabs (val a + val b) <= big32 ->
  finite32 (SFadd prec32 emax32 a b) /\ val (SFadd prec32 emax32 a b) = val a + val b.
Proof.
  intros a b Fa Fb H B. destruct (fadd32_ok a b Fa Fb B) as (G & V). split; [exact G|]. rewrite V.
  destruct H as [H|H]; rewrite H; [rewrite Rplus_0_l|rewrite Rplus_0_r]; apply rnd_val32; assumption.
Qed.
Lemma unit_row : forall m1 m2 m3 s a b c, finite32 a -> finite32 b -> finite32 c ->
  (m1 = one32 /\ (exists s2, m2 = S754_zero s2) /\ (exists s3, m3 = S754_zero s3) /\ Rabs (val a) <= big32 ->
   let r := SFadd prec32 emax32 (SFadd prec32 emax32 (SFadd prec32 emax32 (SFmul prec32 emax32 m1 a) (SFmul prec32 emax32 m2 b)) (SFmul prec32 emax32 m3 c)) (S754_zero s) in finite32 r /\ val r = val a) /\
  (m2 = one32 /\ (exists s2, m1 = S754_zero s2) /\ (exists s3, m3 = S754_zero s3) /\ Rabs (val b) <= big32 ->
   let r := SFadd prec32 emax32 (SFadd prec32 emax32 (SFadd prec32 emax32 (SFmul prec32 emax32 m1 a) (SFmul prec32 emax32 m2 b)) (SFmul prec32 emax32 m3 c)) (S754_zero s) in finite32 r /\ val r = val b) /\
  (m3 = one32 /\ (exists s2, m1 = S754_zero s2) /\ (exists s3, m2 = S754_zero s3) /\ Rabs (val c) <= big32 ->
   let r := SFadd prec32 emax32 (SFadd prec32 emax32 (SFadd prec32 emax32 (SFmul prec32 emax32 m1 a) (SFmul prec32 emax32 m2 b)) (SFmul prec32 emax32 m3 c)) (S754_zero s) in finite32 r /\ val r = val c).
Proof.
  assert (G : forall p q r s v, finite32 p -> finite32 q -> finite32 r -> (val p = v /\ val q = 0 /\ val r = 0) \/ (val p = 0 /\ val q = v /\ val r = 0) \/ (val p = 0 /\ val q = 0 /\ val r = v) -> Rabs v <= big32 ->
    finite32 (SFadd prec32 emax32 (SFadd prec32 emax32 (SFadd prec32 emax32 p q) r) (S754_zero s)) /\ val (SFadd prec32 emax32 (SFadd prec32 emax32 (SFadd prec32 emax32 p q) r) (S754_zero s)) = v).
  { intros p q r s v Fp Fq Fr C B. assert (B0 : 0 <= big32) by (rewrite big32_val; lra).
    assert (Z0 : Rabs 0 <= big32) by (rewrite Rabs_R0; exact B0).
    destruct (add_zero p q Fp Fq) as (F1 & V1); [tauto| |].
    { destruct C as [(A & D & E)|[(A & D & E)|(A & D & E)]]; rewrite A, D, ?Rplus_0_r, ?Rplus_0_l; assumption. }
    destruct (add_zero _ r F1 Fr) as (F2 & V2).
    { rewrite V1. destruct C as [(A & D & E)|[(A & D & E)|(A & D & E)]]; rewrite A, D, E; [right; reflexivity|right; reflexivity|left; ring]. }
    { rewrite V1. destruct C as [(A & D & E)|[(A & D & E)|(A & D & E)]]; rewrite A, D, E, ?Rplus_0_r, ?Rplus_0_l, ?Rplus_0_r; assumption. }
    assert (W : val p + val q + val r = v) by (destruct C as [(A & D & E)|[(A & D & E)|(A & D & E)]]; rewrite A, D, E; ring).
    rewrite V1 in V2. rewrite W in V2.
    destruct (add_zero _ (S754_zero s) F2 I) as (F3 & V3); [right; reflexivity|rewrite V2; cbn [val]; rewrite Rplus_0_r; exact B|].
    split; [exact F3|]. rewrite V3, V2. cbn [val]. ring. }
  intros m1 m2 m3 s a b c Fa Fb Fc. split; [|split]; intros (-> & (s2 & ->) & (s3 & ->) & B); cbv zeta.
  - destruct (one_mul a Fa B) as (G1 & V1). destruct (zero_mul s2 b Fb) as (G2 & V2). destruct (zero_mul s3 c Fc) as (G3 & V3). apply G; auto.
  - destruct (one_mul b Fb B) as (G1 & V1). destruct (zero_mul s2 a Fa) as (G2 & V2). destruct (zero_mul s3 c Fc) as (G3 & V3). apply G; auto.
  - destruct (one_mul c Fc B) as (G1 & V1). destruct (zero_mul s2 a Fa) as (G2 & V2). destruct (zero_mul s3 b Fb) as (G3 & V3). apply G; auto 6.
Qed.

Theorem C93_identity_is_exact :
  forall lm lm' (h : header) (child : string) (m : mem (cloud Z)) i o n ox oy oz,
  layout (m i) n ox oy oz ->
  exists m', doTransform_PointCloud2 (D := F64 lm) (F := F32 lm') narrow32 dec32 enc32 (at_loc i) (at_loc o) (identity_message h child) m = Done m' /\
    forall k, (k < n)%nat -> valid_point (m i) k ox oy oz ->
      Rabs (val (coordinate (m i) k ox)) <= IZR (2 ^ 127) -> Rabs (val (coordinate (m i) k oy)) <= IZR (2 ^ 127) -> Rabs (val (coordinate (m i) k oz)) <= IZR (2 ^ 127) ->
      valid_point (m' o) k ox oy oz /\ point_val (m' o) k ox oy oz = point_val (m i) k ox oy oz.
Proof.
  intros lm lm' h child m i o n ox oy oz L.
  destruct (C55_every_point_and_nothing_else Z (F64 lm) (F32 lm') narrow32 dec32 enc32 (identity_message h child) m i o n ox oy oz enc_len L) as (m' & E & _ & _ & P & _).
  exists m'. split; [exact E|]. intros k Hk (Va & Vb & Vc) Ba Bb Bc. destruct (P k Hk) as (Px & Py & Pz). clear P E.
  unfold valid_point, point_val, coordinate in *. rewrite Px, Py, Pz. clear Px Py Pz.
  set (a := dec32 (bytes (m i) k ox)) in *. set (b := dec32 (bytes (m i) k oy)) in *. set (c := dec32 (bytes (m i) k oz)) in *. clearbody a b c.
  unfold float_transform, transformToEigen, identity_message. cbn [SpecGeom.shift SpecGeom.rot t_transform g_rotation translation gqx gqy gqz gqw gx gy gz].
  assert (N0 : narrow32 (f64_of_Z 0) = S754_zero false) by reflexivity. assert (N1 : narrow32 (f64_of_Z 1) = one32) by (vm_compute; reflexivity). rewrite N0, N1. clear N0 N1.
  rewrite eig_coords. cbn [vx vy vz]. cbn [F32 sadd ssub smul scar].
  assert (TW : @two (F32 lm') = S754_finite false 8388608 (-22)) by (vm_compute; reflexivity). assert (ON : @sone (F32 lm') = one32) by (vm_compute; reflexivity). rewrite TW, ON. clear TW ON.
  set (zr := S754_zero false). set (tw := S754_finite false 8388608 (-22)).
  assert (E1 : SFsub prec32 emax32 one32 (SFadd prec32 emax32 (SFmul prec32 emax32 (SFmul prec32 emax32 tw zr) zr) (SFmul prec32 emax32 (SFmul prec32 emax32 tw zr) zr)) = one32) by (vm_compute; reflexivity).
  assert (E2 : SFsub prec32 emax32 (SFmul prec32 emax32 (SFmul prec32 emax32 tw zr) zr) (SFmul prec32 emax32 (SFmul prec32 emax32 tw zr) one32) = zr) by (vm_compute; reflexivity).
  assert (E3 : SFadd prec32 emax32 (SFmul prec32 emax32 (SFmul prec32 emax32 tw zr) zr) (SFmul prec32 emax32 (SFmul prec32 emax32 tw zr) one32) = zr) by (vm_compute; reflexivity).
  rewrite !E1, !E2, !E3. clear E1 E2 E3 tw. unfold zr. clear zr.
  assert (Z0 : exists s, S754_zero false = S754_zero s) by (exists false; reflexivity).
  pose proof (proj1 (unit_row one32 (S754_zero false) (S754_zero false) false a b c Va Vb Vc) (conj eq_refl (conj Z0 (conj Z0 Ba)))) as (Gx & Hx).
  pose proof (proj1 (proj2 (unit_row (S754_zero false) one32 (S754_zero false) false a b c Va Vb Vc)) (conj eq_refl (conj Z0 (conj Z0 Bb)))) as (Gy & Hy).
  pose proof (proj2 (proj2 (unit_row (S754_zero false) (S754_zero false) one32 false a b c Va Vb Vc)) (conj eq_refl (conj Z0 (conj Z0 Bc)))) as (Gz & Hz).
  match type of Gx with finite32 ?e => set (rx := e) in * end. match type of Gy with finite32 ?e => set (ry := e) in * end. match type of Gz with finite32 ?e => set (rz := e) in * end.
  clearbody rx ry rz. rewrite (dec_enc rx (finite_in rx Gx)), (dec_enc ry (finite_in ry Gy)), (dec_enc rz (finite_in rz Gz)).
  split; [split; [exact Gx|split; [exact Gy|exact Gz]]|]. rewrite Hx, Hy, Hz. reflexivity.
Qed.
Print Assumptions C93_identity_is_exact.

(** ** A concrete cloud *)
(** Two points, (1, 2, 3) and one with a NaN, in the layout of [two_points]; the half turn about z
    with translation (1, 2, 3). *)
Definition pad (n : nat) : list Z := repeat 7%Z n.
Definition float_point (x y z : f32) : list Z := pad 4 ++ enc32 x ++ enc32 z ++ enc32 y ++ pad 4.
Definition two_float_points : cloud Z :=
  mkCloud (mkHeader 3%Z 7%Z "laser"%string) 1 2 fields3 false 20 40
    (float_point (f32_of_Z 1) (f32_of_Z 2) (f32_of_Z 3) ++ float_point (f32_of_Z 1) S754_nan (f32_of_Z 5)) true.
Definition half_turn : gtstamped D64 :=
  mkTstamped (mkHeader 0%Z 15%Z "base"%string) "laser"%string
    (mkGtransform (@mkXyz D64 (f64_of_Z 1) (f64_of_Z 2) (f64_of_Z 3)) (@mkGquat D64 (f64_of_Z 0) (f64_of_Z 0) (f64_of_Z 1) (f64_of_Z 0))).
Example C93_example :
  layout two_float_points 2 4 12 8 /\ valid_point two_float_points 0 4 12 8 /\ is_nan (coordinate two_float_points 1 12) /\
  abs_sum (point_val two_float_points 0 4 12 8) <= IZR (2 ^ 100) /\
  rot_finite half_turn /\ xyz_finite (shift_of half_turn) /\ Rabs (qnorm (rot_val half_turn) * qnorm (rot_val half_turn) - 1) <= 0 /\
  vx (xyz_val (shift_of half_turn)) = 1.
Proof.
  assert (E : coordinate two_float_points 0 4 = S754_finite false 8388608 (-23) /\ coordinate two_float_points 0 12 = S754_finite false 8388608 (-22) /\
              coordinate two_float_points 0 8 = S754_finite false 12582912 (-22)) by (vm_compute; repeat split).
  destruct E as (E1 & E2 & E3).
  destruct (small_ints 0) as (F0 & V0); [cbn; auto 9|]. destruct (small_ints 1) as (F1 & V1); [cbn; auto 9|].
  destruct (small_ints 2) as (F2 & V2); [cbn; auto 9|]. destruct (small_ints 3) as (F3 & V3); [cbn; auto 9|]. apply finiteb_ok in F0, F1, F2, F3.
  split; [|split; [|split; [|split; [|split; [|split; [|split]]]]]].
  - destruct C55_case as [Lx Ly Lz _ Li La]. constructor; [exact Lx|exact Ly|exact Lz|reflexivity|exact Li|exact La].
  - unfold valid_point. rewrite E1, E2, E3. split; [|split]; vm_compute; reflexivity.
  - vm_compute. reflexivity.
  - unfold abs_sum, point_val. cbn [vx vy vz]. rewrite E1, E2, E3. cbn [val]. change (powerRZ 2 (-23)) with (/ 2 ^ 23). change (powerRZ 2 (-22)) with (/ 2 ^ 22).
    change (IZR (2 ^ 100)) with 1267650600228229401496703205376. rewrite !Rabs_pos_eq; lra.
  - split; [exact F0|split; [exact F0|split; [exact F1|exact F0]]].
  - split; [exact F1|split; [exact F2|exact F3]].
  - rewrite qnorm_sq. unfold rot_val, half_turn. cbn [qx qy qz qw g_rotation t_transform gqx gqy gqz gqw]. rewrite V0, V1. cbn [RS scar]. replace (0 * 0 + 0 * 0 + 1 * 1 + 0 * 0 - 1) with 0 by ring. rewrite Rabs_R0. apply Rle_refl.
  - exact V1.
Qed.
(** what the code makes of it: (0, 0, 6) and three NaNs, the other bytes kept *)
Example C93_run :
  match doTransform_PointCloud2 (D := D64) (F := F32 libm0) narrow32 dec32 enc32 (at_loc 0) (at_loc 1) half_turn (fun _ => two_float_points) with
  | Done m' => c_data (m' 1%nat) = float_point (f32_of_Z 0) (f32_of_Z 0) (f32_of_Z 6) ++ float_point S754_nan S754_nan S754_nan
  | _ => False
  end.
Proof. vm_compute. reflexivity. Qed.
