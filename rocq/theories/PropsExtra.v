(** * Properties C65, C66: vector, matrix and angle helpers of LinearMath *)
From Coq Require Import ZArith Bool Reals Lra Lia List Floats.SpecFloat.
From Verif Require Import RosTime Scalar LinearMath LinearExtra Instances RealSlerp RealQuat SpecReal RealMatrix RealEuler RealAxis
  SpecExtra RealExtra.
Import ListNotations.
Open Scope R_scope.

(** ** C65 *)
Theorem C65_angle :
  forall v w : vec3 RS, v <> @V3 RS 0 0 0 -> w <> @V3 RS 0 0 0 ->
  0 <= vangle v w <= PI /\
  inner v w = norm v * norm w * cos (vangle v w) /\ norm (outer v w) = norm v * norm w * sin (vangle v w).
Proof. exact angle_ok. Qed.
Print Assumptions C65_angle.

Theorem C65_distance_is_a_metric :
  forall u v w : vec3 RS,
  0 <= vdistance u v /\ vdistance u v = vdistance v u /\ (vdistance u v = 0 <-> u = v) /\
  vdistance u w <= vdistance u v + vdistance v w /\ vdistance2 u v = vdistance u v * vdistance u v.
Proof. exact distance_metric. Qed.
Print Assumptions C65_distance_is_a_metric.

Theorem C65_rigid_motions_keep_distances :
  forall (q : quat RS) (t u v : vec3 RS), qunit q ->
  vdistance (vadd (quatRotate q u) t) (vadd (quatRotate q v) t) = vdistance u v.
Proof. exact distance_rigid. Qed.
Print Assumptions C65_rigid_motions_keep_distances.

Theorem C65_normalized :
  forall v : vec3 RS, v <> @V3 RS 0 0 0 ->
  norm (vnormalized v) = 1 /\ times (norm v) (vnormalized v) = v /\ vnormalize v = vnormalized v.
Proof. exact normalized_ok. Qed.
Print Assumptions C65_normalized.

Theorem C65_lerp :
  forall (v w : vec3 RS) (t : R),
  @vlerp RS v w (0:R) = v /\ @vlerp RS v w (1:R) = w /\ @vlerp RS v w t = @vinterp RS v w t /\
  vdistance v (@vlerp RS v w t) = Rabs t * vdistance v w.
Proof. exact lerp_ok. Qed.
Print Assumptions C65_lerp.

Theorem C65_axes :
  forall (v : vec3 RS) i, (i < 3)%nat ->
  (vminAxis v < 3)%nat /\ comp v (vminAxis v) <= comp v i /\
  (vmaxAxis v < 3)%nat /\ comp v i <= comp v (vmaxAxis v) /\
  (vfurthestAxis v < 3)%nat /\ Rabs (comp v (vfurthestAxis v)) <= Rabs (comp v i) /\
  (vclosestAxis v < 3)%nat /\ Rabs (comp v i) <= Rabs (comp v (vclosestAxis v)).
Proof.
  intros v i Hi. destruct (minAxis_ok v i Hi) as [A1 A2]. destruct (maxAxis_ok v i Hi) as [B1 B2].
  destruct (minAxis_ok (vabsolute v) i Hi) as [C1 C2]. destruct (maxAxis_ok (vabsolute v) i Hi) as [D1 D2].
  rewrite !comp_abs in C2, D2. unfold vfurthestAxis, vclosestAxis. auto 10.
Qed.
Print Assumptions C65_axes.

Theorem C65_componentwise :
  forall (v w : vec3 RS) i, comp (vsetMin v w) i = Rmin (comp v i) (comp w i) /\ comp (vsetMax v w) i = Rmax (comp v i) (comp w i) /\
  (visZero v = true <-> v = @V3 RS 0 0 0) /\ (vfuzzyZero v = true <-> norm v * norm v < / 4503599627370496).
Proof.
  intros v w i. destruct (zero_tests v) as [Z1 Z2]. split; [apply setMin_ok|]. split; [apply setMax_ok|]. split; assumption.
Qed.
Print Assumptions C65_componentwise.

Theorem C65_products :
  (forall v w : vec3 RS, mmulv (vskew v) w = outer v w) /\
  (forall u v w : vec3 RS, vtriple u v w = inner u (outer v w)) /\
  (forall (m : mat3 RS) (s v : vec3 RS),
     mmulv (mscaled m s) v = mmulv m (@V3 RS (vx s * vx v) (vy s * vy v) (vz s * vz v))) /\
  (forall (t : xform RS) (q : quat RS) (v : vec3 RS), rotation (xbasis t) ->
     quatRotate (xmulq t q) v = mmulv (xbasis t) (quatRotate q v)).
Proof. split; [exact skew_ok|]. split; [exact triple_ok|]. split; [exact scaled_ok|exact xmulq_ok]. Qed.
Print Assumptions C65_products.

(** A vector times a quaternion, on either side, is the quaternion product with the vector as
    imaginary part; and dividing a vector by a vector undoes multiplying by it. *)
Theorem C65_mixed_products :
  (forall (q : quat RS) (v : vec3 RS), qmulv q v = qmul q (@Q4 RS (vx v) (vy v) (vz v) 0)) /\
  (forall (q : quat RS) (v : vec3 RS), vmulq v q = qmul (@Q4 RS (vx v) (vy v) (vz v) 0) q) /\
  (forall (v w : vec3 RS) i, (i < 3)%nat -> comp (vmulc v w) i = comp v i * comp w i /\ comp (vdivc v w) i = comp v i / comp w i).
Proof.
  split; [|split].
  - intros [a b c d] [x y z]. unfold qmulv, qmul. cbn [qx qy qz qw vx vy vz]. runf. f_equal; cbn [RS scar]; ring.
  - intros [a b c d] [x y z]. unfold vmulq, qmul. cbn [qx qy qz qw vx vy vz]. runf. f_equal; cbn [RS scar]; ring.
  - intros [a b c] [x y z] i Hi. destruct i as [|[|[|i]]]; try lia; split; reflexivity.
Qed.
Print Assumptions C65_mixed_products.

Theorem C65_plane_space :
  forall n : vec3 RS, inner n n = 1 -> let '(p, q) := tf2PlaneSpace1 n in orthonormal n p q.
Proof. exact planeSpace_ok. Qed.
Print Assumptions C65_plane_space.

(** getOpenGLMatrix writes the homogeneous matrix, column by column, and setFromOpenGLMatrix reads
    it back; bit for bit in any arithmetic. *)
Theorem C65_opengl :
  (forall (S : Scalar) (t : xform S), xsetFromOpenGLMatrix (xgetOpenGLMatrix t) = t /\ length (xgetOpenGLMatrix t) = 16%nat) /\
  (forall (t : xform RS) (v : vec3 RS) i, (i < 3)%nat ->
     let e r c := nth (4 * c + r) (xgetOpenGLMatrix t) 0 in
     comp (xapply t v) i = e i 0%nat * vx v + e i 1%nat * vy v + e i 2%nat * vz v + e i 3%nat) /\
  (forall (t : xform RS), let e r c := nth (4 * c + r) (xgetOpenGLMatrix t) 0 in
     e 3%nat 0%nat = 0 /\ e 3%nat 1%nat = 0 /\ e 3%nat 2%nat = 0 /\ e 3%nat 3%nat = 1) /\
  (forall (m : mat3 RS) i, (i < 3)%nat ->
     mgetColumn m i = mmulv m (@V3 RS (if Nat.eqb i 0 then 1 else 0) (if Nat.eqb i 1 then 1 else 0) (if Nat.eqb i 2 then 1 else 0))).
Proof.
  split; [|split; [|split]].
  - intros S [[[a b c] [d e f] [g h i]] [x y z]]. split; reflexivity.
  - intros [[[a b c] [d e f] [g h i]] [x y z]] [p q r] n Hn. destruct n as [|[|[|n]]]; try lia;
      cbn [Nat.mul Nat.add nth xgetOpenGLMatrix comp xapply xbasis xorigin m0 m1 m2 vx vy vz]; unfold vdot; cbn [vx vy vz]; runf; ring.
  - intros t. cbn [Nat.mul Nat.add nth xgetOpenGLMatrix]. runf. repeat split; field.
  - intros [[a b c] [d e f] [g h i]] n Hn. destruct n as [|[|[|n]]]; try lia;
      unfold mgetColumn, mmulv, vdot; cbn [Nat.eqb m0 m1 m2 vx vy vz]; runf; f_equal; cbn [RS scar]; ring.
Qed.
Print Assumptions C65_opengl.

Example C65_example :
  @V3 RS 3 0 4 <> @V3 RS 0 0 0 /\ norm (@V3 RS 3 0 4) = 5 /\ inner (@V3 RS (3/5) 0 (4/5)) (@V3 RS (3/5) 0 (4/5)) = 1 /\
  vmaxAxis (@V3 RS 3 (-7) 4) = 2%nat /\ vclosestAxis (@V3 RS 3 (-7) 4) = 1%nat.
Proof.
  split; [intros E; injection E; cbn [RS scar]; lra|]. split.
  { unfold norm, inner. cbn [vx vy vz RS scar]. replace (3 * 3 + 0 * 0 + 4 * 4) with (5 * 5) by ring. apply sqrt_square. lra. }
  split; [unfold inner; cbn [vx vy vz RS scar]; field|].
  assert (A1 : Rabs 3 = 3) by (apply Rabs_right; lra). assert (A2 : Rabs (-7) = 7) by (rewrite Rabs_left by lra; ring).
  assert (A3 : Rabs 4 = 4) by (apply Rabs_right; lra).
  unfold vclosestAxis, vmaxAxis, vabsolute. cbn [vx vy vz RS sabs sltb]. rewrite A1, A2, A3.
  replace (Rltb 3 (-7)) with false by (symmetry; apply Rltb_false; lra). replace (Rltb 3 4) with true by (symmetry; apply Rltb_true; lra).
  replace (Rltb 3 7) with true by (symmetry; apply Rltb_true; lra). replace (Rltb 7 4) with false by (symmetry; apply Rltb_false; lra).
  split; reflexivity.
Qed.

(** A zero vector has no direction: in binary64 normalize() turns it into NaN, silently. *)
Theorem C65_normalized_zero_refuted :
  forall lm, exists v : vec3 (F64 lm), vx v = S754_zero false /\ vy v = S754_zero false /\ vz v = S754_zero false /\
  vx (vnormalize v) = S754_nan /\ vy (vnormalize v) = S754_nan /\ vz (vnormalize v) = S754_nan.
Proof. intros lm. exists (@V3 (F64 lm) (S754_zero false) (S754_zero false) (S754_zero false)). vm_compute. auto 10. Qed.
Print Assumptions C65_normalized_zero_refuted.

(** ** C66 *)
(** getAngleShortestPath is the angle of the rotation: there is an axis about which the quaternion
    turns by it, and no other angle in [0, pi] will do. *)
Theorem C66_angle_of_a_rotation :
  forall q : quat RS, qunit q ->
  0 <= qgetAngleShortestPath q <= PI /\
  (exists k, turns_about k (qgetAngleShortestPath q) (quatRotate q)) /\
  (forall k t, 0 <= t <= PI -> turns_about k t (quatRotate q) -> t = qgetAngleShortestPath q).
Proof.
  intros q H. destruct (getAngleShortestPath_turns q H) as [B T]. split; [exact B|]. split; [exact T|].
  intros k t Ht T'. exact (getAngleShortestPath_unique q k t H Ht T').
Qed.
Print Assumptions C66_angle_of_a_rotation.

(** angleShortestPath(p, q) is the angle of the rotation that takes p to q; angle(p, q) is half of it
    or, when the quaternions are more than 90 degrees apart as 4-vectors, pi minus half. *)
Theorem C66_angle_between_rotations :
  forall p q : quat RS, qunit p -> qunit q ->
  (exists k, turns_about k (qangleShortestPath p q) (quatRotate (qmul q (qinv p)))) /\
  (forall k t, 0 <= t <= PI -> turns_about k t (quatRotate (qmul q (qinv p))) -> t = qangleShortestPath p q) /\
  0 <= qangle p q <= PI /\ cos (qangle p q) = qinner p q /\
  (0 <= qinner p q -> qangleShortestPath p q = 2 * qangle p q) /\
  (qinner p q <= 0 -> qangleShortestPath p q = 2 * (PI - qangle p q)).
Proof.
  intros p q Hp Hq. assert (U : qunit (qmul q (qinv p))) by (apply qunit_mul; [exact Hq|apply qinv_unit; exact Hp]).
  pose proof (angleShortestPath_rel p q Hp Hq) as E. destruct (getAngleShortestPath_turns _ U) as [_ T]. rewrite <- E in T. split; [exact T|].
  split; [intros k t Ht T'; rewrite E; exact (getAngleShortestPath_unique _ k t U Ht T')|]. exact (qangle_half p q Hp Hq).
Qed.
Print Assumptions C66_angle_between_rotations.

(** shortestArcQuat turns v to w, by the least angle that does so. *)
Theorem C66_shortest_arc :
  forall v w : vec3 RS, inner v v = 1 -> inner w w = 1 -> -1 + / 4503599627370496 <= inner v w ->
  qunit (shortestArcQuat v w) /\ quatRotate (shortestArcQuat v w) v = w /\
  forall p, qunit p -> quatRotate p v = w -> qgetAngleShortestPath (shortestArcQuat v w) <= qgetAngleShortestPath p.
Proof.
  intros v w Hv Hw Hd. destruct (arc_rotates v w Hv Hw Hd) as [U R]. split; [exact U|]. split; [exact R|].
  intros p Up Rp. exact (arc_least v w p Hv Hw Hd Up Rp).
Qed.
Print Assumptions C66_shortest_arc.

(** For (almost) opposite vectors it turns v to -v, which is w up to 2.2e-8. *)
Theorem C66_shortest_arc_opposite :
  forall v w : vec3 RS, inner v v = 1 -> inner w w = 1 -> inner v w < -1 + / 4503599627370496 ->
  qunit (shortestArcQuat v w) /\ quatRotate (shortestArcQuat v w) v = times (-1) v /\
  inner (minus w (times (-1) v)) (minus w (times (-1) v)) < 2 / 4503599627370496.
Proof. exact arc_opposite. Qed.
Print Assumptions C66_shortest_arc_opposite.

Theorem C66_normalize2 :
  forall v w : vec3 RS, v <> @V3 RS 0 0 0 -> w <> @V3 RS 0 0 0 ->
  shortestArcQuatNormalize2 v w = (shortestArcQuat (vnormalized v) (vnormalized w), vnormalized v, vnormalized w) /\
  inner (vnormalized v) (vnormalized v) = 1 /\ inner (vnormalized w) (vnormalized w) = 1.
Proof.
  intros v w Nv Nw. split; [reflexivity|]. destruct (normalized_ok v Nv) as [A _]. destruct (normalized_ok w Nw) as [B _].
  rewrite <- !norm_sq, A, B. split; ring.
Qed.
Print Assumptions C66_normalize2.

(** tf2NormalizeAngle, with C's fmod: the same direction, between -pi and pi. *)
Theorem C66_normalize_angle :
  forall a : R, let r : R := @tf2NormalizeAngle RS Rfmod (2 * PI) a in
  - PI <= r <= PI /\ exists k : Z, a = r + 2 * PI * IZR k.
Proof. exact normalizeAngle_ok. Qed.
Print Assumptions C66_normalize_angle.

(** tf2Asin and tf2Acos never leave the domain of asin and acos: an argument outside [-1, 1] counts
    as the nearer end, so the answer is a number for every real argument. *)
Theorem C66_clamped_asin_acos :
  forall a : R, let b := Rmax (-1) (Rmin 1 a) in
  (- (PI / 2) <= @tf2Asin RS a <= PI / 2 /\ sin (@tf2Asin RS a) = b) /\
  (0 <= @tf2Acos RS a <= PI /\ cos (@tf2Acos RS a) = b).
Proof.
  intros a b.
  assert (B : -1 <= b <= 1) by (unfold b; split; [apply Rmax_l|apply Rmax_lub; [lra|apply Rmin_l]]).
  assert (A : @tf2Asin RS a = asin b).
  { unfold tf2Asin, b. runf. unfold sgtb. cbn [RS scar sltb]. unfold sone, slit. cbn. unfold Rltb, Rdiv. rewrite Rinv_1, ?Rmult_1_r.
    destruct (Rlt_dec a (-1)) as [X|X].
    - destruct (Rlt_dec 1 (-1)) as [Y|Y]; [lra|]. rewrite Rmin_right by lra. rewrite Rmax_left by lra. reflexivity.
    - destruct (Rlt_dec 1 a) as [Y|Y]; [rewrite Rmin_left by lra; rewrite Rmax_right by lra; reflexivity|]. rewrite Rmin_right by lra. rewrite Rmax_right by lra. reflexivity. }
  assert (C : @tf2Acos RS a = acos b).
  { unfold tf2Acos, b. runf. unfold sgtb. cbn [RS scar sltb]. unfold sone, slit. cbn. unfold Rltb, Rdiv. rewrite Rinv_1, ?Rmult_1_r.
    destruct (Rlt_dec a (-1)) as [X|X].
    - destruct (Rlt_dec 1 (-1)) as [Y|Y]; [lra|]. rewrite Rmin_right by lra. rewrite Rmax_left by lra. reflexivity.
    - destruct (Rlt_dec 1 a) as [Y|Y]; [rewrite Rmin_left by lra; rewrite Rmax_right by lra; reflexivity|]. rewrite Rmin_right by lra. rewrite Rmax_right by lra. reflexivity. }
  rewrite A, C. split; split; [pose proof (asin_bound b); lra|apply sin_asin, B|apply acos_bound|apply cos_acos, B].
Qed.
Print Assumptions C66_clamped_asin_acos.
Example C66_clamped_case : Rmax (-1) (Rmin 1 (1 + / 1000)) = 1 /\ Rmax (-1) (Rmin 1 (-3)) = -1 /\ Rmax (-1) (Rmin 1 (1 / 2)) = 1 / 2.
Proof. unfold Rmax, Rmin. repeat destruct (Rle_dec _ _); lra. Qed.

Example C66_example :
  inner (@V3 RS 1 0 0) (@V3 RS 1 0 0) = 1 /\ inner (@V3 RS 0 1 0) (@V3 RS 0 1 0) = 1 /\
  -1 + / 4503599627370496 <= inner (@V3 RS 1 0 0) (@V3 RS 0 1 0) /\
  inner (@V3 RS 1 0 0) (@V3 RS (-1) 0 0) < -1 + / 4503599627370496 /\ qunit (@Q4 RS (3/5) 0 0 (4/5)).
Proof. unfold inner, qunit. cbn [vx vy vz qx qy qz qw RS scar]. repeat split; lra. Qed.
