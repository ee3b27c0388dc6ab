(** * Properties C36-C40, C56: the LinearMath classes over the real numbers *)
From Coq Require Import ZArith Bool Reals Lra Psatz List.
From Verif Require Import RosTime Scalar LinearMath Instances RealSlerp RealQuat SpecReal RealMatrix RealEuler RealAxis.
Import ListNotations.
Open Scope R_scope.

(** the concrete rotation used in the examples: 120 degrees about (1,1,1) *)
Definition q120 : rquat := @Q4 RS (1/2) (1/2) (1/2) (1/2).
Definition p120 : rquat := @Q4 RS 3 0 4 12.
Lemma q120_unit : qunit q120. Proof. unfold qunit, q120. cbn. lra. Qed.

(** ** C36 *)
Theorem C36_product_group :
  (forall p q r : quat RS, qmul p (qmul q r) = qmul (qmul p q) r) /\
  (forall q : quat RS, qmul (@Q4 RS 0 0 0 1) q = q /\ qmul q (@Q4 RS 0 0 0 1) = q) /\
  (forall q : quat RS, qunit q -> qmul (qinv q) q = @Q4 RS 0 0 0 1 /\ qmul q (qinv q) = @Q4 RS 0 0 0 1) /\
  (forall p q : quat RS, qlength2 (qmul p q) = (qlength2 p * qlength2 q)%R) /\
  (forall q : quat RS, nonzero q -> qunit (qnormalized q)).
Proof.
  split; [exact qmul_assoc|]. split; [intros q; rewrite <- qidentity_eq; split; [apply qmul_id_l|apply qmul_id_r]|].
  split; [intros q H; rewrite <- qidentity_eq; split; [apply qmul_inv_l|apply qmul_inv_r]; exact H|].
  split; [exact qlength2_mul|exact qnormalized_unit].
Qed.
Print Assumptions C36_product_group.

Theorem C36_rotation_action :
  (forall (p q : quat RS) v, quatRotate (qmul p q) v = quatRotate p (quatRotate q v)) /\
  (forall (q : quat RS) v w, quatRotate q (vadd v w) = vadd (quatRotate q v) (quatRotate q w)) /\
  (forall (q : quat RS) v w, qunit q -> vdot (quatRotate q v) (quatRotate q w) = vdot v w) /\
  (forall (q : quat RS) v w, qunit q -> vcross (quatRotate q v) (quatRotate q w) = quatRotate q (vcross v w)) /\
  (forall (q : quat RS) v, qunit q -> quatRotate (qinv q) (quatRotate q v) = v) /\
  (forall (q : quat RS) v, quatRotate (qneg q) v = quatRotate q v).
Proof.
  split; [exact quatRotate_mul|]. split; [exact quatRotate_add|]. split; [intros; apply quatRotate_dot; assumption|].
  split; [intros; apply quatRotate_cross; assumption|]. split; [intros; apply quatRotate_inv_l; assumption|]. exact quatRotate_qneg.
Qed.
Print Assumptions C36_rotation_action.

(** setRotation(axis, angle) turns by the angle about the axis: Rodrigues' formula, spelled out. *)
Theorem C36_axis_angle :
  forall (k v : vec3 RS) (t : R), vx k * vx k + vy k * vy k + vz k * vz k = 1 ->
  qunit (qfromAxisAngle k (t : RS)) /\
  quatRotate (qfromAxisAngle k (t : RS)) v =
    (let c := vx k * vx v + vy k * vy v + vz k * vz v in
     @V3 RS (vx k * c + (vx v - vx k * c) * cos t + (vy k * vz v - vz k * vy v) * sin t)
            (vy k * c + (vy v - vy k * c) * cos t + (vz k * vx v - vx k * vz v) * sin t)
            (vz k * c + (vz v - vz k * c) * cos t + (vx k * vy v - vy k * vx v) * sin t)) /\
  quatRotate (qfromAxisAngle k (t : RS)) v = vrotate v k (t : RS) /\
  quatRotate (qfromAxisAngle k (t : RS)) k = k /\
  (forall s, qmul (qfromAxisAngle k (s : RS)) (qfromAxisAngle k (t : RS)) = qfromAxisAngle k ((s + t)%R : RS)) /\
  (0 <= t <= 2 * PI -> qgetAngle (qfromAxisAngle k (t : RS)) = t).
Proof.
  intros k v t H. split; [apply qfromAxisAngle_unit; exact H|]. split.
  { rewrite axis_rotate_eq by exact H. destruct k, v. unfold vrotate. lm_unfold. reflexivity. }
  split; [apply axis_rotate_eq; exact H|]. split; [apply axis_fixed; exact H|].
  split; [intros s; apply axis_add; exact H|]. apply angle_of_axis_angle. exact H.
Qed.
Print Assumptions C36_axis_angle.

(** getAxis/getAngle read a rotation back, unless it is within the code's cut-off of the identity. *)
Theorem C36_axis_angle_back :
  forall q : quat RS, qunit q -> 10 / 4503599627370496 <= 1 - qw q * qw q -> qfromAxisAngle (qgetAxis q) (qgetAngle q) = q.
Proof. intros q H Hs. apply axis_angle_back; assumption. Qed.
Print Assumptions C36_axis_angle_back.

(** nearest/farthest choose, between q and -q (the same rotation), the closer and the further one. *)
Theorem C36_nearest_farthest :
  forall p q : quat RS,
  (let n := qnearest p q in same_rotation n q /\ qdist2 p n <= qdist2 p q /\ qdist2 p n <= qdist2 p (qneg q)) /\
  (let n := qfarthest p q in same_rotation n q /\ qdist2 p q <= qdist2 p n /\ qdist2 p (qneg q) <= qdist2 p n).
Proof. intros p q. split; [apply qnearest_ok|apply qfarthest_ok]. Qed.
Print Assumptions C36_nearest_farthest.

Example C36_example : qunit q120 /\ quatRotate q120 (@V3 RS 1 2 3) = @V3 RS 3 1 2 /\ 10 / 4503599627370496 <= 1 - qw q120 * qw q120.
Proof. split; [exact q120_unit|]. split; [unfold q120; lm_unfold; f_equal; cbn [RS scar]; field|unfold q120; cbn; lra]. Qed.

(** ** C37 *)
Theorem C37_quaternion_to_matrix :
  (forall q : quat RS, nonzero q -> rotation (mfromQuat q)) /\
  (forall (q : quat RS) v, qunit q -> mmulv (mfromQuat q) v = quatRotate q v) /\
  (forall p q : quat RS, nonzero p -> nonzero q -> mfromQuat (qmul p q) = mmul (mfromQuat p) (mfromQuat q)) /\
  (forall q : quat RS, qunit q -> mfromQuat (qinv q) = mtranspose (mfromQuat q)) /\
  (forall q : quat RS, nonzero q -> mfromQuat (qnormalized q) = mfromQuat q) /\
  (forall p q : quat RS, qunit p -> qunit q -> (mfromQuat p = mfromQuat q <-> same_rotation p q)).
Proof.
  split; [exact mfromQuat_rotation|]. split; [exact mfromQuat_rotate|]. split; [exact mfromQuat_mul|].
  split; [exact mfromQuat_inv|]. split; [exact mfromQuat_normalized|].
  intros p q Hp Hq. split; [apply mfromQuat_inj; assumption|]. intros [->| ->]; [reflexivity|].
  apply mfromQuat_neg. apply qunit_nonzero. exact Hq.
Qed.
Print Assumptions C37_quaternion_to_matrix.

Theorem C37_matrix_to_quaternion :
  (forall m : mat3 RS, rotation m -> qunit (mgetRotation m) /\ mfromQuat (mgetRotation m) = m) /\
  (forall q : quat RS, qunit q -> same_rotation (mgetRotation (mfromQuat q)) q).
Proof. split; [exact mgetRotation_ok|exact mgetRotation_from]. Qed.
Print Assumptions C37_matrix_to_quaternion.

(** each of the four branches of getRotation is taken by some rotation *)
Example C37_example : rotation (mfromQuat q120) /\ nonzero p120 /\
  Forall (fun q => qunit q) [@Q4 RS 1 0 0 0; @Q4 RS 0 1 0 0; @Q4 RS 0 0 1 0; @Q4 RS 0 0 0 1].
Proof.
  split; [apply mfromQuat_rotation, qunit_nonzero, q120_unit|]. split; [unfold nonzero, p120; cbn; lra|].
  repeat constructor; unfold qunit; cbn; lra.
Qed.

(** The matrix constructor divides by the norm, quatRotate does not: they differ on non-unit quaternions. *)
Theorem C37_non_unit_refuted :
  exists (q : quat RS) v, nonzero q /\ mmulv (mfromQuat q) v <> quatRotate q v.
Proof.
  exists (@Q4 RS 0 0 0 2), (@V3 RS 1 0 0). split; [unfold nonzero; cbn; lra|].
  rewrite mfromQuat_entries by lra. unfold V9. lm_unfold. intros E. injection E as E _ _. cbn [RS scar] in E.
  assert (X : (2 * 2 + 0 * 0 - 0 * 0 - 0 * 0) / (0 * 0 + 0 * 0 + 0 * 0 + 2 * 2) = 1) by field. rewrite X in E. lra.
Qed.
Print Assumptions C37_non_unit_refuted.

(** ** C38 *)
Theorem C38_transform_group :
  (forall a b c : xform RS, xmul a (xmul b c) = xmul (xmul a b) c) /\
  (forall a : xform RS, xmul xidentity a = a /\ xmul a xidentity = a) /\
  (forall a : xform RS, rotation (xbasis a) -> xmul (xinverse a) a = xidentity /\ xmul a (xinverse a) = xidentity) /\
  (forall a b : xform RS, rotation (xbasis a) -> rotation (xbasis b) -> rotation (xbasis (xmul a b)) /\ rotation (xbasis (xinverse a))) /\
  (forall a b : xform RS, xinverseTimes a b = xmul (xinverse a) b) /\
  (forall a b : xform RS, xmul_assign a b = xmul a b).
Proof.
  split; [exact xmul_assoc|]. split; [intros a; split; [apply xmul_id_l|apply xmul_id_r]|].
  split; [intros a H; split; [apply xinverse_l|apply xinverse_r]; exact H|].
  split; [intros a b Ha Hb; split; [apply rigid_mul; assumption|apply rigid_inverse; assumption]|].
  split; [exact xinverseTimes_eq|exact xmul_assign_eq].
Qed.
Print Assumptions C38_transform_group.

Theorem C38_transform_action :
  (forall (a b : xform RS) v, xapply (xmul a b) v = xapply a (xapply b v)) /\
  (forall v : vec3 RS, xapply xidentity v = v) /\
  (forall (a : xform RS) v, rotation (xbasis a) -> xinvXform a (xapply a v) = v /\ xapply a (xinvXform a v) = v) /\
  (forall (a : xform RS) v w, rotation (xbasis a) -> vdistance2 (xapply a v) (xapply a w) = vdistance2 v w) /\
  (forall (q : quat RS) o v, qunit q -> xapply (xfromQuat q o) v = vadd (quatRotate q v) o).
Proof.
  split; [exact xapply_mul|]. split; [exact xapply_id|].
  split.
  { intros a v H. rewrite !xinvXform_eq, <- !xapply_mul, xinverse_l, xinverse_r, xapply_id by exact H. auto. }
  split.
  { intros a v w H. rewrite !xapply_eq. unfold vdistance2, vlength2.
    assert (E : vsub (vadd (mmulv (xbasis a) w) (xorigin a)) (vadd (mmulv (xbasis a) v) (xorigin a)) = mmulv (xbasis a) (vsub w v)).
    { destruct a as [[[] [] []] []], v, w. lm_unfold. f_equal; cbn [RS scar]; ring. }
    rewrite E. apply rotation_dot. exact H. }
  intros q o v H. rewrite xapply_eq. unfold xfromQuat. cbn [xbasis xorigin]. rewrite mfromQuat_rotate by exact H. reflexivity.
Qed.
Print Assumptions C38_transform_action.

Example C38_example : rotation (xbasis (xfromQuat q120 (@V3 RS 1 2 3))) /\
  xapply (xfromQuat q120 (@V3 RS 1 2 3)) (@V3 RS 4 5 6) = @V3 RS 7 6 8.
Proof.
  split; [apply mfromQuat_rotation, qunit_nonzero, q120_unit|].
  destruct C38_transform_action as (_ & _ & _ & _ & A). rewrite A by exact q120_unit.
  unfold q120. lm_unfold. f_equal; cbn [RS scar]; field.
Qed.

(** ** C39 *)
(** [ypr_matrix y p r] is Rz(y) Ry(p) Rx(r) with the three axis rotations spelled out in SpecReal. *)
Theorem C39_setters_agree :
  forall roll pitch yaw : R,
  @mfromRPY RS roll pitch yaw = ypr_matrix yaw pitch roll /\
  qunit (@qfromRPY RS roll pitch yaw) /\
  mfromQuat (@qfromRPY RS roll pitch yaw) = ypr_matrix yaw pitch roll /\
  rotation (ypr_matrix yaw pitch roll).
Proof.
  intros. destruct (qfromRPY_ok roll pitch yaw). split; [apply mfromEulerYPR_eq|]. split; [assumption|]. split; [assumption|apply ypr_rotation].
Qed.
Print Assumptions C39_setters_agree.

Theorem C39_setEuler :
  forall yaw pitch roll : R, qunit (@qfromEuler RS yaw pitch roll) /\
  mfromQuat (@qfromEuler RS yaw pitch roll) = mmul (Ry yaw) (mmul (Rx pitch) (Rz roll)).
Proof. exact qfromEuler_ok. Qed.
Print Assumptions C39_setEuler.

(** Both solutions of getEulerYPR are angles of the matrix, away from gimbal lock. *)
Theorem C39_getter_correct :
  forall (m : mat3 RS) n, rotation m -> -1 < vx (m2 m) < 1 -> of_ypr (mgetEulerYPR m n) = m.
Proof. exact mgetEuler_ok. Qed.
Print Assumptions C39_getter_correct.

Theorem C39_angles_round_trip :
  forall y p r : R, - PI < y <= PI -> - (PI / 2) < p < PI / 2 -> - PI < r <= PI ->
  mgetEulerYPR (@mfromRPY RS r p y) 1 = (y, p, r) /\ mgetEulerYPR (mfromQuat (@qfromRPY RS r p y)) 1 = (y, p, r).
Proof.
  intros y p r Hy Hp Hr. destruct (qfromRPY_ok r p y) as [_ E]. unfold mfromRPY. rewrite E, mfromEulerYPR_eq, mgetEuler_angles by assumption. auto.
Qed.
Print Assumptions C39_angles_round_trip.

(** At gimbal lock every rotation is answered by the same two triples, so only two rotations come back. *)
Theorem C39_at_gimbal_lock :
  forall (m : mat3 RS) n, rotation m -> ~ (-1 < vx (m2 m) < 1) ->
  mgetEulerYPR m n = (0, (if Rlt_dec (vx (m2 m)) 0 then PI / 2 else - (PI / 2)), 0).
Proof.
  intros m n H Hg. pose proof (rotation_corner_bound m H) as B.
  assert (G : vx (m2 m) = 1 \/ vx (m2 m) = -1).
  { destruct B as [B1 B2]. destruct (Rle_lt_or_eq_dec _ _ B2) as [L|L]; [|left; exact L].
    destruct (Rle_lt_or_eq_dec _ _ B1) as [L'|L']; [exfalso; apply Hg; split; assumption|right; symmetry; exact L']. }
  rewrite mgetEuler_at_lock by assumption. unfold Rltb.
  destruct (Rlt_dec (vx (m2 m)) 0); reflexivity.
Qed.
Print Assumptions C39_at_gimbal_lock.

Theorem C39_gimbal_lock_refuted :
  exists y p r : R, forall n, of_ypr (mgetEulerYPR (@mfromRPY RS r p y) n) <> @mfromRPY RS r p y.
Proof.
  exists (PI / 2), (PI / 2), 0. intros n. unfold mfromRPY. rewrite mfromEulerYPR_eq.
  rewrite (mgetEuler_at_lock _ n (ypr_rotation _ _ _)); [|right; rewrite ypr_corner, sin_PI2; lra].
  rewrite ypr_corner, sin_PI2. unfold Rltb. destruct (Rlt_dec (- (1)) 0); [|lra].
  unfold of_ypr. rewrite !ypr_entries. rewrite sin_PI2, cos_PI2, sin_0, cos_0. unfold V9. intros E. injection E as _ E _ _ _ _. lra.
Qed.
Print Assumptions C39_gimbal_lock_refuted.

Example C39_example : - PI < 3 <= PI /\ - (PI / 2) < 1 < PI / 2 /\ - PI < -2 <= PI /\ -1 < vx (m2 (ypr_matrix 3 1 (-2))) < 1.
Proof.
  pose proof PI2_3_2. pose proof PI_4. assert (3 < PI) by (pose proof PI2_3_2; lra).
  repeat split; try lra; rewrite ypr_corner; pose proof (sin_gt_0 1) ; pose proof (sin_lt_x 1); lra.
Qed.

(** ** C40 *)
(** [sin_pitch q] is the sine of the pitch of the rotation q stands for. *)
Theorem C40_agrees_with_matrix :
  forall q : quat RS, nonzero q -> - (99999 / 100000) < sin_pitch q < 99999 / 100000 ->
  ugetEulerYPR q = mgetEulerYPR (mfromQuat q) 1 /\ of_ypr (ugetEulerYPR q) = mfromQuat q.
Proof.
  intros q H Hp. split; [apply ugetEuler_regular; assumption|]. apply ugetEuler_correct_iff; auto.
Qed.
Print Assumptions C40_agrees_with_matrix.

(** Exactly when the answer describes the rotation: near the poles it does not, apart from a coincidence. *)
Theorem C40_correct_iff :
  forall q : quat RS, nonzero q ->
  (of_ypr (ugetEulerYPR q) = mfromQuat q <->
   - (99999 / 100000) < sin_pitch q < 99999 / 100000 \/ (sin_pitch q = -1 /\ Rabs (qx q) = Rabs (qy q))).
Proof. exact ugetEuler_correct_iff. Qed.
Print Assumptions C40_correct_iff.

Theorem C40_yaw_is_the_yaw : forall (S : Scalar) (q : quat S), ugetYaw q = fst (fst (ugetEulerYPR q)).
Proof. exact ugetYaw_eq. Qed.
Print Assumptions C40_yaw_is_the_yaw.

(** Straight up, facing forward: the answer is turned by half a turn. *)
Theorem C40_gimbal_refuted :
  exists q : quat RS, nonzero q /\ mfromQuat q = ypr_matrix 0 (PI / 2) 0 /\ ugetEulerYPR q = (PI, PI / 2, 0) /\
    of_ypr (ugetEulerYPR q) <> mfromQuat q.
Proof.
  exists (@Q4 RS 0 1 0 1). assert (N : nonzero (@Q4 RS 0 1 0 1)) by (unfold nonzero; cbn; lra).
  assert (E : sin_pitch (@Q4 RS 0 1 0 1) = 1) by (unfold sin_pitch; cbn [qx qy qz qw RS scar]; field).
  split; [exact N|]. split.
  { rewrite mfromQuat_entries by lra. rewrite ypr_entries, sin_PI2, cos_PI2, sin_0, cos_0. unfold V9. meq; field. }
  split.
  - unfold ugetEulerYPR. cbn [qx qy qz qw]. runf. rewrite (sarg_eq 0 1 0 1) by lra. rewrite E.
    replace (Rltb 1 (-99999 / 100000)) with false by (symmetry; apply Rltb_false; lra).
    replace (Reqb (-99999 / 100000) 1) with false by (symmetry; apply Reqb_false; lra).
    replace (Rltb (99999 / 100000) 1) with true by (symmetry; apply Rltb_true; lra). cbn [orb].
    assert (A : Ratan2 1 0 = PI / 2) by (unfold Ratan2; destruct (Rlt_dec 0 0); [lra|]; destruct (Rlt_dec 0 1); lra).
    rewrite A, zero1. f_equal; f_equal; field.
  - intros C. apply (C40_correct_iff _ N) in C. rewrite E in C. destruct C as [C|[C _]]; lra.
Qed.
Print Assumptions C40_gimbal_refuted.

Example C40_example : nonzero p120 /\ - (99999 / 100000) < sin_pitch p120 < 99999 / 100000.
Proof. split; unfold nonzero, sin_pitch, p120; cbn [qx qy qz qw RS scar]; lra. Qed.

(** ** C56 *)
Theorem C56_matrix_inverse :
  (forall m : mat3 RS, mdet m <> 0 -> mmul m (minverse m) = midentity /\ mmul (minverse m) m = midentity) /\
  (forall m : mat3 RS, rotation m -> minverse m = mtranspose m) /\
  (forall a b : mat3 RS, mtransposeTimes a b = mmul (mtranspose a) b /\ mtimesTranspose a b = mmul a (mtranspose b)) /\
  (forall a b : mat3 RS, mdet (mmul a b) = (mdet a * mdet b)%R) /\
  (forall (a b : mat3 RS) v, mmulv (mmul a b) v = mmulv a (mmulv b v)).
Proof.
  split; [exact minverse_ok|]. split; [exact minverse_rotation|].
  split; [intros; split; [apply mtransposeTimes_eq|apply mtimesTranspose_eq]|]. split; [exact mdet_mul|exact mmulv_mul].
Qed.
Print Assumptions C56_matrix_inverse.
Example C56_example : mdet (V9 2 0 0 1 3 0 0 5 7) <> 0.
Proof. rewrite mdet_V9. cbn [RS scar]. lra. Qed.
