(** * Properties C41-C45, C59: transforming and converting geometry messages *)
From Coq Require Import ZArith Bool Reals Lra Psatz List String Lia.
From Verif Require Import RosTime Scalar LinearMath Instances RealSlerp RealQuat SpecReal RealMatrix ExampleBuffers GeomMsgs SpecGeom GeomProofs GeomReal.
Import ListNotations.
Open Scope R_scope.

(** the concrete transform of the examples: 120 degrees about (1,1,1), then a shift by (1,2,3) *)
Definition T120 : rtstamped :=
  mkTstamped (mkHeader 7%Z 5000000000%Z "map"%string) "base"%string
    (mkGtransform (@mkXyz RS 1 2 3) (@mkGquat RS (1/2) (1/2) (1/2) (1/2))).
Lemma T120_unit : is_unit (rot T120).
Proof. unfold is_unit, norm2, rot, T120. cbn [t_transform g_rotation gqx gqy gqz gqw]. cbn [RS scar]. lra. Qed.
(** a transform whose quaternion is not of unit length *)
Definition Tbig : rtstamped :=
  mkTstamped (mkHeader 0%Z 1%Z "odom"%string) "base"%string
    (mkGtransform (@mkXyz RS 1 0 0) (@mkGquat RS 0 0 3 4)).
Lemma Tbig_nonzero : is_nonzero (rot Tbig).
Proof. unfold is_nonzero, norm2, rot, Tbig. cbn [t_transform g_rotation gqx gqy gqz gqw]. cbn [RS scar]. lra. Qed.
Ltac geo := unfold moved, turn, plus, minus, times, cross, dot, axis_of, rot, shift, T120, Tbig;
  cbn [t_transform g_rotation translation gqx gqy gqz gqw gx gy gz position orientation force torque]; cbn [RS scar].

(** ** C41: points and vectors *)
(** doTransform(Point): rotate, then translate.  The result is at the output address, whatever
    the output held before and whether or not input and output are the same object. *)
Theorem C41_point_is_rotated_then_translated :
  forall (T : rtstamped) (m : mem rxyz) i o, is_unit (rot T) ->
  let m' := doTransform_Point (const_ref T) (at_loc i) (at_loc o) m in
  m' o = plus (turn (rot T) (m i)) (shift T) /\ forall j, j <> o -> m' j = m j.
Proof.
  intros T m i o H m'. destruct (point_mem T m i o) as [H1 H2]. split; [|exact H2].
  change (m' o = moved T (m i)). rewrite <- point_moved by exact H. rewrite point_by_eq. exact H1.
Qed.
Print Assumptions C41_point_is_rotated_then_translated.
Example C41_point_case : is_unit (rot T120) /\ moved T120 (@mkXyz RS 1 0 0) = @mkXyz RS 1 3 3.
Proof. split; [exact T120_unit|]. geo. f_equal; lra. Qed.

(** doTransform(Vector3): only rotate. *)
Theorem C41_vector_is_rotated :
  forall (T : rtstamped) (m : mem rxyz) i o, is_unit (rot T) ->
  let m' := doTransform_Vector3 (const_ref T) (at_loc i) (at_loc o) m in
  m' o = turn (rot T) (m i) /\ forall j, j <> o -> m' j = m j.
Proof.
  intros T m i o H m'. destruct (vector_mem T m i o) as [H1 H2]. split; [|exact H2].
  rewrite <- vector_turned by exact H. rewrite vector_by_eq. exact H1.
Qed.
Print Assumptions C41_vector_is_rotated.

(** Distances, angles and handedness are preserved, for any nonzero quaternion. *)
Theorem C41_rigid :
  forall (T : rtstamped) (a b : rxyz), is_nonzero (rot T) ->
  (let d := minus (point_by T a) (point_by T b) in let e := minus a b in dot d d = dot e e) /\
  dot (vector_by T a) (vector_by T b) = dot a b /\
  cross (vector_by T a) (vector_by T b) = vector_by T (cross a b) /\
  minus (point_by T a) (point_by T b) = vector_by T (minus a b).
Proof.
  intros T a b H.
  assert (E : minus (point_by T a) (point_by T b) = vector_by T (minus a b)).
  { apply fv_inj. rewrite fv_minus, !point_fv, vector_fv, fv_minus, !xapply_eq.
    generalize (fv a) (fv b) (xbasis (tfx T)) (xorigin (tfx T)). intros [] [] [[] [] []] []. lm_unfold. f_equal; ring. }
  split; [|split; [|split; [|exact E]]].
  - cbv zeta. rewrite E, !dot_fv, vector_fv. apply rotation_dot. exact (tfx_rigid _ H).
  - rewrite !dot_fv, !vector_fv. apply rotation_dot. exact (tfx_rigid _ H).
  - apply fv_inj. rewrite fv_cross, !vector_fv, fv_cross. apply rotation_cross. exact (tfx_rigid _ H).
Qed.
Print Assumptions C41_rigid.
Example C41_rigid_case : is_nonzero (rot Tbig). Proof. exact Tbig_nonzero. Qed.

(** The length of the quaternion does not matter. *)
Theorem C41_quaternion_length_is_ignored :
  forall (T T' : rtstamped) (k : R) p, is_nonzero (rot T) -> k <> 0 ->
  rot T' = scaled k (rot T) -> shift T' = shift T ->
  point_by T' p = point_by T p /\ vector_by T' p = vector_by T p.
Proof.
  intros T T' k p H Hk E1 E2.
  assert (E : tfx T' = tfx T).
  { unfold tfx, fromMsg_Transform. fold (rot T') (rot T) (shift T') (shift T). rewrite E1, E2. f_equal.
    rewrite <- (mfromQuat_scale (fq (rot T)) k (nonzero_fq _ H) Hk). f_equal. destruct (rot T) as [x y z w].
    unfold fromMsg_Quaternion, scaled, qscale. cbn [qx qy qz qw gqx gqy gqz gqw]. f_equal; apply Rmult_comm. }
  split; apply fv_inj; [rewrite !point_fv|rewrite !vector_fv]; rewrite E; reflexivity.
Qed.
Print Assumptions C41_quaternion_length_is_ignored.
Example C41_length_case : rot Tbig = scaled 5 (@mkGquat RS 0 0 (3/5) (4/5)).
Proof. unfold rot, Tbig, scaled. cbn [t_transform g_rotation gqx gqy gqz gqw]. cbn [RS scar]. f_equal; lra. Qed.

(** Composing two transforms with doTransform(TransformStamped) and applying the result is
    applying one after the other; the inverse undoes; the identity does nothing. *)
Theorem C41_action :
  (forall (T1 T2 : rtstamped) p, is_nonzero (rot T1) -> is_nonzero (rot T2) ->
     point_by (transform_by T1 T2) p = point_by T1 (point_by T2 p) /\
     vector_by (transform_by T1 T2) p = vector_by T1 (vector_by T2 p)) /\
  (forall (T : rtstamped) p, is_nonzero (rot T) ->
     point_by (inverted T) (point_by T p) = p /\ point_by T (point_by (inverted T) p) = p /\
     vector_by (inverted T) (vector_by T p) = p /\ vector_by T (vector_by (inverted T) p) = p) /\
  (forall (T : rtstamped) p, rot T = @mkGquat RS 0 0 0 1 -> shift T = @mkXyz RS 0 0 0 ->
     point_by T p = p /\ vector_by T p = p).
Proof.
  split; [|split].
  - intros T1 T2 p H1 H2. destruct (compose_tfx T1 T2 H1 H2) as [E _].
    split; apply fv_inj; [rewrite !point_fv, E; apply xapply_mul|rewrite !vector_fv, E, xmul_eq; apply mmulv_mul].
  - intros T p H. destruct (inverted_tfx T H) as [E _]. pose proof (tfx_rigid _ H) as R.
    split; [|split; [|split]]; apply fv_inj.
    + rewrite !point_fv, E, <- xapply_mul, xinverse_l by exact R. apply xapply_id.
    + rewrite !point_fv, E, <- xapply_mul, xinverse_r by exact R. apply xapply_id.
    + rewrite !vector_fv, E, <- mmulv_mul. unfold xinverse. cbn [xbasis]. rewrite rotation_orth_l by exact R. apply mmulv_id.
    + rewrite !vector_fv, E, <- mmulv_mul. unfold xinverse. cbn [xbasis]. rewrite rotation_orth_r by exact R. apply mmulv_id.
  - intros T p E1 E2.
    assert (E : tfx T = xidentity).
    { unfold tfx, fromMsg_Transform. fold (rot T) (shift T). rewrite E1, E2.
      change (fq (@mkGquat RS 0 0 0 1)) with (@Q4 RS 0 0 0 1). rewrite <- qidentity_eq, mfromQuat_id. unfold xidentity, vzero.
      f_equal. unfold fromMsg_xyz. cbn [gx gy gz]. unfold szero. cbn [RS slit scar]. f_equal; field. }
    split; apply fv_inj; [rewrite point_fv, E; apply xapply_id|rewrite vector_fv, E; apply mmulv_id].
Qed.
Print Assumptions C41_action.

(** Every stamped overload transforms the payload as the plain overload does and takes the
    stamp and frame of the transform; the sequence number of the output is kept.
    Holds for every scalar type, doubles included. *)
Theorem C41_stamped_messages_take_the_header_of_the_transform :
  forall (S : Scalar) (T : gtstamped S) i o,
  (forall m : mem (mstamped (gxyz S)),
     let m' := doTransform_PointStamped (const_ref T) (at_loc i) (at_loc o) m in
     m' o = mkMstamped (retagged T (m_header (m o))) (point_by T (m_data (m i))) /\ forall j, j <> o -> m' j = m j) /\
  (forall m : mem (mstamped (gxyz S)),
     let m' := doTransform_Vector3Stamped (const_ref T) (at_loc i) (at_loc o) m in
     m' o = mkMstamped (retagged T (m_header (m o))) (vector_by T (m_data (m i))) /\ forall j, j <> o -> m' j = m j) /\
  (forall m : mem (mstamped (gquat S)),
     let m' := doTransform_QuaternionStamped (const_ref T) (at_loc i) (at_loc o) m in
     m' o = mkMstamped (retagged T (m_header (m o))) (quaternion_by T (m_data (m i))) /\ forall j, j <> o -> m' j = m j) /\
  (forall m : mem (mstamped (gpose S)),
     let m' := doTransform_PoseStamped (const_ref T) (at_loc i) (at_loc o) m in
     m' o = mkMstamped (retagged T (m_header (m o))) (pose_by T (m_data (m i))) /\ forall j, j <> o -> m' j = m j) /\
  (forall m : mem (mstamped (gwrench S)),
     let m' := doTransform_WrenchStamped (const_ref T) (at_loc i) (at_loc o) m in
     m' o = mkMstamped (retagged T (m_header (m o))) (wrench_by T (m_data (m i))) /\ forall j, j <> o -> m' j = m j) /\
  (forall junk (m : mem (mstamped (gposecov S))),
     let m' := doTransform_PoseCovStamped (const_ref T) junk (at_loc i) (at_loc o) m in
     m' o = mkMstamped (retagged T (m_header (m o)))
              (mkPoseCov (pose_by T (pc_pose (m_data (m i)))) (covariance_by T junk (pc_cov (m_data (m i))))) /\
     forall j, j <> o -> m' j = m j).
Proof.
  intros S T i o. split; [intros m; apply stamped_point_mem|]. split; [intros m; apply stamped_vector_mem|].
  split; [intros m; apply stamped_quaternion_mem|]. split; [intros m; apply stamped_pose_mem|].
  split; [intros m; apply stamped_wrench_mem|]. intros junk m. apply stamped_posecov_mem.
Qed.
Print Assumptions C41_stamped_messages_take_the_header_of_the_transform.

(** Not covered by any check: a transform with an all-zero quaternion (the default constructed
    message) silently turns every point into NaNs. *)
Definition zero_quat_transform : gtstamped D64 :=
  mkTstamped header0 EmptyString
    (mkGtransform (mkXyz (slit 0 1) (slit 0 1) (slit 0 1)) (mkGquat (slit 0 1) (slit 0 1) (slit 0 1) (slit 0 1))).
Theorem C41_zero_quaternion_refuted :
  ~ (forall (T : gtstamped D64) (p : gxyz D64), sisnan (gx p) = false -> sisnan (gx (point_by T p)) = false).
Proof.
  intros H. specialize (H zero_quat_transform (mkXyz (slit 1 1) (slit 2 1) (slit 3 1))).
  assert (A : f64_isnan (gx (mkXyz (slit 1 1) (slit 2 1) (slit 3 1) : gxyz D64)) = false) by (vm_compute; reflexivity).
  specialize (H A). revert H. clear A.
  assert (B : f64_isnan (gx (point_by zero_quat_transform (mkXyz (slit 1 1) (slit 2 1) (slit 3 1)))) = true) by (vm_compute; reflexivity).
  change (f64_isnan (gx (point_by zero_quat_transform (mkXyz (slit 1 1) (slit 2 1) (slit 3 1)))) = false -> False).
  rewrite B. discriminate.
Qed.
Print Assumptions C41_zero_quaternion_refuted.

(** ** C42: orientations, poses and transforms *)
Theorem C42_quaternion_is_multiplied :
  forall (T : rtstamped) (m : mem rgquat) i o,
  let m' := doTransform_Quaternion (const_ref T) (at_loc i) (at_loc o) m in
  m' o = product (rot T) (m i) /\ norm2 (m' o) = norm2 (rot T) * norm2 (m i) /\ forall j, j <> o -> m' j = m j.
Proof.
  intros T m i o m'. destruct (quaternion_mem T m i o) as [H1 H2].
  assert (E : m' o = product (rot T) (m i)) by (unfold m'; rewrite H1, tq_mul, !tq_fq; reflexivity).
  split; [exact E|split; [|exact H2]]. rewrite E. destruct (rot T) as [a b c d], (m i) as [e f g h].
  unfold norm2, product, plus, times, cross, dot, axis_of. cbn [gx gy gz gqx gqy gqz gqw RS sadd smul ssub]. cbn [RS scar]. ring.
Qed.
Print Assumptions C42_quaternion_is_multiplied.

(** doTransform(Pose): the position moves like a point, the orientation is multiplied on the left
    (up to the sign every quaternion has) and comes out with unit length. *)
Theorem C42_pose_is_composed :
  forall (T : rtstamped) (m : mem (gpose RS)) i o, is_unit (rot T) -> is_unit (orientation (m i)) ->
  let m' := doTransform_Pose (const_ref T) (at_loc i) (at_loc o) m in
  position (m' o) = moved T (position (m i)) /\
  same_turn (orientation (m' o)) (product (rot T) (orientation (m i))) /\
  is_unit (orientation (m' o)) /\
  (forall v, turn (orientation (m' o)) v = turn (rot T) (turn (orientation (m i)) v)) /\
  forall j, j <> o -> m' j = m j.
Proof.
  intros T m i o HT Hp m'. destruct (pose_mem T m i o) as [H1 H2]. fold m' in H1, H2. rewrite <- pose_by_eq in H1.
  destruct (pose_by_x T (m i) (unit_nonzero _ HT) (unit_nonzero _ Hp)) as [E U]. rewrite <- H1 in E, U.
  assert (P : position (m' o) = moved T (position (m i))).
  { apply fv_inj. rewrite <- point_moved by exact HT. rewrite point_fv.
    change (fv (position (m' o))) with (xorigin (posex (m' o))). rewrite E. reflexivity. }
  assert (Q : same_turn (orientation (m' o)) (product (rot T) (orientation (m i)))).
  { rewrite <- (tq_fq (orientation (m' o))), <- (tq_fq (rot T)), <- (tq_fq (orientation (m i))), <- tq_mul.
    apply same_turn_tq, mfromQuat_inj; [apply unit_fq; exact U|apply qunit_mul; apply unit_fq; assumption|].
    rewrite mfromQuat_mul_unit by (apply unit_fq; assumption).
    change (xbasis (posex (m' o)) = xbasis (xmul (tfx T) (posex (m i)))). rewrite E. reflexivity. }
  split; [exact P|split; [exact Q|split; [exact U|split; [|exact H2]]]].
  intros v. rewrite !turn_mat by assumption. rewrite fv_tv, <- mmulv_mul. f_equal. f_equal.
  change (xbasis (posex (m' o)) = xbasis (xmul (tfx T) (posex (m i)))). rewrite E. reflexivity.
Qed.
Print Assumptions C42_pose_is_composed.
Example C42_pose_case :
  let p := mkPose (@mkXyz RS 1 0 0) (@mkGquat RS 0 0 (3/5) (4/5)) in
  is_unit (rot T120) /\ is_unit (orientation p) /\ moved T120 (position p) = @mkXyz RS 1 3 3.
Proof.
  cbv zeta. split; [exact T120_unit|split; [unfold is_unit, norm2; cbn [orientation gqx gqy gqz gqw]; cbn [RS scar]; lra|]].
  geo. f_equal; lra.
Qed.

(** Whatever nonzero quaternions come in, the orientation that comes out is a unit quaternion. *)
Theorem C42_pose_orientation_is_normalised :
  forall (T : rtstamped) p, is_nonzero (rot T) -> is_nonzero (orientation p) -> is_unit (orientation (pose_by T p)).
Proof. intros T p HT Hp. exact (proj2 (pose_by_x T p HT Hp)). Qed.
Print Assumptions C42_pose_orientation_is_normalised.

(** Transforming poses is a group action, up to the sign of the quaternion. *)
Theorem C42_action :
  (forall (T1 T2 : rtstamped) p, is_nonzero (rot T1) -> is_nonzero (rot T2) -> is_nonzero (orientation p) ->
     position (pose_by (transform_by T1 T2) p) = position (pose_by T1 (pose_by T2 p)) /\
     same_turn (orientation (pose_by (transform_by T1 T2) p)) (orientation (pose_by T1 (pose_by T2 p)))) /\
  (forall (T : rtstamped) p, is_nonzero (rot T) -> is_unit (orientation p) ->
     position (pose_by (inverted T) (pose_by T p)) = position p /\
     same_turn (orientation (pose_by (inverted T) (pose_by T p))) (orientation p) /\
     position (pose_by T (pose_by (inverted T) p)) = position p /\
     same_turn (orientation (pose_by T (pose_by (inverted T) p))) (orientation p)).
Proof.
  split.
  - intros T1 T2 p H1 H2 Hp. destruct (compose_tfx T1 T2 H1 H2) as [E U].
    destruct (pose_by_x T2 p H2 Hp) as [E2 U2].
    destruct (pose_by_x T1 _ H1 (unit_nonzero _ U2)) as [E1 U1].
    destruct (pose_by_x (transform_by T1 T2) p (unit_nonzero _ U) Hp) as [E3 U3].
    apply posex_inj; [exact U3|exact U1|]. rewrite E3, E1, E2, E, xmul_assoc. reflexivity.
  - intros T p H Hp. destruct (inverted_tfx T H) as [E U]. pose proof (unit_nonzero _ Hp) as Np.
    destruct (pose_by_x T p H Np) as [E1 U1].
    destruct (pose_by_x (inverted T) _ (unit_nonzero _ U) (unit_nonzero _ U1)) as [E2 U2].
    destruct (pose_by_x (inverted T) p (unit_nonzero _ U) Np) as [E3 U3].
    destruct (pose_by_x T _ H (unit_nonzero _ U3)) as [E4 U4].
    destruct (posex_inj (pose_by (inverted T) (pose_by T p)) p U2 Hp) as [A B].
    { rewrite E2, E1, E, xmul_assoc, xinverse_l by (apply tfx_rigid; exact H). apply xmul_id_l. }
    destruct (posex_inj (pose_by T (pose_by (inverted T) p)) p U4 Hp) as [C D].
    { rewrite E4, E3, E, xmul_assoc, xinverse_r by (apply tfx_rigid; exact H). apply xmul_id_l. }
    split; [exact A|split; [exact B|split; [exact C|exact D]]].
Qed.
Print Assumptions C42_action.

(** doTransform(TransformStamped): the result moves points by the input, then by the transform;
    its quaternion is unit; header from the transform; child_frame_id is what the output had. *)
Theorem C42_transform_is_composed :
  forall (T : rtstamped) (m : mem rtstamped) i o, is_nonzero (rot T) -> is_nonzero (rot (m i)) ->
  let m' := doTransform_TransformStamped (const_ref T) (at_loc i) (at_loc o) m in
  (forall p, moved (m' o) p = point_by T (point_by (m i) p)) /\
  is_unit (rot (m' o)) /\ t_header (m' o) = retagged T (t_header (m o)) /\ t_child (m' o) = t_child (m o) /\
  forall j, j <> o -> m' j = m j.
Proof.
  intros T m i o HT Hi m'.
  pose proof (rigid_mul _ _ (tfx_rigid _ HT) (tfx_rigid _ Hi)) as R.
  assert (A : m' o = mkTstamped (retagged T (t_header (m o))) (t_child (m o)) (toMsg_Transform (xmul (tfx T) (tfx (m i))))).
  { unfold m', doTransform_TransformStamped, set_header, retagged. here. reflexivity. }
  assert (U : is_unit (rot (m' o))) by (rewrite A; exact (transform_rot_unit _ R)).
  split; [|split; [exact U|split; [rewrite A; reflexivity|split; [rewrite A; reflexivity|]]]].
  - intros p. rewrite <- point_moved by exact U. apply fv_inj. rewrite !point_fv.
    replace (tfx (m' o)) with (xmul (tfx T) (tfx (m i))) by (rewrite A; symmetry; exact (transform_tfx _ R)). apply xapply_mul.
  - intros j N. unfold m', doTransform_TransformStamped, set_header. elsewhere N. reflexivity.
Qed.
Print Assumptions C42_transform_is_composed.

(** ** C43: covariance *)
(** Every entry of the result is that of diag(R,R) C diag(R,R)^T; nothing of the uninitialised
    output array survives. *)
Theorem C43_covariance_is_conjugated :
  forall (T : rtstamped) (junk c : nat -> R) i j, is_unit (rot T) -> (i < 6)%nat -> (j < 6)%nat ->
  at66 (covariance_by T junk c) i j =
  sum6 (fun k => sum6 (fun l => blockdiag (rot T) i k * at66 c k l * blockdiag (rot T) j l)).
Proof. exact cov_spec. Qed.
Print Assumptions C43_covariance_is_conjugated.
Example C43_case : entry (rot T120) 0 2 = 1 /\ entry (rot T120) 1 0 = 1 /\ entry (rot T120) 0 0 = 0.
Proof. unfold entry, coord, axis. geo. repeat split; lra. Qed.

Theorem C43_covariance_stays_a_covariance :
  forall (T : rtstamped) (junk c : nat -> R), is_unit (rot T) ->
  (symmetric66 c -> symmetric66 (covariance_by T junk c)) /\
  (positive66 c -> positive66 (covariance_by T junk c)) /\
  (forall x, quadratic (covariance_by T junk c) x = quadratic c (fun k => sum6 (fun i => blockdiag (rot T) i k * x i))).
Proof.
  intros T junk c H. split; [|split; [|intros x; apply quadratic_cov; exact H]].
  - intros HS i j Hi Hj. rewrite !cov_spec by assumption. rewrite (sum6_swap (fun k l => blockdiag (rot T) j k * at66 c k l * blockdiag (rot T) i l)).
    apply sum6_ext. intros k Hk. apply sum6_ext. intros l Hl. rewrite (HS k l Hk Hl). ring.
  - intros HP x. rewrite quadratic_cov by exact H. apply HP.
Qed.
Print Assumptions C43_covariance_stays_a_covariance.

Theorem C43_action :
  (forall (T1 T2 : rtstamped) j1 j2 j3 c k, is_nonzero (rot T1) -> is_nonzero (rot T2) -> (k < 36)%nat ->
     covariance_by (transform_by T1 T2) j1 c k = covariance_by T1 j2 (covariance_by T2 j3 c) k) /\
  (forall (T : rtstamped) j1 j2 c k, is_nonzero (rot T) -> (k < 36)%nat ->
     covariance_by (inverted T) j1 (covariance_by T j2 c) k = c k).
Proof.
  split.
  - intros T1 T2 j1 j2 j3 c k H1 H2 Hk. destruct (compose_tfx T1 T2 H1 H2) as [E _].
    unfold covariance_by. change (fromMsg_Transform (t_transform (transform_by T1 T2))) with (tfx (transform_by T1 T2)).
    rewrite E. symmetry. exact (cov_compose j2 j3 j1 c (tfx T1) (tfx T2) k Hk).
  - intros T j1 j2 c k H Hk. destruct (inverted_tfx T H) as [E _].
    unfold covariance_by. change (fromMsg_Transform (t_transform (inverted T))) with (tfx (inverted T)).
    rewrite E. change (fromMsg_Transform (t_transform T)) with (tfx T).
    rewrite (cov_compose j1 j2 j1) by exact Hk. rewrite xinverse_l by (apply tfx_rigid; exact H). apply cov_identity. exact Hk.
Qed.
Print Assumptions C43_action.

(** ** C44: wrenches *)
Theorem C44_wrench_is_moved :
  forall (T : rtstamped) (m : mem (gwrench RS)) i o, is_unit (rot T) ->
  let m' := doTransform_Wrench (const_ref T) (at_loc i) (at_loc o) m in
  force (m' o) = turn (rot T) (force (m i)) /\
  torque (m' o) = plus (turn (rot T) (torque (m i))) (cross (shift T) (turn (rot T) (force (m i)))) /\
  forall j, j <> o -> m' j = m j.
Proof.
  intros T m i o H m'. destruct (wrench_mem T m i o) as [H1 H2]. fold m' in H1, H2. rewrite <- wrench_by_eq in H1.
  destruct (wrench_parts T (m i)) as [F Q].
  split; [|split; [|exact H2]]; rewrite H1; apply fv_inj.
  - rewrite F, turn_mat, fv_tv by exact H. reflexivity.
  - rewrite Q, fv_plus, fv_cross, !turn_mat, !fv_tv by exact H. reflexivity.
Qed.
Print Assumptions C44_wrench_is_moved.
Example C44_case : turn (rot T120) (@mkXyz RS 1 0 0) = @mkXyz RS 0 1 0 /\
  cross (shift T120) (@mkXyz RS 0 1 0) = @mkXyz RS (-3) 0 1.
Proof. geo. split; f_equal; lra. Qed.

(** Physical consistency: the moment of the wrench about any point turns with the frame, and the
    magnitude of the force is unchanged. *)
Theorem C44_moments_are_preserved :
  forall (T : rtstamped) (w : gwrench RS) (p : rxyz), is_unit (rot T) ->
  minus (torque (wrench_by T w)) (cross (moved T p) (force (wrench_by T w))) =
    turn (rot T) (minus (torque w) (cross p (force w))) /\
  dot (force (wrench_by T w)) (force (wrench_by T w)) = dot (force w) (force w).
Proof.
  intros T w p H. destruct (wrench_parts T w) as [F Q]. pose proof (tfx_rigid _ (unit_nonzero _ H)) as R. split.
  - apply fv_inj. rewrite <- point_moved by exact H. rewrite fv_minus, fv_cross, F, Q, point_fv, xapply_eq.
    rewrite turn_mat, fv_tv, fv_minus, fv_cross by exact H. change (mfromQuat (fq (rot T))) with (xbasis (tfx T)).
    rewrite !vsub_eq, mmulv_add, mmulv_neg, <- (rotation_cross (xbasis (tfx T))), vcross_add_l by exact R.
    generalize (mmulv (xbasis (tfx T)) (fv (torque w))) (vcross (xorigin (tfx T)) (mmulv (xbasis (tfx T)) (fv (force w))))
      (vcross (mmulv (xbasis (tfx T)) (fv p)) (mmulv (xbasis (tfx T)) (fv (force w)))).
    intros [] [] []. lm_unfold. f_equal; ring.
  - rewrite !dot_fv, F. apply rotation_dot. exact R.
Qed.
Print Assumptions C44_moments_are_preserved.

Theorem C44_action :
  (forall (T1 T2 : rtstamped) w, is_nonzero (rot T1) -> is_nonzero (rot T2) ->
     wrench_by (transform_by T1 T2) w = wrench_by T1 (wrench_by T2 w)) /\
  (forall (T : rtstamped) w, is_nonzero (rot T) ->
     wrench_by (inverted T) (wrench_by T w) = w /\ wrench_by T (wrench_by (inverted T) w) = w).
Proof.
  assert (C : forall T1 T2 T3 w, is_nonzero (rot T1) -> tfx T3 = xmul (tfx T1) (tfx T2) -> wrench_by T3 w = wrench_by T1 (wrench_by T2 w)).
  { intros T1 T2 T3 w H1 E. destruct (wrench_parts T3 w) as [F3 Q3]. destruct (wrench_parts T2 w) as [F2 Q2].
    destruct (wrench_parts T1 (wrench_by T2 w)) as [F1 Q1]. rewrite F2 in F1, Q1. rewrite Q2 in Q1. rewrite E, xmul_eq in F3, Q3.
    cbn [xbasis xorigin] in F3, Q3. pose proof (tfx_rigid _ H1) as R. apply wrench_ext.
    - rewrite F3, F1. apply mmulv_mul.
    - rewrite Q3, Q1, mmulv_add, <- (rotation_cross (xbasis (tfx T1))), vcross_add_l, !mmulv_mul, vadd_assoc by exact R. reflexivity. }
  assert (I : forall T w, tfx T = xidentity -> wrench_by T w = w).
  { intros T w E. destruct (wrench_parts T w) as [F Q]. rewrite E in F, Q. unfold xidentity in F, Q. cbn [xbasis xorigin] in F, Q.
    rewrite !mmulv_id in F, Q. apply wrench_ext; [exact F|]. rewrite Q. generalize (fv (torque w)) (fv (force w)). intros [] [].
    lm_unfold. f_equal; field. }
  split.
  - intros T1 T2 w H1 H2. apply C; [exact H1|]. exact (proj1 (compose_tfx T1 T2 H1 H2)).
  - intros T w H. destruct (inverted_tfx T H) as [E U]. pose proof (tfx_rigid _ H) as R. split.
    + rewrite <- (C (inverted T) T (transform_by (inverted T) T)); [|exact (unit_nonzero _ U)|apply compose_tfx; [exact (unit_nonzero _ U)|exact H]].
      apply I. rewrite (proj1 (compose_tfx (inverted T) T (unit_nonzero _ U) H)), E. apply xinverse_l. exact R.
    + rewrite <- (C T (inverted T) (transform_by T (inverted T))); [|exact H|apply compose_tfx; [exact H|exact (unit_nonzero _ U)]].
      apply I. rewrite (proj1 (compose_tfx T (inverted T) H (unit_nonzero _ U))), E. apply xinverse_r. exact R.
Qed.
Print Assumptions C44_action.

(** ** C45: conversions *)
(** Component-wise types survive both round trips, bit for bit (every scalar). *)
Theorem C45_exact_round_trips :
  forall S : Scalar,
  (forall v : vec3 S, fromMsg_xyz (toMsg_Vector3 v) = v) /\ (forall p : gxyz S, toMsg_Vector3 (fromMsg_xyz p) = p) /\
  (forall (v : vec3 S) (m : mem (gxyz S)) o,
     fromMsg_xyz (toMsg_Point v (at_loc o) m o) = v /\ forall j, j <> o -> toMsg_Point v (at_loc o) m j = m j) /\
  (forall (p : gxyz S) (m : mem (gxyz S)) o, toMsg_Point (fromMsg_xyz p) (at_loc o) m o = p) /\
  (forall q : quat S, fromMsg_Quaternion (toMsg_Quaternion q) = q) /\
  (forall q : gquat S, toMsg_Quaternion (fromMsg_Quaternion q) = q) /\
  (forall k : tf2stamped (vec3 S), fromMsg_xyzStamped (toMsg_Vector3Stamped k) = k) /\
  (forall (k : tf2stamped (vec3 S)) out, fromMsg_xyzStamped (toMsg_PointStamped k out) = k) /\
  (forall k : tf2stamped (quat S), fromMsg_QuaternionStamped (toMsg_QuaternionStamped k) = k) /\
  (forall (k : tf2stamped (vec3 S * vec3 S)) out, fromMsg_WrenchStamped (toMsg_WrenchStamped k out) = k).
Proof.
  intros S. split; [intros []; reflexivity|]. split; [intros []; reflexivity|]. split.
  { intros v m o. pose proof (write_xyz (fun a : gxyz S => a) (fun b _ => b) m o (vx v) (vy v) (vz v) lawful_id) as H.
    split; [|intros j N].
    - unfold toMsg_Point. etransitivity; [apply f_equal; exact (H o)|]. rewrite Nat.eqb_refl. destruct v; reflexivity.
    - unfold toMsg_Point. etransitivity; [exact (H j)|]. apply Nat.eqb_neq in N. rewrite N. reflexivity. }
  split.
  { intros p m o. pose proof (write_xyz (fun a : gxyz S => a) (fun b _ => b) m o (gx p) (gy p) (gz p) lawful_id) as H.
    unfold toMsg_Point. etransitivity; [exact (H o)|]. rewrite Nat.eqb_refl. destruct p; reflexivity. }
  split; [intros []; reflexivity|]. split; [intros []; reflexivity|]. split; [intros [[] ? ?]; reflexivity|].
  split; [intros [[] ? ?] out; reflexivity|]. split; [intros [[] ? ?]; reflexivity|].
  intros [[[] []] ? ?] out. reflexivity.
Qed.
Print Assumptions C45_exact_round_trips.

(** Stamped messages come back with the same payload, stamp and frame; the sequence number is
    the one of the message written into (0 for a freshly returned message). *)
Theorem C45_stamped_message_round_trips :
  forall S : Scalar,
  (forall p : mstamped (gxyz S), toMsg_Vector3Stamped (fromMsg_xyzStamped p) =
     mkMstamped (mkHeader 0%Z (h_stamp (m_header p)) (h_frame (m_header p))) (m_data p)) /\
  (forall p out : mstamped (gxyz S), toMsg_PointStamped (fromMsg_xyzStamped p) out =
     mkMstamped (mkHeader (h_seq (m_header out)) (h_stamp (m_header p)) (h_frame (m_header p))) (m_data p)) /\
  (forall p : mstamped (gquat S), toMsg_QuaternionStamped (fromMsg_QuaternionStamped p) =
     mkMstamped (mkHeader 0%Z (h_stamp (m_header p)) (h_frame (m_header p))) (m_data p)) /\
  (forall p out : mstamped (gwrench S), toMsg_WrenchStamped (fromMsg_WrenchStamped p) out =
     mkMstamped (mkHeader (h_seq (m_header out)) (h_stamp (m_header p)) (h_frame (m_header p))) (m_data p)).
Proof.
  intros S. split; [intros [? []]; reflexivity|]. split; [intros [? []] out; reflexivity|].
  split; [intros [? []]; reflexivity|]. intros [? [[] []]] out. reflexivity.
Qed.
Print Assumptions C45_stamped_message_round_trips.

(** Rigid transforms round-trip exactly through Transform, Pose and their stamped forms; messages
    with unit quaternions round-trip up to the sign of the quaternion. *)
Theorem C45_transform_round_trips :
  (forall x : xform RS, rotation (xbasis x) ->
     fromMsg_Transform (toMsg_Transform x) = x /\
     (forall (m : mem (gpose RS)) o, fromMsg_Pose (toMsg_Pose x (at_loc o) m o) = x)) /\
  (forall g : gtransform RS, is_unit (g_rotation g) ->
     translation (toMsg_Transform (fromMsg_Transform g)) = translation g /\
     same_turn (g_rotation (toMsg_Transform (fromMsg_Transform g))) (g_rotation g)) /\
  (forall (p : gpose RS) (m : mem (gpose RS)) o, is_unit (orientation p) ->
     position (toMsg_Pose (fromMsg_Pose p) (at_loc o) m o) = position p /\
     same_turn (orientation (toMsg_Pose (fromMsg_Pose p) (at_loc o) m o)) (orientation p)) /\
  (forall k : tf2stamped (xform RS), rotation (xbasis (k_data k)) ->
     fromMsg_TransformStamped (toMsg_TransformStamped k) = k /\
     (forall out, fromMsg_PoseStamped (toMsg_PoseStamped k out) = k) /\
     (forall out, let p := m_data (toMsg_PoseCovStamped k out) in
        fromMsg_Pose (pc_pose p) = k_data k /\ pc_cov p = pc_cov (m_data out))).
Proof.
  assert (P : forall x : xform RS, rotation (xbasis x) ->
            fromMsg_Pose (mkPose (toMsg_Vector3 (xorigin x)) (toMsg_Quaternion (xgetRotation x))) = x).
  { intros x R. exact (transform_tfx x R). }
  split; [|split; [|split]].
  - intros x R. split; [apply transform_tfx; exact R|]. intros m o.
    etransitivity; [apply f_equal; exact (pose_write x _ _ m o lawful_id o)|]. rewrite Nat.eqb_refl. apply P. exact R.
  - intros g H. split; [destruct g as [[] ?]; reflexivity|].
    unfold toMsg_Transform, fromMsg_Transform, xgetRotation. cbn [g_rotation xbasis].
    rewrite <- (tq_fq (g_rotation g)) at 2. apply same_turn_tq, mgetRotation_from, unit_fq. exact H.
  - intros p m o H. assert (E : toMsg_Pose (fromMsg_Pose p) (at_loc o) m o =
      mkPose (toMsg_Vector3 (xorigin (fromMsg_Pose p))) (toMsg_Quaternion (xgetRotation (fromMsg_Pose p)))).
    { etransitivity; [exact (pose_write _ _ _ m o lawful_id o)|]. rewrite Nat.eqb_refl. reflexivity. }
    rewrite E. cbn [position orientation]. split; [destruct p as [[] ?]; reflexivity|].
    unfold fromMsg_Pose, xgetRotation. cbn [xbasis]. rewrite <- (tq_fq (orientation p)) at 5.
    apply same_turn_tq. exact (mgetRotation_from _ (unit_fq _ H)).
  - intros [x s f] R. cbn [k_data] in R. split; [|split].
    + unfold fromMsg_TransformStamped, toMsg_TransformStamped. cbn [t_transform t_header h_stamp h_frame k_data k_stamp k_frame].
      rewrite transform_tfx by exact R. reflexivity.
    + intros out. unfold fromMsg_PoseStamped, toMsg_PoseStamped. cbn [m_data m_header h_stamp h_frame k_data k_stamp k_frame].
      rewrite P by exact R. reflexivity.
    + intros out. split; [exact (P x R)|reflexivity].
Qed.
Print Assumptions C45_transform_round_trips.
Example C45_case : rotation (xbasis (tfx T120)) /\ is_unit (g_rotation (t_transform T120)).
Proof. split; [exact (tfx_rigid _ (unit_nonzero _ T120_unit))|exact T120_unit]. Qed.

(** A TransformStamped does not round-trip: the child frame is lost. *)
Theorem C45_child_frame_refuted :
  exists T : rtstamped, is_unit (rot T) /\ t_child (toMsg_TransformStamped (fromMsg_TransformStamped T)) <> t_child T.
Proof. exists T120. split; [exact T120_unit|]. discriminate. Qed.
Print Assumptions C45_child_frame_refuted.

(** ** C59: in-place use *)
(** The result depends only on the value of the input, wherever the output is: writing over the
    input gives the same payload as writing elsewhere, and no other object is touched.  For
    TransformStamped even the transform may be the input, the output, or both. *)
Theorem C59_output_may_be_the_input :
  forall (S : Scalar) (T : gtstamped S) i o,
  (forall m : mem (gxyz S), doTransform_Point (const_ref T) (at_loc i) (at_loc o) m o = point_by T (m i)) /\
  (forall m : mem (gxyz S), doTransform_Vector3 (const_ref T) (at_loc i) (at_loc o) m o = vector_by T (m i)) /\
  (forall m : mem (gquat S), doTransform_Quaternion (const_ref T) (at_loc i) (at_loc o) m o = quaternion_by T (m i)) /\
  (forall m : mem (gpose S), doTransform_Pose (const_ref T) (at_loc i) (at_loc o) m o = pose_by T (m i)) /\
  (forall m : mem (gwrench S), doTransform_Wrench (const_ref T) (at_loc i) (at_loc o) m o = wrench_by T (m i)) /\
  (forall m : mem (mstamped (gwrench S)),
     m_data (doTransform_WrenchStamped (const_ref T) (at_loc i) (at_loc o) m o) = wrench_by T (m_data (m i))) /\
  (forall junk (m : mem (mstamped (gposecov S))),
     m_data (doTransform_PoseCovStamped (const_ref T) junk (at_loc i) (at_loc o) m o) =
     mkPoseCov (pose_by T (pc_pose (m_data (m i)))) (covariance_by T junk (pc_cov (m_data (m i))))) /\
  (forall (m : mem (gtstamped S)) k,
     let m' := doTransform_TransformStamped (at_loc k) (at_loc i) (at_loc o) m in
     t_transform (m' o) = t_transform (transform_by (m k) (m i)) /\
     t_header (m' o) = retagged (m k) (t_header (m o)) /\ t_child (m' o) = t_child (m o) /\
     forall j, j <> o -> m' j = m j).
Proof.
  intros S T i o. split; [intros m; rewrite point_by_eq; apply point_mem|]. split; [intros m; rewrite vector_by_eq; apply vector_mem|].
  split; [intros m; rewrite quaternion_by_eq; apply quaternion_mem|]. split; [intros m; rewrite pose_by_eq; apply pose_mem|].
  split; [intros m; rewrite wrench_by_eq; apply wrench_mem|].
  split; [intros m; rewrite (proj1 (stamped_wrench_mem T m i o)); reflexivity|].
  split; [intros junk m; rewrite (proj1 (stamped_posecov_mem T junk m i o)); reflexivity|].
  intros m k m'. destruct (transform_mem3 m k i o) as [H1 H2]. fold m' in H1, H2. rewrite H1, transform_by_eq.
  split; [reflexivity|split; [reflexivity|split; [reflexivity|exact H2]]].
Qed.
Print Assumptions C59_output_may_be_the_input.
(** In place and elsewhere: the same point comes out, and only the output object changes. *)
Example C59_case :
  let m : mem rxyz := fun j => match j with 3%nat => @mkXyz RS 1 0 0 | _ => @mkXyz RS 9 9 9 end in
  doTransform_Point (const_ref T120) (at_loc 3) (at_loc 3) m 3%nat = @mkXyz RS 1 3 3 /\
  doTransform_Point (const_ref T120) (at_loc 3) (at_loc 4) m 4%nat = @mkXyz RS 1 3 3 /\
  doTransform_Point (const_ref T120) (at_loc 3) (at_loc 4) m 3%nat = @mkXyz RS 1 0 0.
Proof.
  intros m. destruct C41_point_case as (U & V).
  destruct (C41_point_is_rotated_then_translated T120 m 3 3 U) as (A & _). destruct (C41_point_is_rotated_then_translated T120 m 3 4 U) as (B & C).
  split; [rewrite A; exact V|]. split; [rewrite B; exact V|]. apply (C 3%nat). discriminate.
Qed.
