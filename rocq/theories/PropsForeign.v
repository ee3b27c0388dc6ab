(** * Properties C60 and C62: the Eigen, KDL, Bullet and Python packages *)
From Coq Require Import ZArith Bool Reals Lra Psatz List String Lia.
From Verif Require Import RosTime Scalar LinearMath Instances RealSlerp RealQuat SpecReal RealMatrix GeomMsgs SpecGeom GeomProofs GeomReal PropsGeom ForeignGeom SpecForeign ForeignProofs.
Import ListNotations.
Open Scope R_scope.

(** ** C60: one transform means the same thing in every package *)
(** A point taken through tf2_geometry_msgs, tf2_eigen, tf2_kdl, tf2_bullet or the Python package
    is rotated by the quaternion and then shifted; the result is stamped and framed by the
    transform (the libraries' fresh messages have seq 0, Python takes the whole header). *)
Theorem C60_points_agree :
  forall (T : rtstamped) (p : mstamped rxyz), is_unit (rot T) ->
  let out := mkMstamped (fresh_header T) (plus (turn (rot T) (m_data p)) (shift T)) in
  point_through_eigen T p = out /\ point_through_kdl T p = out /\ point_through_bullet T p = out /\
  py_do_transform_point p T = mkMstamped (t_header T) (m_data out) /\
  point_by T (m_data p) = m_data out /\
  eigen_toMsg_Vector (eigen_doTransform_Vector (eigen_fromMsg_xyz (m_data p)) T) = m_data out.
Proof.
  intros T p H. cbv zeta. pose proof (moved_x T (m_data p) H) as E. pose proof (toEigen_tfx T H) as Ee. pose proof (toKDL_tfx T H) as Ek.
  change (plus (turn (rot T) (m_data p)) (shift T)) with (moved T (m_data p)). rewrite <- E. cbn [m_data].
  unfold point_through_eigen, point_through_kdl, point_through_bullet, py_do_transform_point, eigen_doTransform_VectorStamped,
    kdl_doTransform_Vector, bullet_doTransform_Vector, py_transform_to_kdl, eigen_doTransform_Vector.
  rewrite Ee, Ek. repeat split.
Qed.
Print Assumptions C60_points_agree.
Example C60_points_case : is_unit (rot T120) /\
  point_through_eigen T120 (mkMstamped header0 (@mkXyz RS 1 0 0)) =
    mkMstamped (mkHeader 0%Z 5000000000%Z "map"%string) (@mkXyz RS 1 3 3).
Proof.
  split; [exact T120_unit|]. destruct (C60_points_agree T120 (mkMstamped header0 (@mkXyz RS 1 0 0)) T120_unit) as [-> _].
  unfold fresh_header. f_equal. exact (proj2 C41_point_case).
Qed.

(** Free vectors: Python rotates them like tf2_geometry_msgs does. *)
Theorem C60_vectors_agree :
  forall (T : rtstamped) (v : mstamped rxyz), is_unit (rot T) ->
  py_do_transform_vector3 v T = mkMstamped (t_header T) (turn (rot T) (m_data v)) /\
  vector_by T (m_data v) = turn (rot T) (m_data v).
Proof.
  intros T v H. split; [|apply vector_turned; exact H].
  rewrite <- (py_vector_turn T v H). reflexivity.
Qed.
Print Assumptions C60_vectors_agree.

(** A pose taken through tf2_geometry_msgs, Eigen, KDL or Python is the same pose (up to the sign
    every quaternion has), namely the composition; Eigen returns the quaternion with w >= 0. *)
Theorem C60_poses_agree :
  forall (T : rtstamped) (p : mstamped (gpose RS)), is_unit (rot T) -> is_unit (orientation (m_data p)) ->
  let composed (q : gpose RS) :=
    position q = moved T (position (m_data p)) /\
    same_turn (orientation q) (product (rot T) (orientation (m_data p))) in
  composed (pose_by T (m_data p)) /\
  composed (m_data (pose_through_eigen T p)) /\ 0 <= gqw (orientation (m_data (pose_through_eigen T p))) /\
  composed (m_data (pose_through_kdl T p)) /\
  composed (m_data (py_do_transform_pose p T)) /\
  m_header (pose_through_eigen T p) = fresh_header T /\ m_header (pose_through_kdl T p) = fresh_header T /\
  m_header (py_do_transform_pose p T) = t_header T.
Proof.
  intros T p HT Hp composed.
  pose proof (rigid_mul _ _ (tfx_rigid _ (unit_nonzero _ HT)) (posex_rigid _ (unit_nonzero _ Hp))) as R.
  destruct (pose_by_x T (m_data p) (unit_nonzero _ HT) (unit_nonzero _ Hp)) as [E U].
  assert (All : forall q, posex q = xmul (tfx T) (posex (m_data p)) -> is_unit (orientation q) -> composed q).
  { intros q Eq Uq. split.
    - apply fv_inj. rewrite <- point_moved by exact HT. rewrite point_fv. change (fv (position q)) with (xorigin (posex q)). rewrite Eq. reflexivity.
    - rewrite <- (tq_fq (orientation q)), <- (tq_fq (rot T)), <- (tq_fq (orientation (m_data p))), <- tq_mul.
      apply same_turn_tq, mfromQuat_inj; [apply unit_fq; exact Uq|apply qunit_mul; apply unit_fq; assumption|].
      rewrite mfromQuat_mul_unit by (apply unit_fq; assumption).
      change (xbasis (posex q) = xbasis (xmul (tfx T) (posex (m_data p)))). rewrite Eq. reflexivity. }
  destruct (eigen_toMsg_x _ R) as (Ee & Ue & We). destruct (kdl_toMsg_x _ R) as [Ek Uk].
  assert (De : m_data (pose_through_eigen T p) = eigen_toMsg_Pose (xmul (tfx T) (posex (m_data p)))).
  { unfold pose_through_eigen, eigen_doTransform_FrameStamped, eigen_fromMsg_PoseStamped. cbn [k_data].
    rewrite toEigen_tfx, eig_pose_x by assumption. reflexivity. }
  assert (Dk : m_data (pose_through_kdl T p) = kdl_toMsg_Pose (xmul (tfx T) (posex (m_data p)))).
  { unfold pose_through_kdl, kdl_doTransform_Frame, kdl_fromMsg_PoseStamped. cbn [k_data].
    rewrite toKDL_tfx, kdl_pose_x by assumption. reflexivity. }
  assert (Dp : m_data (py_do_transform_pose p T) = kdl_toMsg_Pose (xmul (tfx T) (posex (m_data p)))).
  { unfold py_do_transform_pose, py_transform_to_kdl. cbn [m_data]. rewrite toKDL_tfx, kdl_pose_x by assumption. reflexivity. }
  rewrite De, Dk, Dp. split; [apply All; assumption|]. split; [apply All; assumption|]. split; [exact We|].
  split; [apply All; assumption|]. split; [apply All; assumption|]. repeat split.
Qed.
Print Assumptions C60_poses_agree.
Example C60_poses_case :
  let p := mkPose (@mkXyz RS 1 0 0) (@mkGquat RS 0 0 (3/5) (4/5)) in
  is_unit (rot T120) /\ is_unit (orientation p).
Proof. cbv zeta. split; [exact T120_unit|unfold is_unit, norm2; cbn [orientation gqx gqy gqz gqw]; cbn [RS scar]; lra]. Qed.

(** Frames that stay in a library's own type: Eigen, KDL and Bullet compute the same frame. *)
Theorem C60_frames_agree :
  forall (T : rtstamped) (f : tf2stamped (xform RS)), is_unit (rot T) ->
  eigen_doTransform_FrameStamped f T = kdl_doTransform_Frame f T /\
  bullet_doTransform_Frame f T = kdl_doTransform_Frame f T /\
  eigen_doTransform_Frame (k_data f) T = k_data (kdl_doTransform_Frame f T) /\
  (forall r : rxyz, toMsg_Vector3 (kdl_apply (k_data (kdl_doTransform_Frame f T)) (fromMsg_xyz r)) =
     moved T (toMsg_Vector3 (kdl_apply (k_data f) (fromMsg_xyz r)))) /\
  k_stamp (kdl_doTransform_Frame f T) = h_stamp (t_header T) /\ k_frame (kdl_doTransform_Frame f T) = h_frame (t_header T).
Proof.
  intros T f H. unfold eigen_doTransform_FrameStamped, kdl_doTransform_Frame, bullet_doTransform_Frame, eigen_doTransform_Frame.
  rewrite toEigen_tfx, toKDL_tfx by exact H. cbn [k_data k_stamp k_frame].
  split; [reflexivity|split; [reflexivity|split; [reflexivity|split; [|split; reflexivity]]]].
  intros r. rewrite kdl_mul_x, !kdl_apply_x, xapply_mul, <- moved_x, fv_tv by exact H. reflexivity.
Qed.
Print Assumptions C60_frames_agree.

(** Wrenches: tf2_kdl and tf2_geometry_msgs agree, torque includes the lever arm. *)
Theorem C60_wrenches_agree :
  forall (T : rtstamped) (w : mstamped (gwrench RS)), is_unit (rot T) ->
  wrench_through_kdl T w = mkMstamped (fresh_header T) (wrench_by T (m_data w)).
Proof.
  intros T w H. destruct (wrench_kdl_parts T w H) as [F Q]. destruct (wrench_parts T (m_data w)) as [F' Q'].
  change (wrench_through_kdl T w) with (mkMstamped (fresh_header T) (m_data (wrench_through_kdl T w))). f_equal.
  apply wrench_ext; congruence.
Qed.
Print Assumptions C60_wrenches_agree.

(** Twists (tf2_kdl only): the velocity field of the body is carried along. Whatever point [r] of
    the body, the velocity the new twist gives it at its new place is its old velocity, rotated. *)
Theorem C60_twist_velocities_are_carried_along :
  forall (T : rtstamped) (t : mstamped (gtwist RS)), is_unit (rot T) ->
  let t' := m_data (twist_through_kdl T t) in
  (forall r, velocity t' (moved T r) = turn (rot T) (velocity (m_data t) r)) /\
  angular t' = turn (rot T) (angular (m_data t)) /\
  m_header (twist_through_kdl T t) = fresh_header T.
Proof.
  intros T t H t'. destruct (twist_kdl_parts T t H) as [L A]. pose proof (tfx_rigid _ (unit_nonzero _ H)) as R.
  split; [|split; [|reflexivity]].
  - intros r. apply fv_inj. unfold velocity. rewrite <- point_moved by exact H. rewrite fv_plus, fv_cross. unfold t'. rewrite L, A, point_fv, xapply_eq.
    rewrite turn_mat, fv_tv, fv_plus, fv_cross by exact H. change (mfromQuat (fq (rot T))) with (xbasis (tfx T)).
    rewrite mmulv_add, <- (rotation_cross (xbasis (tfx T))), vcross_add_r by exact R.
    generalize (mmulv (xbasis (tfx T)) (fv (linear (m_data t)))) (mmulv (xbasis (tfx T)) (fv (angular (m_data t))))
      (mmulv (xbasis (tfx T)) (fv r)) (xorigin (tfx T)). intros [] [] [] []. lm_unfold. f_equal; ring.
  - apply fv_inj. unfold t'. rewrite A, turn_mat, fv_tv by exact H. reflexivity.
Qed.
Print Assumptions C60_twist_velocities_are_carried_along.
Example C60_twist_case :
  let t := mkTwist (@mkXyz RS 1 0 0) (@mkXyz RS 0 0 2) in
  is_unit (rot T120) /\ velocity t (@mkXyz RS 0 1 0) = @mkXyz RS (-1) 0 0.
Proof. cbv zeta. split; [exact T120_unit|]. unfold velocity. geo. cbn [linear angular gx gy gz]. f_equal; lra. Qed.

(** *** Where the packages disagree *)
(** Python's do_transform_wrench rotates both parts but leaves out the lever arm: it is right
    exactly when the shift is parallel to the rotated force. *)
Theorem C60_python_wrench_is_only_rotated :
  forall (T : rtstamped) (w : mstamped (gwrench RS)), is_unit (rot T) ->
  py_do_transform_wrench w T =
    mkMstamped (t_header T) (mkWrench (turn (rot T) (force (m_data w))) (turn (rot T) (torque (m_data w)))) /\
  (m_data (py_do_transform_wrench w T) = wrench_by T (m_data w) <->
   cross (shift T) (turn (rot T) (force (m_data w))) = @mkXyz RS 0 0 0).
Proof.
  intros T w H.
  assert (E : py_do_transform_wrench w T =
    mkMstamped (t_header T) (mkWrench (turn (rot T) (force (m_data w))) (turn (rot T) (torque (m_data w))))).
  { unfold py_do_transform_wrench. rewrite !py_vector_turn by exact H. reflexivity. }
  split; [exact E|]. rewrite E. cbn [m_data].
  destruct (C44_wrench_is_moved T (fun _ => m_data w) 0%nat 0%nat H) as (F & Q & _). fold (wrench_by T (m_data w)) in F, Q.
  destruct (wrench_by T (m_data w)) as [f q]. cbn [force torque] in F, Q. subst f q.
  generalize (turn (rot T) (torque (m_data w))) (cross (shift T) (turn (rot T) (force (m_data w)))). intros [a b c] [d e g].
  unfold plus. cbn [gx gy gz RS sadd]. cbn [RS scar]. split.
  - intros X. injection X as X1 X2 X3. f_equal; lra.
  - intros X. injection X as X1 X2 X3. f_equal. f_equal; lra.
Qed.
Print Assumptions C60_python_wrench_is_only_rotated.
Theorem C60_python_wrench_refuted :
  exists (T : rtstamped) (w : mstamped (gwrench RS)), is_unit (rot T) /\
    m_data (py_do_transform_wrench w T) <> wrench_by T (m_data w) /\
    m_data (wrench_through_kdl T w) = wrench_by T (m_data w).
Proof.
  exists T120, (mkMstamped header0 (mkWrench (@mkXyz RS 1 0 0) (@mkXyz RS 0 0 0))). split; [exact T120_unit|]. split.
  - intros X. apply (C60_python_wrench_is_only_rotated _ _ T120_unit) in X. cbn [m_data force] in X.
    destruct C44_case as [A B]. rewrite A, B in X. injection X as X1 X2. lra.
  - rewrite (C60_wrenches_agree _ _ T120_unit). reflexivity.
Qed.
Print Assumptions C60_python_wrench_refuted.

(** tf2_eigen's doTransform(Quaterniond) does not compose: it conjugates with the transform's
    rotation, turning the axis by the inverse and keeping the angle. *)
Theorem C60_eigen_quaternion_is_conjugated :
  forall (T : rtstamped) (q : mstamped rgquat), is_unit (rot T) ->
  let q' := m_data (quaternion_through_eigen T q) in
  gqw q' = gqw (m_data q) /\ turn (rot T) (axis_of q') = axis_of (m_data q) /\
  product (rot T) q' = product (m_data q) (rot T) /\
  m_header (quaternion_through_eigen T q) = fresh_header T.
Proof.
  intros T q H q'.
  assert (E : q' = tq (qmul (qmul (qinv (fq (rot T))) (fq (m_data q))) (fq (rot T)))).
  { unfold q', quaternion_through_eigen, eigen_doTransform_QuaternionStamped, eigen_doTransform_Quaternion. cbn [m_data k_data].
    rewrite !eig_qmul_eq. change (eigen_fromMsg_Quaternion (g_rotation (t_transform T))) with (fq (rot T)).
    rewrite eig_qinverse_unit by (apply unit_fq; exact H). reflexivity. }
  assert (U : qunit (fq (rot T))) by (apply unit_fq; exact H).
  assert (P : qmul (fq (rot T)) (fq q') = qmul (fq (m_data q)) (fq (rot T))).
  { rewrite E, fq_tq, !qmul_assoc. pose proof (qmul_inv_r _ U) as X. rewrite X, qmul_id_l. reflexivity. }
  assert (B : qmul (qmul (fq (rot T)) (fq q')) (qinv (fq (rot T))) = fq (m_data q)).
  { rewrite P, <- qmul_assoc. pose proof (qmul_inv_r _ U) as X. rewrite X, qmul_id_r. reflexivity. }
  rewrite qconj in B by exact U. split; [|split; [|split; [|reflexivity]]].
  - change (gqw q') with (qw (fq q')). change (gqw (m_data q)) with (qw (fq (m_data q))). rewrite <- B. reflexivity.
  - rewrite turn_eq by exact H. change (fv (axis_of q')) with (V3 (qx (fq q')) (qy (fq q')) (qz (fq q'))).
    revert B. generalize (quatRotate (fq (rot T)) (V3 (qx (fq q')) (qy (fq q')) (qz (fq q')))) (qw (fq q')). intros [r1 r2 r3] w0 B.
    destruct (m_data q) as [a b c d]. cbv zeta in B. cbn [vx vy vz] in B. injection B as B1 B2 B3 B4.
    unfold toMsg_Vector3, axis_of. cbn [vx vy vz gqx gqy gqz]. f_equal; assumption.
  - rewrite <- (tq_fq q'), <- (tq_fq (rot T)), <- (tq_fq (m_data q)), <- !tq_mul. f_equal. exact P.
Qed.
Print Assumptions C60_eigen_quaternion_is_conjugated.

(** The length of the transform's quaternion does not matter to tf2_eigen here, unless it is zero:
    then every quaternion becomes the zero quaternion. *)
Theorem C60_eigen_quaternion_any_length :
  forall (T : rtstamped) (q : mstamped rgquat),
  let q' := m_data (quaternion_through_eigen T q) in
  (norm2 (rot T) <> 0 -> product (rot T) q' = product (m_data q) (rot T) /\ gqw q' = gqw (m_data q)) /\
  (norm2 (rot T) = 0 -> q' = @mkGquat RS 0 0 0 0).
Proof.
  intros T q q'.
  assert (E : q' = tq (qmul (qmul (eig_qinverse (fq (rot T))) (fq (m_data q))) (fq (rot T)))).
  { unfold q', quaternion_through_eigen, eigen_doTransform_QuaternionStamped, eigen_doTransform_Quaternion. cbn [m_data k_data].
    rewrite !eig_qmul_eq. change (eigen_fromMsg_Quaternion (g_rotation (t_transform T))) with (fq (rot T)). reflexivity. }
  assert (F : fq q' = qmul (qmul (eig_qinverse (fq (rot T))) (fq (m_data q))) (fq (rot T))) by (rewrite E, fq_tq; reflexivity).
  split; intros N.
  - destruct (eig_qinverse_nonzero (fq (rot T)) N) as [X Y]. split.
    + rewrite <- (tq_fq q'), <- (tq_fq (rot T)), <- (tq_fq (m_data q)), <- !tq_mul. f_equal. rewrite F, !qmul_assoc, X, qmul_id_l. reflexivity.
    + change (gqw q') with (qw (fq q')). rewrite F. apply Y.
  - rewrite <- (tq_fq q'), F, (eig_qinverse_zero (fq (rot T)) N). generalize (fq (m_data q)) (fq (rot T)). intros [a b c d] [e f g h]. lm_unfold.
    unfold tq, toMsg_Quaternion. cbn [qx qy qz qw]. f_equal; ring.
Qed.
Print Assumptions C60_eigen_quaternion_any_length.
Example C60_any_length_cases :
  norm2 (@mkGquat RS 0 0 0 2) <> 0 /\ norm2 (@mkGquat RS 0 0 0 0) = 0.
Proof. unfold norm2. cbn [gqx gqy gqz gqw]. cbn [RS scar]. split; lra. Qed.

Theorem C60_eigen_quaternion_refuted :
  exists (T : rtstamped) (q : mstamped rgquat), is_unit (rot T) /\ is_unit (m_data q) /\
    ~ same_turn (m_data (quaternion_through_eigen T q)) (quaternion_by T (m_data q)).
Proof.
  exists T120, (mkMstamped header0 (@mkGquat RS 0 0 0 1)). split; [exact T120_unit|]. split.
  { unfold is_unit, norm2. cbn [m_data gqx gqy gqz gqw]. cbn [RS scar]. lra. }
  destruct (C60_eigen_quaternion_is_conjugated T120 (mkMstamped header0 (@mkGquat RS 0 0 0 1)) T120_unit) as (W & _).
  destruct (C42_quaternion_is_multiplied T120 (fun _ => @mkGquat RS 0 0 0 1) 0%nat 0%nat) as (P & _).
  fold (quaternion_by T120 (@mkGquat RS 0 0 0 1)) in P. cbn [m_data] in *. rewrite P. clear P.
  assert (P : gqw (product (rot T120) (@mkGquat RS 0 0 0 1)) = 1 / 2).
  { unfold product, rot, T120. cbn [t_transform g_rotation]. unfold dot, axis_of. cbn [gqx gqy gqz gqw gx gy gz]. cbn [RS scar]. lra. }
  cbn [gqw] in W. intros [X|X]; rewrite X in W.
  - rewrite P in W. lra.
  - unfold opposite in W. cbn [gqw] in W. rewrite P in W. cbn [RS sopp scar] in W. lra.
Qed.
Print Assumptions C60_eigen_quaternion_refuted.

(** Quaternions that are not of unit length: tf2_geometry_msgs and Bullet divide the length out,
    Eigen, KDL and Python do not, so they disagree. *)
Theorem C60_bullet_ignores_the_length :
  forall (T : rtstamped) (p : mstamped rxyz),
  point_through_bullet T p = mkMstamped (fresh_header T) (point_by T (m_data p)).
Proof. intros T p. rewrite point_by_eq. reflexivity. Qed.
Print Assumptions C60_bullet_ignores_the_length.
Theorem C60_length_refuted :
  exists (T : rtstamped) (p : mstamped rxyz), is_nonzero (rot T) /\
    m_data (point_through_eigen T p) <> point_by T (m_data p) /\
    m_data (point_through_kdl T p) <> point_by T (m_data p) /\
    m_data (py_do_transform_point p T) <> point_by T (m_data p) /\
    m_data (point_through_eigen T p) <> m_data (point_through_kdl T p).
Proof.
  exists Tbig, (mkMstamped header0 (@mkXyz RS 25 0 0)). split; [exact Tbig_nonzero|].
  assert (B : point_by Tbig (@mkXyz RS 25 0 0) = @mkXyz RS 8 24 0).
  { apply fv_inj. rewrite point_fv, xapply_eq, tfx_basis, tfx_origin. unfold rot, shift, Tbig. cbn [t_transform g_rotation translation].
    unfold fromMsg_xyz, fromMsg_Quaternion. cbn [gx gy gz gqx gqy gqz gqw]. unfold mfromQuat, two, sone. lm_unfold. cbn [qx qy qz qw vx vy vz m0 m1 m2]. runf. f_equal; field. }
  assert (K : m_data (point_through_kdl Tbig (mkMstamped header0 (@mkXyz RS 25 0 0))) = @mkXyz RS 176 600 0).
  { unfold point_through_kdl, kdl_doTransform_Vector, transformToKDL, Tbig, kdl_toMsg_PointStamped, kdl_fromMsg_PointStamped. cbn [k_data m_data t_transform g_rotation translation].
    unfold kdl_apply, kdl_Quaternion, two. cbn [gx gy gz gqx gqy gqz gqw xbasis xorigin]. lm_unfold. cbn [vx vy vz m0 m1 m2]. runf. f_equal; field. }
  assert (Y : m_data (py_do_transform_point (mkMstamped header0 (@mkXyz RS 25 0 0)) Tbig) = @mkXyz RS 176 600 0) by exact K.
  assert (E : m_data (point_through_eigen Tbig (mkMstamped header0 (@mkXyz RS 25 0 0))) = @mkXyz RS (-424) 600 0).
  { unfold point_through_eigen, eigen_doTransform_VectorStamped, transformToEigen, eig_compose, Tbig, eigen_toMsg_VectorStamped, eigen_fromMsg_PointStamped, eigen_toMsg_Vector, eigen_fromMsg_xyz. cbn [k_data m_data t_transform g_rotation translation].
    unfold eig_apply, eig_toRotationMatrix, two, sone. cbn [gx gy gz gqx gqy gqz gqw xbasis xorigin qx qy qz qw]. lm_unfold. cbn [vx vy vz m0 m1 m2]. runf. f_equal; field. }
  cbn [m_data] in *. rewrite B, K, Y, E.
  repeat split; intros X; injection X; intros; lra.
Qed.
Print Assumptions C60_length_refuted.

(** ** C62: conversions to the libraries' types and back lose nothing *)
(** Exact for every scalar, doubles included: points, vectors, quaternions, twists, wrenches; the
    stamped message's seq is reset to 0. *)
Definition same_but_seq {A} (a b : mstamped A) : Prop :=
  h_stamp (m_header a) = h_stamp (m_header b) /\ h_frame (m_header a) = h_frame (m_header b) /\ m_data a = m_data b.
Theorem C62_exact_conversions :
  forall S : Scalar,
  (forall v : vec3 S, eigen_fromMsg_xyz (eigen_toMsg_Vector v) = v) /\
  (forall p : gxyz S, eigen_toMsg_Vector (eigen_fromMsg_xyz p) = p) /\
  (forall q : quat S, eigen_fromMsg_Quaternion (eigen_toMsg_Quaternion q) = q) /\
  (forall q : gquat S, eigen_toMsg_Quaternion (eigen_fromMsg_Quaternion q) = q) /\
  (forall t : gtwist S, eigen_toMsg_Twist (eigen_fromMsg_Twist t) = t) /\
  (forall (v : nat -> S) i, (i < 6)%nat -> eigen_fromMsg_Twist (eigen_toMsg_Twist v) i = v i) /\
  (forall k : tf2stamped (vec3 S), eigen_fromMsg_PointStamped (eigen_toMsg_VectorStamped k) = k /\
     kdl_fromMsg_PointStamped (kdl_toMsg_PointStamped k) = k /\ bullet_fromMsg_PointStamped (bullet_toMsg_PointStamped k) = k) /\
  (forall m : mstamped (gxyz S), same_but_seq (eigen_toMsg_VectorStamped (eigen_fromMsg_PointStamped m)) m /\
     same_but_seq (kdl_toMsg_PointStamped (kdl_fromMsg_PointStamped m)) m /\
     same_but_seq (bullet_toMsg_PointStamped (bullet_fromMsg_PointStamped m)) m) /\
  (forall k : tf2stamped (quat S), eigen_fromMsg_QuaternionStamped (eigen_toMsg_QuaternionStamped k) = k) /\
  (forall m : mstamped (gquat S), same_but_seq (eigen_toMsg_QuaternionStamped (eigen_fromMsg_QuaternionStamped m)) m) /\
  (forall k : tf2stamped (ktwist S), kdl_fromMsg_TwistStamped (kdl_toMsg_TwistStamped k) = k) /\
  (forall m : mstamped (gtwist S), same_but_seq (kdl_toMsg_TwistStamped (kdl_fromMsg_TwistStamped m)) m) /\
  (forall k : tf2stamped (kwrench S), kdl_fromMsg_WrenchStamped (kdl_toMsg_WrenchStamped k) = k) /\
  (forall m : mstamped (gwrench S), same_but_seq (kdl_toMsg_WrenchStamped (kdl_fromMsg_WrenchStamped m)) m).
Proof.
  intros S. repeat match goal with |- _ /\ _ => split end.
  - intros []. reflexivity.
  - intros []. reflexivity.
  - intros []. reflexivity.
  - intros []. reflexivity.
  - intros [[] []]. reflexivity.
  - intros v i Hi. do 6 (destruct i as [|i]; [reflexivity|]). lia.
  - intros [[] t f]. repeat split.
  - intros [[] []]. repeat split.
  - intros [[] t f]. reflexivity.
  - intros [[] []]. repeat split.
  - intros [[[] []] t f]. reflexivity.
  - intros [[] [[] []]]. repeat split.
  - intros [[[] []] t f]. reflexivity.
  - intros [[] [[] []]]. repeat split.
Qed.
Print Assumptions C62_exact_conversions.

(** Frames and poses, over the reals: a rigid frame survives the trip to the message and back;
    a pose or transform with unit quaternion comes back as itself up to the sign of the quaternion. *)
Theorem C62_frame_conversions :
  (forall f : xform RS, rigid_frame f ->
     eigen_fromMsg_Pose (eigen_toMsg_Pose f) = f /\ kdl_fromMsg_Pose (kdl_toMsg_Pose f) = f /\
     transformToEigen (t_transform (eigenToTransform f)) = f /\ transformToKDL (kdlToTransform f) = f /\
     is_unit (orientation (eigen_toMsg_Pose f)) /\ 0 <= gqw (orientation (eigen_toMsg_Pose f)) /\
     is_unit (orientation (kdl_toMsg_Pose f)) /\ is_unit (rot (eigenToTransform f)) /\ is_unit (rot (kdlToTransform f))) /\
  (forall p : gpose RS, is_unit (orientation p) ->
     same_pose (eigen_toMsg_Pose (eigen_fromMsg_Pose p)) p /\ same_pose (kdl_toMsg_Pose (kdl_fromMsg_Pose p)) p /\
     (0 < gqw (orientation p) -> eigen_toMsg_Pose (eigen_fromMsg_Pose p) = p)) /\
  (forall T : rtstamped, is_unit (rot T) ->
     let e := eigenToTransform (transformToEigen (t_transform T)) in let k := kdlToTransform (transformToKDL T) in
     shift e = shift T /\ same_turn (rot e) (rot T) /\ shift k = shift T /\ same_turn (rot k) (rot T)).
Proof.
  assert (A : forall f : xform RS, rigid_frame f ->
     eigen_fromMsg_Pose (eigen_toMsg_Pose f) = f /\ kdl_fromMsg_Pose (kdl_toMsg_Pose f) = f /\
     transformToEigen (t_transform (eigenToTransform f)) = f /\ transformToKDL (kdlToTransform f) = f /\
     is_unit (orientation (eigen_toMsg_Pose f)) /\ 0 <= gqw (orientation (eigen_toMsg_Pose f)) /\
     is_unit (orientation (kdl_toMsg_Pose f)) /\ is_unit (rot (eigenToTransform f)) /\ is_unit (rot (kdlToTransform f))).
  { intros f H. apply rigid_frame_iff in H. destruct (eigen_toMsg_x f H) as (E & U & W). destruct (kdl_toMsg_x f H) as [K V].
    assert (Ue : is_unit (rot (eigenToTransform f))).
    { destruct f as [B o]. destruct (mgetRotation_ok B H) as [X _]. unfold eigenToTransform, rot, eig_quat. cbn [t_transform g_rotation xbasis].
      destruct (mgetRotation B). exact X. }
    assert (Uk : is_unit (rot (kdlToTransform f))).
    { destruct f as [B o]. destruct (kdl_GetQuaternion_ok B H) as [X _]. unfold kdlToTransform, rot. cbn [t_transform g_rotation xbasis].
      destruct (kdl_GetQuaternion B). exact X. }
    split; [rewrite eig_pose_x by exact U; exact E|]. split; [rewrite kdl_pose_x by exact V; exact K|].
    split; [|split; [|split; [exact U|split; [exact W|split; [exact V|split; [exact Ue|exact Uk]]]]]].
    - rewrite toEigen_tfx by exact Ue. destruct f as [B o]. destruct (mgetRotation_ok B H) as [_ X].
      unfold tfx, fromMsg_Transform, eigenToTransform, eig_quat. cbn [t_transform g_rotation translation xbasis xorigin].
      f_equal; [|destruct o; reflexivity]. destruct (mgetRotation B). exact X.
    - rewrite toKDL_tfx by exact Uk. destruct f as [B o]. destruct (kdl_GetQuaternion_ok B H) as [_ X].
      unfold tfx, fromMsg_Transform, kdlToTransform. cbn [t_transform g_rotation translation xbasis xorigin].
      f_equal; [|destruct o; reflexivity]. destruct (kdl_GetQuaternion B). exact X. }
  split; [exact A|]. split.
  - intros p H. pose proof (posex_rigid p (unit_nonzero _ H)) as R. rewrite eig_pose_x, kdl_pose_x by exact H.
    destruct (eigen_toMsg_x _ R) as (E & U & W). destruct (kdl_toMsg_x _ R) as [K V].
    pose proof (same_pose_x _ _ U H E) as Q. split; [exact Q|]. split; [apply same_pose_x; assumption|].
    intros Hw. destruct Q as [Q1 Q2]. pose proof (same_turn_pos _ _ Q2 W Hw) as Q3. destruct p as [pp po]. destruct (eigen_toMsg_Pose _) as [qp qo].
    cbn [position orientation] in *. subst. reflexivity.
  - intros T H e k. pose proof (tfx_rigid _ (unit_nonzero _ H)) as R. unfold e, k. rewrite toEigen_tfx, toKDL_tfx by exact H.
    split; [apply tv_fv|]. split; [|split; [apply tv_fv|]].
    + rewrite <- (tq_fq (rot T)). unfold eigenToTransform, rot, eig_quat. cbn [t_transform g_rotation].
      exact (same_turn_tq _ _ (mgetRotation_from _ (unit_fq _ H))).
    + rewrite <- (tq_fq (rot T)). unfold kdlToTransform, rot. cbn [t_transform g_rotation].
      destruct (kdl_GetQuaternion_ok _ R) as [X1 X2]. apply (same_turn_tq _ _). apply mfromQuat_inj; [exact X1|apply unit_fq; exact H|exact X2].
Qed.
Print Assumptions C62_frame_conversions.
Example C62_frame_case : rigid_frame (XF (@M3 RS (@V3 RS 0 0 1) (@V3 RS 1 0 0) (@V3 RS 0 1 0)) (@V3 RS 1 2 3)).
Proof. unfold rigid_frame, rows_orthonormal, determinant. cbn [xbasis m0 m1 m2 vx vy vz]. cbn [RS scar]. repeat split; lra. Qed.

(** ... and leave the header and child frame of the message as a new message has them. *)
Theorem C62_new_messages_have_empty_headers :
  forall (S : Scalar) (f : xform S), t_header (eigenToTransform f) = mkHeader 0%Z 0%Z EmptyString /\ t_child (eigenToTransform f) = EmptyString /\
  t_header (kdlToTransform f) = mkHeader 0%Z 0%Z EmptyString /\ t_child (kdlToTransform f) = EmptyString.
Proof. repeat split. Qed.
Print Assumptions C62_new_messages_have_empty_headers.

(** The round trip of a transform forgets its header and child frame: the conversions only carry
    the motion. *)
Theorem C62_header_refuted :
  exists T : rtstamped, is_unit (rot T) /\ t_header (kdlToTransform (transformToKDL T)) <> t_header T /\
    t_child (eigenToTransform (transformToEigen (t_transform T))) <> t_child T.
Proof. exists T120. split; [exact T120_unit|]. split; discriminate. Qed.
Print Assumptions C62_header_refuted.
