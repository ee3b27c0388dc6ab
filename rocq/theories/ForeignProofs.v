(** * Proofs about the Eigen, KDL, Bullet and Python packages *)
From Coq Require Import ZArith Bool Reals Lra Psatz List String Lia.
From Verif Require Import RosTime Scalar LinearMath Instances RealSlerp RealQuat SpecReal RealMatrix GeomMsgs SpecGeom GeomProofs GeomReal ForeignGeom SpecForeign.
Import ListNotations.
Open Scope R_scope.

Lemma eig_matrix : forall q : rquat, qunit q -> eig_toRotationMatrix q = mfromQuat q.
Proof.
  intros [x y z w] H. rewrite mfromQuat_unit by exact H. unfold qunit in H. cbn [qx qy qz qw] in H.
  unfold eig_toRotationMatrix, qpoly, V9, two, sone. lm_unfold. cbn [qx qy qz qw]. runf. meq; try lra; field.
Qed.
Lemma kdl_matrix : forall q : rquat, qunit q -> kdl_Quaternion (qx q) (qy q) (qz q) (qw q) = mfromQuat q.
Proof.
  intros [x y z w] H. rewrite mfromQuat_unit by exact H. unfold qunit in H. cbn [qx qy qz qw] in H.
  unfold kdl_Quaternion, qpoly, V9, two. lm_unfold. cbn [qx qy qz qw]. runf. meq; try lra; field.
Qed.
Lemma rigid_frame_iff : forall f : rxform, rigid_frame f <-> rigid f.
Proof.
  intros [[[a b c] [d e f] [g h i]] o]. unfold rigid_frame, rigid, rows_orthonormal, determinant, rotation.
  cbn [xbasis m0 m1 m2 vx vy vz]. cbn [RS scar]. split; [intros ((?&?&?&?&?&?)&?)|intros ((?&?&?)&(?&?&?)&?)]; repeat split; lra.
Qed.

Lemma toEigen_tfx : forall T, is_unit (rot T) -> transformToEigen (t_transform T) = tfx T.
Proof. intros T H. unfold transformToEigen, eig_compose, tfx, fromMsg_Transform. f_equal. exact (eig_matrix _ (unit_fq _ H)). Qed.
Lemma toKDL_tfx : forall T, is_unit (rot T) -> transformToKDL T = tfx T.
Proof. intros T H. unfold transformToKDL, tfx, fromMsg_Transform. f_equal. exact (kdl_matrix _ (unit_fq _ H)). Qed.
Lemma toBullet_tfx : forall T, transformToBullet T = tfx T.
Proof. reflexivity. Qed.
Lemma eig_pose_x : forall p, is_unit (orientation p) -> eigen_fromMsg_Pose p = posex p.
Proof. intros p H. unfold eigen_fromMsg_Pose, eig_compose, posex, xfromQuat. f_equal. exact (eig_matrix _ (unit_fq _ H)). Qed.
Lemma kdl_pose_x : forall p, is_unit (orientation p) -> kdl_fromMsg_Pose p = posex p.
Proof. intros p H. unfold kdl_fromMsg_Pose, posex, xfromQuat. f_equal. exact (kdl_matrix _ (unit_fq _ H)). Qed.

(** ** GetQuaternion *)
Lemma kdl_GetQuaternion_ok : forall m : rmat, rotation m -> qunit (kdl_GetQuaternion m) /\ mfromQuat (kdl_GetQuaternion m) = m.
Proof.
  intros [[a b c] [d e f] [g h i]] R0. change (M3 (V3 a b c) (V3 d e f) (V3 g h i)) with (V9 a b c d e f g h i) in *.
  destruct (rank_one _ _ _ _ _ _ _ _ _ R0) as ((T1 & T2 & T3 & T4 & T5 & T6) & (A1 & A2 & A3 & A4 & A5) & (B1 & B2 & B3 & B4) & (C1 & C2 & C3)).
  unfold kdl_GetQuaternion, V9, sgtb, half, two. cbn [m0 m1 m2 vx vy vz]. runf.
  replace (IZR 1 / IZR 1) with 1 by lra. replace (IZR 2 / IZR 1) with 2 by lra.
  destruct (Rltb (1 / 1000000000000) (a + e + i)) eqn:Et.
  - apply Rltb_true in Et. destruct (pivot (a + e + i + 1)) as (K & Ks & S); [lra|].
    set (k := 1 / 2 / sqrt (a + e + i + 1)) in *. set (s := sqrt (a + e + i + 1)) in *.
    assert (Kn : k <> 0) by (intro Z; rewrite Z in Ks; lra).
    replace (1 / 4 / k) with (s * (1 / 2)) by (apply Rmult_eq_reg_r with k; [|exact Kn]; replace (1 / 4 / k * k) with (1 / 4) by (field; exact Kn); lra).
    apply from_products.
    + apply mul_ss. assumption.
    + eapply mul_kk; eassumption.
    + eapply mul_kk; eassumption.
    + eapply mul_kk; eassumption.
    + apply mul_sk; assumption.
    + apply mul_sk; assumption.
    + apply mul_sk; assumption.
    + eapply mul_kk; eassumption.
    + eapply mul_kk; eassumption.
    + eapply mul_kk; eassumption.
  - apply Rltb_false in Et.
    assert (Dv : forall P u, 0 < P -> u / (2 * sqrt P) = u * (1 / 2 / sqrt P)).
    { intros P u HP. field. apply Rgt_not_eq. apply sqrt_lt_R0. exact HP. }
    assert (Dq : forall P, 1 / 4 * (2 * sqrt P) = sqrt P * (1 / 2)) by (intro; field).
    destruct (Rltb e a) eqn:E1; [destruct (Rltb i a) eqn:E2|]; cbn [andb].
    2,3: destruct (Rltb i e) eqn:E3.
    all: repeat match goal with H : Rltb _ _ = true |- _ => apply Rltb_true in H | H : Rltb _ _ = false |- _ => apply Rltb_false in H end.
    all: try (exfalso; lra).
    all: rewrite ?Dq.
    all: [> replace (1 + a - e - i) with (a - e - i + 1) by lra; assert (Hp : 0 < a - e - i + 1) by lra
           | replace (1 + i - a - e) with (i - a - e + 1) by lra; assert (Hp : 0 < i - a - e + 1) by lra
           | replace (1 + e - a - i) with (e - i - a + 1) by lra; assert (Hp : 0 < e - i - a + 1) by lra
           | replace (1 + i - a - e) with (i - a - e + 1) by lra; assert (Hp : 0 < i - a - e + 1) by lra].
    all: rewrite !Dv by exact Hp; destruct (pivot _ Hp) as (K & Ks & S); apply from_products.
    all: try (apply mul_ss; assumption); try (apply mul_sk; assumption); try (apply mul_ks; assumption).
    all: try (eapply mul_kk; [exact K|first [assumption|lra]]).
    all: rewrite ?mul_sk, ?mul_ks by assumption; try apply Rplus_comm; try lra.
Qed.

(** ** Applying and composing *)
Lemma eig_apply_x : forall (t : rxform) v, eig_apply t v = xapply t v. Proof. reflexivity. Qed.
Lemma kdl_apply_x : forall (t : rxform) v, kdl_apply t v = xapply t v. Proof. reflexivity. Qed.
Lemma eig_mul_x : forall a b : rxform, eig_mul a b = xmul a b. Proof. reflexivity. Qed.
Lemma kdl_mul_x : forall a b : rxform, kdl_mul a b = xmul a b. Proof. reflexivity. Qed.
Lemma moved_x : forall T p, is_unit (rot T) -> tv (xapply (tfx T) (fv p)) = moved T p.
Proof. intros T p H. rewrite <- point_moved by exact H. apply fv_inj. rewrite fv_tv, point_fv. reflexivity. Qed.

(** ** Poses *)
Lemma posex_rigid : forall p, is_nonzero (orientation p) -> rigid (posex p).
Proof. intros p H. apply mfromQuat_rotation, nonzero_fq. exact H. Qed.
Lemma kdl_toMsg_x : forall x : rxform, rigid x -> posex (kdl_toMsg_Pose x) = x /\ is_unit (orientation (kdl_toMsg_Pose x)).
Proof.
  intros [B o] H. destruct (kdl_GetQuaternion_ok B H) as [U E]. unfold posex, kdl_toMsg_Pose, xfromQuat. cbn [xbasis xorigin orientation position].
  split; [|destruct (kdl_GetQuaternion B); exact U]. f_equal; [|destruct o; reflexivity].
  replace (fq _) with (kdl_GetQuaternion B) by (destruct (kdl_GetQuaternion B); reflexivity). exact E.
Qed.
Lemma qopp_unit_matrix : forall q : rquat, qunit q ->
  qunit (@Q4 RS (qx q * - (1)) (qy q * - (1)) (qz q * - (1)) (qw q * - (1))) /\
  mfromQuat (@Q4 RS (qx q * - (1)) (qy q * - (1)) (qz q * - (1)) (qw q * - (1))) = mfromQuat q.
Proof.
  intros [x y z w] H. cbn [qx qy qz qw].
  assert (U : qunit (@Q4 RS (x * - (1)) (y * - (1)) (z * - (1)) (w * - (1)))) by (unfold qunit in *; cbn [qx qy qz qw] in *; lra).
  split; [exact U|]. rewrite !mfromQuat_unit by assumption. cbn [qx qy qz qw]. unfold qpoly, V9. meq; ring.
Qed.
Lemma eigen_toMsg_x : forall x : rxform, rigid x ->
  posex (eigen_toMsg_Pose x) = x /\ is_unit (orientation (eigen_toMsg_Pose x)) /\ 0 <= gqw (orientation (eigen_toMsg_Pose x)).
Proof.
  intros [B o] H. destruct (mgetRotation_ok B H) as [U E]. unfold posex, eigen_toMsg_Pose, xfromQuat, eig_quat. cbn [xbasis xorigin orientation position].
  destruct (mgetRotation B) as [x y z w]. cbn [qx qy qz qw gqx gqy gqz gqw]. unfold sone, szero. runf.
  replace (IZR 0 / IZR 1) with 0 by lra. replace (IZR 1 / IZR 1) with 1 by lra.
  destruct (Rltb w 0) eqn:Ew.
  - apply Rltb_true in Ew. destruct (qopp_unit_matrix _ U) as [U' E']. cbn [qx qy qz qw] in U', E'.
    split; [|split; [exact U'|cbn [gqw]; lra]]. f_equal; [|destruct o; reflexivity]. unfold fromMsg_Quaternion. cbn [gqx gqy gqz gqw].
    rewrite E'. exact E.
  - apply Rltb_false in Ew. split; [|split; [exact U|exact Ew]]. f_equal; [exact E|destruct o; reflexivity].
Qed.
Lemma same_pose_x : forall p q, is_unit (orientation p) -> is_unit (orientation q) -> posex p = posex q -> same_pose p q.
Proof. intros p q Hp Hq E. apply posex_inj; assumption. Qed.
Lemma same_turn_sym : forall p q, same_turn p q -> same_turn q p.
Proof. intros p q [->| ->]; [left; reflexivity|right]. destruct q as [x y z w]. unfold opposite. cbn [gqx gqy gqz gqw]. runf. f_equal; ring. Qed.
Lemma same_turn_pos : forall p q, same_turn p q -> 0 <= gqw p -> 0 < gqw q -> p = q.
Proof. intros p q [->| ->] H1 H2; [reflexivity|]. exfalso. destruct q as [x y z w]. unfold opposite in *. cbn [gqw RS scar sopp] in *. lra. Qed.

(** ** Twists and wrenches *)
Lemma twist_kdl_parts : forall T t, is_unit (rot T) ->
  fv (linear (m_data (twist_through_kdl T t))) =
    vadd (mmulv (xbasis (tfx T)) (fv (linear (m_data t)))) (vcross (xorigin (tfx T)) (mmulv (xbasis (tfx T)) (fv (angular (m_data t))))) /\
  fv (angular (m_data (twist_through_kdl T t))) = mmulv (xbasis (tfx T)) (fv (angular (m_data t))).
Proof.
  intros T t H. unfold twist_through_kdl, kdl_doTransform_Twist. cbn [k_data]. rewrite toKDL_tfx by exact H. split; reflexivity.
Qed.
Lemma wrench_kdl_parts : forall T w, is_unit (rot T) ->
  fv (force (m_data (wrench_through_kdl T w))) = mmulv (xbasis (tfx T)) (fv (force (m_data w))) /\
  fv (torque (m_data (wrench_through_kdl T w))) =
    vadd (mmulv (xbasis (tfx T)) (fv (torque (m_data w)))) (vcross (xorigin (tfx T)) (mmulv (xbasis (tfx T)) (fv (force (m_data w))))).
Proof.
  intros T w H. unfold wrench_through_kdl, kdl_doTransform_Wrench. cbn [k_data]. rewrite toKDL_tfx by exact H. split; reflexivity.
Qed.

(** ** Python *)
Lemma py_vector_turn : forall T v, is_unit (rot T) -> m_data (py_do_transform_vector3 v T) = turn (rot T) (m_data v).
Proof.
  intros T v H. rewrite turn_mat by exact H. rewrite <- (kdl_matrix _ (unit_fq _ H)).
  unfold py_do_transform_vector3, py_transform_to_kdl, transformToKDL, kdl_apply. cbn [m_data xbasis xorigin t_transform g_rotation translation].
  change (rot T) with (g_rotation (t_transform T)). destruct (g_rotation (t_transform T)) as [x y z w]. unfold fromMsg_Quaternion.
  cbn [gqx gqy gqz gqw qx qy qz qw gx gy gz]. unfold szero. generalize (kdl_Quaternion x y z w). intros [[a1 a2 a3] [b1 b2 b3] [c1 c2 c3]]. destruct (m_data v) as [v1 v2 v3].
  unfold toMsg_Vector3, fromMsg_xyz. lm_unfold. cbn [gx gy gz vx vy vz]. runf. f_equal; field.
Qed.

(** ** Eigen's quaternion *)
Lemma eig_qmul_eq : forall a b : rquat, eig_qmul a b = qmul a b.
Proof. intros [a b c d] [e f g h]. unfold eig_qmul. lm_unfold. f_equal; ring. Qed.
Lemma eig_qinverse_unit : forall a : rquat, qunit a -> eig_qinverse a = qinv a.
Proof.
  intros [x y z w] H. unfold qunit in H. cbn [qx qy qz qw] in H. unfold eig_qinverse, sgtb. cbn [qx qy qz qw]. unfold szero. runf.
  replace (x * x + y * y + z * z + w * w) with 1 by lra. replace (IZR 0 / IZR 1) with 0 by lra.
  replace (Rltb 0 1) with true by (symmetry; unfold Rltb; destruct (Rlt_dec 0 1); [reflexivity|lra]).
  lm_unfold. f_equal; field.
Qed.
Lemma eig_qinverse_nonzero : forall a : rquat, qx a * qx a + qy a * qy a + qz a * qz a + qw a * qw a <> 0 ->
  qmul a (eig_qinverse a) = qidentity /\ forall b : rquat, qw (qmul (qmul (eig_qinverse a) b) a) = qw b.
Proof.
  intros [x y z w] H. cbn [qx qy qz qw] in H. unfold eig_qinverse, sgtb. cbn [qx qy qz qw]. unfold szero. runf.
  replace (IZR 0 / IZR 1) with 0 by lra. assert (P : 0 < x * x + y * y + z * z + w * w) by nra.
  set (n := x * x + y * y + z * z + w * w) in *.
  replace (Rltb 0 n) with true by (symmetry; unfold Rltb; destruct (Rlt_dec 0 n); [reflexivity|lra]).
  assert (E : x * x = n - y * y - z * z - w * w) by (unfold n; ring). clearbody n. split.
  - rewrite qidentity_eq. lm_unfold. f_equal; runf; try (field; lra). apply (Rmult_eq_reg_r n); [|lra]. field_simplify; [|lra..]. nra.
  - intros [b1 b2 b3 b4]. lm_unfold. runf. apply (Rmult_eq_reg_r n); [|lra]. field_simplify; [|lra..]. nra.
Qed.
Lemma eig_qinverse_zero : forall a : rquat, qx a * qx a + qy a * qy a + qz a * qz a + qw a * qw a = 0 ->
  eig_qinverse a = @Q4 RS 0 0 0 0.
Proof.
  intros [x y z w] H. cbn [qx qy qz qw] in H. unfold eig_qinverse, sgtb. cbn [qx qy qz qw]. unfold szero. runf.
  rewrite H. replace (IZR 0 / IZR 1) with 0 by lra.
  replace (Rltb 0 0) with false by (symmetry; unfold Rltb; destruct (Rlt_dec 0 0); [lra|reflexivity]). f_equal; lra.
Qed.
Lemma qconj : forall t q : rquat, qunit t ->
  qmul (qmul t q) (qinv t) =
  let r := quatRotate t (V3 (qx q) (qy q) (qz q)) in Q4 (vx r) (vy r) (vz r) (qw q).
Proof.
  intros [x y z w] [a b c d] H. unfold qunit in H. cbn [qx qy qz qw] in H.
  assert (W : w * w = 1 - x * x - y * y - z * z) by lra. cbv zeta. unfold quatRotate. lm_unfold. cbn [qx qy qz qw vx vy vz]. f_equal; ring [W].
Qed.
