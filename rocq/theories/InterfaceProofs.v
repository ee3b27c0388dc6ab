(** * BufferInterface::transform: proofs *)
From Coq Require Import ZArith Bool String List Reals Lia.
From Verif Require Import RosTime Scalar LinearMath Cache BufferCore SpecCore Instances RealSlerp RealQuat SpecReal RealMatrix
  CoreSet LookupTheorems LookupTree LookupPose LookupFixed GeomMsgs SpecGeom GeomProofs GeomReal ForeignGeom SpecForeign BufferInterface SpecInterface.
Import ListNotations.
Open Scope Z_scope.

(** ** A stamped message type whose doTransform applies [f] to the payload *)
Record applies {S : Scalar} {A} (T : datatype S (mstamped A)) (f : gtstamped S -> A -> A) : Prop := {
  ap_frame : forall x, dt_frame T x = h_frame (m_header x);
  ap_stamp : forall x, dt_stamp T x = h_stamp (m_header x);
  ap_new : m_header (dt_new T) = header0;
  ap_mem : forall t (m : mem (mstamped A)) i o,
    let m' := dt_do T t (at_loc i) (at_loc o) m in
    m' o = mkMstamped (retagged t (m_header (m o))) (f t (m_data (m i))) /\ forall j, j <> o -> m' j = m j;
  ap_stack : forall t (M : Type) (in_ : ref M (mstamped A)) (m : M) out,
    dt_do T t (under in_) stack_ref (m, out) = (m, mkMstamped (retagged t (m_header out)) (f t (m_data (rd in_ m))))
}.
(** the same on the stack *)
Ltac stk :=
  cbn [rd wr member stack_ref under const_ref fst snd r_x r_y r_z r_position r_orientation r_transform r_theader r_force r_torque
       r_pcpose r_pccov r_header r_data r_stamp r_frame gx gy gz gqx gqy gqz gqw position orientation translation
       g_rotation t_header t_child t_transform force torque pc_pose pc_cov m_header m_data h_seq h_stamp h_frame].
Section Stack.
Context {S : Scalar} {M : Type}.
Variables (T : gtstamped S) (m : M).
Lemma stack_point : forall (in_ : ref M (mstamped (gxyz S))) out,
  doTransform_PointStamped (const_ref T) (under in_) stack_ref (m, out) =
  (m, mkMstamped (retagged T (m_header out)) (point_by T (m_data (rd in_ m)))).
Proof.
  intros in_ out. rewrite point_by_eq. unfold doTransform_PointStamped, doTransform_Point, set_header, toMsg_Point. stk.
  set (x := xapply _ _). clearbody x. reflexivity.
Qed.
Lemma stack_vector : forall (in_ : ref M (mstamped (gxyz S))) out,
  doTransform_Vector3Stamped (const_ref T) (under in_) stack_ref (m, out) =
  (m, mkMstamped (retagged T (m_header out)) (vector_by T (m_data (rd in_ m)))).
Proof.
  intros in_ out. rewrite vector_by_eq. unfold doTransform_Vector3Stamped, doTransform_Vector3, set_header. stk.
  unfold fromMsg_xyz. set (x := mmulv _ _). clearbody x. reflexivity.
Qed.
Lemma stack_quaternion : forall (in_ : ref M (mstamped (gquat S))) out,
  doTransform_QuaternionStamped (const_ref T) (under in_) stack_ref (m, out) =
  (m, mkMstamped (retagged T (m_header out)) (quaternion_by T (m_data (rd in_ m)))).
Proof.
  intros in_ out. rewrite quaternion_by_eq. unfold doTransform_QuaternionStamped, doTransform_Quaternion, set_header, rot. stk.
  set (x := qmul _ _). clearbody x. reflexivity.
Qed.
Lemma stack_pose : forall (in_ : ref M (mstamped (gpose S))) out,
  doTransform_PoseStamped (const_ref T) (under in_) stack_ref (m, out) =
  (m, mkMstamped (retagged T (m_header out)) (pose_by T (m_data (rd in_ m)))).
Proof.
  intros in_ out. rewrite pose_by_eq. unfold doTransform_PoseStamped, doTransform_Pose, toMsg_Pose, toMsg_Point, set_header, pose_value. stk.
  set (x := xmul _ _). generalize (xgetRotation x) (xorigin x). intros q v. reflexivity.
Qed.
Lemma stack_wrench : forall (in_ : ref M (mstamped (gwrench S))) out,
  doTransform_WrenchStamped (const_ref T) (under in_) stack_ref (m, out) =
  (m, mkMstamped (retagged T (m_header out)) (wrench_by T (m_data (rd in_ m)))).
Proof.
  intros in_ out. rewrite wrench_by_eq. unfold doTransform_WrenchStamped, doTransform_Wrench, wrench_value, shift.
  assert (E : forall (r : ref (M * mstamped (gwrench S)) (gxyz S)) o mm, doTransform_Vector3 (const_ref T) r o mm =
    let y := mmulv (xbasis (fromMsg_Transform (t_transform T))) (fromMsg_xyz (rd r mm)) in
    wr (r_z o) (vz y) (wr (r_y o) (vy y) (wr (r_x o) (vx y) mm))) by reflexivity.
  rewrite !E. set (b := xbasis _). clearbody b. clear E.
  change (rd (r_force (r_data (under in_))) (m, out)) with (force (m_data (rd in_ m))).
  set (x := mmulv b (fromMsg_xyz (force _))). clearbody x. cbv zeta.
  match goal with |- context [rd (r_torque ?r) ?mm] => change (rd (r_torque r) mm) with (torque (m_data (rd in_ m))) end.
  set (y := mmulv b (fromMsg_xyz (torque _))). clearbody y.
  unfold set_header, fromMsg_xyz, toMsg_Vector3. cbv zeta. stk. set (c := vcross _ _). clearbody c. reflexivity.
Qed.
Lemma stack_posecov : forall junk (in_ : ref M (mstamped (gposecov S))) out,
  doTransform_PoseCovStamped (const_ref T) junk (under in_) stack_ref (m, out) =
  (m, mkMstamped (retagged T (m_header out)) (posecov_by junk T (m_data (rd in_ m)))).
Proof.
  intros junk in_ out. unfold posecov_by. rewrite pose_by_eq.
  cbv beta delta [doTransform_PoseCovStamped pose_value covariance_by].
  change (rd (const_ref T) (m, out)) with T. change (rd (under in_) (m, out)) with (rd in_ m).
  set (X := fromMsg_Transform (t_transform T)). clearbody X. cbv beta zeta.
  set (x := xmul X _). clearbody x. unfold toMsg_Pose, toMsg_Point.
  generalize (xgetRotation x) (xorigin x). intros q v.
  set (c := transformCovariance _ _ _).
  replace c with (transformCovariance junk (pc_cov (m_data (rd in_ m))) X) by reflexivity. clear c.
  set (c := transformCovariance _ _ _). clearbody c. unfold set_header, retagged, toMsg_Vector3. stk. reflexivity.
Qed.
End Stack.
Lemma PointStamped_applies : forall S, @applies S _ PointStamped point_by.
Proof. intros S. split; [reflexivity|reflexivity|reflexivity|intros t m i o; exact (stamped_point_mem t m i o)|intros t M in_ m out; exact (stack_point t m in_ out)]. Qed.
Lemma Vector3Stamped_applies : forall S, @applies S _ Vector3Stamped vector_by.
Proof. intros S. split; [reflexivity|reflexivity|reflexivity|intros t m i o; exact (stamped_vector_mem t m i o)|intros t M in_ m out; exact (stack_vector t m in_ out)]. Qed.
Lemma QuaternionStamped_applies : forall S, @applies S _ QuaternionStamped quaternion_by.
Proof. intros S. split; [reflexivity|reflexivity|reflexivity|intros t m i o; exact (stamped_quaternion_mem t m i o)|intros t M in_ m out; exact (stack_quaternion t m in_ out)]. Qed.
Lemma PoseStamped_applies : forall S, @applies S _ PoseStamped pose_by.
Proof. intros S. split; [reflexivity|reflexivity|reflexivity|intros t m i o; exact (stamped_pose_mem t m i o)|intros t M in_ m out; exact (stack_pose t m in_ out)]. Qed.
Lemma WrenchStamped_applies : forall S, @applies S _ WrenchStamped wrench_by.
Proof. intros S. split; [reflexivity|reflexivity|reflexivity|intros t m i o; exact (stamped_wrench_mem t m i o)|intros t M in_ m out; exact (stack_wrench t m in_ out)]. Qed.
Lemma PoseCovStamped_applies : forall S junk, @applies S _ (PoseWithCovarianceStamped junk) (posecov_by junk).
Proof. intros S junk. split; [reflexivity|reflexivity|reflexivity|intros t m i o; exact (stamped_posecov_mem t junk m i o)|intros t M in_ m out; exact (stack_posecov t m junk in_ out)]. Qed.

Section Any.
Context {S : Scalar} {A : Type} {T : datatype S (mstamped A)} {f : gtstamped S -> A -> A} (H : applies T f).
Lemma carries : forall bi, looks_up_and_carries bi T f.
Proof.
  intros bi m i o target timeout. unfold transform. cbn [rd at_loc]. rewrite (ap_frame _ _ H), (ap_stamp _ _ H).
  destruct (bi_lookup bi target _ _ timeout) as [t|c e|]; try reflexivity.
  eexists. split; [reflexivity|]. apply (ap_mem _ _ H).
Qed.
Lemma carries_fixed : forall bi, looks_up_and_carries_fixed bi T f.
Proof.
  intros bi m i o target tt fixed timeout. unfold transform_fixed. cbn [rd at_loc]. rewrite (ap_frame _ _ H), (ap_stamp _ _ H).
  destruct (bi_lookup_fixed bi target tt _ _ fixed timeout) as [t|c e|]; try reflexivity.
  eexists. split; [reflexivity|]. apply (ap_mem _ _ H).
Qed.
Lemma returns : forall bi, returns_a_new_object bi T f.
Proof.
  intros bi M in_ target tt fixed timeout m x finish.
  unfold transform_value, transform_fixed_value, transform, transform_fixed, x, finish. cbn [rd under fst].
  rewrite (ap_frame _ _ H), (ap_stamp _ _ H). split.
  - destruct (bi_lookup bi target _ _ timeout) as [t|c e|]; try reflexivity.
    rewrite (ap_stack _ _ H). cbn [map_res]. unfold carried, retagged. rewrite (ap_new _ _ H). reflexivity.
  - destruct (bi_lookup_fixed bi target tt _ _ fixed timeout) as [t|c e|]; try reflexivity.
    rewrite (ap_stack _ _ H). cbn [map_res]. unfold carried, retagged. rewrite (ap_new _ _ H). reflexivity.
Qed.
(** the value form on a buffer *)
Lemma sent_eq : forall (s : core S) x target, sent s T x target =
  map_res (fun m => mkMstamped (mkHeader 0 (tm_stamp m) (tm_frame m)) (f (to_message m) (m_data x)))
    (lookupTransform s target (frame_of x) (stamp_of x)).
Proof.
  intros s x target. unfold sent. destruct (returns (buffer_of s) unit (const_ref x) target 0 target 0 tt) as [E _].
  cbv zeta in E. rewrite E. cbn [snd rd const_ref buffer_of bi_lookup]. unfold frame_of, stamp_of.
  destruct (lookupTransform s target _ _) as [m|c e|]; reflexivity.
Qed.
Lemma sent_fixed_eq : forall (s : core S) x target t fixed, sent_fixed s T x target t fixed =
  map_res (fun m => mkMstamped (mkHeader 0 (tm_stamp m) (tm_frame m)) (f (to_message m) (m_data x)))
    (lookupTransformFixed s target t (frame_of x) (stamp_of x) fixed).
Proof.
  intros s x target t fixed. unfold sent_fixed. destruct (returns (buffer_of s) unit (const_ref x) target t fixed 0 tt) as [_ E].
  cbv zeta in E. rewrite E. cbn [snd rd const_ref buffer_of bi_lookup_fixed]. unfold frame_of, stamp_of.
  destruct (lookupTransformFixed s target _ _ _ _) as [m|c e|]; reflexivity.
Qed.
Lemma sent_inv : forall (s : core S) x target y, sent s T x target = Ok y ->
  exists m, lookupTransform s target (frame_of x) (stamp_of x) = Ok m /\
    y = mkMstamped (mkHeader 0 (tm_stamp m) (tm_frame m)) (f (to_message m) (m_data x)).
Proof.
  intros s x target y E. rewrite sent_eq in E. destruct (lookupTransform s target _ _) as [m|c e|] eqn:L; cbn [map_res] in E; try discriminate.
  exists m. split; [reflexivity|congruence].
Qed.
Lemma writes_only : writes_only_its_output T.
Proof. intros M in_ t m out. rewrite (ap_stack _ _ H). reflexivity. Qed.
End Any.

(** ** Over the reals *)
Lemma to_message_unit : forall m : tmsg RS, qunit (tm_rot m) -> is_unit (rot (to_message m)).
Proof. intros m U. unfold is_unit, norm2, rot. exact U. Qed.
Lemma to_message_tfx : forall m : tmsg RS, tfx (to_message m) = xpose (msg_pose m).
Proof.
  intros m. unfold tfx, fromMsg_Transform, xpose, xfromQuat, msg_pose, to_message. cbn [t_transform g_rotation translation fst snd].
  destruct (tm_rot m) as [a b c d], (tm_trans m) as [e g h]. reflexivity.
Qed.

(** payloads that only see the rigid motion of the transform; [same] up to the sign of the
    quaternions of the payload, [sameF] also up to the sign of that of the transform *)
Record kind {A} (f : rtstamped -> A -> A) (fine : A -> Prop) (same sameF : A -> A -> Prop) : Prop := {
  kd_same : forall T1 T2 a, is_unit (rot T1) -> is_unit (rot T2) -> tfx T1 = tfx T2 ->
    same_rotation (fq (rot T1)) (fq (rot T2)) -> fine a -> sameF (f T1 a) (f T2 a);
  kd_comp : forall T1 T2 T3 a, is_unit (rot T1) -> is_unit (rot T2) -> is_unit (rot T3) ->
    tfx T3 = xmul (tfx T1) (tfx T2) -> fq (rot T3) = qmul (fq (rot T1)) (fq (rot T2)) -> fine a -> same (f T1 (f T2 a)) (f T3 a);
  kd_id : forall T1 T2 a, is_unit (rot T1) -> is_unit (rot T2) -> xmul (tfx T1) (tfx T2) = xidentity ->
    qmul (fq (rot T1)) (fq (rot T2)) = qidentity -> fine a -> same (f T1 (f T2 a)) a;
  kd_trans : forall a b c, sameF a b -> same c b -> sameF a c
}.
Lemma same_turn_refl : forall q, same_turn q q. Proof. left. reflexivity. Qed.
Lemma opposite_twice : forall q, opposite (opposite q) = q.
Proof. intros [a b c d]. unfold opposite. cbn [gqx gqy gqz gqw]. cbn [RS scar]. f_equal; ring. Qed.
Lemma same_turn_back : forall p q, same_turn p q -> same_turn q p.
Proof. intros p q [->| ->]; [left; reflexivity|right; rewrite opposite_twice; reflexivity]. Qed.
Lemma same_turn_trans : forall p q r, same_turn p q -> same_turn q r -> same_turn p r.
Proof.
  intros p q r [->| ->] [->| ->]; [left; reflexivity|right; reflexivity|right; reflexivity|left; apply opposite_twice].
Qed.
Lemma same_pose_back : forall p q, same_pose p q -> same_pose q p.
Proof. intros p q [E H]. split; [symmetry; exact E|apply same_turn_back; exact H]. Qed.
Lemma same_pose_trans : forall p q r, same_pose p q -> same_pose q r -> same_pose p r.
Proof. intros p q r [E H] [E' H']. split; [congruence|eapply same_turn_trans; eassumption]. Qed.

Lemma point_kind : kind point_by (fun _ => True) eq eq.
Proof.
  split.
  - intros T1 T2 a _ _ E _ _. apply fv_inj. rewrite !point_fv, E. reflexivity.
  - intros T1 T2 T3 a _ _ _ E _ _. apply fv_inj. rewrite !point_fv, E. symmetry. apply xapply_mul.
  - intros T1 T2 a _ _ E _ _. apply fv_inj. rewrite !point_fv, <- xapply_mul, E. apply xapply_id.
  - congruence.
Qed.
Lemma xbasis_mul : forall a b : rxform, xbasis (xmul a b) = mmul (xbasis a) (xbasis b).
Proof. intros a b. rewrite xmul_eq. reflexivity. Qed.
Lemma vector_kind : kind vector_by (fun _ => True) eq eq.
Proof.
  split.
  - intros T1 T2 a _ _ E _ _. apply fv_inj. rewrite !vector_fv, E. reflexivity.
  - intros T1 T2 T3 a _ _ _ E _ _. apply fv_inj. rewrite !vector_fv, E, xbasis_mul. symmetry. apply mmulv_mul.
  - intros T1 T2 a _ _ E _ _. apply fv_inj. rewrite !vector_fv, <- mmulv_mul, <- xbasis_mul, E. apply mmulv_id.
  - congruence.
Qed.
Lemma quaternion_kind : kind quaternion_by (fun _ => True) eq same_turn.
Proof.
  split.
  - intros T1 T2 a _ _ _ E _. rewrite !quaternion_by_eq. apply same_turn_tq. destruct E as [->| ->]; [left; reflexivity|right].
    destruct (fq (rot T2)) as [x y z w], (fq a) as [e g h k]. unfold qneg, qmul. lm_unfold. f_equal; ring.
  - intros T1 T2 T3 a _ _ _ _ E _. rewrite !quaternion_by_eq, E, fq_tq, qmul_assoc. reflexivity.
  - intros T1 T2 a _ _ _ E _. rewrite !quaternion_by_eq, fq_tq, qmul_assoc, E, qmul_id_l. apply tq_fq.
  - intros a b c H ->. exact H.
Qed.
Lemma pose_kind : kind pose_by (fun p => is_unit (orientation p)) same_pose same_pose.
Proof.
  split.
  - intros T1 T2 a U1 U2 E _ F.
    destruct (pose_by_x T1 a (unit_nonzero _ U1) (unit_nonzero _ F)) as [E1 V1].
    destruct (pose_by_x T2 a (unit_nonzero _ U2) (unit_nonzero _ F)) as [E2 V2].
    apply posex_inj; [exact V1|exact V2|congruence].
  - intros T1 T2 T3 a U1 U2 U3 E _ F.
    destruct (pose_by_x T2 a (unit_nonzero _ U2) (unit_nonzero _ F)) as [E2 V2].
    destruct (pose_by_x T1 _ (unit_nonzero _ U1) (unit_nonzero _ V2)) as [E1 V1].
    destruct (pose_by_x T3 a (unit_nonzero _ U3) (unit_nonzero _ F)) as [E3 V3].
    apply posex_inj; [exact V1|exact V3|]. rewrite E1, E2, E3, E, xmul_assoc. reflexivity.
  - intros T1 T2 a U1 U2 E _ F.
    destruct (pose_by_x T2 a (unit_nonzero _ U2) (unit_nonzero _ F)) as [E2 V2].
    destruct (pose_by_x T1 _ (unit_nonzero _ U1) (unit_nonzero _ V2)) as [E1 V1].
    apply posex_inj; [exact V1|exact F|]. rewrite E1, E2, xmul_assoc, E. apply xmul_id_l.
  - intros a b c H H'. eapply same_pose_trans; [exact H|apply same_pose_back; exact H'].
Qed.
Lemma wrench_kind : kind wrench_by (fun _ => True) eq eq.
Proof.
  assert (C : forall T1 T2 T3 a, is_unit (rot T1) -> tfx T3 = xmul (tfx T1) (tfx T2) -> wrench_by T1 (wrench_by T2 a) = wrench_by T3 a).
  { intros T1 T2 T3 a U1 E. pose proof (tfx_rigid _ (unit_nonzero _ U1)) as R1.
    destruct (wrench_parts T2 a) as [F2 Q2]. destruct (wrench_parts T1 (wrench_by T2 a)) as [F1 Q1]. destruct (wrench_parts T3 a) as [F3 Q3].
    apply wrench_ext.
    - rewrite F1, F2, F3, E, xbasis_mul. symmetry. apply mmulv_mul.
    - rewrite Q1, F2, Q2, Q3, E, xmul_eq. cbn [xbasis xorigin]. rewrite mmulv_add, !mmulv_mul, <- (rotation_cross _ _ _ R1), vcross_add_l.
      generalize (mmulv (xbasis (tfx T1)) (mmulv (xbasis (tfx T2)) (fv (torque a)))) 
        (vcross (mmulv (xbasis (tfx T1)) (xorigin (tfx T2))) (mmulv (xbasis (tfx T1)) (mmulv (xbasis (tfx T2)) (fv (force a)))))
        (vcross (xorigin (tfx T1)) (mmulv (xbasis (tfx T1)) (mmulv (xbasis (tfx T2)) (fv (force a))))).
      intros [] [] []. lm_unfold. f_equal; ring. }
  split.
  - intros T1 T2 a _ _ E _ _. destruct (wrench_parts T1 a) as [F1 Q1]. destruct (wrench_parts T2 a) as [F2 Q2].
    apply wrench_ext; [rewrite F1, F2, E; reflexivity|rewrite Q1, Q2, E; reflexivity].
  - intros T1 T2 T3 a U1 _ _ E _ _. apply C; assumption.
  - intros T1 T2 a U1 U2 E _ _.
    pose (I := mkTstamped header0 EmptyString (mkGtransform (@mkXyz RS 0 0 0)%R (@mkGquat RS 0 0 0 1)%R) : rtstamped).
    assert (EI : tfx I = xidentity).
    { unfold tfx, fromMsg_Transform, I. cbn [t_transform g_rotation translation].
      change (fq (@mkGquat RS 0 0 0 1)%R) with (@Q4 RS 0 0 0 1)%R. rewrite <- qidentity_eq, mfromQuat_id. unfold xidentity, vzero.
      f_equal. unfold fromMsg_xyz. cbn [gx gy gz]. unfold szero. cbn [RS slit scar]. f_equal; field. }
    rewrite (C T1 T2 I a U1) by (rewrite EI, E; reflexivity).
    destruct (wrench_parts I a) as [F Q]. apply wrench_ext.
    + rewrite F, EI. apply mmulv_id.
    + rewrite Q, EI. cbn [xidentity xbasis xorigin]. rewrite !mmulv_id.
      unfold vzero. destruct (fv (torque a)), (fv (force a)). unfold szero. cbn [RS slit]. lm_unfold. f_equal; field.
  - congruence.
Qed.
Lemma posecov_kind : forall junk, kind (posecov_by junk) (fun p => is_unit (orientation (pc_pose p))) same_posecov same_posecov.
Proof.
  intros junk. split.
  - intros T1 T2 a U1 U2 E Q F. split; [apply (kd_same _ _ _ _ pose_kind); assumption|].
    intros k Hk. cbn [posecov_by pc_cov]. unfold covariance_by. change (fromMsg_Transform (t_transform T1)) with (tfx T1).
    change (fromMsg_Transform (t_transform T2)) with (tfx T2). rewrite E. reflexivity.
  - intros T1 T2 T3 a U1 U2 U3 E Q F. split; [apply (kd_comp _ _ _ _ pose_kind); assumption|].
    intros k Hk. cbn [posecov_by pc_cov]. unfold covariance_by. change (fromMsg_Transform (t_transform T1)) with (tfx T1).
    change (fromMsg_Transform (t_transform T2)) with (tfx T2). change (fromMsg_Transform (t_transform T3)) with (tfx T3).
    rewrite E. apply cov_compose. exact Hk.
  - intros T1 T2 a U1 U2 E Q F. split; [apply (kd_id _ _ _ _ pose_kind); assumption|].
    intros k Hk. cbn [posecov_by pc_cov]. unfold covariance_by. change (fromMsg_Transform (t_transform T1)) with (tfx T1).
    change (fromMsg_Transform (t_transform T2)) with (tfx T2).
    rewrite (cov_compose junk junk junk) by exact Hk. rewrite E. apply cov_identity. exact Hk.
  - intros a b c [H1 H2] [H3 H4]. split; [eapply (kd_trans _ _ _ _ pose_kind); eassumption|].
    intros k Hk. rewrite H2, H4 by exact Hk. reflexivity.
Qed.

(** ** Round trips, chains, fixed frames *)
Lemma to_message_rot : forall m : tmsg RS, fq (rot (to_message m)) = tm_rot m.
Proof. intros m. unfold rot, to_message. cbn [t_transform g_rotation]. apply fq_tq. Qed.
Lemma msg_tfx_mul : forall m1 m2 m3 : tmsg RS, qunit (tm_rot m1) -> qunit (tm_rot m2) ->
  msg_pose m3 = pose_mul (msg_pose m1) (msg_pose m2) ->
  tfx (to_message m3) = xmul (tfx (to_message m1)) (tfx (to_message m2)) /\
  fq (rot (to_message m3)) = qmul (fq (rot (to_message m1))) (fq (rot (to_message m2))).
Proof.
  intros m1 m2 m3 U1 U2 E. rewrite !to_message_tfx, !to_message_rot. split.
  - rewrite xpose_mul by assumption. rewrite E. reflexivity.
  - change (tm_rot m3) with (fst (msg_pose m3)). rewrite E. reflexivity.
Qed.
Lemma qunit_opposite : forall q : rquat, qunit q -> qunit (qneg q).
Proof. intros [a b c d] Q. unfold qunit, qneg in *. cbn [qx qy qz qw sopp RS scar] in *. rewrite <- Q. ring. Qed.
Section Real.
Context {A : Type} {T : datatype RS (mstamped A)} {f : rtstamped -> A -> A} (H : applies T f).
Context {fine : A -> Prop} {same sameF : A -> A -> Prop} (K : kind f fine same sameF).
Context (s : core RS) (R : reachable s) (U : unit_samples s).
Lemma round : round_trip s T fine same.
Proof.
  intros x y z target F N D1 D2 E1 E2.
  destruct (sent_inv H _ _ _ _ E1) as (m & L & ->). destruct (sent_inv H _ _ _ _ E2) as (m' & L' & ->).
  destruct (lookup_header s _ _ _ _ R L) as (H1 & H2 & H3 & _). specialize (H3 N).
  cbn [frame_of stamp_of m_header m_data h_frame h_stamp] in *. unfold frame_of, stamp_of in L'. cbn [m_header h_frame h_stamp] in L'.
  rewrite H1, H3 in L'. fold (frame_of x) in L'.
  destruct (lookup_header s _ _ _ _ R L') as (H4 & H5 & H6 & _). specialize (H6 N).
  pose proof (lookup_unit _ _ _ _ _ R U L) as V. pose proof (lookup_unit _ _ _ _ _ R U L') as V'.
  pose proof (lookup_inverse s target (frame_of x) (stamp_of x) m m' R U N D2 D1 L L') as I.
  unfold frame_of, stamp_of. cbn [m_header m_data h_frame h_stamp]. split; [|split; [exact H4|exact H6]].
  assert (V1 : unitp (msg_pose m)) by exact V.
  apply (kd_id _ _ _ _ K); [apply to_message_unit; exact V'|apply to_message_unit; exact V| | |exact F].
  - rewrite !to_message_tfx, xpose_mul by assumption. rewrite I, pose_inv_l by exact V1.
    unfold xpose, pose_id, xfromQuat. cbn [fst snd]. rewrite mfromQuat_id. reflexivity.
  - rewrite !to_message_rot. change (tm_rot m') with (fst (msg_pose m')). change (tm_rot m) with (fst (msg_pose m)).
    change (qmul (fst (msg_pose m')) (fst (msg_pose m))) with (fst (pose_mul (msg_pose m') (msg_pose m))). rewrite I, pose_inv_l by exact V1. reflexivity.
Qed.
Lemma hops : two_hops s T fine same.
Proof.
  intros x y z w via target F N D1 D2 D3 E1 E2 E3.
  destruct (sent_inv H _ _ _ _ E1) as (m & L & ->). destruct (sent_inv H _ _ _ _ E2) as (m' & L' & ->).
  destruct (sent_inv H _ _ _ _ E3) as (m3 & L3 & ->).
  destruct (lookup_header s _ _ _ _ R L) as (H1 & H2 & H3 & _). specialize (H3 N).
  unfold frame_of at 1, stamp_of at 1 in L'. cbn [m_header h_frame h_stamp] in L'. rewrite H1, H3 in L'.
  destruct (lookup_header s _ _ _ _ R L') as (H4 & H5 & H6 & _). specialize (H6 N).
  destruct (lookup_header s _ _ _ _ R L3) as (H7 & H8 & H9 & _). specialize (H9 N).
  pose proof (lookup_unit _ _ _ _ _ R U L) as V. pose proof (lookup_unit _ _ _ _ _ R U L') as V'. pose proof (lookup_unit _ _ _ _ _ R U L3) as V3.
  pose proof (lookup_chain s target via (frame_of x) (stamp_of x) m' m m3 R U N D3 D2 D1 L' L L3) as C.
  destruct (msg_tfx_mul m' m m3 V' V C) as [C1 C2].
  unfold frame_of, stamp_of. cbn [m_header m_data h_frame h_stamp]. split; [|split; congruence].
  apply (kd_comp _ _ _ _ K); try (apply to_message_unit; assumption); assumption.
Qed.
Lemma through : through_fixed s T fine sameF.
Proof.
  intros x w target tt fixed F E. rewrite (sent_fixed_eq H) in E.
  destruct (lookupTransformFixed s target tt (frame_of x) (stamp_of x) fixed) as [m| |] eqn:L; cbn [map_res] in E; try discriminate.
  assert (Ex : exists m, lookupTransformFixed s target tt (frame_of x) (stamp_of x) fixed = Ok m) by eauto.
  apply fixed_iff in Ex; [|exact R]. destruct Ex as (_ & _ & _ & (m1 & L1) & (m2 & L2)).
  pose proof (fixed_pose s target tt (frame_of x) (stamp_of x) fixed m m1 m2 R U L L1 L2) as P.
  destruct (fixed_header s _ _ _ _ _ _ _ L L2) as (G1 & G2 & G3).
  destruct (lookup_header s _ _ _ _ R L1) as (H1 & _). destruct (lookup_header s _ _ _ _ R L2) as (H2 & _).
  pose proof (lookup_unit _ _ _ _ _ R U L1) as V1. pose proof (lookup_unit _ _ _ _ _ R U L2) as V2.
  assert (Vm : qunit (tm_rot m)).
  { destruct P as [[P|P] _]; change (tm_rot m) with (fst (msg_pose m)); rewrite P.
    - exact (unitp_mul (msg_pose m2) (msg_pose m1) V2 V1).
    - pose proof (unitp_mul (msg_pose m2) (msg_pose m1) V2 V1) as Q. unfold unitp in Q. destruct (fst (pose_mul (msg_pose m2) (msg_pose m1))) as [a b c d].
      apply unitq_qunit in Q. apply qunit_opposite. exact Q. }
  pose (m3 := {| tm_stamp := tm_stamp m; tm_frame := tm_frame m; tm_child := tm_child m;
                 tm_trans := snd (pose_mul (msg_pose m2) (msg_pose m1)); tm_rot := fst (pose_mul (msg_pose m2) (msg_pose m1)) |} : tmsg RS).
  assert (E3 : msg_pose m3 = pose_mul (msg_pose m2) (msg_pose m1)).
  { unfold m3, msg_pose at 1. cbn [tm_rot tm_trans]. symmetry. apply surjective_pairing. }
  assert (V3 : qunit (tm_rot m3)) by exact (unitp_mul (msg_pose m2) (msg_pose m1) V2 V1).
  exists (mkMstamped (mkHeader 0 (tm_stamp m1) (tm_frame m1)) (f (to_message m1) (m_data x))).
  exists (mkMstamped (mkHeader 0 (tm_stamp m2) (tm_frame m2)) (f (to_message m2) (f (to_message m1) (m_data x)))).
  split; [rewrite (sent_eq H), L1; reflexivity|]. split.
  { rewrite (sent_eq H). unfold restamped, frame_of, stamp_of. cbn [m_header m_data h_frame h_stamp h_seq]. rewrite H1, L2. reflexivity. }
  injection E as <-. unfold frame_of, stamp_of. cbn [m_header m_data h_frame h_stamp].
  split; [|split; [exact G1|split; [exact H2|exact G3]]].
  destruct (msg_tfx_mul m2 m1 m3 V2 V1 E3) as [C1 C2].
  apply (kd_trans _ _ _ _ K) with (b := f (to_message m3) (m_data x)).
  - apply (kd_same _ _ _ _ K); try (apply to_message_unit; assumption); [| |exact F].
    + rewrite !to_message_tfx, E3. destruct P as [[P|P] Q]; unfold xpose, xfromQuat.
      * f_equal; [f_equal; exact P|exact Q].
      * f_equal; [|exact Q]. rewrite P. apply mfromQuat_neg.
        pose proof (unit_nonzero _ (to_message_unit _ V3)) as N3. apply nonzero_fq in N3. rewrite to_message_rot in N3. exact N3.
    + rewrite !to_message_rot. destruct P as [P _]. exact P.
  - apply (kd_comp _ _ _ _ K); try (apply to_message_unit; assumption); assumption.
Qed.
End Real.
