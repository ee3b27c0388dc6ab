(** * Proofs about transforming geometry messages *)
From Coq Require Import ZArith Bool Reals Lra Psatz List String.
From Verif Require Import RosTime Scalar LinearMath Instances RealSlerp RealQuat SpecReal RealMatrix GeomMsgs SpecGeom.
Import ListNotations.
Open Scope R_scope.

(** ** What the reference semantics computes (every scalar) *)
Ltac refs :=
  cbn [rd wr member at_loc const_ref r_x r_y r_z r_position r_orientation r_transform r_theader r_force r_torque
       r_pcpose r_pccov r_header r_data r_stamp r_frame gx gy gz gqx gqy gqz gqw position orientation translation
       g_rotation t_header t_child t_transform force torque pc_pose pc_cov m_header m_data h_seq h_stamp h_frame];
  rewrite ?Nat.eqb_refl;
  cbn [rd wr member at_loc const_ref r_x r_y r_z r_position r_orientation r_transform r_theader r_force r_torque
       r_pcpose r_pccov r_header r_data r_stamp r_frame gx gy gz gqx gqy gqz gqw position orientation translation
       g_rotation t_header t_child t_transform force torque pc_pose pc_cov m_header m_data h_seq h_stamp h_frame].
Ltac here := repeat (rewrite ?Nat.eqb_refl; refs).
Ltac elsewhere H := rewrite <- Nat.eqb_neq in H; repeat (rewrite ?H, ?Nat.eqb_refl; refs).

(** A member reached by a path of projections behaves like a field. *)
Definition lawful {A B} (get : A -> B) (set : B -> A -> A) : Prop :=
  (forall b x, get (set b x) = b) /\ (forall b c x, set b (set c x) = set b x).

Section Steps.
Context {S : Scalar} {A : Type}.
Variable T : gtstamped S.
Let X : xform S := fromMsg_Transform (t_transform T).

Lemma write_xyz : forall (get : A -> gxyz S) set (m : mem A) o (a b c : S), lawful get set ->
  forall j, wr (r_z (member (at_loc o) get set)) c (wr (r_y (member (at_loc o) get set)) b
              (wr (r_x (member (at_loc o) get set)) a m)) j =
            if Nat.eqb j o then set (mkXyz a b c) (m o) else m j.
Proof.
  intros get set m o a b c [L1 L2] j. destruct (Nat.eqb_spec j o) as [->|N].
  - here. rewrite !L1, !L2. reflexivity.
  - elsewhere N. reflexivity.
Qed.
Lemma point_step : forall (r : ref (mem A) (gxyz S)) (get : A -> gxyz S) set (m : mem A) o, lawful get set ->
  forall j, doTransform_Point (const_ref T) r (member (at_loc o) get set) m j =
            if Nat.eqb j o then set (toMsg_Vector3 (xapply X (fromMsg_xyz (rd r m)))) (m o) else m j.
Proof. intros r get set m o L j. exact (write_xyz get set m o _ _ _ L j). Qed.
Lemma vector_step : forall (r : ref (mem A) (gxyz S)) (get : A -> gxyz S) set (m : mem A) o, lawful get set ->
  forall j, doTransform_Vector3 (const_ref T) r (member (at_loc o) get set) m j =
            if Nat.eqb j o then set (toMsg_Vector3 (mmulv (xbasis X) (fromMsg_xyz (rd r m)))) (m o) else m j.
Proof. intros r get set m o L j. exact (write_xyz get set m o _ _ _ L j). Qed.
Lemma pose_write : forall (x : xform S) (get : A -> gpose S) set (m : mem A) o, lawful get set ->
  forall j, toMsg_Pose x (member (at_loc o) get set) m j =
            if Nat.eqb j o then set (mkPose (toMsg_Vector3 (xorigin x)) (toMsg_Quaternion (xgetRotation x))) (m o) else m j.
Proof.
  intros x get set m o [L1 L2] j. unfold toMsg_Pose, toMsg_Point.
  assert (L : lawful (fun a => position (get a)) (fun b a => set (mkPose b (orientation (get a))) a)).
  { split; intros; rewrite !L1, ?L2; reflexivity. }
  pose proof (write_xyz _ _ m o (vx (xorigin x)) (vy (xorigin x)) (vz (xorigin x)) L) as H.
  change (toMsg_Vector3 (xorigin x)) with (mkXyz (vx (xorigin x)) (vy (xorigin x)) (vz (xorigin x))).
  match goal with |- context [wr (r_orientation _) _ ?m'] => set (m1 := m') end.
  change (forall j, m1 j = if Nat.eqb j o then set (mkPose (mkXyz (vx (xorigin x)) (vy (xorigin x)) (vz (xorigin x))) (orientation (get (m o)))) (m o) else m j) in H.
  clearbody m1. cbn [wr rd member at_loc r_orientation]. rewrite !H, !Nat.eqb_refl.
  destruct (Nat.eqb j o); [|reflexivity]. rewrite !L1, !L2. reflexivity.
Qed.
Definition pose_value (p : gpose S) : gpose S :=
  let x := xmul X (xfromQuat (fromMsg_Quaternion (orientation p)) (fromMsg_xyz (position p))) in
  mkPose (toMsg_Vector3 (xorigin x)) (toMsg_Quaternion (xgetRotation x)).
Lemma pose_step : forall (r : ref (mem A) (gpose S)) (get : A -> gpose S) set (m : mem A) o, lawful get set ->
  forall j, doTransform_Pose (const_ref T) r (member (at_loc o) get set) m j =
            if Nat.eqb j o then set (pose_value (rd r m)) (m o) else m j.
Proof. intros r get set m o L j. unfold doTransform_Pose. rewrite pose_write by exact L. reflexivity. Qed.

Definition wrench_value (w : gwrench S) : gwrench S :=
  let f := toMsg_Vector3 (mmulv (xbasis X) (fromMsg_xyz (force w))) in
  let t := toMsg_Vector3 (mmulv (xbasis X) (fromMsg_xyz (torque w))) in
  let a := vcross (fromMsg_xyz (shift T)) (fromMsg_xyz f) in
  mkWrench f (mkXyz (sadd (gx t) (vx a)) (sadd (gy t) (vy a)) (sadd (gz t) (vz a))).
Lemma wrench_step : forall (get : A -> gwrench S) set (m : mem A) i o, lawful get set ->
  forall j, doTransform_Wrench (const_ref T) (member (at_loc i) get set) (member (at_loc o) get set) m j =
            if Nat.eqb j o then set (wrench_value (get (m i))) (m o) else m j.
Proof.
  intros get set m i o [L1 L2] j. cbv beta delta [doTransform_Wrench].
  assert (LF : lawful (fun a => force (get a)) (fun b a => set (mkWrench b (torque (get a))) a)).
  { split; intros; rewrite !L1, ?L2; reflexivity. }
  assert (LT : lawful (fun a => torque (get a)) (fun b a => set (mkWrench (force (get a)) b) a)).
  { split; intros; rewrite !L1, ?L2; reflexivity. }
  pose proof (vector_step (r_force (member (at_loc i) get set)) _ _ m o LF) as H1.
  set (m1 := doTransform_Vector3 (const_ref T) (r_force (member (at_loc i) get set)) (r_force (member (at_loc o) get set)) m).
  change (forall j, m1 j = if Nat.eqb j o then set (mkWrench (toMsg_Vector3 (mmulv (xbasis X) (fromMsg_xyz (force (get (m i)))))) (torque (get (m o)))) (m o) else m j) in H1.
  clearbody m1. cbv zeta.
  pose proof (vector_step (r_torque (member (at_loc i) get set)) _ _ m1 o LT) as H2.
  set (m2 := doTransform_Vector3 (const_ref T) (r_torque (member (at_loc i) get set)) (r_torque (member (at_loc o) get set)) m1).
  change (forall j, m2 j = if Nat.eqb j o then set (mkWrench (force (get (m1 o))) (toMsg_Vector3 (mmulv (xbasis X) (fromMsg_xyz (torque (get (m1 i))))))) (m1 o) else m1 j) in H2.
  clearbody m2.
  assert (E : torque (get (m1 i)) = torque (get (m i))).
  { rewrite H1. destruct (Nat.eqb_spec i o) as [->|N]; [rewrite L1; reflexivity|reflexivity]. }
  rewrite E in H2. clear E.
  set (f := toMsg_Vector3 (mmulv (xbasis X) (fromMsg_xyz (force (get (m i)))))) in *.
  set (t := toMsg_Vector3 (mmulv (xbasis X) (fromMsg_xyz (torque (get (m i)))))) in *.
  assert (H3 : forall j, m2 j = if Nat.eqb j o then set (mkWrench f t) (m o) else m j).
  { intros k. rewrite H2. destruct (Nat.eqb k o) eqn:E; [|rewrite H1, E; reflexivity].
    rewrite H1, Nat.eqb_refl, L1, L2. reflexivity. }
  clear H1 H2. unfold wrench_value. fold f t. clearbody f t. clear m1.
  destruct (Nat.eqb_spec j o) as [->|N].
  - here. rewrite !H3, !Nat.eqb_refl, !L1. cbn [force torque]. rewrite ?L1, ?L2. reflexivity.
  - elsewhere N. rewrite H3, N. reflexivity.
Qed.
Lemma header_step : forall (get : A -> header) set (m : mem A) o, lawful get set ->
  forall j, set_header (const_ref T) (member (at_loc o) get set) m j =
            if Nat.eqb j o then set (retagged T (get (m o))) (m o) else m j.
Proof.
  intros get set m o [L1 L2] j. unfold set_header, retagged. destruct (Nat.eqb_spec j o) as [->|N].
  - here. rewrite !L1, !L2. reflexivity.
  - elsewhere N. reflexivity.
Qed.
End Steps.

Lemma lawful_id {A} : lawful (fun a : A => a) (fun b _ => b). Proof. split; reflexivity. Qed.
Lemma lawful_data {A} : lawful (@m_data A) (fun a s => mkMstamped (m_header s) a). Proof. split; reflexivity. Qed.
Lemma lawful_header {A} : lawful (@m_header A) (fun a s => mkMstamped a (m_data s)). Proof. split; reflexivity. Qed.

(** one address is written, the others keep their value *)
Lemma only {A} : forall (m' m : mem A) o v, (forall j, m' j = if Nat.eqb j o then v else m j) ->
  m' o = v /\ forall j, j <> o -> m' j = m j.
Proof.
  intros m' m o v H. split; [rewrite H, Nat.eqb_refl; reflexivity|].
  intros j N. rewrite H. destruct (Nat.eqb_spec j o); [contradiction|reflexivity].
Qed.

Section Any.
Context {S : Scalar}.
Variable T : gtstamped S.
Let X : xform S := fromMsg_Transform (t_transform T).

Lemma point_mem : forall (m : mem (gxyz S)) i o,
  doTransform_Point (const_ref T) (at_loc i) (at_loc o) m o = toMsg_Vector3 (xapply X (fromMsg_xyz (m i))) /\
  forall j, j <> o -> doTransform_Point (const_ref T) (at_loc i) (at_loc o) m j = m j.
Proof. intros m i o. apply only. exact (point_step T (at_loc i) _ _ m o lawful_id). Qed.
Lemma vector_mem : forall (m : mem (gxyz S)) i o,
  doTransform_Vector3 (const_ref T) (at_loc i) (at_loc o) m o = toMsg_Vector3 (mmulv (xbasis X) (fromMsg_xyz (m i))) /\
  forall j, j <> o -> doTransform_Vector3 (const_ref T) (at_loc i) (at_loc o) m j = m j.
Proof. intros m i o. apply only. exact (vector_step T (at_loc i) _ _ m o lawful_id). Qed.
Lemma quaternion_mem : forall (m : mem (gquat S)) i o,
  doTransform_Quaternion (const_ref T) (at_loc i) (at_loc o) m o =
    toMsg_Quaternion (qmul (fromMsg_Quaternion (rot T)) (fromMsg_Quaternion (m i))) /\
  forall j, j <> o -> doTransform_Quaternion (const_ref T) (at_loc i) (at_loc o) m j = m j.
Proof. intros m i o. apply only. reflexivity. Qed.
Lemma pose_mem : forall (m : mem (gpose S)) i o,
  doTransform_Pose (const_ref T) (at_loc i) (at_loc o) m o = pose_value T (m i) /\
  forall j, j <> o -> doTransform_Pose (const_ref T) (at_loc i) (at_loc o) m j = m j.
Proof. intros m i o. apply only. exact (pose_step T (at_loc i) _ _ m o lawful_id). Qed.
Lemma wrench_mem : forall (m : mem (gwrench S)) i o,
  doTransform_Wrench (const_ref T) (at_loc i) (at_loc o) m o = wrench_value T (m i) /\
  forall j, j <> o -> doTransform_Wrench (const_ref T) (at_loc i) (at_loc o) m j = m j.
Proof. intros m i o. apply only. exact (wrench_step T _ _ m i o lawful_id). Qed.
Lemma point_by_eq : forall p, point_by T p = toMsg_Vector3 (xapply X (fromMsg_xyz p)).
Proof. intros p. exact (proj1 (point_mem (fun _ => p) 0 0)). Qed.
Lemma vector_by_eq : forall p, vector_by T p = toMsg_Vector3 (mmulv (xbasis X) (fromMsg_xyz p)).
Proof. intros p. exact (proj1 (vector_mem (fun _ => p) 0 0)). Qed.
Lemma quaternion_by_eq : forall p, quaternion_by T p = toMsg_Quaternion (qmul (fromMsg_Quaternion (rot T)) (fromMsg_Quaternion p)).
Proof. intros p. exact (proj1 (quaternion_mem (fun _ => p) 0 0)). Qed.
Lemma pose_by_eq : forall p, pose_by T p = pose_value T p.
Proof. intros p. exact (proj1 (pose_mem (fun _ => p) 0 0)). Qed.
Lemma wrench_by_eq : forall p, wrench_by T p = wrench_value T p.
Proof. intros p. exact (proj1 (wrench_mem (fun _ => p) 0 0)). Qed.

(** the stamped overloads: the payload, then the header *)
Lemma stamped_only {A : Type} : forall (m1 m : mem (mstamped A)) o v,
  (forall j, m1 j = if Nat.eqb j o then mkMstamped (m_header (m o)) v else m j) ->
  forall m', m' = set_header (const_ref T) (r_header (at_loc o)) m1 ->
  (m' o = mkMstamped (retagged T (m_header (m o))) v) /\ (forall j, j <> o -> m' j = m j).
Proof.
  intros m1 m o v H m' ->. split.
  - rewrite (header_step T _ _ m1 o lawful_header), Nat.eqb_refl, H, Nat.eqb_refl. reflexivity.
  - intros j N. rewrite (header_step T _ _ m1 o lawful_header). apply Nat.eqb_neq in N. rewrite N, H, N. reflexivity.
Qed.
Lemma stamped_point_mem : forall (m : mem (mstamped (gxyz S))) i o,
  doTransform_PointStamped (const_ref T) (at_loc i) (at_loc o) m o =
    mkMstamped (retagged T (m_header (m o))) (point_by T (m_data (m i))) /\
  forall j, j <> o -> doTransform_PointStamped (const_ref T) (at_loc i) (at_loc o) m j = m j.
Proof.
  intros m i o. rewrite point_by_eq.
  destruct (stamped_only _ m o _ (point_step T (r_data (at_loc i)) _ _ m o lawful_data) _ eq_refl) as (H1 & H2).
  split; [exact H1|exact H2].
Qed.
Lemma stamped_vector_mem : forall (m : mem (mstamped (gxyz S))) i o,
  doTransform_Vector3Stamped (const_ref T) (at_loc i) (at_loc o) m o =
    mkMstamped (retagged T (m_header (m o))) (vector_by T (m_data (m i))) /\
  forall j, j <> o -> doTransform_Vector3Stamped (const_ref T) (at_loc i) (at_loc o) m j = m j.
Proof.
  intros m i o. rewrite vector_by_eq.
  destruct (stamped_only _ m o _ (vector_step T (r_data (at_loc i)) _ _ m o lawful_data) _ eq_refl) as (H1 & H2).
  split; [exact H1|exact H2].
Qed.
Lemma stamped_quaternion_mem : forall (m : mem (mstamped (gquat S))) i o,
  doTransform_QuaternionStamped (const_ref T) (at_loc i) (at_loc o) m o =
    mkMstamped (retagged T (m_header (m o))) (quaternion_by T (m_data (m i))) /\
  forall j, j <> o -> doTransform_QuaternionStamped (const_ref T) (at_loc i) (at_loc o) m j = m j.
Proof.
  intros m i o. rewrite quaternion_by_eq.
  destruct (stamped_only (doTransform_Quaternion (const_ref T) (r_data (at_loc i)) (r_data (at_loc o)) m) m o _
              (fun j => eq_refl) _ eq_refl) as (H1 & H2).
  split; [exact H1|exact H2].
Qed.
Lemma stamped_pose_mem : forall (m : mem (mstamped (gpose S))) i o,
  doTransform_PoseStamped (const_ref T) (at_loc i) (at_loc o) m o =
    mkMstamped (retagged T (m_header (m o))) (pose_by T (m_data (m i))) /\
  forall j, j <> o -> doTransform_PoseStamped (const_ref T) (at_loc i) (at_loc o) m j = m j.
Proof.
  intros m i o. rewrite pose_by_eq.
  destruct (stamped_only _ m o _ (pose_step T (r_data (at_loc i)) _ _ m o lawful_data) _ eq_refl) as (H1 & H2).
  split; [exact H1|exact H2].
Qed.
Lemma stamped_wrench_mem : forall (m : mem (mstamped (gwrench S))) i o,
  doTransform_WrenchStamped (const_ref T) (at_loc i) (at_loc o) m o =
    mkMstamped (retagged T (m_header (m o))) (wrench_by T (m_data (m i))) /\
  forall j, j <> o -> doTransform_WrenchStamped (const_ref T) (at_loc i) (at_loc o) m j = m j.
Proof.
  intros m i o. rewrite wrench_by_eq.
  destruct (stamped_only _ m o _ (wrench_step T _ _ m i o lawful_data) _ eq_refl) as (H1 & H2).
  split; [exact H1|exact H2].
Qed.
Lemma stamped_posecov_mem : forall (junk : nat -> S) (m : mem (mstamped (gposecov S))) i o,
  doTransform_PoseCovStamped (const_ref T) junk (at_loc i) (at_loc o) m o =
    mkMstamped (retagged T (m_header (m o)))
      (mkPoseCov (pose_by T (pc_pose (m_data (m i)))) (covariance_by T junk (pc_cov (m_data (m i))))) /\
  forall j, j <> o -> doTransform_PoseCovStamped (const_ref T) junk (at_loc i) (at_loc o) m j = m j.
Proof.
  intros junk m i o. rewrite pose_by_eq. cbv beta delta [doTransform_PoseCovStamped covariance_by].
  set (x := xmul (fromMsg_Transform (t_transform (rd (const_ref T) m)))
             (xfromQuat (fromMsg_Quaternion (orientation (pc_pose (m_data (rd (at_loc i) m)))))
                (fromMsg_xyz (position (pc_pose (m_data (rd (at_loc i) m))))))).
  assert (L : lawful (fun a : mstamped (gposecov S) => pc_pose (m_data a))
                (fun b a => mkMstamped (m_header a) (mkPoseCov b (pc_cov (m_data a))))) by (split; reflexivity).
  pose proof (pose_write x _ _ m o L) as H1. cbv zeta. fold x.
  set (m1 := toMsg_Pose x (r_pcpose (r_data (at_loc o))) m).
  change (forall j, m1 j = if Nat.eqb j o then mkMstamped (m_header (m o)) (mkPoseCov (pose_value T (pc_pose (m_data (m i)))) (pc_cov (m_data (m o)))) else m j) in H1.
  clearbody m1. clear L.
  pose proof (header_step T _ _ m1 o (@lawful_header (gposecov S))) as H2.
  set (m2 := set_header (const_ref T) (r_header (at_loc o)) m1).
  change (forall j, m2 j = if Nat.eqb j o then mkMstamped (retagged T (m_header (m1 o))) (m_data (m1 o)) else m1 j) in H2.
  clearbody m2.
  assert (H3 : forall j, m2 j = if Nat.eqb j o then mkMstamped (retagged T (m_header (m o))) (mkPoseCov (pose_value T (pc_pose (m_data (m i)))) (pc_cov (m_data (m o)))) else m j).
  { intros j. rewrite H2, H1, Nat.eqb_refl, H1. destruct (Nat.eqb j o); reflexivity. }
  clear H1 H2.
  assert (E : pc_cov (m_data (m2 i)) = pc_cov (m_data (m i))).
  { rewrite H3. destruct (Nat.eqb_spec i o) as [->|]; reflexivity. }
  apply only. intros j. cbn [wr rd member at_loc r_pccov r_data const_ref]. rewrite E, !H3, Nat.eqb_refl.
  destruct (Nat.eqb j o); reflexivity.
Qed.
(** the transform itself may be the input, the output or both *)
Lemma transform_mem3 : forall (m : mem (gtstamped S)) k i o,
  doTransform_TransformStamped (at_loc k) (at_loc i) (at_loc o) m o =
    mkTstamped (retagged (m k) (t_header (m o))) (t_child (m o))
      (toMsg_Transform (xmul (fromMsg_Transform (t_transform (m k))) (fromMsg_Transform (t_transform (m i))))) /\
  forall j, j <> o -> doTransform_TransformStamped (at_loc k) (at_loc i) (at_loc o) m j = m j.
Proof.
  intros m k i o. unfold doTransform_TransformStamped, set_header, retagged. split.
  - here. destruct (Nat.eqb_spec k o) as [->|N]; here; reflexivity.
  - intros j H. elsewhere H. reflexivity.
Qed.
Lemma transform_by_eq : forall p, transform_by T p =
  mkTstamped (retagged T (t_header p)) (t_child p) (toMsg_Transform (xmul X (fromMsg_Transform (t_transform p)))).
Proof. intros p. reflexivity. Qed.
End Any.
