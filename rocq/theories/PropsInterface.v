(** * Property C61: BufferInterface::transform *)
From Coq Require Import ZArith Bool String List Reals Lra Lia.
From Verif Require Import RosTime Scalar LinearMath Cache BufferCore SpecCore Instances RealSlerp RealQuat SpecReal RealMatrix
  CoreSet LookupTheorems LookupTree LookupPose LookupFixed ExampleBuffers ExampleReal GeomMsgs SpecGeom GeomProofs GeomReal ForeignGeom SpecForeign
  ForeignProofs BufferInterface SpecInterface InterfaceProofs.
Import ListNotations.
Open Scope Z_scope.

Lemma every {S : Scalar} : forall (P : forall A, datatype S (mstamped A) -> (gtstamped S -> A -> A) -> Prop),
  (forall A (T : datatype S (mstamped A)) f, applies T f -> P A T f) -> every_type P.
Proof.
  intros P H. split; [apply H, PointStamped_applies|]. split; [apply H, Vector3Stamped_applies|]. split; [apply H, QuaternionStamped_applies|].
  split; [apply H, PoseStamped_applies|]. split; [apply H, WrenchStamped_applies|]. intros junk. apply H, PoseCovStamped_applies.
Qed.

(** ** What is asked, what is written *)
(** transform(in, out, target, timeout), for every implementation of the interface, every
    arithmetic and any two addresses, equal or not. *)
Theorem C61_transform_is_lookup_then_doTransform :
  forall (S : Scalar) (bi : buffer_interface S),
  every_type (fun A T f => looks_up_and_carries bi T f /\ looks_up_and_carries_fixed bi T f).
Proof. intros S bi. apply every. intros A T f H. split; [apply carries; exact H|apply carries_fixed; exact H]. Qed.
Print Assumptions C61_transform_is_lookup_then_doTransform.

(** TransformStamped: getFrameId is the frame of the header, the child frame stays that of the
    output object. *)
Theorem C61_transform_of_a_transform :
  forall (S : Scalar) (bi : buffer_interface S) (m : mem (gtstamped S)) i o target timeout,
  match bi_lookup bi target (h_frame (t_header (m i))) (h_stamp (t_header (m i))) timeout with
  | Ok t => exists m', transform bi TransformStamped (at_loc i) (at_loc o) target timeout m = (m', Ok tt) /\
      t_transform (m' o) = t_transform (transform_by t (m i)) /\
      t_header (m' o) = mkHeader (h_seq (t_header (m o))) (h_stamp (t_header t)) (h_frame (t_header t)) /\
      t_child (m' o) = t_child (m o) /\ forall j, j <> o -> m' j = m j
  | Throw c e => transform bi TransformStamped (at_loc i) (at_loc o) target timeout m = (m, Throw c e)
  | UB => transform bi TransformStamped (at_loc i) (at_loc o) target timeout m = (m, UB)
  end.
Proof.
  intros S bi m i o target timeout. unfold transform. cbn [TransformStamped dt_frame dt_stamp rd at_loc dt_do].
  destruct (bi_lookup bi target _ _ timeout) as [t|c e|]; try reflexivity.
  eexists. split; [reflexivity|]. rewrite transform_by_eq. unfold doTransform_TransformStamped, set_header.
  split; [here; reflexivity|]. split; [here; reflexivity|]. split; [here; reflexivity|].
  intros j N. elsewhere N. reflexivity.
Qed.
Print Assumptions C61_transform_of_a_transform.

(** The forms that return a value change no object at all. *)
Theorem C61_value_forms_change_nothing :
  forall (S : Scalar) (bi : buffer_interface S), every_type (fun A T f => returns_a_new_object bi T f).
Proof. intros S bi. apply every. intros A T f H. apply returns. exact H. Qed.
Print Assumptions C61_value_forms_change_nothing.

(** On any exception no object has changed, in any of the six forms, whatever the types. *)
Theorem C61_exception_changes_nothing :
  forall (S : Scalar) (bi : buffer_interface S) (A B : Type) (T : datatype S A) conv (M : Type)
    (in_ out : ref M A) (out2 : ref M B) target target_time fixed timeout (m : M) c e,
  (forall m', transform bi T in_ out target timeout m = (m', Throw c e) -> m' = m) /\
  (forall m', transform_value bi T in_ target timeout m = (m', Throw c e) -> m' = m) /\
  (forall m', transform_to bi T conv in_ out2 target timeout m = (m', Throw c e) -> m' = m) /\
  (forall m', transform_fixed bi T in_ out target target_time fixed timeout m = (m', Throw c e) -> m' = m) /\
  (forall m', transform_fixed_value bi T in_ target target_time fixed timeout m = (m', Throw c e) -> m' = m) /\
  (forall m', transform_fixed_to bi T conv in_ out2 target target_time fixed timeout m = (m', Throw c e) -> m' = m).
Proof.
  intros S bi A B T conv M in_ out out2 target target_time fixed timeout m c e.
  unfold transform_to, transform_fixed_to, transform_value, transform_fixed_value, transform, transform_fixed. cbn [rd under fst].
  destruct (bi_lookup bi target _ _ timeout) as [t|c1 e1|];
  destruct (bi_lookup_fixed bi target target_time _ _ fixed timeout) as [t'|c2 e2|];
  repeat match goal with |- context [dt_do T ?t (under in_) stack_ref (m, dt_new T)] =>
    let q := fresh "q" in destruct (dt_do T t (under in_) stack_ref (m, dt_new T)) as [? q] end; cbn [map_res];
  repeat split; intros m'; congruence.
Qed.
Print Assumptions C61_exception_changes_nothing.

(** The two-type forms convert what the value form returns and write nothing else. *)
Theorem C61_two_types :
  forall (S : Scalar) (bi : buffer_interface S) (A B : Type) (T : datatype S A) (conversion : A -> B) conv (M : Type)
    (in_ : ref M A) (out : ref M B) target target_time fixed timeout (m : M),
  writes_only_its_output T ->
  conv = convert_from_msg conversion \/ conv = convert_to_msg conversion ->
  (forall y, snd (transform_value bi T in_ target timeout m) = Ok y ->
     transform_to bi T conv in_ out target timeout m = (wr out (conversion y) m, Ok tt)) /\
  (forall c e, snd (transform_value bi T in_ target timeout m) = Throw c e ->
     transform_to bi T conv in_ out target timeout m = (m, Throw c e)) /\
  (forall y, snd (transform_fixed_value bi T in_ target target_time fixed timeout m) = Ok y ->
     transform_fixed_to bi T conv in_ out target target_time fixed timeout m = (wr out (conversion y) m, Ok tt)) /\
  (forall c e, snd (transform_fixed_value bi T in_ target target_time fixed timeout m) = Throw c e ->
     transform_fixed_to bi T conv in_ out target target_time fixed timeout m = (m, Throw c e)).
Proof.
  intros S bi A B T conversion conv M in_ out target target_time fixed timeout m W C.
  assert (E : forall y, fst (conv _ stack_ref (under out) (m, y)) = wr out (conversion y) m) by (destruct C as [->| ->]; reflexivity).
  clear C. unfold transform_to, transform_fixed_to, transform_value, transform_fixed_value, transform, transform_fixed. cbn [rd under fst].
  split; [|split; [|split]].
  - destruct (bi_lookup bi target _ _ timeout) as [t|c1 e1|]; try discriminate. pose proof (W M in_ t m (dt_new T)) as Q.
    destruct (dt_do T t (under in_) stack_ref (m, dt_new T)) as [m1 q]. cbn [fst] in Q. subst m1. cbn [map_res snd].
    intros y E2. injection E2 as ->. rewrite E. reflexivity.
  - destruct (bi_lookup bi target _ _ timeout) as [t|c1 e1|]; try discriminate;
      [destruct (dt_do T t (under in_) stack_ref (m, dt_new T)) as [m1 q]; discriminate|].
    cbn [map_res snd]. intros c e E2. injection E2 as -> ->. reflexivity.
  - destruct (bi_lookup_fixed bi target target_time _ _ fixed timeout) as [t|c1 e1|]; try discriminate. pose proof (W M in_ t m (dt_new T)) as Q.
    destruct (dt_do T t (under in_) stack_ref (m, dt_new T)) as [m1 q]. cbn [fst] in Q. subst m1. cbn [map_res snd].
    intros y E2. injection E2 as ->. rewrite E. reflexivity.
  - destruct (bi_lookup_fixed bi target target_time _ _ fixed timeout) as [t|c1 e1|]; try discriminate;
      [destruct (dt_do T t (under in_) stack_ref (m, dt_new T)) as [m1 q]; discriminate|].
    cbn [map_res snd]. intros c e E2. injection E2 as -> ->. reflexivity.
Qed.
Print Assumptions C61_two_types.
(** every type of tf2_geometry_msgs and every tf2::Stamped type meets the hypothesis *)
Theorem C61_types_write_only_their_output :
  forall S : Scalar, every_type (fun A (T : datatype S (mstamped A)) f => writes_only_its_output T) /\
  writes_only_its_output (TransformStamped : datatype S _) /\
  (forall P (junk : P) f, writes_only_its_output (Stamped junk f : datatype S _)).
Proof.
  intros S. split; [apply every; intros A T f H; exact (writes_only H)|]. split; [|intros P junk f M in_ t m out; reflexivity].
  intros M in_ t m out. cbn [TransformStamped dt_do]. unfold doTransform_TransformStamped, set_header. stk. reflexivity.
Qed.
Print Assumptions C61_types_write_only_their_output.

(** ** On a buffer *)
(** The message lookupTransform hands out: frame_id is the target, child_frame_id the source, the
    stamp the one asked for, the numbers those of the core's answer. *)
Theorem C61_lookup_message :
  forall (S : Scalar) (s : core S) target source t timeout g,
  reachable s -> bi_lookup (buffer_of s) target source t timeout = Ok g ->
  h_frame (t_header g) = target /\ t_child g = source /\ (t <> 0 -> h_stamp (t_header g) = t) /\
  exists m, lookupTransform s target source t = Ok m /\ h_stamp (t_header g) = tm_stamp m /\
  translation (t_transform g) = mkXyz (vx (tm_trans m)) (vy (tm_trans m)) (vz (tm_trans m)) /\
  g_rotation (t_transform g) = mkGquat (qx (tm_rot m)) (qy (tm_rot m)) (qz (tm_rot m)) (qw (tm_rot m)).
Proof.
  intros S s target source t timeout g R H. cbn [buffer_of bi_lookup] in H.
  destruct (lookupTransform s target source t) as [m|c e|] eqn:E; cbn [map_res] in H; try discriminate H.
  injection H as <-. destruct (lookup_header s target source t m R E) as (H1 & H2 & H3 & _).
  unfold to_message. cbn [t_header h_frame h_stamp t_child t_transform translation g_rotation].
  split; [exact H1|]. split; [exact H2|]. split; [exact H3|]. exists m. repeat split.
Qed.
Print Assumptions C61_lookup_message.
Theorem C61_lookup_message_fixed :
  forall (S : Scalar) (s : core S) target target_time source t fixed timeout g,
  reachable s -> bi_lookup_fixed (buffer_of s) target target_time source t fixed timeout = Ok g ->
  h_frame (t_header g) = target /\ t_child g = source /\ (target_time <> 0 -> h_stamp (t_header g) = target_time) /\
  exists m, lookupTransformFixed s target target_time source t fixed = Ok m /\ h_stamp (t_header g) = tm_stamp m /\
  translation (t_transform g) = mkXyz (vx (tm_trans m)) (vy (tm_trans m)) (vz (tm_trans m)) /\
  g_rotation (t_transform g) = mkGquat (qx (tm_rot m)) (qy (tm_rot m)) (qz (tm_rot m)) (qw (tm_rot m)).
Proof.
  intros S s target tt source t fixed timeout g R H. cbn [buffer_of bi_lookup_fixed] in H.
  destruct (lookupTransformFixed s target tt source t fixed) as [m|c e|] eqn:E; cbn [map_res] in H; try discriminate H.
  injection H as <-.
  assert (E2 : exists m2, lookupTransform s target fixed tt = Ok m2).
  { pose proof E as E'. unfold lookupTransformFixed in E'.
    destruct (validateFrameId s _ target) as [i|c e|]; cbn [bind] in E'; try discriminate.
    destruct (validateFrameId s _ source) as [j|c e|]; cbn [bind] in E'; try discriminate.
    destruct (validateFrameId s _ fixed) as [k|c e|]; cbn [bind] in E'; try discriminate.
    destruct (lookupTransform s fixed source t) as [m1|c e|]; cbn [bind] in E'; try discriminate.
    destruct (lookupTransform s target fixed tt) as [m2|c e|]; cbn [bind] in E'; try discriminate.
    exists m2. reflexivity. }
  destruct E2 as [m2 E2]. destruct (fixed_header s _ _ _ _ _ _ _ E E2) as (G1 & G2 & G3).
  destruct (lookup_header s _ _ _ _ R E2) as (_ & _ & H3 & _).
  unfold to_message. cbn [t_header h_frame h_stamp t_child t_transform translation g_rotation].
  split; [exact G1|]. split; [exact G2|]. split; [intros N; rewrite G3; exact (H3 N)|]. exists m. repeat split.
Qed.
Print Assumptions C61_lookup_message_fixed.

(** transform works exactly when canTransform says so. *)
Theorem C61_works_iff_canTransform :
  forall (S : Scalar) (s : core S), reachable s -> early s ->
  every_type (fun A T f => forall (x : mstamped A) target, 0 <= stamp_of x < dur_bound ->
    ((exists y, sent s T x target = Ok y) <-> canTransform s target (frame_of x) (stamp_of x) None = Ok (true, None))).
Proof.
  intros S s R Ea. apply every. intros A T f H x target B. rewrite (can_iff_lookup _ _ _ _ R Ea B), (sent_eq H).
  destruct (lookupTransform s target (frame_of x) (stamp_of x)) as [m|c e|]; cbn [map_res]; split; intros [y E]; try discriminate; eauto.
Qed.
Print Assumptions C61_works_iff_canTransform.

(** The result is in the target frame.  It has the stamp of the input, or for an input stamped
    zero the latest time the two frames have in common; asking for that stamp gives the same. *)
Theorem C61_frame_and_stamp :
  forall (S : Scalar) (s : core S), reachable s ->
  every_type (fun A T f => forall (x y : mstamped A) target, sent s T x target = Ok y ->
    frame_of y = target /\ (stamp_of x <> 0 -> stamp_of y = stamp_of x) /\
    (stamp_of x = 0 -> target <> frame_of x -> latest_common_time s target (frame_of x) = Ok (NO_ERROR, Some (stamp_of y))) /\
    (stamp_of x = 0 -> sent s T (restamped (stamp_of y) x) target = Ok y)).
Proof.
  intros S s R. apply every. intros A T f H x y target E. destruct (sent_inv H _ _ _ _ E) as (m & L & ->).
  destruct (lookup_header s _ _ _ _ R L) as (H1 & H2 & H3 & H4).
  set (y := mkMstamped _ _). assert (Fy : frame_of y = tm_frame m) by reflexivity. assert (Sy : stamp_of y = tm_stamp m) by reflexivity.
  rewrite Fy, Sy. unfold y. clear y Fy Sy E.
  split; [exact H1|]. split; [exact H3|]. split; [intros E0; exact (H4 E0)|].
  intros E0. rewrite E0 in L. rewrite (sent_eq H). unfold restamped, frame_of, stamp_of. cbn [m_header m_data h_frame h_stamp h_seq]. fold (frame_of x).
  rewrite (latest_then_at_stamp s _ _ _ R L). reflexivity.
Qed.
Print Assumptions C61_frame_and_stamp.

(** Points end up where the links of the tree take them. *)
Theorem C61_point_follows_the_tree :
  forall (s : core RS) x y target c ds dt, reachable s -> unit_samples s -> target <> frame_of x ->
  sent s PointStamped x target = Ok y ->
  depth_ok s (stamp_of y) (frame_of x) -> depth_ok s (stamp_of y) target ->
  climbs s (stamp_of y) (frame_of x) ds c -> climbs s (stamp_of y) target dt c ->
  m_data y = pose_moves (pose_mul (pose_inv (climb_pose dt)) (climb_pose ds)) (m_data x).
Proof.
  intros s x y target c ds dt R U N E D1 D2 C1 C2. destruct (sent_inv (PointStamped_applies RS) _ _ _ _ E) as (m & L & ->).
  unfold stamp_of in D1, D2, C1, C2. cbn [m_header h_stamp] in *.
  pose proof (lookup_pose s target (frame_of x) _ m c ds dt R U N L D1 D2 C1 C2) as P.
  pose proof (lookup_unit _ _ _ _ _ R U L) as V. cbn [m_data].
  rewrite point_moved by (apply to_message_unit; exact V). unfold pose_moves. rewrite <- P. reflexivity.
Qed.
Print Assumptions C61_point_follows_the_tree.

(** There and back. *)
Theorem C61_round_trip :
  forall s : core RS, reachable s -> unit_samples s ->
  round_trip s PointStamped (fun _ => True) eq /\ round_trip s Vector3Stamped (fun _ => True) eq /\
  round_trip s QuaternionStamped (fun _ => True) eq /\ round_trip s WrenchStamped (fun _ => True) eq /\
  round_trip s PoseStamped (fun p => is_unit (orientation p)) same_pose /\
  forall junk, round_trip s (PoseWithCovarianceStamped junk) (fun p => is_unit (orientation (pc_pose p))) same_posecov.
Proof.
  intros s R U. split; [exact (round (PointStamped_applies RS) point_kind s R U)|].
  split; [exact (round (Vector3Stamped_applies RS) vector_kind s R U)|].
  split; [exact (round (QuaternionStamped_applies RS) quaternion_kind s R U)|].
  split; [exact (round (WrenchStamped_applies RS) wrench_kind s R U)|].
  split; [exact (round (PoseStamped_applies RS) pose_kind s R U)|].
  intros junk. exact (round (PoseCovStamped_applies RS junk) (posecov_kind junk) s R U).
Qed.
Print Assumptions C61_round_trip.

(** The way back is open whenever the way there was. *)
Theorem C61_way_back :
  forall (S : Scalar) (s : core S), reachable s -> early s ->
  every_type (fun A T f => forall (x y : mstamped A) target, 0 < stamp_of x < dur_bound ->
    depth_ok s (stamp_of x) (frame_of x) -> depth_ok s (stamp_of x) target ->
    sent s T x target = Ok y -> exists z, sent s T y (frame_of x) = Ok z).
Proof.
  intros S s R Ea. apply every. intros A T f H x y target B D1 D2 E. destruct (sent_inv H _ _ _ _ E) as (m & L & ->).
  destruct (lookup_header s _ _ _ _ R L) as (H1 & H2 & H3 & _). specialize (H3 ltac:(lia)).
  rewrite (sent_eq H). unfold frame_of at 2, stamp_of. cbn [m_header h_frame h_stamp]. rewrite H1, H3.
  assert (Q : exists m', lookupTransform s (frame_of x) target (stamp_of x) = Ok m').
  { destruct (string_dec target (frame_of x)) as [->|N].
    - unfold lookupTransform. rewrite String.eqb_refl. eauto.
    - pose proof (lookup_ok_inv _ _ _ _ _ (reachable_wf _ R) N L) as I.
      assert (PK : plain target /\ plain (frame_of x) /\ known s target /\ known s (frame_of x)) by tauto.
      destruct PK as (P1 & P2 & K1 & K2).
      assert (X : exists c, common_ancestor s (stamp_of x) (frame_of x) target c).
      { apply (lookup_succeeds_iff s target (frame_of x) (stamp_of x)); try assumption. eauto. }
      apply (lookup_succeeds_iff s (frame_of x) target (stamp_of x)); try assumption; [congruence|].
      destruct X as (c & (ds & X1) & (dt & X2)). exists c. split; eauto. }
  destruct Q as (m' & Q). rewrite Q. cbn [map_res]. eauto.
Qed.
Print Assumptions C61_way_back.

(** Going through an intermediate frame makes no difference. *)
Theorem C61_two_hops :
  forall s : core RS, reachable s -> unit_samples s ->
  two_hops s PointStamped (fun _ => True) eq /\ two_hops s Vector3Stamped (fun _ => True) eq /\
  two_hops s QuaternionStamped (fun _ => True) eq /\ two_hops s WrenchStamped (fun _ => True) eq /\
  two_hops s PoseStamped (fun p => is_unit (orientation p)) same_pose /\
  forall junk, two_hops s (PoseWithCovarianceStamped junk) (fun p => is_unit (orientation (pc_pose p))) same_posecov.
Proof.
  intros s R U. split; [exact (hops (PointStamped_applies RS) point_kind s R U)|].
  split; [exact (hops (Vector3Stamped_applies RS) vector_kind s R U)|].
  split; [exact (hops (QuaternionStamped_applies RS) quaternion_kind s R U)|].
  split; [exact (hops (WrenchStamped_applies RS) wrench_kind s R U)|].
  split; [exact (hops (PoseStamped_applies RS) pose_kind s R U)|].
  intros junk. exact (hops (PoseCovStamped_applies RS junk) (posecov_kind junk) s R U).
Qed.
Print Assumptions C61_two_hops.

(** The forms with a fixed frame. *)
Theorem C61_through_a_fixed_frame :
  forall s : core RS, reachable s -> unit_samples s ->
  through_fixed s PointStamped (fun _ => True) eq /\ through_fixed s Vector3Stamped (fun _ => True) eq /\
  through_fixed s QuaternionStamped (fun _ => True) same_turn /\ through_fixed s WrenchStamped (fun _ => True) eq /\
  through_fixed s PoseStamped (fun p => is_unit (orientation p)) same_pose /\
  forall junk, through_fixed s (PoseWithCovarianceStamped junk) (fun p => is_unit (orientation (pc_pose p))) same_posecov.
Proof.
  intros s R U. split; [exact (through (PointStamped_applies RS) point_kind s R U)|].
  split; [exact (through (Vector3Stamped_applies RS) vector_kind s R U)|].
  split; [exact (through (QuaternionStamped_applies RS) quaternion_kind s R U)|].
  split; [exact (through (WrenchStamped_applies RS) wrench_kind s R U)|].
  split; [exact (through (PoseStamped_applies RS) pose_kind s R U)|].
  intros junk. exact (through (PoseCovStamped_applies RS junk) (posecov_kind junk) s R U).
Qed.
Print Assumptions C61_through_a_fixed_frame.

(** A point seen by the lidar at time 15 and its way to the beacon, back, and by way of the base. *)
Definition seen : mstamped (gxyz RS) := mkMstamped (mkHeader 3 15 "lidar"%string) (@mkXyz RS 1 2 3)%R.
Lemma rbot_sent : forall (x : mstamped (gxyz RS)) target, stamp_of x = 15 -> In (frame_of x) ["map"; "base"; "lidar"; "beacon"]%string ->
  In target ["map"; "base"; "lidar"; "beacon"]%string -> exists y, sent rbot PointStamped x target = Ok y.
Proof.
  intros x target E H1 H2. rewrite (sent_eq (PointStamped_applies RS)), E.
  destruct (rbot_lookup target (frame_of x)) as [m L]; try assumption. rewrite L. cbn [map_res]. eauto.
Qed.
Example C61_case :
  reachable rbot /\ unit_samples rbot /\ early rbot /\ (forall t n, depth_ok rbot t n) /\
  exists y z w, sent rbot PointStamped seen "beacon" = Ok y /\ sent rbot PointStamped y "lidar" = Ok z /\
    sent rbot PointStamped seen "base" = Ok w /\ m_data z = @mkXyz RS 1%R 2%R 3%R.
Proof.
  split; [exact rbot_reachable|]. split; [exact rbot_unit|]. split; [exact rbot_early|]. split; [exact rbot_depth|].
  destruct (rbot_sent seen "beacon") as [y Y]; [reflexivity|cbn; tauto|cbn; tauto|].
  destruct (C61_frame_and_stamp RS rbot rbot_reachable) as (F & _). destruct (F _ _ _ Y) as (F1 & F2 & _). specialize (F2 ltac:(discriminate)).
  destruct (rbot_sent y "lidar") as [z Z]; [rewrite F2; reflexivity|rewrite F1; cbn; tauto|cbn; tauto|].
  destruct (rbot_sent seen "base") as [w W]; [reflexivity|cbn; tauto|cbn; tauto|].
  exists y, z, w. split; [exact Y|]. split; [exact Z|]. split; [exact W|].
  destruct (C61_round_trip rbot rbot_reachable rbot_unit) as (P & _).
  destruct (P seen y z "beacon"%string I) as (Q & _); [discriminate|apply rbot_depth|apply rbot_depth|exact Y|exact Z|]. exact Q.
Qed.

(** ** convert between types of two libraries *)
Theorem C61_convert_between_libraries :
  (forall (S : Scalar) (v : tf2stamped (vec3 S)) (m : mem (tf2stamped (vec3 S))) o,
     convert_both kdl_toMsg_PointStamped eigen_fromMsg_PointStamped _ (const_ref v) (at_loc o) m o = v /\
     convert_both eigen_toMsg_VectorStamped kdl_fromMsg_PointStamped _ (const_ref v) (at_loc o) m o = v) /\
  (forall (k : tf2stamped (xform RS)) (m : mem (tf2stamped (xform RS))) o, rigid_frame (k_data k) ->
     convert_both kdl_toMsg_PoseStamped eigen_fromMsg_PoseStamped _ (const_ref k) (at_loc o) m o = k /\
     convert_both eigen_toMsg_PoseStamped kdl_fromMsg_PoseStamped _ (const_ref k) (at_loc o) m o = k).
Proof.
  split.
  - intros S [[a b c] t fr] m o. unfold convert_both. cbn [wr at_loc rd const_ref]. rewrite Nat.eqb_refl. split; reflexivity.
  - intros [k t fr] m o R. apply rigid_frame_iff in R. unfold convert_both. cbn [wr at_loc rd const_ref k_data] in *. rewrite Nat.eqb_refl.
    destruct (kdl_toMsg_x k R) as [K1 K2]. destruct (eigen_toMsg_x k R) as (E1 & E2 & _).
    unfold eigen_fromMsg_PoseStamped, kdl_fromMsg_PoseStamped, kdl_toMsg_PoseStamped, eigen_toMsg_PoseStamped. cbn [k_data k_stamp k_frame m_data m_header h_stamp h_frame].
    split; f_equal; [rewrite eig_pose_x by exact K2; exact K1|rewrite kdl_pose_x by exact E2; exact E1].
Qed.
Print Assumptions C61_convert_between_libraries.

(** convert(a, a) leaves a alone, and convert to another object of the same type copies. *)
Theorem C61_convert_same_type :
  forall (A : Type) (m : mem A) i o,
  let m' := convert_same (Nat.eqb i o) _ (at_loc i) (at_loc o) m in
  m' o = m i /\ forall j, j <> o -> m' j = m j.
Proof.
  intros A m i o. cbv zeta. unfold convert_same. destruct (Nat.eqb_spec i o) as [->|N]; [auto|]. cbn [wr at_loc rd].
  split; [rewrite Nat.eqb_refl; reflexivity|]. intros j Hj. apply Nat.eqb_neq in Hj. rewrite Hj. reflexivity.
Qed.
Print Assumptions C61_convert_same_type.
