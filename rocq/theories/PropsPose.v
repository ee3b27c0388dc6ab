(** * Property C85: how accurate transformed poses and composed transforms are in binary64 *)
From Coq Require Import ZArith Bool Reals Floats.SpecFloat List String Lia Lra.
From Verif Require Import RosTime Scalar LinearMath Cache BufferCore SpecCore SpecReal Instances GeomMsgs BufferInterface SpecGeom GeomProofs
  SpecRound FloatErr RoundNorm RoundOps RealSlerp RealQuat RoundApply RoundPoint RoundPose RoundCarry RoundThrough ExampleBuffers ExampleRound SpecApply SpecPose PropsApply.
Import ListNotations.
Open Scope R_scope.

(** ** C85 *)
(** doTransform of a pose.  The orientation goes through two rotation matrices, their product and
    the recovery of a quaternion from it (with its four branches); it ends within 251 roundings of
    the unit quaternion of the exact product, up to sign.  The position is as accurate as a point
    (C83).  [i] and [o] may be the same object. *)
Theorem C85_pose_accuracy :
  forall lm (T : gtstamped (F64 lm)) (m : mem (gpose (F64 lm))) i o,
  rot_finite T -> 1 / 2 <= qnorm (rot_val T) <= 2 -> xyz_finite (shift_of T) -> vnorm (xyz_val (shift_of T)) <= IZR (2 ^ 1000) ->
  pose_finite (m i) -> 1 / 2 <= qnorm (pose_rot (m i)) <= 2 -> vnorm (pose_pos (m i)) <= IZR (2 ^ 1000) ->
  let out := doTransform_Pose (const_ref T) (at_loc i) (at_loc o) m o in
  pose_finite out /\
  turns_like (orientation out) (qmul (rot_val T) (pose_rot (m i))) (251 * uro) /\
  vdist (pose_pos out) (rplus (turned (rot_val T) (pose_pos (m i))) (xyz_val (shift_of T)))
    <= 56 * uro * vnorm (pose_pos (m i)) + 2 * uro * vnorm (xyz_val (shift_of T)) + 16 * eta.
Proof.
  intros lm T m i o Fq Hq Ft Ht Fp Ho Hp. cbv zeta. rewrite (proj1 (pose_mem T m i o)), <- pose_by_eq. pose proof big_1000 as B.
  exact (pose_one T (m i) Fq Hq Ft Fp Ho (Rle_trans _ _ _ Hp B) (Rle_trans _ _ _ Ht B)).
Qed.
Print Assumptions C85_pose_accuracy.

(** doTransform of a TransformStamped, at any aliasing of the three objects. *)
Theorem C85_transform_accuracy :
  forall lm (m : mem (gtstamped (F64 lm))) k i o,
  rot_finite (m k) -> 1 / 2 <= qnorm (rot_val (m k)) <= 2 -> xyz_finite (shift_of (m k)) -> vnorm (xyz_val (shift_of (m k))) <= IZR (2 ^ 1000) ->
  rot_finite (m i) -> 1 / 2 <= qnorm (rot_val (m i)) <= 2 -> xyz_finite (shift_of (m i)) -> vnorm (xyz_val (shift_of (m i))) <= IZR (2 ^ 1000) ->
  let out := doTransform_TransformStamped (at_loc k) (at_loc i) (at_loc o) m o in
  turns_like (g_rotation (t_transform out)) (qmul (rot_val (m k)) (rot_val (m i))) (251 * uro) /\
  xyz_finite (shift_of out) /\
  vdist (xyz_val (shift_of out)) (rplus (turned (rot_val (m k)) (xyz_val (shift_of (m i)))) (xyz_val (shift_of (m k))))
    <= 56 * uro * vnorm (xyz_val (shift_of (m i))) + 2 * uro * vnorm (xyz_val (shift_of (m k))) + 16 * eta.
Proof.
  intros lm m k i o Fk Hk Fsk Bk Fi Hi Fsi Bi. cbv zeta. rewrite (proj1 (transform_mem3 m k i o)). pose proof big_1000 as B.
  destruct (pose_one (m k) (mkPose (shift_of (m i)) (g_rotation (t_transform (m i)))) Fk Hk Fsk (conj Fi Fsi) Hi (Rle_trans _ _ _ Bi B) (Rle_trans _ _ _ Bk B)) as (F & A & D).
  rewrite pose_by_eq in F, A, D. split; [exact A|]. split; [exact (proj2 F)|exact D].
Qed.
Print Assumptions C85_transform_accuracy.

(** From a Transform message to a tf2 transform and back: the translation is the same numbers, the
    quaternion comes back as the unit quaternion of the same rotation, up to sign, within 106
    roundings; a normalized quaternion comes back (up to sign) within 106 roundings of itself plus
    its own distance from unit length. *)
Theorem C85_message_round_trip :
  forall lm (g : gtransform (F64 lm)),
  let q := fromMsg_Quaternion (g_rotation g) in
  qfinite q -> 1 / 2 <= qnorm (qval q) <= 2 ->
  let out := toMsg_Transform (fromMsg_Transform g) in
  translation out = translation g /\ turns_like (g_rotation out) (qval q) (106 * uro) /\
  exists r, same_rotation r (qval q) /\ qdist (qval (fromMsg_Quaternion (g_rotation out))) r <= 106 * uro + Rabs (qnorm (qval q) - 1).
Proof.
  intros lm [[a b c] [x y z w]]. cbv zeta. cbn [g_rotation]. set (q := fromMsg_Quaternion (mkGquat x y z w)). intros Fq Hq. split; [reflexivity|].
  destruct (matrix_and_back_err q Fq Hq) as (F & r & Sr & D). unfold toMsg_Transform, fromMsg_Transform, xgetRotation. cbn [g_rotation xbasis]. fold q. set (o := mgetRotation (mfromQuat q)) in *.
  assert (Eo : fromMsg_Quaternion (toMsg_Quaternion o) = o) by (destruct o; reflexivity). unfold turns_like. rewrite Eo.
  rewrite <- unit_is in Sr by lra. split; [split; [exact F|exists r; split; [exact Sr|exact D]]|].
  assert (U : qdist (unit_of (qval q)) (qval q) <= Rabs (qnorm (qval q) - 1)).
  { rewrite unit_is by lra. rewrite RoundPoint.qnormalized_is by lra. set (n := qnorm (qval q)) in *.
    assert (E : qdist (qscale (qval q) (/ n : RS)) (qval q) = Rabs (/ n - 1) * n).
    { transitivity (qdist (qscale (qval q) (/ n : RS)) (qscale (qval q) (1 : RS))); [f_equal; destruct (qval q) as [q1 q2 q3 q4]; unfold qscale; cbn [qx qy qz qw]; runf; f_equal; cbn [RS scar]; ring|].
      rewrite qdist_scale1. reflexivity. }
    rewrite E. rewrite <- (Rabs_pos_eq n) at 2 by lra. rewrite <- Rabs_mult. replace ((/ n - 1) * n) with (- (n - 1)) by (field; lra). rewrite Rabs_Ropp. lra. }
  destruct Sr as [-> | ->].
  - exists (qval q). split; [left; reflexivity|]. eapply Rle_trans; [apply (qdist_triangle _ (unit_of (qval q)))|]. lra.
  - exists (qneg (qval q)). split; [right; reflexivity|]. eapply Rle_trans; [apply (qdist_triangle _ (qneg (unit_of (qval q))))|]. rewrite qdist_neg. lra.
Qed.
Print Assumptions C85_message_round_trip.

(** A pose carried through [N] transforms one after the other, up to a million of them: the
    orientation drifts by at most 252 roundings per transform and stays within 251 roundings of unit
    length however many there are, the position by at most 31 N (N + 1) roundings of the largest
    translation. *)
Theorem C85_pose_carried :
  forall lm (L : R) (Ts : list (gtstamped (F64 lm))) (p : gpose (F64 lm)),
  Ts <> [] -> INR (List.length Ts) <= 1048576 -> / IZR (2 ^ 900) <= L <= IZR (2 ^ 979) -> Forall (fair L) Ts ->
  pose_finite p -> 1 / 2 <= qnorm (pose_rot p) <= 2 -> vnorm (pose_pos p) <= L ->
  let N := INR (List.length Ts) in
  let out := fold_left (fun p T => pose_by T p) Ts p in
  pose_finite out /\
  turns_like (orientation out) (rot_after Ts (pose_rot p)) (252 * N * uro) /\
  Rabs (qnorm (pose_rot out) - 1) <= 251 * uro /\
  vdist (pose_pos out) (pos_after Ts (pose_pos p)) <= 31 * (N * (N + 1)) * uro * L.
Proof. exact (fun lm => @carried lm). Qed.
Print Assumptions C85_pose_carried.

(** A pose through a looked-up transform, against the exact composition [e] of the stored links. *)
Theorem C85_pose_through_lookup :
  forall lm (s : core (F64 lm)) tgt src t msg (L : R) (m : mem (gpose (F64 lm))) i o,
  reachable s -> lookupTransform s tgt src t = Ok msg ->
  (forall ds c, climbs s (tm_stamp msg) src ds c \/ climbs s (tm_stamp msg) tgt ds c -> Forall (link_near L) ds) ->
  / IZR (2 ^ 900) <= L <= IZR (2 ^ 979) -> pose_finite (m i) -> 1 / 2 <= qnorm (pose_rot (m i)) <= 2 -> vnorm (pose_pos (m i)) <= IZR (2 ^ 1000) ->
  exists ds dt c, climbs s (tm_stamp msg) src ds c /\ climbs s (tm_stamp msg) tgt dt c /\
    let M := INR (S (List.length ds + List.length dt)) in
    let e := pose_mul (pose_inv (climb_pose (map exact_link dt))) (climb_pose (map exact_link ds)) in
    let out := doTransform_Pose (const_ref (to_message msg)) (at_loc i) (at_loc o) m o in
    pose_finite out /\
    turns_like (orientation out) (qmul (fst e) (pose_rot (m i))) ((43 * M + 251) * uro) /\
    vdist (pose_pos out) (rplus (turned (fst e) (pose_pos (m i))) (snd e)) <= 142 * M * uro * vnorm (pose_pos (m i)) + 132 * (M * M) * uro * L.
Proof.
  intros lm s tgt src t msg L m i o R H F HL Fp Ho Hp. rewrite (proj1 (pose_mem (to_message msg) m i o)), <- pose_by_eq.
  exact (pose_lookup s tgt src t msg L (m i) R H F HL Fp Ho Hp).
Qed.
Print Assumptions C85_pose_through_lookup.

(** A lookup through a fixed frame, against the exact composition of the links used at the two
    times: source to fixed frame at the one, fixed frame to target at the other. *)
Theorem C85_fixed_frame_accuracy :
  forall lm (s : core (F64 lm)) tgt ttgt src tsrc fix_ msg (L : R),
  reachable s -> lookupTransformFixed s tgt ttgt src tsrc fix_ = Ok msg ->
  (forall m1, lookupTransform s fix_ src tsrc = Ok m1 -> forall ds c, climbs s (tm_stamp m1) src ds c \/ climbs s (tm_stamp m1) fix_ ds c -> Forall (link_near L) ds) ->
  (forall m2, lookupTransform s tgt fix_ ttgt = Ok m2 -> forall ds c, climbs s (tm_stamp m2) fix_ ds c \/ climbs s (tm_stamp m2) tgt ds c -> Forall (link_near L) ds) ->
  / IZR (2 ^ 900) <= L <= IZR (2 ^ 979) ->
  exists m1 m2, lookupTransform s fix_ src tsrc = Ok m1 /\ lookupTransform s tgt fix_ ttgt = Ok m2 /\ tm_stamp msg = tm_stamp m2 /\
  exists ds df dg dt c d, climbs s (tm_stamp m1) src ds c /\ climbs s (tm_stamp m1) fix_ df c /\
    climbs s (tm_stamp m2) fix_ dg d /\ climbs s (tm_stamp m2) tgt dt d /\
    let M := INR (S (List.length ds + List.length df)) + INR (S (List.length dg + List.length dt)) in
    let e1 := pose_mul (pose_inv (climb_pose (map exact_link df))) (climb_pose (map exact_link ds)) in
    let e2 := pose_mul (pose_inv (climb_pose (map exact_link dt))) (climb_pose (map exact_link dg)) in
    turns_like (toMsg_Quaternion (tm_rot msg)) (qmul (fst e2) (fst e1)) ((43 * M + 251) * uro) /\
    vfinite (tm_trans msg) /\ vdist (vval (tm_trans msg)) (rplus (turned (fst e2) (snd e1)) (snd e2)) <= 132 * (M * M) * uro * L.
Proof.
  intros lm s tgt ttgt src tsrc fix_ msg L R H F1 F2 HL.
  assert (E : exists m1 m2, lookupTransform s fix_ src tsrc = Ok m1 /\ lookupTransform s tgt fix_ ttgt = Ok m2 /\ tm_stamp msg = tm_stamp m2).
  { unfold lookupTransformFixed in H. destruct (validateFrameId s _ tgt); cbn [bind] in H; try discriminate H. destruct (validateFrameId s _ src); cbn [bind] in H; try discriminate H.
    destruct (validateFrameId s _ fix_); cbn [bind] in H; try discriminate H. destruct (lookupTransform s fix_ src tsrc) as [m1| |] eqn:H1; cbn [bind] in H; try discriminate H.
    destruct (lookupTransform s tgt fix_ ttgt) as [m2| |] eqn:H2; cbn [bind] in H; try discriminate H. injection H as <-. exists m1, m2. repeat split. }
  destruct E as (m1 & m2 & H1 & H2 & St). exists m1, m2. split; [exact H1|]. split; [exact H2|]. split; [exact St|].
  exact (fixed_lookup s tgt ttgt src tsrc fix_ msg m1 m2 L R H H1 H2 (F1 m1 H1) (F2 m2 H2) HL).
Qed.
Print Assumptions C85_fixed_frame_accuracy.

(** *** Concrete cases *)
(** The quaternion (0, 0, 1, 1) with translation (1, 2, 3) of C83 and a pose at (3, -4, 0) with
    orientation (1, 0, 0, 1). *)
Local Opaque robot f64_of_Z.
Definition a_pose : gpose D64 := mkPose a_point (@mkGquat D64 (f64_of_Z 1) (f64_of_Z 0) (f64_of_Z 0) (f64_of_Z 1)).
Lemma sqrt_2_between : 1 / 2 <= sqrt 2 <= 2.
Proof.
  split.
  - apply Rle_trans with 1; [lra|]. rewrite <- sqrt_1 at 1. apply sqrt_le_1; lra.
  - replace 2 with (sqrt (2 * 2)) at 2 by (apply sqrt_square; lra). apply sqrt_le_1; lra.
Qed.
Lemma a_pose_ok : pose_finite a_pose /\ 1 / 2 <= qnorm (pose_rot a_pose) <= 2 /\ vnorm (pose_pos a_pose) <= 10.
Proof.
  destruct C83_example as (_ & _ & _ & _ & Fp & _). destruct (small_ints 0) as (F0 & V0); [cbn; auto 9|]. destruct (small_ints 1) as (F1 & V1); [cbn; auto 9|].
  destruct (small_ints 3) as (F3 & V3); [cbn; auto 9|]. destruct (small_ints 4) as (F4 & V4); [cbn; auto 9|]. apply finiteb_ok in F0, F1, F3, F4. destruct (fopp_ok _ F4) as (F4' & V4').
  split; [split; [split; [exact F1|split; [exact F0|split; [exact F0|exact F1]]]|exact Fp]|]. split.
  - unfold qnorm, pose_rot, a_pose, qval, fromMsg_Quaternion. cbn [qx qy qz qw orientation gqx gqy gqz gqw]. rewrite V0, V1.
    replace (1 * 1 + 0 * 0 + 0 * 0 + 1 * 1) with 2 by ring. exact sqrt_2_between.
  - unfold vnorm, pose_pos, xyz_val, a_pose, a_point. cbn [vx vy vz gx gy gz position]. rewrite V3, V4', V4, V0. replace (3 * 3 + - (4) * - (4) + 0 * 0) with (5 * 5) by ring. rewrite sqrt_square by lra. lra.
Qed.
Lemma a_turn_fair : fair 10 a_turn.
Proof.
  destruct C83_example_turn as (A & B & C & _). split; [exact A|]. split; [exact B|]. split; [exact C|].
  destruct (small_ints 1) as (F1 & V1); [cbn; auto 9|]. destruct (small_ints 2) as (F2 & V2); [cbn; auto 9|]. destruct (small_ints 3) as (F3 & V3); [cbn; auto 9|].
  unfold vnorm, shift_of, xyz_val, a_turn. cbn [vx vy vz gx gy gz translation t_transform]. rewrite V1, V2, V3.
  apply Rle_trans with 4; [replace 4 with (sqrt (4 * 4)) by (apply sqrt_square; lra); apply sqrt_le_1; lra|lra].
Qed.
(** Met by one transform, and by a thousand in a row. *)
Example C85_example :
  rot_finite a_turn /\ 1 / 2 <= qnorm (rot_val a_turn) <= 2 /\ xyz_finite (shift_of a_turn) /\ vnorm (xyz_val (shift_of a_turn)) <= 10 /\
  pose_finite a_pose /\ 1 / 2 <= qnorm (pose_rot a_pose) <= 2 /\ vnorm (pose_pos a_pose) <= 10 /\ 10 <= IZR (2 ^ 1000) /\
  Forall (fair 10) (repeat a_turn 1000) /\ repeat a_turn 1000 <> [] /\ INR (List.length (repeat a_turn 1000)) <= 1048576 /\ / IZR (2 ^ 900) <= 10 <= IZR (2 ^ 979).
Proof.
  destruct a_turn_fair as (A & B & C & D). destruct a_pose_ok as (P1 & P2 & P3). do 4 (split; [assumption|]). do 3 (split; [assumption|]).
  split; [apply IZR_le; intros X; discriminate X|]. split; [apply Forall_forall; intros x Hx; apply repeat_spec in Hx; subst x; exact a_turn_fair|].
  split; [intros X; apply (f_equal (@List.length _)) in X; rewrite repeat_length in X; discriminate X|]. split; [rewrite repeat_length, INR_IZR_INZ; apply IZR_le; intros X; discriminate X|].
  split; [apply Rle_trans with (/ 1); [apply Rinv_le_contravar; [lra|apply IZR_le; intros X; discriminate X]|lra]|apply IZR_le; intros X; discriminate X].
Qed.
(** The lookup theorems are met by the robot: base and beacon at time 15 (C83), and the base at time
    18 seen from the base at time 12, through the map. *)
Local Transparent robot f64_of_Z.
Lemma robot_12_base : show_link (link robot 12%Z "base") = Some (ints [0;0;0;1; 1;0;0]%Z, "odom"%string). Proof. vmr. Qed.
Lemma robot_12_odom : show_link (link robot 12%Z "odom") = Some (ints [0;0;0;1; 2;0;0]%Z, "map"%string). Proof. vmr. Qed.
Lemma robot_12_map : show_link (link robot 12%Z "map") = Some (ints [0;0;1;0; 0;5;0]%Z, "world"%string). Proof. vmr. Qed.
Lemma robot_12_world : show_link (link robot 12%Z "world") = None. Proof. vmr. Qed.
Lemma robot_18_base : show_link (link robot 18%Z "base") = Some (ints [0;0;0;1; 3;0;0]%Z, "odom"%string). Proof. vmr. Qed.
Lemma robot_18_odom : show_link (link robot 18%Z "odom") = Some (ints [0;0;0;1; 8;0;0]%Z, "map"%string). Proof. vmr. Qed.
Lemma robot_18_map : show_link (link robot 18%Z "map") = Some (ints [0;0;1;0; 0;5;0]%Z, "world"%string). Proof. vmr. Qed.
Lemma robot_18_world : show_link (link robot 18%Z "world") = None. Proof. vmr. Qed.
Local Opaque robot f64_of_Z.
Lemma robot_near : forall t,
  (exists b, (b <= 10)%Z /\ In b [0; 1; 2; 3; 4; 5; 6; 7; 8; 9; 10]%Z /\ show_link (link robot t "base") = Some (ints [0;0;0;1; b;0;0]%Z, "odom"%string)) ->
  (exists b, (b <= 10)%Z /\ In b [0; 1; 2; 3; 4; 5; 6; 7; 8; 9; 10]%Z /\ show_link (link robot t "odom") = Some (ints [0;0;0;1; b;0;0]%Z, "map"%string)) ->
  show_link (link robot t "map") = Some (ints [0;0;1;0; 0;5;0]%Z, "world"%string) -> show_link (link robot t "world") = None ->
  forall n, In n ["base"; "map"]%string -> forall ds c, climbs robot t n ds c -> Forall (link_near 10) ds.
Proof.
  intros t (b1 & B1 & I1 & Hb) (b2 & B2 & I2 & Ho) Hm Hw n Hn ds c C.
  apply (Forall_climb robot t ["base"; "odom"; "map"; "world"]%string (link_near 10)) with (n := n) (c := c); [|exact C|destruct Hn as [<-|[<-|[]]]; cbn; auto 9].
  clear n Hn ds c C. intros n d Hn L.
  assert (K : 0 <= 1 + / IZR (2 ^ 20)) by (change (2 ^ 20)%Z with 1048576%Z; lra).
  assert (K1 : 1 <= (1 + / IZR (2 ^ 20)) * (1 + / IZR (2 ^ 20))) by (change (2 ^ 20)%Z with 1048576%Z; lra).
  assert (Sm : forall x y z w a b c f, show_link (Some d) = Some (ints [x; y; z; w; a; b; c]%Z, f) ->
    (forall n, In n [x; y; z; w; a; b; c]%Z -> In n [0; 1; 2; 3; 4; 5; 6; 7; 8; 9; 10]%Z) -> (x * x + y * y + z * z + w * w = 1)%Z -> (a * a + b * b + c * c <= 100)%Z ->
    In f ["base"; "odom"; "map"; "world"]%string -> link_near 10 d /\ In (st_frame d) ["base"; "odom"; "map"; "world"]%string).
  { intros x y z w a b c f E J1 J2 J3 J4. split.
    - apply (near_of_ok d x y z w a b c f); [|exact E|intros m Hm'; apply J1; clear - Hm'; cbn [In] in *; intuition|exact J2].
      apply (link_ok_ints d x y z w a b c f); [exact E|intros m Hm'; apply small_ints, J1, Hm'|rewrite J2; exact K1| |exact K|lra].
      apply IZR_le in J3. lra.
    - unfold show_link in E. injection E as _ _ _ _ _ _ _ Ef. rewrite Ef. exact J4. }
  cbn [In] in Hn. destruct Hn as [<-|[<-|[<-|[<-|[]]]]].
  - pose proof (show_link_inv _ _ _ _ _ L Hb) as R1. clear L. eapply Sm; [exact R1| |reflexivity| |cbn; auto 9].
    + intros m Hm'. clear - Hm' I1. cbn [In] in Hm'. repeat (destruct Hm' as [<-|Hm']); try contradiction; try exact I1; cbn; auto 20.
    + clear - I1. cbn [In] in I1. lia.
  - pose proof (show_link_inv _ _ _ _ _ L Ho) as R1. clear L. eapply Sm; [exact R1| |reflexivity| |cbn; auto 9].
    + intros m Hm'. clear - Hm' I2. cbn [In] in Hm'. repeat (destruct Hm' as [<-|Hm']); try contradiction; try exact I2; cbn; auto 20.
    + clear - I2. cbn [In] in I2. lia.
  - pose proof (show_link_inv _ _ _ _ _ L Hm) as R1. clear L. eapply Sm; [exact R1| |reflexivity|lia|cbn; auto 9].
    intros m Hm'. clear - Hm'. cbn [In] in Hm'. repeat (destruct Hm' as [<-|Hm']); try contradiction; cbn; auto 20.
  - pose proof (show_link_inv _ _ _ _ _ L Hw) as R4. clear L. discriminate R4.
Qed.
Lemma robot_near_12 : forall n, In n ["base"; "map"]%string -> forall ds c, climbs robot 12%Z n ds c -> Forall (link_near 10) ds.
Proof.
  apply robot_near; [exists 1%Z; split; [lia|split; [cbn; auto 9|exact robot_12_base]]|exists 2%Z; split; [lia|split; [cbn; auto 9|exact robot_12_odom]]|exact robot_12_map|exact robot_12_world].
Qed.
Lemma robot_near_18 : forall n, In n ["base"; "map"]%string -> forall ds c, climbs robot 18%Z n ds c -> Forall (link_near 10) ds.
Proof.
  apply robot_near; [exists 3%Z; split; [lia|split; [cbn; auto 9|exact robot_18_base]]|exists 8%Z; split; [lia|split; [cbn; auto 12|exact robot_18_odom]]|exact robot_18_map|exact robot_18_world].
Qed.
Local Transparent robot f64_of_Z.
Lemma robot_stamps :
  (match lookupTransform robot "map"%string "base"%string 18%Z with Ok m => tm_stamp m | _ => 0%Z end) = 18%Z /\
  (match lookupTransform robot "base"%string "map"%string 12%Z with Ok m => tm_stamp m | _ => 0%Z end) = 12%Z.
Proof. split; vmr. Qed.
Local Opaque robot f64_of_Z.
Example C85_example_fixed :
  reachable robot /\ (exists m, lookupTransformFixed robot "base"%string 12%Z "base"%string 18%Z "map"%string = Ok m) /\
  (forall m1, lookupTransform robot "map"%string "base"%string 18%Z = Ok m1 -> forall ds c, climbs robot (tm_stamp m1) "base"%string ds c \/ climbs robot (tm_stamp m1) "map"%string ds c -> Forall (link_near 10) ds) /\
  (forall m2, lookupTransform robot "base"%string "map"%string 12%Z = Ok m2 -> forall ds c, climbs robot (tm_stamp m2) "map"%string ds c \/ climbs robot (tm_stamp m2) "base"%string ds c -> Forall (link_near 10) ds) /\
  / IZR (2 ^ 900) <= 10 <= IZR (2 ^ 979).
Proof.
  split; [exact robot_reachable|]. split; [apply ok_by; vmr|]. destruct robot_stamps as (S1 & S2). split; [|split].
  - intros m1 H ds c C. rewrite H in S1. rewrite S1 in C. destruct C as [C|C]; eapply robot_near_18; try exact C; cbn; auto.
  - intros m2 H ds c C. rewrite H in S2. rewrite S2 in C. destruct C as [C|C]; eapply robot_near_12; try exact C; cbn; auto.
  - exact (proj2 (proj2 (proj2 robot_rounding))).
Qed.
