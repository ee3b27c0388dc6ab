(** * Properties C83: how accurate transformed points and vectors are in binary64 *)
From Coq Require Import ZArith Bool Reals Floats.SpecFloat List String Lia Lra.
From Verif Require Import RosTime Scalar LinearMath Cache BufferCore SpecCore SpecReal Instances GeomMsgs BufferInterface SpecGeom GeomProofs
  SpecRound FloatErr RoundNorm RoundOps RoundApply RoundPoint ExampleBuffers ExampleRound SpecApply.
Import ListNotations.
Open Scope R_scope.

(** ** C83 *)
Lemma big_1000 : IZR (2 ^ 1000) <= big / 8.
Proof. unfold big. apply (Rmult_le_reg_l 8); [lra|]. replace (8 * (IZR (2 ^ 1023) / 8)) with (IZR (2 ^ 1023)) by field. rewrite <- !mult_IZR. apply IZR_le. intros C; discriminate C. Qed.
(** doTransform of a point: the result differs from the exact rotation (by the quaternion in the
    message, whatever its length) and translation by no more than 56 roundings of the point and 2 of
    the translation; [eta] is 2^-1075.  [i] and [o] may be the same object. *)
Theorem C83_point_accuracy :
  forall lm (T : gtstamped (F64 lm)) (m : mem (gxyz (F64 lm))) i o,
  rot_finite T -> 1 / 2 <= qnorm (rot_val T) <= 2 -> xyz_finite (shift_of T) -> xyz_finite (m i) ->
  vnorm (xyz_val (m i)) <= IZR (2 ^ 1000) -> vnorm (xyz_val (shift_of T)) <= IZR (2 ^ 1000) ->
  let out := doTransform_Point (const_ref T) (at_loc i) (at_loc o) m o in
  xyz_finite out /\
  vdist (xyz_val out) (rplus (turned (rot_val T) (xyz_val (m i))) (xyz_val (shift_of T)))
    <= 56 * uro * vnorm (xyz_val (m i)) + 2 * uro * vnorm (xyz_val (shift_of T)) + 16 * eta.
Proof.
  intros lm T m i o Fq Hq Ft Fp Hp Ht. cbv zeta. rewrite (proj1 (point_mem T m i o)). pose proof big_1000 as B.
  exact (apply_err (fromMsg_Quaternion (g_rotation (t_transform T))) (fromMsg_xyz (shift_of T)) (fromMsg_xyz (m i)) Fq Ft Fp Hq (Rle_trans _ _ _ Hp B) (Rle_trans _ _ _ Ht B)).
Qed.
Print Assumptions C83_point_accuracy.

(** doTransform of a vector: only the rotation. *)
Theorem C83_vector_accuracy :
  forall lm (T : gtstamped (F64 lm)) (m : mem (gxyz (F64 lm))) i o,
  rot_finite T -> 1 / 2 <= qnorm (rot_val T) <= 2 -> xyz_finite (m i) -> vnorm (xyz_val (m i)) <= IZR (2 ^ 1000) ->
  let out := doTransform_Vector3 (const_ref T) (at_loc i) (at_loc o) m o in
  xyz_finite out /\ vdist (xyz_val out) (turned (rot_val T) (xyz_val (m i))) <= 54 * uro * vnorm (xyz_val (m i)) + 12 * eta.
Proof.
  intros lm T m i o Fq Hq Fp Hp. cbv zeta. rewrite (proj1 (vector_mem T m i o)). pose proof big_1000 as B. pose proof big_big as BB.
  apply (mulv_err (fromMsg_Quaternion (g_rotation (t_transform T))) (fromMsg_xyz (m i)) Fq Fp Hq). change (vnorm (xyz_val (m i)) <= big / 4). lra.
Qed.
Print Assumptions C83_vector_accuracy.

(** The exact result is a rigid motion: lengths are kept, so in binary64 the length of a vector
    changes by at most 54 roundings. *)
Theorem C83_length_is_kept :
  forall lm (T : gtstamped (F64 lm)) (m : mem (gxyz (F64 lm))) i o,
  rot_finite T -> 1 / 2 <= qnorm (rot_val T) <= 2 -> xyz_finite (m i) -> vnorm (xyz_val (m i)) <= IZR (2 ^ 1000) ->
  let out := doTransform_Vector3 (const_ref T) (at_loc i) (at_loc o) m o in
  Rabs (vnorm (xyz_val out) - vnorm (xyz_val (m i))) <= 54 * uro * vnorm (xyz_val (m i)) + 12 * eta.
Proof.
  intros lm T m i o Fq Hq Fp Hp. cbv zeta. destruct (C83_vector_accuracy lm T m i o Fq Hq Fp Hp) as (_ & D). cbv zeta in D.
  set (out := xyz_val (doTransform_Vector3 (const_ref T) (at_loc i) (at_loc o) m o)) in *. pose proof (vnorm_dist out (turned (rot_val T) (xyz_val (m i)))) as D1.
  pose proof (vnorm_dist (turned (rot_val T) (xyz_val (m i))) out) as D2. rewrite turned_norm in D1, D2 by lra.
  assert (Sy : vdist (turned (rot_val T) (xyz_val (m i))) out = vdist out (turned (rot_val T) (xyz_val (m i)))).
  { generalize (turned (rot_val T) (xyz_val (m i))) out. clear. intros [a b c] [d e f]. unfold vdist, vnorm. cbn [vx vy vz]. cbn [RS scar]. f_equal. ring. }
  rewrite Sy in D2. apply Rabs_le. lra.
Qed.
Print Assumptions C83_length_is_kept.

(** doTransform of a quaternion. *)
Theorem C83_quaternion_accuracy :
  forall lm (T : gtstamped (F64 lm)) (m : mem (gquat (F64 lm))) i o,
  let q := fromMsg_Quaternion (m i) in
  rot_finite T -> qnorm (rot_val T) <= 2 -> qfinite q -> qnorm (qval q) <= IZR (2 ^ 1000) ->
  let out := fromMsg_Quaternion (doTransform_Quaternion (const_ref T) (at_loc i) (at_loc o) m o) in
  qfinite out /\ qdist (qval out) (qmul (rot_val T) (qval q)) <= 33 / 4 * uro * (qnorm (rot_val T) * qnorm (qval q)) + 16 * eta.
Proof.
  intros lm T m i o. cbv zeta. intros Fq Hq Fp Hp. rewrite (proj1 (quaternion_mem T m i o)). pose proof big_1000 as B. pose proof big_big as BB.
  apply (qmul_err (fromMsg_Quaternion (g_rotation (t_transform T))) (fromMsg_Quaternion (m i)) Fq Fp).
  change (qnorm (rot_val T) * qnorm (qval (fromMsg_Quaternion (m i))) <= big / 2). pose proof (qnorm_pos (rot_val T)). pose proof (qnorm_pos (qval (fromMsg_Quaternion (m i)))).
  apply Rle_trans with (2 * IZR (2 ^ 1000)); [apply Rmult_le_compat; lra|]. lra.
Qed.
Print Assumptions C83_quaternion_accuracy.

(** From the stored transforms to the transformed point: looking up a transform over [N] links and
    applying it, against the exact composition [e] of the stored numbers. *)
Theorem C83_point_through_lookup :
  forall lm (s : core (F64 lm)) tgt src t msg (L : R) (m : mem (gxyz (F64 lm))) i o,
  reachable s -> tgt <> src -> lookupTransform s tgt src t = Ok msg ->
  (forall ds c, climbs s (tm_stamp msg) src ds c \/ climbs s (tm_stamp msg) tgt ds c -> Forall (link_near L) ds) ->
  / IZR (2 ^ 900) <= L <= IZR (2 ^ 979) -> xyz_finite (m i) -> vnorm (xyz_val (m i)) <= IZR (2 ^ 1000) ->
  exists ds dt c, climbs s (tm_stamp msg) src ds c /\ climbs s (tm_stamp msg) tgt dt c /\
    let N := (List.length ds + List.length dt)%nat in
    let e := pose_mul (pose_inv (climb_pose (map exact_link dt))) (climb_pose (map exact_link ds)) in
    let out := doTransform_Point (const_ref (to_message msg)) (at_loc i) (at_loc o) m o in
    xyz_finite out /\
    vdist (xyz_val out) (rplus (turned (fst e) (xyz_val (m i))) (snd e))
      <= 142 * INR (S N) * uro * vnorm (xyz_val (m i)) + 132 * (INR (S N) * INR (S N)) * uro * L.
Proof.
  intros lm s tgt src t msg L m i o R Ne H F HL Fp Hp. cbv zeta. rewrite (proj1 (point_mem (to_message msg) m i o)).
  assert (X : fromMsg_Transform (t_transform (to_message msg)) = XF (mfromQuat (tm_rot msg)) (tm_trans msg)).
  { unfold to_message, fromMsg_Transform. cbn [t_transform g_rotation translation]. destruct (tm_rot msg), (tm_trans msg). reflexivity. }
  rewrite X. exact (point_through_lookup s tgt src t msg L (fromMsg_xyz (m i)) R Ne H F HL Fp Hp).
Qed.
Print Assumptions C83_point_through_lookup.

(** Met by the base and the beacon of a robot at time 15, in binary64, and by the point (3, -4, 0). *)
Lemma near_of_ok : forall (d : storage D64 string) x y z w a b c f,
  link_ok (1 + / IZR (2 ^ 20)) 10 d -> show_link (Some d) = Some (ints [x; y; z; w; a; b; c]%Z, f) ->
  (forall n, In n [x; y; z; w]%Z -> In n [0; 1; 2; 3; 4; 5; 6; 7; 8; 9; 10]%Z) -> (x * x + y * y + z * z + w * w = 1)%Z -> link_near 10 d.
Proof.
  intros d x y z w a b c f (F1 & F2 & B1 & B2) E I1 I2. split; [exact F1|]. split; [exact F2|]. split; [|exact B2]. split; [|exact B1].
  unfold show_link in E. unfold D64 in *. injection E as E1 E2 E3 E4 _ _ _ _.
  assert (N : qnorm (qval (st_rot d)) = 1).
  { unfold qnorm, qval. cbn [qx qy qz qw]. rewrite E1, E2, E3, E4. destruct (small_ints x) as (_ & ->); [apply I1; cbn; auto 9|]. destruct (small_ints y) as (_ & ->); [apply I1; cbn; auto 9|].
    destruct (small_ints z) as (_ & ->); [apply I1; cbn; auto 9|]. destruct (small_ints w) as (_ & ->); [apply I1; cbn; auto 9|].
    rewrite <- !mult_IZR, <- !plus_IZR, I2. apply sqrt_1. }
  rewrite N. change (2 ^ 20)%Z with 1048576%Z. lra.
Qed.
Local Opaque robot f64_of_Z.
Definition a_point : gxyz D64 := @mkXyz D64 (f64_of_Z 3) (SFopp (f64_of_Z 4)) (f64_of_Z 0).
Example C83_example :
  reachable robot /\ (exists m, lookupTransform robot "base"%string "beacon"%string 15%Z = Ok m) /\
  (forall n, In n ["base"; "beacon"]%string -> forall ds c, climbs robot 15%Z n ds c -> Forall (link_near 10) ds) /\
  / IZR (2 ^ 900) <= 10 <= IZR (2 ^ 979) /\ xyz_finite a_point /\ vnorm (xyz_val a_point) <= IZR (2 ^ 1000).
Proof.
  destruct robot_rounding as (A & B & C & D). split; [exact A|]. split; [exact B|]. split; [|split; [exact D|]].
  - intros n Hn ds c Cl. pose proof (C n Hn ds c Cl) as Ok0.
    assert (Nm : In n robot_names) by (destruct Hn as [<-|[<-|[]]]; cbn; auto 9). clear Hn C. revert Nm. induction Cl as [n|n d ds c L Cl IH]; intros Nm; [constructor|].
    inversion Ok0 as [|? ? Od Or]; subst. unfold robot_names in Nm. cbn [In] in Nm.
    assert (Sm : forall x y z w a b c f, show_link (Some d) = Some (ints [x; y; z; w; a; b; c]%Z, f) ->
      (forall n, In n [x; y; z; w]%Z -> In n [0; 1; 2; 3; 4; 5; 6; 7; 8; 9; 10]%Z) -> (x * x + y * y + z * z + w * w = 1)%Z -> In f robot_names -> Forall (link_near 10) (d :: ds)).
    { intros x y z w a b c' f E I1 I2 I3. constructor; [eapply near_of_ok; eassumption|]. apply (IH Or). unfold show_link in E. injection E as _ _ _ _ _ _ _ Ef. rewrite Ef. exact I3. }
    destruct Nm as [<-|[<-|[<-|[<-|[<-|[]]]]]].
    + pose proof (show_link_inv _ _ _ _ _ L robot_link_base) as R1. clear L. eapply Sm; [exact R1|intros m Hm; clear - Hm; cbn in *; intuition|reflexivity|cbn; auto 9].
    + pose proof (show_link_inv _ _ _ _ _ L robot_link_odom) as R2. clear L. eapply Sm; [exact R2|intros m Hm; clear - Hm; cbn in *; intuition|reflexivity|cbn; auto 9].
    + pose proof (show_link_inv _ _ _ _ _ L robot_link_map) as R3. clear L. eapply Sm; [exact R3|intros m Hm; clear - Hm; cbn in *; intuition|reflexivity|cbn; auto 9].
    + pose proof (show_link_inv _ _ _ _ _ L robot_link_world) as R4. clear L. discriminate R4.
    + pose proof (show_link_inv _ _ _ _ _ L robot_link_beacon) as R5. clear L. eapply Sm; [exact R5|intros m Hm; clear - Hm; cbn in *; intuition|reflexivity|cbn; auto 9].
  - destruct (small_ints 3) as (F3 & V3); [cbn; auto 9|]. destruct (small_ints 4) as (F4 & V4); [cbn; auto 9|]. destruct (small_ints 0) as (F0 & V0); [cbn; auto 9|].
    apply finiteb_ok in F3, F4, F0. destruct (fopp_ok _ F4) as (F4' & V4'). split; [split; [exact F3|split; [exact F4'|exact F0]]|].
    unfold vnorm, xyz_val, a_point. cbn [vx vy vz gx gy gz]. rewrite V3, V4', V4, V0. replace (3 * 3 + - (4) * - (4) + 0 * 0) with (5 * 5) by ring. rewrite sqrt_square by lra.
    apply IZR_le. intros X; discriminate X.
Qed.
(** And a message whose quaternion is not normalized: (0, 0, 1, 1), translation (1, 2, 3). *)
Definition a_turn : gtstamped D64 :=
  mkTstamped (mkHeader 0%Z 15%Z "base"%string) "beacon"%string
    (mkGtransform (@mkXyz D64 (f64_of_Z 1) (f64_of_Z 2) (f64_of_Z 3)) (@mkGquat D64 (f64_of_Z 0) (f64_of_Z 0) (f64_of_Z 1) (f64_of_Z 1))).
Example C83_example_turn :
  rot_finite a_turn /\ 1 / 2 <= qnorm (rot_val a_turn) <= 2 /\ xyz_finite (shift_of a_turn) /\ vnorm (xyz_val (shift_of a_turn)) <= IZR (2 ^ 1000).
Proof.
  destruct (small_ints 0) as (F0 & V0); [cbn; auto 9|]. destruct (small_ints 1) as (F1 & V1); [cbn; auto 9|].
  destruct (small_ints 2) as (F2 & V2); [cbn; auto 9|]. destruct (small_ints 3) as (F3 & V3); [cbn; auto 9|]. apply finiteb_ok in F0, F1, F2, F3.
  split; [split; [exact F0|split; [exact F0|split; [exact F1|exact F1]]]|]. split; [|split; [split; [exact F1|split; [exact F2|exact F3]]|]].
  - unfold qnorm, rot_val, a_turn. cbn [qx qy qz qw g_rotation t_transform gqx gqy gqz gqw]. rewrite V0, V1.
    replace (0 * 0 + 0 * 0 + 1 * 1 + 1 * 1) with 2 by ring. split.
    + apply Rle_trans with 1; [lra|]. rewrite <- sqrt_1 at 1. apply sqrt_le_1; lra.
    + replace 2 with (sqrt (2 * 2)) at 2 by (apply sqrt_square; lra). apply sqrt_le_1; lra.
  - unfold vnorm, shift_of, xyz_val, a_turn. cbn [vx vy vz gx gy gz translation t_transform]. rewrite V1, V2, V3.
    apply Rle_trans with 4; [replace 4 with (sqrt (4 * 4)) by (apply sqrt_square; lra); apply sqrt_le_1; lra|]. apply IZR_le. intros X; discriminate X.
Qed.
