(** * Axis-angle rotations, nearest/farthest, matrix inverse over the reals *)
From Coq Require Import ZArith Bool Reals Lra Psatz List.
From Verif Require Import RosTime Scalar LinearMath Instances RealSlerp RealQuat SpecReal RealMatrix RealEuler.
Import ListNotations.
Open Scope R_scope.

Definition unitv (v : rvec) : Prop := vx v * vx v + vy v * vy v + vz v * vz v = 1.

Lemma vlength_unit : forall v : rvec, unitv v -> @vlength RS v = 1.
Proof. intros v H. unfold vlength, vlength2, vdot. runf. unfold unitv in H. cbn [RS scar] in H. rewrite H. apply sqrt_1. Qed.
Lemma qfromAxisAngle_eq : forall (a : rvec) (t : R), unitv a ->
  qfromAxisAngle a (t : RS) = @Q4 RS (vx a * sin (t / 2)) (vy a * sin (t / 2)) (vz a * sin (t / 2)) (cos (t / 2)).
Proof.
  intros a t H. unfold qfromAxisAngle. rewrite vlength_unit by exact H. runf. rewrite half_eq.
  f_equal; cbn [RS scar]; field.
Qed.
Lemma qfromAxisAngle_unit : forall (a : rvec) (t : R), unitv a -> qunit (qfromAxisAngle a (t : RS)).
Proof.
  intros a t H. rewrite qfromAxisAngle_eq by exact H. unfold qunit, unitv in *. cbn [qx qy qz qw RS scar] in *.
  pose proof (sin2_cos2 (t / 2)) as P. unfold Rsqr in P.
  transitivity ((vx a * vx a + vy a * vy a + vz a * vz a) * (sin (t / 2) * sin (t / 2)) + cos (t / 2) * cos (t / 2)); [ring|].
  rewrite H. lra.
Qed.
(** Rodrigues: Quaternion::setRotation and Vector3::rotate are the same motion *)
Lemma axis_rotate_eq : forall (a v : rvec) (t : R), unitv a -> quatRotate (qfromAxisAngle a (t : RS)) v = vrotate v a (t : RS).
Proof.
  intros [a b c] [x y z] t H. rewrite qfromAxisAngle_eq by exact H. unfold unitv in H. cbn [vx vy vz RS scar] in *.
  destruct (half_angles t) as (C & C' & D).
  unfold vrotate. lm_unfold. rewrite D. 
  set (s := sin (t / 2)) in *. set (k := cos (t / 2)) in *.
  assert (P : k * k = 1 - s * s) by lra. assert (Q : a * a = 1 - b * b - c * c) by lra.
  f_equal; cbn [RS scar].
  - transitivity (k * k * x + 2 * s * k * (b * z - c * y) + s * s * (a * a * x - b * b * x - c * c * x + 2 * a * (b * y + c * z))); [ring|].
    rewrite C. rewrite P. transitivity ((1 - s * s) * x + 2 * s * k * (b * z - c * y) + s * s * ((2 * (a * a) - (a * a + b * b + c * c)) * x + 2 * a * (b * y + c * z))); [ring|].
    rewrite H. ring.
  - transitivity (k * k * y + 2 * s * k * (c * x - a * z) + s * s * (b * b * y - a * a * y - c * c * y + 2 * b * (a * x + c * z))); [ring|].
    rewrite C. rewrite P. transitivity ((1 - s * s) * y + 2 * s * k * (c * x - a * z) + s * s * ((2 * (b * b) - (a * a + b * b + c * c)) * y + 2 * b * (a * x + c * z))); [ring|].
    rewrite H. ring.
  - transitivity (k * k * z + 2 * s * k * (a * y - b * x) + s * s * (c * c * z - a * a * z - b * b * z + 2 * c * (a * x + b * y))); [ring|].
    rewrite C. rewrite P. transitivity ((1 - s * s) * z + 2 * s * k * (a * y - b * x) + s * s * ((2 * (c * c) - (a * a + b * b + c * c)) * z + 2 * c * (a * x + b * y))); [ring|].
    rewrite H. ring.
Qed.
Lemma axis_fixed : forall (a : rvec) (t : R), unitv a -> quatRotate (qfromAxisAngle a (t : RS)) a = a.
Proof.
  intros a t H. rewrite axis_rotate_eq by exact H. destruct a as [a b c]. unfold unitv in H. cbn [vx vy vz RS scar] in H.
  unfold vrotate. lm_unfold. rewrite H. f_equal; cbn [RS scar]; ring.
Qed.
Lemma axis_add : forall (a : rvec) (s t : R), unitv a ->
  qmul (qfromAxisAngle a (s : RS)) (qfromAxisAngle a (t : RS)) = qfromAxisAngle a (s + t : RS).
Proof.
  intros a s t H. rewrite !qfromAxisAngle_eq by exact H. cbn [RS sadd].
  replace ((s + t) / 2) with (s / 2 + t / 2) by field. rewrite sin_plus, cos_plus.
  destruct a as [a b c]. unfold unitv in H. cbn [vx vy vz RS scar] in H. lm_unfold.
  f_equal; cbn [RS scar]; try ring.
  transitivity (cos (s / 2) * cos (t / 2) - (a * a + b * b + c * c) * (sin (s / 2) * sin (t / 2))); [ring|]. rewrite H. ring.
Qed.

(** back from the quaternion *)
Lemma tf2Acos_in : forall a : R, -1 <= a <= 1 -> @tf2Acos RS a = acos a.
Proof. intros a H. rewrite tf2Acos_cos. f_equal. rewrite Rmin_right by lra. rewrite Rmax_right by lra. reflexivity. Qed.
Lemma qunit_w : forall q, qunit q -> -1 <= qw q <= 1.
Proof. intros [x y z w] H. unfold qunit in H. cbn [qx qy qz qw RS scar] in *. split; nra. Qed.
Lemma axis_angle_back : forall q : rquat, qunit q -> 10 / 4503599627370496 <= 1 - qw q * qw q ->
  unitv (qgetAxis q) /\ qfromAxisAngle (qgetAxis q) (qgetAngle q) = q.
Proof.
  intros q H Hs. pose proof (qunit_w q H) as W. destruct q as [x y z w]. unfold qunit in H. cbn [qx qy qz qw RS scar] in *.
  assert (Sp : 0 < sqrt (1 - w * w)) by (apply sqrt_lt_R0; lra).
  assert (Sq : sqrt (1 - w * w) * sqrt (1 - w * w) = 1 - w * w) by (apply sqrt_sqrt; lra).
  assert (Ax : qgetAxis (@Q4 RS x y z w) = @V3 RS (x / sqrt (1 - w * w)) (y / sqrt (1 - w * w)) (z / sqrt (1 - w * w))).
  { unfold qgetAxis, seps. cbn [qx qy qz qw]. runf. rewrite one1.
    replace (Rltb (1 - w * w) (10 / 1 * (1 / 4503599627370496))) with false by (symmetry; apply Rltb_false; lra). reflexivity. }
  assert (U : unitv (qgetAxis (@Q4 RS x y z w))).
  { rewrite Ax. unfold unitv. cbn [vx vy vz RS scar].
    transitivity ((x * x + y * y + z * z) / (sqrt (1 - w * w) * sqrt (1 - w * w))); [field; lra|]. rewrite Sq.
    replace (x * x + y * y + z * z) with (1 - w * w) by lra. field. lra. }
  split; [exact U|]. rewrite qfromAxisAngle_eq by exact U. rewrite Ax.
  unfold qgetAngle. cbn [qw]. rewrite tf2Acos_in by exact W. runf.
  replace (2 / 1 * acos w / 2) with (acos w) by field.
  rewrite cos_acos, sin_acos by exact W. unfold Rsqr. cbn [vx vy vz].
  f_equal; cbn [RS scar]; field; lra.
Qed.
Lemma angle_of_axis_angle : forall (a : rvec) (t : R), unitv a -> 0 <= t <= 2 * PI -> qgetAngle (qfromAxisAngle a (t : RS)) = t.
Proof.
  intros a t H Ht. rewrite qfromAxisAngle_eq by exact H. unfold qgetAngle. cbn [qw].
  pose proof (COS_bound (t / 2)). rewrite tf2Acos_in by lra. runf. rewrite acos_cos by lra. field.
Qed.

(** nearest / farthest *)
Definition qdist2 (p q : rquat) : R :=
  (qx p - qx q) * (qx p - qx q) + (qy p - qy q) * (qy p - qy q) + (qz p - qz q) * (qz p - qz q) + (qw p - qw q) * (qw p - qw q).
Lemma qnearest_ok : forall p q : rquat, same_rotation (qnearest p q) q /\
  qdist2 p (qnearest p q) <= qdist2 p q /\ qdist2 p (qnearest p q) <= qdist2 p (qneg q).
Proof.
  intros p q. unfold qnearest. destruct (sltb _ _) eqn:E.
  - split; [left; reflexivity|]. split; [lra|]. runf. apply Rltb_true in E.
    destruct p, q. unfold qdist2. lm_unfold. nra.
  - split; [right; reflexivity|]. split; [|lra]. runf. apply Rltb_false in E.
    destruct p, q. unfold qdist2. lm_unfold. nra.
Qed.
Lemma qfarthest_ok : forall p q : rquat, same_rotation (qfarthest p q) q /\
  qdist2 p q <= qdist2 p (qfarthest p q) /\ qdist2 p (qneg q) <= qdist2 p (qfarthest p q).
Proof.
  intros p q. unfold qfarthest. destruct (sgtb _ _) eqn:E.
  - split; [left; reflexivity|]. split; [lra|]. runf. apply Rltb_true in E.
    destruct p, q. unfold qdist2. lm_unfold. nra.
  - split; [right; reflexivity|]. split; [|lra]. runf. apply Rltb_false in E.
    destruct p, q. unfold qdist2. lm_unfold. nra.
Qed.

(** Matrix3x3::inverse *)
Lemma mdet_V9 : forall a b c d e f g h i, mdet (V9 a b c d e f g h i) = a * (e * i - f * h) + b * (f * g - d * i) + c * (d * h - e * g).
Proof. intros. unfold mdet, vtriple, V9. cbn [m0 m1 m2 vx vy vz]. runf. ring. Qed.
Lemma minverse_ok : forall m : rmat, mdet m <> 0 -> mmul m (minverse m) = midentity /\ mmul (minverse m) m = midentity.
Proof.
  intros [[a b c] [d e f] [g h i]] H.
  change (@M3 RS (@V3 RS a b c) (@V3 RS d e f) (@V3 RS g h i)) with (V9 a b c d e f g h i) in *. rewrite mdet_V9 in H.
  rewrite midentity_eq. unfold minverse, madjoint, V9. cbn [m0 m1 m2 vx vy vz]. lm_unfold.
  split; meq; field; lra.
Qed.
Lemma minverse_rotation : forall m : rmat, rotation m -> minverse m = mtranspose m.
Proof.
  intros m H. pose proof (proj1 (rotation_iff m) H) as [O D].
  destruct (minverse_ok m) as [A B]; [rewrite D; cbn [RS scar]; lra|].
  rewrite <- (mmul_id_r (minverse m)), <- O, mmul_assoc, B, mmul_id_l. reflexivity.
Qed.
