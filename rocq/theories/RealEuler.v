(** * Euler angles over the real numbers *)
From Coq Require Import ZArith Bool Reals Lra Psatz List.
From Verif Require Import RosTime Scalar LinearMath Instances RealSlerp RealQuat SpecReal RealMatrix.
Import ListNotations.
Open Scope R_scope.

(** ** atan2 *)
Lemma cos_atan_pos : forall u, cos (atan u) = / sqrt (1 + u²) /\ sin (atan u) = u / sqrt (1 + u²).
Proof. intros u. split; [rewrite cos_atan; field|rewrite sin_atan; field]; apply Rgt_not_eq; apply sqrt_lt_R0; pose proof (Rle_0_sqr u); lra. Qed.
Lemma sqrt_quot : forall x y r, 0 < r -> r * r = x * x + y * y -> x <> 0 -> sqrt (1 + (y / x)²) = r / Rabs x.
Proof.
  intros x y r Hr E Hx. pose proof (Rabs_pos_lt x Hx).
  replace (1 + (y / x)²) with ((r / Rabs x)²).
  - apply sqrt_Rsqr. apply Rlt_le, Rdiv_lt_0_compat; assumption.
  - unfold Rsqr. replace (r / Rabs x * (r / Rabs x)) with (r * r / (Rabs x * Rabs x)) by (field; lra).
    replace (Rabs x * Rabs x) with (x * x) by (unfold Rabs; destruct (Rcase_abs x); ring). rewrite E. field. assumption.
Qed.
Lemma atan2_polar : forall x y r, 0 < r -> r * r = x * x + y * y ->
  cos (Ratan2 y x) = x / r /\ sin (Ratan2 y x) = y / r.
Proof.
  intros x y r Hr E. unfold Ratan2.
  destruct (Rlt_dec 0 x) as [Hx|Hx].
  - destruct (cos_atan_pos (y / x)) as [A B]. rewrite A, B, (sqrt_quot x y r Hr E) by lra. rewrite Rabs_right by lra. split; field; lra.
  - destruct (Rlt_dec x 0) as [Hx'|Hx'].
    + destruct (cos_atan_pos (y / x)) as [A B]. rewrite (sqrt_quot x y r Hr E) in A, B by lra. rewrite Rabs_left in A, B by lra.
      destruct (Rle_dec 0 y).
      * rewrite neg_cos, neg_sin, A, B. split; field; lra.
      * replace (atan (y / x) - PI) with (- (PI - atan (y / x))) by ring.
        rewrite cos_neg, sin_neg, Rtrigo_facts.cos_pi_minus, Rtrigo_facts.sin_pi_minus, A, B. split; field; lra.
    + assert (x = 0) by lra. subst x. destruct (Rlt_dec 0 y) as [Hy|Hy].
      * assert (r = y) by nra. subst. rewrite cos_PI2, sin_PI2. split; field; lra.
      * destruct (Rlt_dec y 0) as [Hy'|Hy'].
        -- assert (r = - y) by nra. subst. rewrite cos_neg, sin_neg, cos_PI2, sin_PI2. split; field; lra.
        -- exfalso. assert (y = 0) by lra. subst. nra.
Qed.
Lemma atan2_unit : forall x y, x * x + y * y = 1 -> cos (Ratan2 y x) = x /\ sin (Ratan2 y x) = y.
Proof. intros x y E. destruct (atan2_polar x y 1) as [A B]; [lra|lra|]. rewrite A, B. split; field. Qed.
Lemma atan2_scale : forall k x y, 0 < k -> Ratan2 (y * k) (x * k) = Ratan2 y x.
Proof.
  intros k x y Hk. unfold Ratan2.
  destruct (Rlt_dec 0 x) as [H|H], (Rlt_dec 0 (x * k)) as [H'|H']; try (exfalso; nra).
  { f_equal. field. lra. }
  destruct (Rlt_dec x 0) as [G|G], (Rlt_dec (x * k) 0) as [G'|G']; try (exfalso; nra).
  { replace (y * k / (x * k)) with (y / x) by (field; lra).
    destruct (Rle_dec 0 y), (Rle_dec 0 (y * k)); try (exfalso; nra); reflexivity. }
  destruct (Rlt_dec 0 y), (Rlt_dec 0 (y * k)); try (exfalso; nra); [reflexivity|].
  destruct (Rlt_dec y 0), (Rlt_dec (y * k) 0); try (exfalso; nra); reflexivity.
Qed.
Lemma atan2_range : forall y x, - PI < Ratan2 y x <= PI.
Proof.
  intros y x. unfold Ratan2. pose proof PI_RGT_0. pose proof (atan_bound (y / x)).
  destruct (Rlt_dec 0 x); [lra|]. destruct (Rlt_dec x 0) as [Hx|Hx].
  - destruct (Rle_dec 0 y) as [Hy|Hy].
    + assert (y / x <= 0).
      { unfold Rdiv. assert (/ x < 0) by (apply Rinv_lt_0_compat; lra). nra. }
      assert (atan (y / x) <= 0). { rewrite <- atan_0. destruct H1 as [L|L]; [apply Rlt_le, atan_increasing; lra|rewrite L; lra]. } lra.
    + assert (0 < y / x). { unfold Rdiv. assert (/ x < 0) by (apply Rinv_lt_0_compat; lra). nra. }
      assert (0 < atan (y / x)). { rewrite <- atan_0. apply atan_increasing; lra. } lra.
  - destruct (Rlt_dec 0 y); [lra|]. destruct (Rlt_dec y 0); lra.
Qed.
(** an angle in (-pi, pi] is determined by its cosine and sine *)
Lemma cos_eq_1 : forall t, - (2 * PI) < t < 2 * PI -> cos t = 1 -> t = 0.
Proof.
  intros t H C. pose proof PI_RGT_0. pose proof (sin2_cos2 (t / 2)) as P.
  replace t with (2 * (t / 2)) in C by field. rewrite cos_2a_sin in C.
  assert (S : sin (t / 2) = 0) by nra.
  destruct (Rlt_dec 0 (t / 2)); [pose proof (sin_gt_0 (t / 2)); lra|].
  destruct (Rlt_dec (t / 2) 0); [|lra].
  pose proof (sin_gt_0 (- (t / 2))) as Q. rewrite sin_neg in Q. lra.
Qed.
Lemma angle_unique : forall a b, - PI < a <= PI -> - PI < b <= PI -> cos a = cos b -> sin a = sin b -> a = b.
Proof.
  intros a b Ha Hb C D. assert (a - b = 0); [|lra]. apply cos_eq_1; [lra|].
  rewrite cos_minus, C, D. pose proof (sin2_cos2 b) as P. unfold Rsqr in P. lra.
Qed.
Lemma atan2_angle : forall t k, - PI < t <= PI -> 0 < k -> Ratan2 (k * sin t) (k * cos t) = t.
Proof.
  intros t k H Hk. rewrite (Rmult_comm k), (Rmult_comm k), atan2_scale by assumption.
  pose proof (sin2_cos2 t) as P. unfold Rsqr in P. destruct (atan2_unit (cos t) (sin t)) as [A B]; [lra|].
  apply angle_unique; auto. apply atan2_range.
Qed.

(** ** Matrices from angles *)
Lemma mfromEulerYPR_eq : forall y p r : R, @mfromEulerYPR RS y p r = ypr_matrix y p r.
Proof. intros. unfold mfromEulerYPR, ypr_matrix, Rz, Ry, Rx. mring. Qed.
Lemma Rx_rotation : forall a, rotation (Rx a).
Proof. intros a. pose proof (sin2_cos2 a) as P. unfold Rsqr in P. unfold Rx, rotation. cbn [RS scar]. repeat split; lra. Qed.
Lemma Ry_rotation : forall a, rotation (Ry a).
Proof. intros a. pose proof (sin2_cos2 a) as P. unfold Rsqr in P. unfold Ry, rotation. cbn [RS scar]. repeat split; lra. Qed.
Lemma Rz_rotation : forall a, rotation (Rz a).
Proof. intros a. pose proof (sin2_cos2 a) as P. unfold Rsqr in P. unfold Rz, rotation. cbn [RS scar]. repeat split; lra. Qed.
Lemma ypr_rotation : forall y p r, rotation (ypr_matrix y p r).
Proof. intros. unfold ypr_matrix. apply rotation_mul; [apply Rz_rotation|apply rotation_mul; [apply Ry_rotation|apply Rx_rotation]]. Qed.

Lemma ypr_entries : forall y p r, ypr_matrix y p r =
  V9 (cos p * cos y) (sin p * (sin r * cos y) - cos r * sin y) (sin p * (cos r * cos y) + sin r * sin y)
     (cos p * sin y) (sin p * (sin r * sin y) + cos r * cos y) (sin p * (cos r * sin y) - sin r * cos y)
     (- sin p) (cos p * sin r) (cos p * cos r).
Proof. intros. rewrite <- mfromEulerYPR_eq. reflexivity. Qed.

(** a rotation is determined by its first column and last row unless the corner is +-1 *)
Lemma rotation_corner : forall a b c d e f g h i b' c' e' f',
  rotation (V9 a b c d e f g h i) -> rotation (V9 a b' c' d e' f' g h i) -> g * g <> 1 -> V9 a b c d e f g h i = V9 a b' c' d e' f' g h i.
Proof.
  intros a b c d e f g h i b' c' e' f' H H' Hg.
  assert (U : forall b c e f, rotation (V9 a b c d e f g h i) ->
    b * (1 - g * g) = - g * a * h - d * i /\ c * (1 - g * g) = d * h - g * a * i /\
    e * (1 - g * g) = a * i - g * d * h /\ f * (1 - g * g) = - a * h - g * d * i).
  { clear. intros b c e f H. apply rotation_cofactors in H. destruct H as ((_ & B & C) & (_ & E & F) & _).
    repeat split.
    - replace (b * (1 - g * g)) with (b - g * (b * g)) by ring. replace (b * g) with (f + a * h) by lra. rewrite B at 1. ring.
    - replace (c * (1 - g * g)) with (c - g * (c * g)) by ring. replace (c * g) with (a * i - e) by lra. rewrite C at 1. ring.
    - replace (e * (1 - g * g)) with (e - g * (e * g)) by ring. replace (e * g) with (d * h - c) by lra. rewrite E at 1. ring.
    - replace (f * (1 - g * g)) with (f - g * (f * g)) by ring. replace (f * g) with (b + d * i) by lra. rewrite F at 1. ring. }
  destruct (U _ _ _ _ H) as (B & C & E & F). destruct (U _ _ _ _ H') as (B' & C' & E' & F').
  assert (N : 1 - g * g <> 0) by lra.
  rewrite (Rmult_eq_reg_r _ b b' (eq_trans B (eq_sym B')) N), (Rmult_eq_reg_r _ c c' (eq_trans C (eq_sym C')) N),
    (Rmult_eq_reg_r _ e e' (eq_trans E (eq_sym E')) N), (Rmult_eq_reg_r _ f f' (eq_trans F (eq_sym F')) N). reflexivity.
Qed.

(** ** Angles from matrices *)
Lemma tf2Asin_in : forall a : R, -1 < a < 1 -> @tf2Asin RS a = asin a.
Proof.
  intros a H. unfold tf2Asin. runf. unfold sgtb. cbn [RS scar sltb]. unfold sone, slit. cbn.
  replace (Rltb a (-1 / 1)) with false by (symmetry; apply Rltb_false; lra).
  replace (Rltb (1 / 1) a) with false by (symmetry; apply Rltb_false; lra). reflexivity.
Qed.

(** the two branches *)
Lemma mgetEuler_regular : forall a b c d e f g h i n, -1 < g < 1 ->
  @mgetEulerYPR RS (V9 a b c d e f g h i) n =
  let p1 := - asin g in let p2 := PI - p1 in
  if Z.eqb n 1 then (Ratan2 (d / cos p1) (a / cos p1), p1, Ratan2 (h / cos p1) (i / cos p1))
  else (Ratan2 (d / cos p2) (a / cos p2), p2, Ratan2 (h / cos p2) (i / cos p2)).
Proof.
  intros a b c d e f g h i n H. unfold mgetEulerYPR, V9. cbn [vx vy vz m0 m1 m2]. rewrite (tf2Asin_in g H).
  assert (E : sgeb (@sabs RS g) sone = false).
  { runf. apply orb_false_iff. split; [apply Rltb_false|apply Reqb_false]; unfold Rabs; destruct (Rcase_abs g); lra. }
  rewrite E. runf. reflexivity.
Qed.
Lemma mgetEuler_lock : forall a b c d e f g h i n, (g = 1 \/ g = -1) ->
  @mgetEulerYPR RS (V9 a b c d e f g h i) n = (0, (if Rltb g 0 then PI / 2 else - (PI / 2)), Ratan2 h i).
Proof.
  intros a b c d e f g h i n H. unfold mgetEulerYPR, V9. cbn [vx vy vz m0 m1 m2].
  assert (E : sgeb (@sabs RS g) sone = true).
  { runf. apply orb_true_iff. right. apply Reqb_true. unfold Rabs; destruct (Rcase_abs g); lra. }
  rewrite E. runf. rewrite zero1. destruct (Rltb g 0); f_equal; f_equal; field.
Qed.

Lemma euler_from_cos : forall a b c d e f g h i p, rotation (V9 a b c d e f g h i) -> cos p <> 0 -> sin p = - g ->
  ypr_matrix (Ratan2 (d / cos p) (a / cos p)) p (Ratan2 (h / cos p) (i / cos p)) = V9 a b c d e f g h i.
Proof.
  intros a b c d e f g h i p H Hc Hs.
  pose proof (sin2_cos2 p) as P. unfold Rsqr in P. rewrite Hs in P.
  pose proof (rotation_columns _ _ _ _ _ _ _ _ _ H) as Col.
  pose proof H as ((_ & _ & R3) & _ & _).
  assert (C1 : a * a + d * d + g * g = 1). { clear -Col. unfold rotation in Col. lra. }
  destruct (atan2_unit (a / cos p) (d / cos p)) as [A B].
  { replace (a / cos p * (a / cos p) + d / cos p * (d / cos p)) with ((a * a + d * d) / (cos p * cos p)) by (field; assumption).
    replace (a * a + d * d) with (cos p * cos p) by lra. field. assumption. }
  destruct (atan2_unit (i / cos p) (h / cos p)) as [C D].
  { replace (i / cos p * (i / cos p) + h / cos p * (h / cos p)) with ((i * i + h * h) / (cos p * cos p)) by (field; assumption).
    replace (i * i + h * h) with (cos p * cos p) by lra. field. assumption. }
  pose proof (ypr_rotation (Ratan2 (d / cos p) (a / cos p)) p (Ratan2 (h / cos p) (i / cos p))) as Rot.
  rewrite ypr_entries in Rot |- *. rewrite A, B, C, D in *.
  replace (cos p * (a / cos p)) with a in * by (field; assumption).
  replace (cos p * (d / cos p)) with d in * by (field; assumption).
  replace (cos p * (h / cos p)) with h in * by (field; assumption).
  replace (cos p * (i / cos p)) with i in * by (field; assumption).
  replace (- sin p) with g in * by lra.
  apply rotation_corner; [exact Rot|exact H|]. intros G. apply Hc. nra.
Qed.

Lemma cos_asin_pos : forall g, -1 < g < 1 -> 0 < cos (asin g).
Proof. intros g H. rewrite cos_asin by lra. apply sqrt_lt_R0. unfold Rsqr. nra. Qed.

Theorem mgetEuler_ok : forall (m : rmat) n, rotation m -> -1 < vx (m2 m) < 1 -> of_ypr (mgetEulerYPR m n) = m.
Proof.
  intros [[a b c] [d e f] [g h i]] n H Hg. cbn [m2 vx] in Hg.
  change (@M3 RS (@V3 RS a b c) (@V3 RS d e f) (@V3 RS g h i)) with (V9 a b c d e f g h i) in *.
  rewrite mgetEuler_regular by exact Hg. cbv zeta.
  pose proof (cos_asin_pos g Hg) as Cp.
  destruct (Z.eqb n 1); unfold of_ypr; apply euler_from_cos; auto.
  - rewrite cos_neg. lra.
  - rewrite sin_neg, sin_asin by lra. reflexivity.
  - rewrite Rtrigo_facts.cos_pi_minus, cos_neg. lra.
  - rewrite Rtrigo_facts.sin_pi_minus, sin_neg, sin_asin by lra. reflexivity.
Qed.

Lemma rotation_corner_bound : forall m : rmat, rotation m -> -1 <= vx (m2 m) <= 1.
Proof.
  intros [[a b c] [d e f] [g h i]] ((_ & _ & H) & _). cbn [m2 vx RS scar] in *. split; nra.
Qed.

(** at gimbal lock the two rotations it can return *)
Theorem mgetEuler_at_lock : forall (m : rmat) n, rotation m -> (vx (m2 m) = 1 \/ vx (m2 m) = -1) ->
  @mgetEulerYPR RS m n = (0, (if Rltb (vx (m2 m)) 0 then PI / 2 else - (PI / 2)), 0).
Proof.
  intros [[a b c] [d e f] [g h i]] n ((_ & _ & H) & _) Hg. cbn [m2 vx] in *.
  change (@M3 RS (@V3 RS a b c) (@V3 RS d e f) (@V3 RS g h i)) with (V9 a b c d e f g h i).
  rewrite mgetEuler_lock by exact Hg. cbn [RS scar] in *.
  assert (h = 0) by (destruct Hg; subst; nra). assert (i = 0) by (destruct Hg; subst; nra). subst.
  f_equal. unfold Ratan2. destruct (Rlt_dec 0 0); lra.
Qed.

Lemma ypr_corner : forall y p r, vx (m2 (ypr_matrix y p r)) = - sin p.
Proof. intros. rewrite ypr_entries. reflexivity. Qed.

(** the angles themselves *)
Theorem mgetEuler_angles : forall y p r, - PI < y <= PI -> - (PI / 2) < p < PI / 2 -> - PI < r <= PI ->
  @mgetEulerYPR RS (ypr_matrix y p r) 1 = (y, p, r).
Proof.
  intros y p r Hy Hp Hr. rewrite ypr_entries.
  assert (C : 0 < cos p) by (apply cos_gt_0; lra).
  pose proof (sin2_cos2 p) as P. unfold Rsqr in P.
  rewrite mgetEuler_regular by (split; nra). cbv zeta. cbn [Z.eqb Pos.eqb].
  assert (A : - asin (- sin p) = p). { rewrite asin_opp, Ropp_involutive. apply asin_sin; lra. }
  rewrite A.
  assert (T : forall t, - PI < t <= PI -> Ratan2 (cos p * sin t / cos p) (cos p * cos t / cos p) = t).
  { intros t Ht. replace (cos p * sin t / cos p) with (1 * sin t) by (field; lra).
    replace (cos p * cos t / cos p) with (1 * cos t) by (field; lra). apply atan2_angle; lra. }
  rewrite !T by assumption. reflexivity.
Qed.

(** ** Quaternions from angles *)
Definition qX (a : R) : rquat := @Q4 RS (sin (a / 2)) 0 0 (cos (a / 2)).
Definition qY (a : R) : rquat := @Q4 RS 0 (sin (a / 2)) 0 (cos (a / 2)).
Definition qZ (a : R) : rquat := @Q4 RS 0 0 (sin (a / 2)) (cos (a / 2)).
Lemma half_eq : forall a : R, a * (1 / 2) = a / 2. Proof. intros. field. Qed.
Lemma qfromRPY_eq : forall r p y : R, @qfromRPY RS r p y = qmul (qZ y) (qmul (qY p) (qX r)).
Proof.
  intros. unfold qfromRPY, qX, qY, qZ. lm_unfold. rewrite !half_eq.
  f_equal; cbn [RS scar]; ring.
Qed.
Lemma qfromEuler_eq : forall y p r : R, @qfromEuler RS y p r = qmul (qY y) (qmul (qX p) (qZ r)).
Proof.
  intros. unfold qfromEuler, qX, qY, qZ. lm_unfold. rewrite !half_eq.
  f_equal; cbn [RS scar]; ring.
Qed.
Lemma axis_unit : forall a, qunit (qX a) /\ qunit (qY a) /\ qunit (qZ a).
Proof. intros a. pose proof (sin2_cos2 (a / 2)) as P. unfold Rsqr in P. unfold qunit, qX, qY, qZ. cbn [qx qy qz qw RS scar]. lra. Qed.
Lemma half_angles : forall a, cos a = 1 - 2 * (sin (a / 2) * sin (a / 2)) /\ cos a = 2 * (cos (a / 2) * cos (a / 2)) - 1 /\
  sin a = 2 * (sin (a / 2) * cos (a / 2)).
Proof.
  intros a. replace (cos a) with (cos (2 * (a / 2))) by (f_equal; field). replace (sin a) with (sin (2 * (a / 2))) by (f_equal; field).
  rewrite sin_2a. split; [rewrite cos_2a_sin; ring|]. split; [rewrite cos_2a_cos; ring|ring].
Qed.
Lemma mfromQuat_axis : forall a, mfromQuat (qX a) = Rx a /\ mfromQuat (qY a) = Ry a /\ mfromQuat (qZ a) = Rz a.
Proof.
  intros a. destruct (axis_unit a) as (A & B & C). destruct (half_angles a) as (D & E & F).
  rewrite !mfromQuat_unit by assumption. unfold qpoly, V9, qX, qY, qZ, Rx, Ry, Rz.
  cbn [qx qy qz qw RS scar]. repeat split; meq; lra.
Qed.
Theorem qfromRPY_ok : forall r p y : R, qunit (@qfromRPY RS r p y) /\ mfromQuat (@qfromRPY RS r p y) = ypr_matrix y p r.
Proof.
  intros. rewrite qfromRPY_eq. destruct (axis_unit y) as (_ & _ & A), (axis_unit p) as (_ & B & _), (axis_unit r) as (C & _ & _).
  split; [repeat apply qunit_mul; assumption|].
  rewrite !mfromQuat_mul_unit by (repeat apply qunit_mul; assumption).
  destruct (mfromQuat_axis y) as (_ & _ & A'), (mfromQuat_axis p) as (_ & B' & _), (mfromQuat_axis r) as (C' & _ & _).
  rewrite A', B', C'. reflexivity.
Qed.
Theorem qfromEuler_ok : forall y p r : R, qunit (@qfromEuler RS y p r) /\ mfromQuat (@qfromEuler RS y p r) = mmul (Ry y) (mmul (Rx p) (Rz r)).
Proof.
  intros. rewrite qfromEuler_eq. destruct (axis_unit y) as (_ & A & _), (axis_unit p) as (B & _ & _), (axis_unit r) as (_ & _ & C).
  split; [repeat apply qunit_mul; assumption|].
  rewrite !mfromQuat_mul_unit by (repeat apply qunit_mul; assumption).
  destruct (mfromQuat_axis y) as (_ & A' & _), (mfromQuat_axis p) as (B' & _ & _), (mfromQuat_axis r) as (_ & _ & C').
  rewrite A', B', C'. reflexivity.
Qed.

Lemma sumsq0 : forall a b : R, a * a + b * b = 0 -> a = 0 /\ b = 0.
Proof. intros. split; nra. Qed.
(** ** impl/utils.h *)
Lemma mfromQuat_entries : forall x y z w : R, let d := x * x + y * y + z * z + w * w in d <> 0 ->
  mfromQuat (@Q4 RS x y z w) =
  V9 ((w*w + x*x - y*y - z*z) / d) (2*(x*y - w*z) / d) (2*(x*z + w*y) / d)
     (2*(x*y + w*z) / d) ((w*w - x*x + y*y - z*z) / d) (2*(y*z - w*x) / d)
     (2*(x*z - w*y) / d) (2*(y*z + w*x) / d) ((w*w - x*x - y*y + z*z) / d).
Proof.
  intros x y z w d Hd. unfold d in *. unfold mfromQuat, V9, qlength2, qdot. cbn [qx qy qz qw]. runf. meq; field; lra.
Qed.

Lemma sarg_eq : forall x y z w : R, x * x + y * y + z * z + w * w <> 0 ->
  -2 / 1 * (x * z - w * y) / (x * x + y * y + z * z + w * w) = sin_pitch (@Q4 RS x y z w).
Proof. intros. unfold sin_pitch. cbn [qx qy qz qw RS scar]. field. assumption. Qed.

Theorem ugetEuler_regular : forall q : rquat, nonzero q -> - (99999 / 100000) < sin_pitch q < 99999 / 100000 ->
  ugetEulerYPR q = mgetEulerYPR (mfromQuat q) 1.
Proof.
  intros [x y z w] Hn Hp. unfold nonzero in Hn. cbn [qx qy qz qw RS scar] in Hn.
  unfold ugetEulerYPR. cbn [qx qy qz qw]. runf. rewrite (sarg_eq x y z w Hn).
  rewrite (mfromQuat_entries x y z w Hn).
  set (d := x * x + y * y + z * z + w * w) in *.
  assert (Hd : 0 < d) by (unfold d in *; nra).
  assert (G : 2 * (x * z - w * y) / d = - sin_pitch (@Q4 RS x y z w)).
  { unfold sin_pitch. cbn [qx qy qz qw RS scar]. fold d. field. lra. }
  rewrite mgetEuler_regular by (rewrite G; lra). cbv zeta. cbn [Z.eqb Pos.eqb]. rewrite G, asin_opp, Ropp_involutive.
  set (sp := sin_pitch (@Q4 RS x y z w)) in *.
  replace (Rltb sp (-99999 / 100000)) with false by (symmetry; apply Rltb_false; lra).
  replace (Reqb (-99999 / 100000) sp) with false by (symmetry; apply Reqb_false; lra).
  replace (Rltb (99999 / 100000) sp) with false by (symmetry; apply Rltb_false; lra).
  replace (Reqb sp (99999 / 100000)) with false by (symmetry; apply Reqb_false; lra). cbn [orb].
  assert (C : 0 < cos (asin sp)) by (apply cos_asin_pos; lra).
  assert (K : 0 < / (d * cos (asin sp))) by (apply Rinv_0_lt_compat, Rmult_lt_0_compat; assumption).
  f_equal; [f_equal|].
  - rewrite <- (atan2_scale _ _ _ K). f_equal; field; lra.
  - rewrite <- (atan2_scale _ _ _ K). f_equal; field; lra.
Qed.

(** what the clamped branches return, and when that is right *)
Lemma sin_pitch_bound : forall q, nonzero q -> -1 <= sin_pitch q <= 1.
Proof.
  intros q H. pose proof (rotation_corner_bound _ (mfromQuat_rotation q H)) as B. destruct q as [x y z w].
  unfold nonzero in H. cbn [qx qy qz qw RS scar] in H. rewrite (mfromQuat_entries x y z w H) in B. unfold V9 in B.
  cbn [vx m2 RS scar] in B. unfold sin_pitch. cbn [qx qy qz qw RS scar].
  replace (2 * (w * y - x * z) / (x * x + y * y + z * z + w * w)) with (- (2 * (x * z - w * y) / (x * x + y * y + z * z + w * w))) by (field; assumption).
  lra.
Qed.
Theorem ugetEuler_correct_iff : forall q : rquat, nonzero q ->
  (of_ypr (ugetEulerYPR q) = mfromQuat q <->
   - (99999 / 100000) < sin_pitch q < 99999 / 100000 \/ (sin_pitch q = -1 /\ Rabs (qx q) = Rabs (qy q))).
Proof.
  intros q Hn. pose proof (sin_pitch_bound q Hn) as Bd.
  destruct (Rlt_dec (- (99999 / 100000)) (sin_pitch q)) as [L|L].
  destruct (Rlt_dec (sin_pitch q) (99999 / 100000)) as [U|U].
  { split; [intros _; left; lra|]. intros _. rewrite ugetEuler_regular by (auto; lra).
    apply mgetEuler_ok; [apply mfromQuat_rotation; exact Hn|].
    destruct q as [x y z w]. unfold nonzero in Hn. cbn [qx qy qz qw RS scar] in Hn. rewrite (mfromQuat_entries x y z w Hn).
    unfold V9. cbn [vx m2 RS scar]. unfold sin_pitch in *. cbn [qx qy qz qw RS scar] in *.
    replace (2 * (x * z - w * y) / (x * x + y * y + z * z + w * w)) with (- (2 * (w * y - x * z) / (x * x + y * y + z * z + w * w))) by (field; assumption).
    lra. }
  - (* clamped above: never right *)
    split; [|intros [?|[? _]]; lra]. intros E. exfalso.
    destruct q as [x y z w]. unfold nonzero in Hn. cbn [qx qy qz qw RS scar] in Hn.
    unfold ugetEulerYPR in E. cbn [qx qy qz qw] in E. runf. rewrite (sarg_eq x y z w Hn) in E.
    rewrite (mfromQuat_entries x y z w Hn) in E.
    set (sp := sin_pitch (@Q4 RS x y z w)) in *.
    replace (Rltb sp (-99999 / 100000)) with false in E by (symmetry; apply Rltb_false; lra).
    replace (Reqb (-99999 / 100000) sp) with false in E by (symmetry; apply Reqb_false; lra). cbn [orb] in E.
    replace (Rltb (99999 / 100000) sp || Reqb sp (99999 / 100000))%bool with true in E.
    2:{ symmetry. apply orb_true_iff. destruct (Req_dec sp (99999 / 100000)); [right; apply Reqb_true; assumption|left; apply Rltb_true; lra]. }
    unfold of_ypr in E. rewrite ypr_entries in E. unfold V9 in E.
    replace (1 / 2 * PI) with (PI / 2) in E by field. rewrite zero1, sin_PI2, cos_PI2, sin_0, cos_0 in E.
    injection E as E1 E2 E3 E4 E5 E6 E7 E8 E9.
    assert (G : 2 * (w * y - x * z) = x * x + y * y + z * z + w * w).
    { assert (2 * (x * z - w * y) = -1 * (x * x + y * y + z * z + w * w)); [|lra].
      replace (-1) with (- (1)) by ring. rewrite E7. unfold Rdiv. rewrite Rmult_assoc, Rinv_l by assumption. ring. }
    assert (Z : z = - x /\ w = y) by (destruct (sumsq0 (z + x) (w - y)); lra). destruct Z as [-> ->].
    assert (N : 0 < x * x + y * y) by nra.
    destruct (atan2_polar x y (sqrt (x * x + y * y))) as [A B].
    { apply sqrt_lt_R0; assumption. } { apply sqrt_sqrt; lra. }
    pose proof (sqrt_lt_R0 _ N) as Sp. pose proof (sqrt_sqrt _ (Rlt_le _ _ N)) as Sq.
    replace (2 / 1) with 2 in E5, E6, E2 by field.
    rewrite cos_2a, sin_2a, A, B in *. 
    set (r := sqrt (x * x + y * y)) in *.
    assert (P5 : (x * x - y * y) / (r * r) = (y * y - x * x) / (x * x + y * y)).
    { transitivity (x / r * (x / r) - y / r * (y / r)); [field; lra|]. rewrite <- (Rplus_0_l (_ - _)).
      transitivity ((y * y - x * x + y * y - - x * - x) / (x * x + y * y + - x * - x + y * y)); [rewrite <- E5; ring|].
      field. split; nra. }
    assert (P2 : - (2 * (x * y)) / (r * r) = 2 * (x * y) / (x * x + y * y)).
    { transitivity (- (2 * (y / r) * (x / r))); [field; lra|].
      transitivity (2 * (x * y - y * - x) / (x * x + y * y + - x * - x + y * y)); [rewrite <- E2; ring|].
      field. split; nra. }
    rewrite Sq in P5, P2.
    assert (Q5 : x * x - y * y = y * y - x * x).
    { apply (Rmult_eq_reg_r (/ (x * x + y * y))); [exact P5|]. apply Rinv_neq_0_compat. lra. }
    assert (Q2 : - (2 * (x * y)) = 2 * (x * y)).
    { apply (Rmult_eq_reg_r (/ (x * x + y * y))); [exact P2|]. apply Rinv_neq_0_compat. lra. }
    nra.
  - (* clamped below *)
    destruct q as [x y z w]. pose proof Hn as Hn'. unfold nonzero in Hn. cbn [qx qy qz qw RS scar] in Hn.
    unfold ugetEulerYPR. cbn [qx qy qz qw]. runf. rewrite (sarg_eq x y z w Hn).
    rewrite (mfromQuat_entries x y z w Hn).
    set (sp := sin_pitch (@Q4 RS x y z w)) in *.
    replace (Rltb sp (-99999 / 100000) || Reqb (-99999 / 100000) sp)%bool with true.
    2:{ symmetry. apply orb_true_iff. destruct (Req_dec (-99999 / 100000) sp); [right; apply Reqb_true; assumption|left; apply Rltb_true; lra]. }
    unfold of_ypr. rewrite ypr_entries. unfold V9.
    replace (-1 / 2 * PI) with (- (PI / 2)) by field. rewrite zero1, sin_neg, cos_neg, sin_PI2, cos_PI2, sin_0, cos_0.
    assert (Ng : forall u v : R, u * u = v * v <-> Rabs u = Rabs v).
    { intros u v. unfold Rabs. destruct (Rcase_abs u), (Rcase_abs v); split; intros; nra. }
    assert (Spd : sp = 2 * (w * y - x * z) / (x * x + y * y + z * z + w * w)) by reflexivity.
    assert (Main : sp = -1 -> z = x /\ w = - y).
    { intros G. assert (2 * (w * y - x * z) = - (x * x + y * y + z * z + w * w)).
      { assert (2 * (w * y - x * z) = -1 * (x * x + y * y + z * z + w * w)); [|lra].
        rewrite <- G, Spd. unfold Rdiv. rewrite Rmult_assoc, Rinv_l by assumption. ring. }
      destruct (sumsq0 (z - x) (w + y)); lra. }
    assert (Core : sp = -1 -> 
       (@M3 RS (@V3 RS (0 * cos (-2 / 1 * Ratan2 y x)) (- (1) * (0 * cos (-2 / 1 * Ratan2 y x)) - 1 * sin (-2 / 1 * Ratan2 y x))
                 (- (1) * (1 * cos (-2 / 1 * Ratan2 y x)) + 0 * sin (-2 / 1 * Ratan2 y x)))
               (@V3 RS (0 * sin (-2 / 1 * Ratan2 y x)) (- (1) * (0 * sin (-2 / 1 * Ratan2 y x)) + 1 * cos (-2 / 1 * Ratan2 y x))
                 (- (1) * (1 * sin (-2 / 1 * Ratan2 y x)) - 0 * cos (-2 / 1 * Ratan2 y x)))
               (@V3 RS (- - (1)) (0 * 0) (0 * 1)) =
        V9 ((w * w + x * x - y * y - z * z) / (x * x + y * y + z * z + w * w))
           (2 * (x * y - w * z) / (x * x + y * y + z * z + w * w))
           (2 * (x * z + w * y) / (x * x + y * y + z * z + w * w))
           (2 * (x * y + w * z) / (x * x + y * y + z * z + w * w))
           ((w * w - x * x + y * y - z * z) / (x * x + y * y + z * z + w * w))
           (2 * (y * z - w * x) / (x * x + y * y + z * z + w * w))
           (2 * (x * z - w * y) / (x * x + y * y + z * z + w * w))
           (2 * (y * z + w * x) / (x * x + y * y + z * z + w * w))
           ((w * w - x * x - y * y + z * z) / (x * x + y * y + z * z + w * w)) <-> x * x = y * y)).
    { intros G. destruct (Main G) as [-> ->].
      assert (N : 0 < x * x + y * y) by nra.
      destruct (atan2_polar x y (sqrt (x * x + y * y))) as [A B].
      { apply sqrt_lt_R0; assumption. } { apply sqrt_sqrt; lra. }
      pose proof (sqrt_lt_R0 _ N) as Sp. pose proof (sqrt_sqrt _ (Rlt_le _ _ N)) as Sq.
      replace (-2 / 1 * Ratan2 y x) with (- (2 * Ratan2 y x)) by field.
      rewrite cos_neg, sin_neg, cos_2a, sin_2a, A, B.
      set (r := sqrt (x * x + y * y)) in *.
      assert (K : x / r * (x / r) - y / r * (y / r) = (x * x - y * y) / (x * x + y * y)) by (rewrite <- Sq; field; lra).
      assert (K' : 2 * (y / r) * (x / r) = 2 * (x * y) / (x * x + y * y)) by (rewrite <- Sq; field; lra).
      rewrite K, K'. unfold V9. split.
      - intros E. injection E as E1 E2 E3 E4 E5 E6 E7 E8 E9.
        assert (Q5 : x * x - y * y = y * y - x * x); [|lra].
        apply (Rmult_eq_reg_r (/ (x * x + y * y))); [|apply Rinv_neq_0_compat; lra].
        transitivity ((- y * - y - x * x + y * y - x * x) / (x * x + y * y + x * x + - y * - y)); [rewrite <- E5; unfold Rdiv; ring|].
        field. split; nra.
      - intros E. assert (x * x <> 0) by nra.
        assert (D : x * x + y * y + x * x + - y * - y = 4 * (x * x)) by lra. rewrite D.
        assert (D' : x * x + y * y = 2 * (x * x)) by lra. rewrite D'.
        replace (y * y) with (x * x) by lra. replace (- y * - y) with (x * x) by lra. 
        replace (- y * y) with (- (x * x)) by lra.
        assert (x <> 0) by (intros ->; lra). meq; field; lra. }
    split.
    + intros E. right. assert (G : sp = -1).
      { pose proof E as E'. injection E' as _ _ _ _ _ _ E7 _ _. rewrite Spd.
        replace (2 * (w * y - x * z) / (x * x + y * y + z * z + w * w)) with (- (2 * (x * z - w * y) / (x * x + y * y + z * z + w * w))) by (field; assumption).
        rewrite <- E7. ring. }
      split; [exact G|]. apply Ng. apply (Core G). exact E.
    + intros [?|[G H]]; [lra|]. apply (Core G). apply Ng. exact H.
Qed.
Lemma ugetYaw_eq : forall (S : Scalar) (q : quat S), ugetYaw q = fst (fst (ugetEulerYPR q)).
Proof.
  intros S q. unfold ugetYaw, ugetEulerYPR.
  destruct (sgeb _ _); [reflexivity|]. destruct (sgeb _ _); reflexivity.
Qed.
