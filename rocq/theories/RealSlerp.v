(** * Interpolation over the real numbers *)
From Coq Require Import ZArith Bool Reals Lra Psatz.
From Verif Require Import Scalar LinearMath Instances.
Open Scope R_scope.

Notation rquat := (quat RS).
Notation rvec := (vec3 RS).
Notation rmat := (mat3 RS).
Notation rxform := (xform RS).

(** Unfold the real instance of the scalar operations. *)
Ltac runf :=
  unfold sgtb, sgeb, szero, sone, two, half in *;
  cbn [RS scar slit sadd ssub smul sdiv sopp sabs ssqrt ssin scos sacos sasin satan2 sltb seqb
       sisnan sofns spi] in *.

Lemma Rltb_true : forall a b, Rltb a b = true <-> a < b.
Proof. intros a b. unfold Rltb. destruct (Rlt_dec a b); split; intros; auto; discriminate. Qed.
Lemma Rltb_false : forall a b, Rltb a b = false <-> b <= a.
Proof. intros a b. unfold Rltb. destruct (Rlt_dec a b); split; intros; auto; try discriminate; lra. Qed.
Lemma Reqb_true : forall a b, Reqb a b = true <-> a = b.
Proof. intros a b. unfold Reqb. destruct (Req_EM_T a b); split; intros; auto; discriminate. Qed.
Lemma Reqb_false : forall a b, Reqb a b = false <-> a <> b.
Proof. intros a b. unfold Reqb. destruct (Req_EM_T a b); split; intros; auto; try discriminate; contradiction. Qed.

Lemma tf2Acos_cos : forall a, @tf2Acos RS a = acos (Rmax (-1) (Rmin 1 a)).
Proof.
  intros a. unfold tf2Acos. runf.
  replace (IZR (-1) / 1) with (-1) by field. replace (1 / 1) with 1 by field.
  unfold Rltb. destruct (Rlt_dec a (-1)) as [H|H].
  - destruct (Rlt_dec 1 (-1)); [lra|]. f_equal. rewrite Rmin_right by lra. rewrite Rmax_left; lra.
  - destruct (Rlt_dec 1 a).
    + f_equal. rewrite Rmin_left by lra. rewrite Rmax_right; lra.
    + f_equal. rewrite Rmin_right by lra. rewrite Rmax_right; lra.
Qed.

Lemma acos_nonneg_range : forall a, 0 <= a <= 1 -> 0 <= acos a <= PI / 2.
Proof.
  intros a Ha. pose proof (acos_bound a) as [B1 B2]. split; [assumption|].
  destruct (Rle_dec (acos a) (PI / 2)) as [|H]; [assumption|exfalso].
  assert (C : cos (acos a) < 0) by (apply cos_lt_0; lra).
  rewrite cos_acos in C; lra.
Qed.

Lemma theta_range : forall a, 0 <= a -> 0 <= @tf2Acos RS a <= PI / 2.
Proof.
  intros a Ha. rewrite tf2Acos_cos. apply acos_nonneg_range.
  unfold Rmax, Rmin. destruct (Rle_dec 1 a); destruct (Rle_dec (-1) _); lra.
Qed.

(** Half the shortest-path angle: the slerp angle. *)
Definition slerp_theta (q1 q2 : rquat) : R := @qangleShortestPath RS q1 q2 / 2.

Lemma Rdiv_nonneg : forall a b, 0 <= a -> 0 <= b -> 0 <= a / b.
Proof.
  intros a b Ha Hb. destruct (Req_dec b 0) as [->|].
  - unfold Rdiv. rewrite Rinv_0. lra.
  - unfold Rdiv. apply Rmult_le_pos; [assumption|]. left. apply Rinv_0_lt_compat. lra.
Qed.

Lemma slerp_theta_range : forall q1 q2, 0 <= slerp_theta q1 q2 <= PI / 2.
Proof.
  intros q1 q2. unfold slerp_theta, qangleShortestPath. runf.
  destruct (Rltb (qdot q1 q2) (0 / 1)) eqn:E.
  - apply Rltb_true in E.
    assert (H : 0 <= @qdot RS q1 (qneg q2) / sqrt (qlength2 q1 * qlength2 q2)).
    { apply Rdiv_nonneg; [|apply sqrt_pos]. unfold qdot, qneg in *. cbn in *. lra. }
    pose proof (theta_range _ H). lra.
  - apply Rltb_false in E.
    assert (H : 0 <= @qdot RS q1 q2 / sqrt (qlength2 q1 * qlength2 q2)).
    { apply Rdiv_nonneg; [|apply sqrt_pos]. lra. }
    pose proof (theta_range _ H). lra.
Qed.

Lemma slerp_theta_sin : forall q1 q2, slerp_theta q1 q2 <> 0 -> 0 < sin (slerp_theta q1 q2).
Proof.
  intros q1 q2 H. pose proof (slerp_theta_range q1 q2). pose proof PI_RGT_0.
  apply sin_gt_0; lra.
Qed.

(** The four components of slerp in ordinary notation. *)
Lemma slerp_eq : forall (q1 q2 : rquat) (t : R),
  let th := slerp_theta q1 q2 in
  let sg := if Rlt_dec (@qdot RS q1 q2) 0 then -1 else 1 in
  @qslerp RS q1 q2 t =
    if Req_EM_T th 0 then q1
    else let a := sin ((1 - t) * th) / sin th in
         let b := sg * (sin (t * th) / sin th) in
         @Q4 RS (a * qx q1 + b * qx q2) (a * qy q1 + b * qy q2)
             (a * qz q1 + b * qz q2) (a * qw q1 + b * qw q2).
Proof.
  intros q1 q2 t th sg. unfold qslerp. runf.
  replace (qangleShortestPath q1 q2 / (2 / 1)) with th by (unfold th, slerp_theta; field).
  unfold Reqb, Rltb. replace (0 / 1) with 0 by field. replace (1 / 1) with 1 by field.
  destruct (Req_EM_T th 0) as [e|e]; cbn [negb]; [reflexivity|].
  assert (Hs : sin th <> 0). { pose proof (slerp_theta_sin q1 q2 e). unfold th. lra. }
  unfold sg. destruct (Rlt_dec (qdot q1 q2) 0); f_equal; field; assumption.
Qed.

Lemma quat_eta : forall (S : Scalar) (q : quat S), Q4 (qx q) (qy q) (qz q) (qw q) = q.
Proof. intros S [x y z w]. reflexivity. Qed.
Lemma vec_eta : forall (S : Scalar) (v : vec3 S), V3 (vx v) (vy v) (vz v) = v.
Proof. intros S [x y z]. reflexivity. Qed.

Lemma slerp_0 : forall (q1 q2 : rquat), @qslerp RS q1 q2 0 = q1.
Proof.
  intros q1 q2. rewrite slerp_eq. cbv zeta.
  destruct (Req_EM_T (slerp_theta q1 q2) 0) as [e|e]; [reflexivity|].
  assert (Hs : sin (slerp_theta q1 q2) <> 0) by (pose proof (slerp_theta_sin q1 q2 e); lra).
  replace ((1 - 0) * slerp_theta q1 q2) with (slerp_theta q1 q2) by ring.
  rewrite Rmult_0_l, sin_0.
  transitivity (@Q4 RS (qx q1) (qy q1) (qz q1) (qw q1)); [|apply quat_eta].
  f_equal; field; assumption.
Qed.

Lemma vinterp_0 : forall (v w : rvec), @vinterp RS v w 0 = v.
Proof. intros [x y z] w. unfold vinterp. runf. cbn. f_equal; field. Qed.

(** ** Unit quaternions *)
Definition qunit (q : rquat) : Prop := qx q * qx q + qy q * qy q + qz q * qz q + qw q * qw q = 1.
(** inner product of quaternions as 4-vectors *)
Definition qinner (p q : rquat) : R := qx p * qx q + qy p * qy q + qz p * qz q + qw p * qw q.

Lemma qdot_inner : forall p q, @qdot RS p q = qinner p q.
Proof. reflexivity. Qed.

(** Cauchy-Schwarz for unit quaternions. *)
Lemma qinner_bound : forall p q, qunit p -> qunit q -> -1 <= qinner p q <= 1.
Proof.
  unfold qunit, qinner. intros [a b c d] [e f g h]; cbn. intros Hp Hq.
  assert (H1 : 0 <= (a-e)*(a-e) + (b-f)*(b-f) + (c-g)*(c-g) + (d-h)*(d-h)).
  { pose proof (Rle_0_sqr (a-e)). pose proof (Rle_0_sqr (b-f)). pose proof (Rle_0_sqr (c-g)).
    pose proof (Rle_0_sqr (d-h)). unfold Rsqr in *. lra. }
  assert (H2 : 0 <= (a+e)*(a+e) + (b+f)*(b+f) + (c+g)*(c+g) + (d+h)*(d+h)).
  { pose proof (Rle_0_sqr (a+e)). pose proof (Rle_0_sqr (b+f)). pose proof (Rle_0_sqr (c+g)).
    pose proof (Rle_0_sqr (d+h)). unfold Rsqr in *. lra. }
  split; nra.
Qed.

(** Equality case. *)
Lemma qinner_eq : forall p q, qunit p -> qunit q -> qinner p q = 1 -> p = q.
Proof.
  unfold qunit, qinner. intros [a b c d] [e f g h]; cbn. intros Hp Hq E.
  assert (H1 : (a-e)*(a-e) + (b-f)*(b-f) + (c-g)*(c-g) + (d-h)*(d-h) = 0) by nra.
  assert (Ha := Rle_0_sqr (a-e)). assert (Hb := Rle_0_sqr (b-f)). assert (Hc := Rle_0_sqr (c-g)).
  assert (Hd := Rle_0_sqr (d-h)). unfold Rsqr in *.
  assert (forall x y, (x - y) * (x - y) = 0 -> x = y).
  { intros x y H. apply Rmult_integral in H. lra. }
  f_equal; auto; apply H; lra.
Qed.

Definition sgn_dot (p q : rquat) : R := if Rlt_dec (qinner p q) 0 then -1 else 1.

Lemma sgn_dot_abs : forall p q, sgn_dot p q * qinner p q = Rabs (qinner p q).
Proof.
  intros p q. unfold sgn_dot. destruct (Rlt_dec (qinner p q) 0).
  - rewrite Rabs_left by assumption. ring.
  - rewrite Rabs_right by lra. ring.
Qed.
Lemma sgn_dot_sq : forall p q, sgn_dot p q * sgn_dot p q = 1.
Proof. intros p q. unfold sgn_dot. destruct (Rlt_dec (qinner p q) 0); ring. Qed.

Lemma slerp_theta_unit : forall p q, qunit p -> qunit q ->
  slerp_theta p q = acos (Rabs (qinner p q)).
Proof.
  intros p q Hp Hq. pose proof (qinner_bound p q Hp Hq) as B.
  unfold slerp_theta, qangleShortestPath. runf.
  replace (0 / 1) with 0 by field. replace (2 / 1) with 2 by field.
  assert (L : @qlength2 RS p * @qlength2 RS q = 1).
  { change (@qlength2 RS p) with (qx p * qx p + qy p * qy p + qz p * qz p + qw p * qw p).
    change (@qlength2 RS q) with (qx q * qx q + qy q * qy q + qz q * qz q + qw q * qw q).
    unfold qunit in *. rewrite Hp, Hq. ring. }
  rewrite L, sqrt_1. change (@qdot RS p q) with (qinner p q).
  assert (A : 0 <= Rabs (qinner p q) <= 1).
  { split; [apply Rabs_pos|]. apply Rabs_le. lra. }
  assert (G : forall x, 0 <= x <= 1 -> @tf2Acos RS x = acos x).
  { intros x Hx. rewrite tf2Acos_cos. f_equal. rewrite Rmin_right by lra. apply Rmax_right. lra. }
  unfold Rltb. destruct (Rlt_dec (qinner p q) 0).
  - rewrite Rabs_left in * by assumption.
    replace (qdot p (qneg q) / 1) with (- qinner p q)
      by (unfold qdot, qneg, qinner; cbn; field).
    rewrite G by assumption. field.
  - rewrite Rabs_right in * by lra. replace (qinner p q / 1) with (qinner p q) by field.
    rewrite G by assumption. field.
Qed.

Lemma slerp_theta_cos : forall p q, qunit p -> qunit q ->
  cos (slerp_theta p q) = Rabs (qinner p q).
Proof.
  intros p q Hp Hq. rewrite slerp_theta_unit by assumption. apply cos_acos.
  pose proof (qinner_bound p q Hp Hq). pose proof (Rabs_pos (qinner p q)).
  split; [lra|]. apply Rabs_le. lra.
Qed.

Lemma slerp_theta_0 : forall p q, qunit p -> qunit q -> slerp_theta p q = 0 ->
  p = qscale q (sgn_dot p q).
Proof.
  intros p q Hp Hq E. pose proof (slerp_theta_cos p q Hp Hq) as C. rewrite E, cos_0 in C.
  apply qinner_eq; [assumption| |].
  - pose proof (sgn_dot_sq p q) as Q. unfold qunit in *. unfold qscale. runf. cbn [qx qy qz qw].
    replace (qx q * sgn_dot p q * (qx q * sgn_dot p q) + qy q * sgn_dot p q * (qy q * sgn_dot p q) +
      qz q * sgn_dot p q * (qz q * sgn_dot p q) + qw q * sgn_dot p q * (qw q * sgn_dot p q))
      with ((sgn_dot p q * sgn_dot p q) * (qx q * qx q + qy q * qy q + qz q * qz q + qw q * qw q)) by ring.
    rewrite Q, Hq. ring.
  - rewrite C, <- sgn_dot_abs. unfold qscale, qinner. runf. cbn [qx qy qz qw]. ring.
Qed.

(** Constant angular rate: the angle (on the 3-sphere) between two interpolants is
    proportional to the difference of the ratios. *)
Lemma slerp_rate : forall p q s t, qunit p -> qunit q ->
  qinner (@qslerp RS p q s) (@qslerp RS p q t) = cos ((s - t) * slerp_theta p q).
Proof.
  intros p q s t Hp Hq. rewrite !slerp_eq. cbv zeta. change (@qdot RS p q) with (qinner p q).
  change (if Rlt_dec (qinner p q) 0 then -1 else 1) with (sgn_dot p q).
  pose proof (sgn_dot_abs p q) as Sa. pose proof (sgn_dot_sq p q) as Sq.
  pose proof (slerp_theta_cos p q Hp Hq) as C.
  set (th := slerp_theta p q) in *. set (sg := sgn_dot p q) in *.
  destruct (Req_EM_T th 0) as [e|e].
  - rewrite e, Rmult_0_r, cos_0. exact Hp.
  - assert (Hs : sin th <> 0). { pose proof (slerp_theta_sin p q e). unfold th. lra. }
    set (A1 := sin ((1 - s) * th)). set (A2 := sin ((1 - t) * th)).
    set (B1 := sin (s * th)). set (B2 := sin (t * th)).
    unfold qinner at 1. cbn [qx qy qz qw].
    match goal with |- ?L = _ =>
      replace L with ((A1 * A2 * (qx p * qx p + qy p * qy p + qz p * qz p + qw p * qw p)
         + (sg * sg) * B1 * B2 * (qx q * qx q + qy q * qy q + qz q * qz q + qw q * qw q)
         + (A1 * B2 + B1 * A2) * (sg * qinner p q)) / (sin th * sin th))
        by (unfold qinner; field; assumption) end.
    rewrite Sq, Sa, <- C. unfold qunit in Hp, Hq. rewrite Hp, Hq.
    replace ((s - t) * th) with (s * th - t * th) by ring. rewrite cos_minus. fold B1 B2.
    assert (E1 : A1 = sin th * cos (s * th) - cos th * B1).
    { unfold A1, B1. replace ((1 - s) * th) with (th - s * th) by ring. apply sin_minus. }
    assert (E2 : A2 = sin th * cos (t * th) - cos th * B2).
    { unfold A2, B2. replace ((1 - t) * th) with (th - t * th) by ring. apply sin_minus. }
    rewrite E1, E2.
    assert (P : cos th * cos th = 1 - sin th * sin th).
    { pose proof (sin2_cos2 th) as H. unfold Rsqr in H. lra. }
    assert (Hss : sin th * sin th <> 0) by (apply Rmult_integral_contrapositive; auto).
    apply (Rmult_eq_reg_r (sin th * sin th)); [|assumption].
    unfold Rdiv. rewrite Rmult_assoc, Rinv_l, Rmult_1_r by assumption.
    replace ((sin th * cos (s * th) - cos th * B1) * (sin th * cos (t * th) - cos th * B2) * 1 +
      1 * B1 * B2 * 1 +
      ((sin th * cos (s * th) - cos th * B1) * B2 + B1 * (sin th * cos (t * th) - cos th * B2)) * cos th)
    with (sin th * sin th * (cos (s * th) * cos (t * th)) + B1 * B2 * (1 - cos th * cos th)) by ring.
    rewrite P. ring.
Qed.

Lemma slerp_unit : forall p q t, qunit p -> qunit q -> qunit (@qslerp RS p q t).
Proof.
  intros p q t Hp Hq. pose proof (slerp_rate p q t t Hp Hq) as H.
  replace ((t - t) * slerp_theta p q) with 0 in H by ring. rewrite cos_0 in H. exact H.
Qed.

Lemma slerp_1 : forall p q, qunit p -> qunit q ->
  @qslerp RS p q 1 = if Rlt_dec (qinner p q) 0 then qneg q else q.
Proof.
  intros p q Hp Hq.
  assert (G : @qslerp RS p q 1 = qscale q (sgn_dot p q)).
  { rewrite slerp_eq. cbv zeta. change (@qdot RS p q) with (qinner p q).
    change (if Rlt_dec (qinner p q) 0 then -1 else 1) with (sgn_dot p q).
    destruct (Req_EM_T (slerp_theta p q) 0) as [e|e]; [apply slerp_theta_0; assumption|].
    assert (Hs : sin (slerp_theta p q) <> 0) by (pose proof (slerp_theta_sin p q e); lra).
    replace ((1 - 1) * slerp_theta p q) with 0 by ring. rewrite Rmult_1_l, sin_0.
    unfold qscale. runf. f_equal; field; assumption. }
  rewrite G. unfold sgn_dot, qscale, qneg. runf.
  destruct (Rlt_dec (qinner p q) 0).
  - f_equal; ring.
  - transitivity (@Q4 RS (qx q) (qy q) (qz q) (qw q)); [|apply quat_eta]. f_equal; ring.
Qed.

Lemma vinterp_convex : forall (v w : rvec) r,
  vx (@vinterp RS v w r) = (1 - r) * vx v + r * vx w /\
  vy (@vinterp RS v w r) = (1 - r) * vy v + r * vy w /\
  vz (@vinterp RS v w r) = (1 - r) * vz v + r * vz w.
Proof. intros v w r. unfold vinterp. runf. cbn. repeat split; field. Qed.
