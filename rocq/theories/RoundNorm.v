(** * Euclidean norms in R^4, for the rounding-error analysis *)
From Coq Require Import ZArith Bool Reals Lia Lra Psatz.
From Verif Require Import Scalar LinearMath Instances RealQuat SpecCore SpecRound.
Open Scope R_scope.
Ltac rr := cbn; cbn [RS scar] in *; match goal with |- @eq _ ?a ?b => change (@eq R a b) end; ring.

Definition N4 (a b c d : R) : R := sqrt (a * a + b * b + c * c + d * d).
Lemma ss_pos : forall a b c d : R, 0 <= a * a + b * b + c * c + d * d.
Proof. intros. nra. Qed.
Lemma N4_pos : forall a b c d, 0 <= N4 a b c d.
Proof. intros. apply sqrt_pos. Qed.
Lemma N4_sq : forall a b c d, N4 a b c d * N4 a b c d = a * a + b * b + c * c + d * d.
Proof. intros. apply sqrt_sqrt, ss_pos. Qed.
Lemma le_sq : forall a b, 0 <= b -> a * a <= b * b -> a <= b.
Proof. intros a b H1 H2. destruct (Rle_or_lt a b); [assumption|nra]. Qed.
Lemma N4_mono : forall a b c d a' b' c' d', Rabs a <= a' -> Rabs b <= b' -> Rabs c <= c' -> Rabs d <= d' -> N4 a b c d <= N4 a' b' c' d'.
Proof.
  assert (S : forall x y, Rabs x <= y -> x * x <= y * y).
  { intros x y H. rewrite <- (Rabs_pos_eq (x * x)) by nra. rewrite Rabs_mult. pose proof (Rabs_pos x). nra. }
  intros. apply sqrt_le_1_alt. pose proof (S _ _ H). pose proof (S _ _ H0). pose proof (S _ _ H1). pose proof (S _ _ H2). lra.
Qed.
Lemma N4_cauchy : forall a b c d e f g h, a * e + b * f + c * g + d * h <= N4 a b c d * N4 e f g h.
Proof.
  intros. apply le_sq; [apply Rmult_le_pos; apply N4_pos|].
  replace (N4 a b c d * N4 e f g h * (N4 a b c d * N4 e f g h)) with ((N4 a b c d * N4 a b c d) * (N4 e f g h * N4 e f g h)) by ring.
  rewrite !N4_sq.
  assert (L : (a * a + b * b + c * c + d * d) * (e * e + f * f + g * g + h * h) - (a * e + b * f + c * g + d * h) * (a * e + b * f + c * g + d * h)
    = (a * f - b * e) * (a * f - b * e) + (a * g - c * e) * (a * g - c * e) + (a * h - d * e) * (a * h - d * e)
      + (b * g - c * f) * (b * g - c * f) + (b * h - d * f) * (b * h - d * f) + (c * h - d * g) * (c * h - d * g)) by ring.
  assert (P : forall x : R, 0 <= x * x) by (intros; nra).
  pose proof (P (a * f - b * e)). pose proof (P (a * g - c * e)). pose proof (P (a * h - d * e)).
  pose proof (P (b * g - c * f)). pose proof (P (b * h - d * f)). pose proof (P (c * h - d * g)). lra.
Qed.
Lemma N4_abs : forall a b c d, N4 (Rabs a) (Rabs b) (Rabs c) (Rabs d) = N4 a b c d.
Proof. intros. unfold N4. f_equal. assert (E : forall x, Rabs x * Rabs x = x * x) by (intros x; rewrite <- Rabs_mult; apply Rabs_pos_eq; nra). rewrite !E. reflexivity. Qed.
Lemma N4_cauchy_abs : forall a b c d e f g h,
  Rabs (a * e) + Rabs (b * f) + Rabs (c * g) + Rabs (d * h) <= N4 a b c d * N4 e f g h.
Proof. intros. rewrite !Rabs_mult, <- (N4_abs a b c d), <- (N4_abs e f g h). apply N4_cauchy. Qed.
Lemma N4_triangle : forall a b c d e f g h, N4 (a + e) (b + f) (c + g) (d + h) <= N4 a b c d + N4 e f g h.
Proof.
  intros. apply le_sq; [pose proof (N4_pos a b c d); pose proof (N4_pos e f g h); lra|].
  pose proof (N4_sq a b c d) as E1. pose proof (N4_sq e f g h) as E2.
  rewrite N4_sq.
  replace ((N4 a b c d + N4 e f g h) * (N4 a b c d + N4 e f g h)) with (N4 a b c d * N4 a b c d + N4 e f g h * N4 e f g h + 2 * (N4 a b c d * N4 e f g h)) by ring.
  rewrite E1, E2. pose proof (N4_cauchy a b c d e f g h). lra.
Qed.
Lemma N4_scale : forall k a b c d, N4 (k * a) (k * b) (k * c) (k * d) = Rabs k * N4 a b c d.
Proof.
  intros. unfold N4. replace (k * a * (k * a) + k * b * (k * b) + k * c * (k * c) + k * d * (k * d)) with ((k * k) * (a * a + b * b + c * c + d * d)) by ring.
  rewrite sqrt_mult by (try nra; apply ss_pos). f_equal. rewrite <- sqrt_Rsqr_abs. reflexivity.
Qed.
Lemma N4_comp : forall a b c d, Rabs a <= N4 a b c d /\ Rabs b <= N4 a b c d /\ Rabs c <= N4 a b c d /\ Rabs d <= N4 a b c d.
Proof.
  intros. pose proof (N4_sq a b c d) as E. pose proof (N4_pos a b c d).
  assert (K : forall x, x * x <= N4 a b c d * N4 a b c d -> Rabs x <= N4 a b c d).
  { intros x Hx. apply le_sq; [assumption|]. rewrite <- Rabs_mult, Rabs_pos_eq by nra. exact Hx. }
  repeat split; apply K; rewrite E; nra.
Qed.
Lemma N4_same : forall e, 0 <= e -> N4 e e e e = 2 * e.
Proof. intros. unfold N4. replace (e * e + e * e + e * e + e * e) with ((2 * e) * (2 * e)) by ring. apply sqrt_square. lra. Qed.

(** quaternions *)
Lemma qnorm_N4 : forall q : quat RS, qnorm q = N4 (qx q) (qy q) (qz q) (qw q).
Proof. reflexivity. Qed.
Lemma vnorm_N4 : forall v : vec3 RS, vnorm v = N4 (vx v) (vy v) (vz v) 0.
Proof. intros [x y z]. unfold vnorm, N4. cbn [vx vy vz]. f_equal. ring. Qed.
Lemma qnorm_pos : forall q : quat RS, 0 <= qnorm q.
Proof. intros. apply N4_pos. Qed.
Lemma vnorm_pos : forall v : vec3 RS, 0 <= vnorm v.
Proof. intros. rewrite vnorm_N4. apply N4_pos. Qed.
Lemma qnorm_sqrt : forall q : quat RS, qnorm q = sqrt (qlength2 q).
Proof. reflexivity. Qed.
Lemma qlen_pos : forall q : quat RS, 0 <= qlength2 q.
Proof. intros [x y z w]. cbn. apply ss_pos. Qed.
Lemma qnorm_mul : forall p q : quat RS, qnorm (qmul p q) = qnorm p * qnorm q.
Proof. intros. rewrite !qnorm_sqrt, qlength2_mul. apply sqrt_mult; apply qlen_pos. Qed.
Lemma qnorm_inv : forall q : quat RS, qnorm (qinv q) = qnorm q.
Proof. intros. rewrite !qnorm_sqrt, qlength2_inv. reflexivity. Qed.
Lemma qnorm_pure : forall v : vec3 RS, qnorm (qpure v) = vnorm v.
Proof. intros. rewrite qnorm_N4, vnorm_N4. reflexivity. Qed.
Lemma vnorm_rotate : forall (q : quat RS) v, vnorm (quatRotate q v) = qnorm q * qnorm q * vnorm v.
Proof.
  intros. rewrite <- qnorm_pure, <- quatRotate_pure, !qnorm_mul, qnorm_inv, qnorm_pure. ring.
Qed.
Lemma vnorm_neg : forall v : vec3 RS, vnorm (vneg v) = vnorm v.
Proof. intros [x y z]. unfold vnorm. cbn. f_equal. ring. Qed.
Lemma vnorm_add : forall v w : vec3 RS, vnorm (vadd v w) <= vnorm v + vnorm w.
Proof.
  intros [a b c] [d e f]. rewrite !vnorm_N4. cbn [vx vy vz vadd]. cbn.
  eapply Rle_trans; [|apply N4_triangle]. rewrite Rplus_0_r. apply Rle_refl.
Qed.
Lemma qdist_sub : forall p q : quat RS, qdist p q = qnorm (qsub p q).
Proof. reflexivity. Qed.
Lemma vdist_sub : forall p q : vec3 RS, vdist p q = vnorm (vsub p q).
Proof. reflexivity. Qed.
Lemma qdist_pos : forall p q, 0 <= qdist p q.
Proof. intros. apply qnorm_pos. Qed.
Lemma vdist_pos : forall p q, 0 <= vdist p q.
Proof. intros. apply vnorm_pos. Qed.
Lemma qdist_triangle : forall p q r, qdist p r <= qdist p q + qdist q r.
Proof.
  intros [a b c d] [e f g h] [i j k l]. unfold qdist. rewrite !qnorm_N4. cbn [qx qy qz qw].
  eapply Rle_trans; [|apply N4_triangle]. right. f_equal; rr.
Qed.
Lemma vdist_triangle : forall p q r, vdist p r <= vdist p q + vdist q r.
Proof.
  intros [a b c] [e f g] [i j k]. unfold vdist. rewrite !vnorm_N4. cbn [vx vy vz].
  eapply Rle_trans; [|apply N4_triangle]. right. f_equal; rr.
Qed.
Lemma qnorm_dist : forall p q, qnorm p <= qnorm q + qdist p q.
Proof.
  intros [a b c d] [e f g h]. unfold qdist. rewrite !qnorm_N4. cbn [qx qy qz qw].
  eapply Rle_trans; [|apply N4_triangle]. right. f_equal; rr.
Qed.
Lemma vnorm_dist : forall p q, vnorm p <= vnorm q + vdist p q.
Proof.
  intros [a b c] [e f g]. unfold vdist. rewrite !vnorm_N4. cbn [vx vy vz].
  eapply Rle_trans; [|apply N4_triangle]. right. f_equal; rr.
Qed.
(** products are Lipschitz *)
Lemma qdist_mul_r : forall p q r : quat RS, qdist (qmul p q) (qmul p r) = qnorm p * qdist q r.
Proof.
  intros. rewrite !qdist_sub, <- qnorm_mul. f_equal.
  destruct p as [a b c d], q as [e f g h], r as [i j k l]. unfold qsub, qmul. cbn [qx qy qz qw]. f_equal; rr.
Qed.
Lemma qdist_mul_l : forall p q r : quat RS, qdist (qmul p r) (qmul q r) = qdist p q * qnorm r.
Proof.
  intros. rewrite !qdist_sub, <- qnorm_mul. f_equal.
  destruct p as [a b c d], q as [e f g h], r as [i j k l]. unfold qsub, qmul. cbn [qx qy qz qw]. f_equal; rr.
Qed.
Lemma qdist_inv : forall p q : quat RS, qdist (qinv p) (qinv q) = qdist p q.
Proof.
  intros [a b c d] [e f g h]. unfold qdist, qnorm. cbn [qx qy qz qw qinv]. f_equal. rr.
Qed.
Lemma qdist_pure : forall v w : vec3 RS, qdist (qpure v) (qpure w) = vdist v w.
Proof. intros [a b c] [d e f]. unfold qdist, vdist, qnorm, vnorm. cbn [qx qy qz qw qpure vx vy vz]. f_equal. rr. Qed.
Lemma vdist_rotate : forall (p q : quat RS) v w,
  vdist (quatRotate p v) (quatRotate q w) <= qnorm p * qnorm p * vdist v w + (qnorm p + qnorm q) * qdist p q * vnorm w.
Proof.
  intros. rewrite <- (qdist_pure (quatRotate p v)), <- !quatRotate_pure.
  eapply Rle_trans; [apply (qdist_triangle _ (qmul (qmul p (qpure w)) (qinv p)))|].
  eapply Rle_trans; [apply Rplus_le_compat_l, (qdist_triangle _ (qmul (qmul p (qpure w)) (qinv q)))|].
  rewrite qdist_mul_l, qdist_mul_r, qdist_pure, qnorm_inv, qdist_mul_r, qdist_inv, qnorm_mul, qnorm_pure, qdist_mul_l, qdist_mul_l, qnorm_inv, qnorm_pure.
  right. ring.
Qed.
Lemma vdist_add : forall a b c d : vec3 RS, vdist (vadd a b) (vadd c d) <= vdist a c + vdist b d.
Proof.
  intros [a b c] [d e f] [g h i] [j k l]. unfold vdist. rewrite !vnorm_N4. cbn [vx vy vz vadd].
  eapply Rle_trans; [|apply N4_triangle]. right. f_equal; rr.
Qed.
Lemma vdist_neg : forall a b : vec3 RS, vdist (vneg a) (vneg b) = vdist a b.
Proof. intros [a b c] [d e f]. unfold vdist, vnorm. cbn [vx vy vz vneg]. f_equal. rr. Qed.
Lemma qdist_self : forall q, qdist q q = 0.
Proof. intros [a b c d]. unfold qdist, qnorm. cbn [qx qy qz qw]. rewrite <- sqrt_0. f_equal. rr. Qed.
Lemma vdist_self : forall v, vdist v v = 0.
Proof. intros [a b c]. unfold vdist, vnorm. cbn [vx vy vz]. rewrite <- sqrt_0. f_equal. rr. Qed.
Lemma qnorm_id : qnorm (qidentity : quat RS) = 1.
Proof. rewrite qnorm_sqrt, qlength2_id. apply sqrt_1. Qed.
Lemma vnorm_zero : vnorm (vzero : vec3 RS) = 0.
Proof. unfold vnorm. cbn. replace (0 / 1) with 0 by field. rewrite Rmult_0_l, !Rplus_0_r. apply sqrt_0. Qed.
