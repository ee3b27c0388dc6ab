(** * Quaternion, rotation and rigid-motion algebra over the real numbers *)
From Coq Require Import ZArith Bool Reals Lra Psatz List.
From Verif Require Import RosTime Scalar LinearMath Cache BufferCore SpecCore Instances RealSlerp.
Import ListNotations.
Open Scope R_scope.

Notation rpose := (pose RS).

(** reduce an equation between vectors / quaternions / matrices to equations between components *)
Ltac comps :=
  repeat match goal with
  | v : vec3 _ |- _ => destruct v
  | q : quat _ |- _ => destruct q
  | m : mat3 _ |- _ => destruct m
  | t : xform _ |- _ => destruct t
  end.
Ltac lm_unfold :=
  unfold xmul, xapply, xinverse, xinverseTimes, xinvXform, xidentity, xfromQuat, xmul_assign,
    mmul, mmulv, vmulm, mtranspose, mtransposeTimes, mtimesTranspose, mdet, midentity, mtdotx, mtdoty, mtdotz,
    quatRotate, qmul, qmulv, vmulq, qinv, qneg, qadd, qsub, qscale, qidentity, qlength2, qdot,
    vadd, vsub, vneg, vscale, vcross, vtriple, vlength2, vdot, vzero, vinterp in *;
  cbn [vx vy vz qx qy qz qw m0 m1 m2 xbasis xorigin] in *; runf.
Ltac lm_ring := intros; comps; lm_unfold; try f_equal; try f_equal; try ring; try field; try lra.

Definition unitq (q : rquat) : Prop := qlength2 q = 1.

(** ** Quaternions *)
Lemma one1 : 1 / 1 = 1. Proof. field. Qed.
Lemma zero1 : 0 / 1 = 0. Proof. field. Qed.

Lemma qmul_assoc : forall p q r : rquat, qmul p (qmul q r) = qmul (qmul p q) r.
Proof. intros [] [] []. lm_unfold. f_equal; ring. Qed.
Lemma qmul_id_l : forall q : rquat, qmul qidentity q = q.
Proof. intros []. lm_unfold. f_equal; field. Qed.
Lemma qmul_id_r : forall q : rquat, qmul q qidentity = q.
Proof. intros []. lm_unfold. f_equal; field. Qed.
Lemma qlength2_mul : forall p q : rquat, qlength2 (qmul p q) = qlength2 p * qlength2 q.
Proof. intros [] []. lm_unfold. ring. Qed.
Lemma qlength2_inv : forall q : rquat, qlength2 (qinv q) = qlength2 q.
Proof. intros []. lm_unfold. ring. Qed.
Lemma qlength2_id : qlength2 (qidentity : rquat) = 1.
Proof. lm_unfold. field. Qed.
Lemma qlength2_neg : forall q : rquat, qlength2 (qneg q) = qlength2 q.
Proof. intros []. lm_unfold. ring. Qed.
Lemma qinv_inv : forall q : rquat, qinv (qinv q) = q.
Proof. intros []. lm_unfold. f_equal; ring. Qed.
Lemma qinv_mul : forall p q : rquat, qinv (qmul p q) = qmul (qinv q) (qinv p).
Proof. intros [] []. lm_unfold. f_equal; ring. Qed.
Lemma qmul_inv_l_gen : forall q : rquat, qmul (qinv q) q = @Q4 RS 0 0 0 (qlength2 q).
Proof. intros []. lm_unfold. f_equal; ring. Qed.
Lemma qmul_inv_r_gen : forall q : rquat, qmul q (qinv q) = @Q4 RS 0 0 0 (qlength2 q).
Proof. intros []. lm_unfold. f_equal; ring. Qed.
Lemma qidentity_eq : (qidentity : rquat) = @Q4 RS 0 0 0 1.
Proof. lm_unfold. f_equal; field. Qed.
Lemma qmul_inv_l : forall q, unitq q -> qmul (qinv q) q = qidentity.
Proof. intros q H. rewrite qmul_inv_l_gen, qidentity_eq, H. reflexivity. Qed.
Lemma qmul_inv_r : forall q, unitq q -> qmul q (qinv q) = qidentity.
Proof. intros q H. rewrite qmul_inv_r_gen, qidentity_eq, H. reflexivity. Qed.

Lemma unitq_mul : forall p q, unitq p -> unitq q -> unitq (qmul p q).
Proof. unfold unitq. intros p q Hp Hq. rewrite qlength2_mul, Hp, Hq. exact (Rmult_1_l 1). Qed.
Lemma unitq_inv : forall q, unitq q -> unitq (qinv q).
Proof. unfold unitq. intros q H. rewrite qlength2_inv. exact H. Qed.
Lemma unitq_id : unitq qidentity.
Proof. exact qlength2_id. Qed.

(** ** Rotation of vectors *)
Definition qpure (v : rvec) : rquat := @Q4 RS (vx v) (vy v) (vz v) 0.
Lemma quatRotate_pure : forall (q : rquat) (v : rvec), qmul (qmul q (qpure v)) (qinv q) = qpure (quatRotate q v).
Proof. intros [] []. unfold qpure. lm_unfold. f_equal; ring. Qed.
Lemma qpure_inj : forall v w, qpure v = qpure w -> v = w.
Proof. intros [a b c] [d e f] H. inversion H. reflexivity. Qed.
Lemma quatRotate_mul : forall (p q : rquat) (v : rvec), quatRotate (qmul p q) v = quatRotate p (quatRotate q v).
Proof.
  intros p q v. apply qpure_inj. rewrite <- !quatRotate_pure, qinv_mul, !qmul_assoc. reflexivity.
Qed.
Lemma quatRotate_id : forall v : rvec, quatRotate qidentity v = v.
Proof. intros []. lm_unfold. f_equal; field. Qed.
Lemma quatRotate_add : forall (q : rquat) (v w : rvec), quatRotate q (vadd v w) = vadd (quatRotate q v) (quatRotate q w).
Proof. intros [] [] []. lm_unfold. f_equal; ring. Qed.
Lemma quatRotate_neg : forall (q : rquat) (v : rvec), quatRotate q (vneg v) = vneg (quatRotate q v).
Proof. intros [] []. lm_unfold. f_equal; ring. Qed.
Lemma quatRotate_scale : forall (q : rquat) (v : rvec) (a : R), quatRotate q (vscale v (a : RS)) = vscale (quatRotate q v) (a : RS).
Proof. intros [] [] a. lm_unfold. f_equal; ring. Qed.
Lemma quatRotate_zero : forall q : rquat, quatRotate q vzero = vzero.
Proof. intros []. lm_unfold. f_equal; field. Qed.
Lemma quatRotate_dot_gen : forall (q : rquat) (v w : rvec),
  vdot (quatRotate q v) (quatRotate q w) = qlength2 q * qlength2 q * vdot v w.
Proof. intros [] [] []. lm_unfold. ring. Qed.
Lemma quatRotate_dot : forall q (v w : rvec), unitq q -> vdot (quatRotate q v) (quatRotate q w) = vdot v w.
Proof. intros q v w H. rewrite quatRotate_dot_gen, H. runf. rewrite !Rmult_1_l. reflexivity. Qed.
Lemma quatRotate_cross_gen : forall (q : rquat) (v w : rvec),
  vcross (quatRotate q v) (quatRotate q w) = vscale (quatRotate q (vcross v w)) (qlength2 q : RS).
Proof. intros [] [] []. lm_unfold. f_equal; ring. Qed.
Lemma vscale_1 : forall v : rvec, vscale v (1 : RS) = v.
Proof. intros []. lm_unfold. f_equal; ring. Qed.
Lemma quatRotate_cross : forall q (v w : rvec), unitq q -> vcross (quatRotate q v) (quatRotate q w) = quatRotate q (vcross v w).
Proof. intros q v w H. rewrite quatRotate_cross_gen, H. apply vscale_1. Qed.
Lemma quatRotate_qneg : forall (q : rquat) (v : rvec), quatRotate (qneg q) v = quatRotate q v.
Proof. intros [] []. lm_unfold. f_equal; ring. Qed.
Lemma quatRotate_inv_l : forall q (v : rvec), unitq q -> quatRotate (qinv q) (quatRotate q v) = v.
Proof. intros q v H. rewrite <- quatRotate_mul, qmul_inv_l, quatRotate_id by assumption. reflexivity. Qed.
Lemma quatRotate_inv_r : forall q (v : rvec), unitq q -> quatRotate q (quatRotate (qinv q) v) = v.
Proof. intros q v H. rewrite <- quatRotate_mul, qmul_inv_r, quatRotate_id by assumption. reflexivity. Qed.

(** ** Vectors *)
Lemma vadd_comm : forall v w : rvec, vadd v w = vadd w v.
Proof. intros [] []. lm_unfold. f_equal; ring. Qed.
Lemma vadd_assoc : forall u v w : rvec, vadd u (vadd v w) = vadd (vadd u v) w.
Proof. intros [] [] []. lm_unfold. f_equal; ring. Qed.
Lemma vadd_zero_l : forall v : rvec, vadd vzero v = v.
Proof. intros []. lm_unfold. f_equal; field. Qed.
Lemma vadd_zero_r : forall v : rvec, vadd v vzero = v.
Proof. intros []. lm_unfold. f_equal; field. Qed.
Lemma vadd_neg : forall v : rvec, vadd v (vneg v) = vzero.
Proof. intros []. lm_unfold. f_equal; field. Qed.
Lemma vneg_add : forall v w : rvec, vneg (vadd v w) = vadd (vneg v) (vneg w).
Proof. intros [] []. lm_unfold. f_equal; ring. Qed.
Lemma vneg_neg : forall v : rvec, vneg (vneg v) = v.
Proof. intros []. lm_unfold. f_equal; ring. Qed.

(** ** Rigid motions *)
Definition unitp (p : rpose) : Prop := unitq (fst p).
Lemma pose_mul_assoc : forall a b c : rpose, pose_mul a (pose_mul b c) = pose_mul (pose_mul a b) c.
Proof.
  intros [qa ta] [qb tb] [qc tc]. unfold pose_mul. cbn [fst snd]. rewrite qmul_assoc, quatRotate_mul, quatRotate_add.
  rewrite <- vadd_assoc. reflexivity.
Qed.
Lemma pose_mul_id_l : forall a : rpose, pose_mul pose_id a = a.
Proof. intros [q t]. unfold pose_mul, pose_id. cbn [fst snd]. rewrite qmul_id_l, quatRotate_id, vadd_zero_r. reflexivity. Qed.
Lemma pose_mul_id_r : forall a : rpose, pose_mul a pose_id = a.
Proof. intros [q t]. unfold pose_mul, pose_id. cbn [fst snd]. rewrite qmul_id_r, quatRotate_zero, vadd_zero_l. reflexivity. Qed.
Lemma pose_inv_l : forall a, unitp a -> pose_mul (pose_inv a) a = pose_id.
Proof.
  intros [q t] H. unfold pose_mul, pose_inv, pose_id, unitp in *. cbn [fst snd] in *. rewrite qmul_inv_l by assumption.
  rewrite quatRotate_neg, vadd_neg. reflexivity.
Qed.
Lemma pose_inv_r : forall a, unitp a -> pose_mul a (pose_inv a) = pose_id.
Proof.
  intros [q t] H. unfold pose_mul, pose_inv, pose_id, unitp in *. cbn [fst snd] in *. rewrite qmul_inv_r by assumption.
  rewrite quatRotate_inv_r by assumption. rewrite vadd_comm, vadd_neg. reflexivity.
Qed.
Lemma unitp_mul : forall a b, unitp a -> unitp b -> unitp (pose_mul a b).
Proof. intros a b. apply unitq_mul. Qed.
Lemma unitp_inv : forall a, unitp a -> unitp (pose_inv a).
Proof. intros a. apply unitq_inv. Qed.
Lemma unitp_id : unitp pose_id.
Proof. exact unitq_id. Qed.
Lemma pose_inv_unique : forall a b, unitp a -> pose_mul b a = pose_id -> b = pose_inv a.
Proof.
  intros a b Ha H. rewrite <- (pose_mul_id_r b), <- (pose_inv_r a Ha), pose_mul_assoc, H, pose_mul_id_l. reflexivity.
Qed.
Lemma pose_inv_mul : forall a b, unitp a -> unitp b -> pose_inv (pose_mul a b) = pose_mul (pose_inv b) (pose_inv a).
Proof.
  intros a b Ha Hb. symmetry. apply pose_inv_unique; [apply unitp_mul; assumption|].
  rewrite pose_mul_assoc, <- (pose_mul_assoc (pose_inv b)), pose_inv_l by assumption.
  rewrite pose_mul_id_r, pose_inv_l by assumption. reflexivity.
Qed.
Lemma pose_inv_inv : forall a, unitp a -> pose_inv (pose_inv a) = a.
Proof. intros a Ha. symmetry. apply pose_inv_unique; [apply unitp_inv; assumption|]. apply pose_inv_r. assumption. Qed.
Lemma pose_inv_id : pose_inv pose_id = (pose_id : rpose).
Proof. symmetry. apply pose_inv_unique; [exact unitp_id|]. apply pose_mul_id_l. Qed.
