(** * Rotation matrices and rigid transforms over the real numbers *)
From Coq Require Import ZArith Bool Reals Lra Psatz List.
From Verif Require Import RosTime Scalar LinearMath Cache BufferCore SpecCore Instances RealSlerp RealQuat SpecReal.
Import ListNotations.
Open Scope R_scope.

(** ** Matrix algebra *)
Ltac meq := repeat match goal with |- @M3 _ _ _ _ = @M3 _ _ _ _ => apply f_equal3 | |- @V3 _ _ _ _ = @V3 _ _ _ _ => apply f_equal3 end; cbn [RS scar].
Ltac mring := lm_unfold; meq; ring.

Lemma mmul_assoc : forall a b c : rmat, mmul a (mmul b c) = mmul (mmul a b) c.
Proof. intros [[] [] []] [[] [] []] [[] [] []]. mring. Qed.
Lemma mmul_id_l : forall a : rmat, mmul midentity a = a.
Proof. intros [[] [] []]. lm_unfold; meq; field. Qed.
Lemma mmul_id_r : forall a : rmat, mmul a midentity = a.
Proof. intros [[] [] []]. lm_unfold; meq; field. Qed.
Lemma mmulv_mul : forall (a b : rmat) (v : rvec), mmulv (mmul a b) v = mmulv a (mmulv b v).
Proof. intros [[] [] []] [[] [] []] []. mring. Qed.
Lemma mmulv_id : forall v : rvec, mmulv midentity v = v.
Proof. intros []. lm_unfold; meq; field. Qed.
Lemma mmulv_add : forall (a : rmat) (v w : rvec), mmulv a (vadd v w) = vadd (mmulv a v) (mmulv a w).
Proof. intros [[] [] []] [] []. mring. Qed.
Lemma mmulv_neg : forall (a : rmat) (v : rvec), mmulv a (vneg v) = vneg (mmulv a v).
Proof. intros [[] [] []] []. mring. Qed.
Lemma mmulv_zero : forall (a : rmat), mmulv a vzero = vzero.
Proof. intros [[] [] []]. lm_unfold; meq; field. Qed.
Lemma mtranspose_mul : forall a b : rmat, mtranspose (mmul a b) = mmul (mtranspose b) (mtranspose a).
Proof. intros [[] [] []] [[] [] []]. mring. Qed.
Lemma mtranspose_inv : forall a : rmat, mtranspose (mtranspose a) = a.
Proof. intros [[] [] []]. reflexivity. Qed.
Lemma mtransposeTimes_eq : forall a b : rmat, mtransposeTimes a b = mmul (mtranspose a) b.
Proof. intros [[] [] []] [[] [] []]. mring. Qed.
Lemma mtimesTranspose_eq : forall a b : rmat, mtimesTranspose a b = mmul a (mtranspose b).
Proof. intros [[] [] []] [[] [] []]. mring. Qed.
Lemma vmulm_eq : forall (v : rvec) (a : rmat), vmulm v a = mmulv (mtranspose a) v.
Proof. intros [] [[] [] []]. mring. Qed.

(** ** Rotations *)
Definition V9 (a b c d e f g h i : R) : rmat := @M3 RS (@V3 RS a b c) (@V3 RS d e f) (@V3 RS g h i).

Lemma midentity_eq : (midentity : rmat) = V9 1 0 0 0 1 0 0 0 1.
Proof. unfold V9. lm_unfold; meq; field. Qed.

Lemma rotation_cofactors : forall a b c d e f g h i, rotation (V9 a b c d e f g h i) ->
  (a = e * i - f * h /\ b = f * g - d * i /\ c = d * h - e * g) /\
  (d = c * h - b * i /\ e = a * i - c * g /\ f = b * g - a * h) /\
  (g = b * f - c * e /\ h = c * d - a * f /\ i = a * e - b * d).
Proof.
  intros a b c d e f g h i ((H1 & H2 & H3) & (H4 & H5 & H6) & D).
  (* each: x = x * det, with det expanded, and orthonormality *)
  assert (A : forall x y z p q r s t u, p * p + q * q + r * r = 1 -> s * s + t * t + u * u = 1 -> p * s + q * t + r * u = 0 ->
    x * p + y * q + z * r = 0 -> x * s + y * t + z * u = 0 -> x * x + y * y + z * z = 1 ->
    x * (q * u - r * t) - y * (p * u - r * s) + z * (p * t - q * s) = 1 ->
    (x = q * u - r * t /\ y = r * s - p * u /\ z = p * t - q * s)).
  { clear. intros x y z p q r s t u N1 N2 O1 O2 O3 N3 D.
    set (X := q * u - r * t) in *. set (Y := r * s - p * u). set (Z := p * t - q * s) in *.
    assert (N : X * X + Y * Y + Z * Z = 1).
    { unfold X, Y, Z. replace ((q * u - r * t) * (q * u - r * t) + (r * s - p * u) * (r * s - p * u) + (p * t - q * s) * (p * t - q * s))
        with ((p * p + q * q + r * r) * (s * s + t * t + u * u) - (p * s + q * t + r * u) * (p * s + q * t + r * u)) by ring.
      rewrite N1, N2, O1. ring. }
    assert (E : x * X + y * Y + z * Z = 1) by (rewrite <- D; unfold Y; ring).
    assert (S : (x - X) * (x - X) + (y - Y) * (y - Y) + (z - Z) * (z - Z) = 0).
    { replace ((x - X) * (x - X) + (y - Y) * (y - Y) + (z - Z) * (z - Z)) with
        ((x * x + y * y + z * z) + (X * X + Y * Y + Z * Z) - 2 * (x * X + y * Y + z * Z)) by ring. rewrite N3, N, E. ring. }
    pose proof (Rle_0_sqr (x - X)) as Qx. pose proof (Rle_0_sqr (y - Y)) as Qy. pose proof (Rle_0_sqr (z - Z)) as Qz.
    change (0 <= (x - X) * (x - X)) in Qx. change (0 <= (y - Y) * (y - Y)) in Qy. change (0 <= (z - Z) * (z - Z)) in Qz.
    assert (Sx : (x - X) * (x - X) = 0) by (clear -S Qx Qy Qz; lra). assert (Sy : (y - Y) * (y - Y) = 0) by (clear -S Qx Qy Qz; lra).
    assert (Sz : (z - Z) * (z - Z) = 0) by (clear -S Qx Qy Qz; lra). clear -Sx Sy Sz.
    apply Rmult_integral in Sx, Sy, Sz. repeat split; lra. }
  destruct (A a b c d e f g h i) as (E1 & E2 & E3); try assumption; try lra.
  destruct (A d e f g h i a b c) as (E4 & E5 & E6); try assumption; try lra.
  destruct (A g h i a b c d e f) as (E7 & E8 & E9); try assumption; try lra.
Qed.

Lemma rotation_columns : forall a b c d e f g h i, rotation (V9 a b c d e f g h i) ->
  (a * a + d * d + g * g = 1 /\ b * b + e * e + h * h = 1 /\ c * c + f * f + i * i = 1) /\
  (a * b + d * e + g * h = 0 /\ a * c + d * f + g * i = 0 /\ b * c + e * f + h * i = 0).
Proof.
  intros a b c d e f g h i R. pose proof (rotation_cofactors _ _ _ _ _ _ _ _ _ R) as ((Ea & Eb & Ec) & (Ed & Ee & Ef) & (Eg & Eh & Ei)).
  destruct R as (_ & _ & D).
  split; [split; [|split]|split; [|split]].
  - rewrite Ea at 1. rewrite Ed at 1. rewrite Eg at 1. rewrite <- D. ring.
  - rewrite Eb at 1. rewrite Ee at 1. rewrite Eh at 1. rewrite <- D. ring.
  - rewrite Ec at 1. rewrite Ef at 1. rewrite Ei at 1. rewrite <- D. ring.
  - rewrite Ea at 1. rewrite Ed at 1. rewrite Eg at 1. ring.
  - rewrite Ea at 1. rewrite Ed at 1. rewrite Eg at 1. ring.
  - rewrite Eb at 1. rewrite Ee at 1. rewrite Eh at 1. ring.
Qed.

Lemma rotation_iff : forall m : rmat, rotation m <-> mmul m (mtranspose m) = midentity /\ mdet m = 1.
Proof.
  intros [[a b c] [d e f] [g h i]]. rewrite midentity_eq. unfold rotation, V9. lm_unfold.
  split.
  - intros ((H1 & H2 & H3) & (H4 & H5 & H6) & D). split; [|lra]. meq; lra.
  - intros [H D]. inversion H. repeat split; lra.
Qed.
Lemma rotation_orth_l : forall m : rmat, rotation m -> mmul (mtranspose m) m = midentity.
Proof.
  intros [[a b c] [d e f] [g h i]] R. pose proof (rotation_columns _ _ _ _ _ _ _ _ _ R) as ((H1 & H2 & H3) & (H4 & H5 & H6)).
  rewrite midentity_eq. unfold V9. lm_unfold. meq; lra.
Qed.
Lemma rotation_orth_r : forall m : rmat, rotation m -> mmul m (mtranspose m) = midentity.
Proof. intros m R. apply rotation_iff in R. apply R. Qed.
Lemma mdet_mul : forall a b : rmat, mdet (mmul a b) = mdet a * mdet b.
Proof. intros [[] [] []] [[] [] []]. lm_unfold. ring. Qed.
Lemma rotation_mul : forall a b : rmat, rotation a -> rotation b -> rotation (mmul a b).
Proof.
  intros a b Ha Hb. apply rotation_iff. apply rotation_iff in Ha as [A1 A2], Hb as [B1 B2]. split.
  - rewrite mtranspose_mul, mmul_assoc, <- (mmul_assoc a), B1, mmul_id_r. exact A1.
  - rewrite mdet_mul, A2, B2. exact (Rmult_1_l 1).
Qed.
Lemma rotation_transpose : forall a : rmat, rotation a -> rotation (mtranspose a).
Proof.
  intros a H. apply rotation_iff. split.
  - rewrite mtranspose_inv. apply rotation_orth_l. assumption.
  - apply rotation_iff in H as [_ H]. rewrite <- H. clear H. destruct a as [[] [] []]. lm_unfold. ring.
Qed.
Lemma rotation_id : rotation midentity.
Proof. rewrite midentity_eq. unfold rotation, V9. repeat split; ring. Qed.

(** ** Quaternions to matrices *)
Definition qpoly (x y z w : R) : rmat :=
  V9 (w*w + x*x - y*y - z*z) (2*(x*y - w*z)) (2*(x*z + w*y))
     (2*(x*y + w*z)) (w*w - x*x + y*y - z*z) (2*(y*z - w*x))
     (2*(x*z - w*y)) (2*(y*z + w*x)) (w*w - x*x - y*y + z*z).

Lemma nonzero_qlength2 : forall q, nonzero q <-> qlength2 q <> 0.
Proof. intros []. reflexivity. Qed.

Lemma mfromQuat_unit : forall q : rquat, qunit q -> mfromQuat q = qpoly (qx q) (qy q) (qz q) (qw q).
Proof.
  intros [x y z w] H. unfold qunit in H. cbn [qx qy qz qw] in *. unfold mfromQuat, qpoly, V9. 
  change (@qlength2 RS (Q4 x y z w)) with (x*x+y*y+z*z+w*w). rewrite H. runf. cbn [qx qy qz qw].
  meq; lra.
Qed.
Lemma mfromQuat_scale : forall (q : rquat) (k : R), nonzero q -> k <> 0 -> mfromQuat (qscale q (k : RS)) = mfromQuat q.
Proof.
  intros [x y z w] k Hn Hk. unfold nonzero in Hn. cbn [qx qy qz qw] in Hn. unfold mfromQuat, qscale. cbn [qx qy qz qw].
  change (@qlength2 RS (Q4 x y z w)) with (x*x+y*y+z*z+w*w).
  change (@qlength2 RS (Q4 (smul x k) (smul y k) (smul z k) (smul w k))) with (x*k*(x*k)+y*k*(y*k)+z*k*(z*k)+w*k*(w*k)).
  runf.
  assert (E : (x*k*(x*k)+y*k*(y*k)+z*k*(z*k)+w*k*(w*k)) = (k*k) * (x*x+y*y+z*z+w*w)) by ring. rewrite E. clear E.
  set (L := x*x+y*y+z*z+w*w) in *.
  meq; field; auto.
Qed.
Lemma qnormalized_unit : forall q : rquat, nonzero q -> qunit (qnormalized q).
Proof.
  intros q H. apply nonzero_qlength2 in H. change (qlength2 (qnormalized q) = 1). unfold qnormalized, qdivs.
  set (L := qlength q). assert (HL : L * L = qlength2 q).
  { unfold L, qlength. runf. apply sqrt_sqrt. destruct q as [x y z w]. lm_unfold. nra. }
  assert (L <> 0) by (intros E; rewrite E in HL; apply H; transitivity (0 * 0); [symmetry; exact HL|ring]).
  transitivity (qlength2 q * (1 / L) * (1 / L)).
  - destruct q as [x y z w]. lm_unfold. field. assumption.
  - rewrite <- HL. runf. field. assumption.
Qed.
Lemma qnormalized_scale : forall q : rquat, nonzero q -> exists k, k <> 0 /\ qnormalized q = qscale q (k : RS).
Proof.
  intros q H. apply nonzero_qlength2 in H. unfold qnormalized, qdivs. exists (1 / 1 / sqrt (qlength2 q)). split; [|reflexivity].
  intros E. apply H. assert (0 <= qlength2 q) by (destruct q as [x y z w]; lm_unfold; nra).
  destruct (Req_dec (qlength2 q) 0) as [|N]; [assumption|exfalso].
  assert (0 < sqrt (qlength2 q)) by (apply sqrt_lt_R0; lra).
  assert (0 < 1 / 1 / sqrt (qlength2 q)); [|lra]. unfold Rdiv. rewrite Rinv_1, !Rmult_1_l. apply Rinv_0_lt_compat. assumption.
Qed.
Lemma mfromQuat_normalized : forall q : rquat, nonzero q -> mfromQuat (qnormalized q) = mfromQuat q.
Proof. intros q H. destruct (qnormalized_scale q H) as (k & Hk & ->). apply mfromQuat_scale; assumption. Qed.

Lemma mfromQuat_rotation : forall q : rquat, nonzero q -> rotation (mfromQuat q).
Proof.
  intros q H. rewrite <- mfromQuat_normalized by assumption. pose proof (qnormalized_unit q H) as U. revert U.
  generalize (qnormalized q). intros [x y z w] U. rewrite mfromQuat_unit by assumption. unfold qunit in U. cbn [qx qy qz qw] in *.
  unfold qpoly, V9, rotation.
  assert (forall P : R, P = (x*x+y*y+z*z+w*w)*(x*x+y*y+z*z+w*w) -> P = 1) as G by (intros P ->; rewrite U; ring).
  assert (forall P : R, P = (x*x+y*y+z*z+w*w)*(x*x+y*y+z*z+w*w)*(x*x+y*y+z*z+w*w) -> P = 1) as G3 by (intros P ->; rewrite U; ring).
  repeat split; try (apply G; ring); try ring. apply G3. ring.
Qed.
Lemma mfromQuat_rotate : forall (q : rquat) (v : rvec), qunit q -> mmulv (mfromQuat q) v = quatRotate q v.
Proof. intros q v H. rewrite mfromQuat_unit by assumption. destruct q as [x y z w], v as [a b c]. unfold qpoly, V9. lm_unfold; meq; ring. Qed.
Lemma mat_ext : forall a b : rmat, (forall v, mmulv a v = mmulv b v) -> a = b.
Proof.
  intros [[a11 a12 a13] [a21 a22 a23] [a31 a32 a33]] [[b11 b12 b13] [b21 b22 b23] [b31 b32 b33]] H.
  pose proof (H (@V3 RS 1 0 0)) as H1. pose proof (H (@V3 RS 0 1 0)) as H2. pose proof (H (@V3 RS 0 0 1)) as H3.
  clear H. unfold mmulv, vdot in *. cbn [vx vy vz m0 m1 m2] in *. runf. inversion H1. inversion H2. inversion H3. 
  meq; lra.
Qed.
Lemma qunit_mul : forall p q : rquat, qunit p -> qunit q -> qunit (qmul p q).
Proof. exact unitq_mul. Qed.
Lemma mfromQuat_mul_unit : forall p q : rquat, qunit p -> qunit q -> mfromQuat (qmul p q) = mmul (mfromQuat p) (mfromQuat q).
Proof.
  intros p q Hp Hq. apply mat_ext. intros v. rewrite mmulv_mul, !mfromQuat_rotate by auto using qunit_mul. apply quatRotate_mul.
Qed.
Lemma nonzero_mul : forall p q, nonzero p -> nonzero q -> nonzero (qmul p q).
Proof.
  intros p q Hp Hq. apply nonzero_qlength2 in Hp, Hq. apply nonzero_qlength2. rewrite qlength2_mul.
  apply Rmult_integral_contrapositive_currified; assumption.
Qed.
Lemma qscale_mul : forall (p q : rquat) (a b : R), qmul (qscale p (a : RS)) (qscale q (b : RS)) = qscale (qmul p q) (a * b : RS).
Proof. intros [] [] a b. lm_unfold. f_equal; ring. Qed.
Lemma mfromQuat_mul : forall p q : rquat, nonzero p -> nonzero q -> mfromQuat (qmul p q) = mmul (mfromQuat p) (mfromQuat q).
Proof.
  intros p q Hp Hq.
  rewrite <- (mfromQuat_normalized p), <- (mfromQuat_normalized q) by assumption.
  rewrite <- mfromQuat_mul_unit by (apply qnormalized_unit; assumption).
  destruct (qnormalized_scale p Hp) as (a & Ha & ->). destruct (qnormalized_scale q Hq) as (b & Hb & ->).
  rewrite qscale_mul, mfromQuat_scale; [reflexivity|apply nonzero_mul; assumption|].
  apply Rmult_integral_contrapositive_currified; assumption.
Qed.
Lemma qunit_nonzero : forall q, qunit q -> nonzero q.
Proof. unfold qunit, nonzero. intros q ->. lra. Qed.
Lemma mfromQuat_id : mfromQuat (qidentity : rquat) = midentity.
Proof. apply mat_ext. intros v. rewrite mfromQuat_rotate by exact unitq_id. rewrite quatRotate_id, mmulv_id. reflexivity. Qed.
Lemma qinv_unit : forall q, qunit q -> qunit (qinv q).
Proof. exact unitq_inv. Qed.
Lemma mfromQuat_inv : forall q, qunit q -> mfromQuat (qinv q) = mtranspose (mfromQuat q).
Proof.
  intros q H. rewrite !mfromQuat_unit by auto using qinv_unit. destruct q as [x y z w]. unfold qpoly, V9. lm_unfold; meq; ring.
Qed.
Lemma mfromQuat_neg : forall q, nonzero q -> mfromQuat (qneg q) = mfromQuat q.
Proof.
  intros q H. replace (qneg q) with (qscale q (-1 : RS)) by (destruct q; lm_unfold; f_equal; ring).
  apply mfromQuat_scale; [assumption|lra].
Qed.

(** two unit quaternions with the same matrix agree up to sign *)
Lemma mfromQuat_inj : forall p q, qunit p -> qunit q -> mfromQuat p = mfromQuat q -> same_rotation p q.
Proof.
  intros p q Hp Hq E.
  (* r = q^-1 p acts trivially *)
  set (r := qmul (qinv q) p).
  assert (Ur : qunit r) by (apply qunit_mul; [apply qinv_unit|]; assumption).
  assert (Er : mfromQuat r = midentity).
  { unfold r. rewrite mfromQuat_mul_unit by auto using qinv_unit. rewrite E, mfromQuat_inv by assumption.
    apply rotation_orth_l. apply mfromQuat_rotation, qunit_nonzero. assumption. }
  assert (Ep : p = qmul q r).
  { unfold r. rewrite qmul_assoc. pose proof (qmul_inv_r q Hq) as X. rewrite X, qmul_id_l. reflexivity. }
  rewrite mfromQuat_unit in Er by assumption. rewrite midentity_eq in Er.
  destruct r as [x y z w] eqn:Dr. unfold qunit in Ur. cbn [qx qy qz qw] in *. unfold qpoly, V9 in Er. inversion Er as [[E1 E2 E3 E4 E5 E6 E7 E8 E9]].
  assert (x * x = 0 /\ y * y = 0 /\ z * z = 0) as (X & Y & Z) by (repeat split; nra).
  apply Rmult_integral in X, Y, Z. assert (x = 0) by lra. assert (y = 0) by lra. assert (z = 0) by lra. subst x y z.
  assert (W : (w - 1) * (w + 1) = 0) by lra. apply Rmult_integral in W. destruct W as [W|W].
  - left. rewrite Ep. assert (w = 1) by lra. subst w. destruct q; lm_unfold. f_equal; ring.
  - right. rewrite Ep. assert (w = -1) by lra. subst w. destruct q; lm_unfold. f_equal; ring.
Qed.

(** ** Matrices to quaternions *)
Section GetRotation.
Variables a b c d e f g h i : R.
Hypothesis R0 : rotation (V9 a b c d e f g h i).
Let T := a + e + i + 1.
Let A := a - e - i + 1.
Let B := e - i - a + 1.
Let C := i - a - e + 1.

Lemma rank_one :
  ((h - f) * (h - f) = T * A /\ (c - g) * (c - g) = T * B /\ (d - b) * (d - b) = T * C /\
   (h - f) * (c - g) = T * (d + b) /\ (h - f) * (d - b) = T * (g + c) /\ (c - g) * (d - b) = T * (h + f)) /\
  ((d + b) * (d + b) = A * B /\ (g + c) * (g + c) = A * C /\ (d + b) * (g + c) = A * (h + f) /\
   (d + b) * (h - f) = A * (c - g) /\ (g + c) * (h - f) = A * (d - b)) /\
  ((h + f) * (h + f) = B * C /\ (d + b) * (h + f) = B * (g + c) /\ (d + b) * (c - g) = B * (h - f) /\ (h + f) * (c - g) = B * (d - b)) /\
  ((g + c) * (h + f) = C * (d + b) /\ (g + c) * (d - b) = C * (h - f) /\ (h + f) * (d - b) = C * (c - g)).
Proof.
  pose proof (rotation_cofactors _ _ _ _ _ _ _ _ _ R0) as ((Ea & Eb & Ec) & (Ed & Ee & Ef) & (Eg & Eh & Ei)).
  pose proof (rotation_columns _ _ _ _ _ _ _ _ _ R0) as ((H1 & H2 & H3) & (H4 & H5 & H6)).
  destruct R0 as ((N1 & N2 & N3) & (N4 & N5 & N6) & _). unfold T, A, B, C.
  repeat split; lra.
Qed.

Lemma from_products : forall x y z w : R,
  4 * (w * w) = T -> 4 * (x * x) = A -> 4 * (y * y) = B -> 4 * (z * z) = C ->
  4 * (w * x) = h - f -> 4 * (w * y) = c - g -> 4 * (w * z) = d - b ->
  4 * (x * y) = d + b -> 4 * (x * z) = g + c -> 4 * (y * z) = h + f ->
  qunit (@Q4 RS x y z w) /\ mfromQuat (@Q4 RS x y z w) = V9 a b c d e f g h i.
Proof.
  unfold T, A, B, C. intros x y z w H1 H2 H3 H4 H5 H6 H7 H8 H9 H10.
  assert (U : qunit (@Q4 RS x y z w)) by (unfold qunit; cbn [qx qy qz qw]; lra).
  split; [exact U|]. rewrite mfromQuat_unit by exact U. cbn [qx qy qz qw]. unfold qpoly, V9. meq; lra.
Qed.

Lemma pivot : forall P, 0 < P -> 4 * P * ((1 / 2 / sqrt P) * (1 / 2 / sqrt P)) = 1 /\ sqrt P * (1 / 2 / sqrt P) = 1 / 2 /\ sqrt P * sqrt P = P.
Proof.
  intros P HP. assert (S : sqrt P * sqrt P = P) by (apply sqrt_sqrt; lra). assert (0 < sqrt P) by (apply sqrt_lt_R0; assumption).
  split; [rewrite <- S at 1; field; lra|]. split; [field; lra|exact S].
Qed.

Lemma mul_kk : forall P k u v r, 4 * P * (k * k) = 1 -> u * v = P * r -> 4 * (u * k * (v * k)) = r.
Proof. intros P k u v r H E. transitivity (4 * (u * v) * (k * k)); [ring|]. rewrite E. transitivity (4 * P * (k * k) * r); [ring|]. rewrite H. ring. Qed.
Lemma mul_sk : forall s k u, s * k = 1 / 2 -> 4 * (s * (1 / 2) * (u * k)) = u.
Proof. intros s k u H. transitivity (2 * (s * k) * u); [field|]. rewrite H. field. Qed.
Lemma mul_ks : forall s k u, s * k = 1 / 2 -> 4 * (u * k * (s * (1 / 2))) = u.
Proof. intros s k u H. transitivity (2 * (s * k) * u); [field|]. rewrite H. field. Qed.
Lemma mul_ss : forall s P, s * s = P -> 4 * (s * (1 / 2) * (s * (1 / 2))) = P.
Proof. intros s P <-. field. Qed.

Lemma mgetRotation_V9 : qunit (mgetRotation (V9 a b c d e f g h i)) /\ mfromQuat (mgetRotation (V9 a b c d e f g h i)) = V9 a b c d e f g h i.
Proof.
  destruct rank_one as ((T1 & T2 & T3 & T4 & T5 & T6) & (A1 & A2 & A3 & A4 & A5) & (B1 & B2 & B3 & B4) & (C1 & C2 & C3)).
  unfold mgetRotation, V9. cbn [m0 m1 m2 vx vy vz]. runf. rewrite one1, zero1. fold T A B C.
  destruct (Rltb 0 (a + e + i)) eqn:Et.
  - apply Rltb_true in Et. destruct (pivot T) as (K & Ks & S); [unfold T; lra|].
    apply from_products.
    + apply mul_ss. assumption.
    + eapply mul_kk; eassumption.
    + eapply mul_kk; eassumption.
    + eapply mul_kk; eassumption.
    + apply mul_sk; assumption.
    + apply mul_sk; assumption.
    + apply mul_sk; assumption.
    + eapply mul_kk; eassumption.
    + eapply mul_kk; eassumption.
    + eapply mul_kk; eassumption.
  - apply Rltb_false in Et.
    assert (Cases : (exists j, (if Rltb a e then (if Rltb e i then 2%nat else 1%nat) else (if Rltb a i then 2%nat else 0%nat)) = j /\
      ((j = 0%nat /\ 0 < A) \/ (j = 1%nat /\ 0 < B) \/ (j = 2%nat /\ 0 < C)))).
    { unfold A, B, C. destruct (Rltb a e) eqn:E1; [destruct (Rltb e i) eqn:E2|destruct (Rltb a i) eqn:E2];
        repeat match goal with H : Rltb _ _ = true |- _ => apply Rltb_true in H | H : Rltb _ _ = false |- _ => apply Rltb_false in H end;
        (eexists; split; [reflexivity|]); [right; right|right; left|right; right|left]; (split; [reflexivity|lra]). }
    destruct Cases as (j & -> & [(-> & Hp)|[(-> & Hp)|(-> & Hp)]]); destruct (pivot _ Hp) as (K & Ks & S); apply from_products.
    all: try (apply mul_ss; assumption); try (apply mul_sk; assumption); try (apply mul_ks; assumption).
    all: try (eapply mul_kk; [exact K|first [assumption|lra]]).
    all: rewrite mul_ks by assumption; apply Rplus_comm.
Qed.
End GetRotation.

Theorem mgetRotation_ok : forall m : rmat, rotation m -> qunit (mgetRotation m) /\ mfromQuat (mgetRotation m) = m.
Proof. intros [[a b c] [d e f] [g h i]] H. apply (mgetRotation_V9 a b c d e f g h i H). Qed.
Theorem mgetRotation_from : forall q, qunit q -> same_rotation (mgetRotation (mfromQuat q)) q.
Proof.
  intros q H. destruct (mgetRotation_ok (mfromQuat q)) as [U E]; [apply mfromQuat_rotation, qunit_nonzero; assumption|].
  apply mfromQuat_inj; assumption.
Qed.

(** ** Rigid transforms *)
Definition rigid (t : rxform) : Prop := rotation (xbasis t).

Lemma xapply_eq : forall (t : rxform) (v : rvec), xapply t v = vadd (mmulv (xbasis t) v) (xorigin t).
Proof. reflexivity. Qed.
Lemma xmul_eq : forall a b : rxform, xmul a b = XF (mmul (xbasis a) (xbasis b)) (vadd (mmulv (xbasis a) (xorigin b)) (xorigin a)).
Proof. reflexivity. Qed.
Lemma xmul_assign_eq : forall a b : rxform, xmul_assign a b = xmul a b.
Proof. intros a b. rewrite xmul_eq. unfold xmul_assign. rewrite vadd_comm. reflexivity. Qed.
Lemma xmul_assoc : forall a b c : rxform, xmul a (xmul b c) = xmul (xmul a b) c.
Proof.
  intros [A a] [B b] [C c]. rewrite !xmul_eq. cbn [xbasis xorigin]. rewrite mmul_assoc, mmulv_mul, mmulv_add, <- vadd_assoc. reflexivity.
Qed.
Lemma xmul_id_l : forall a : rxform, xmul xidentity a = a.
Proof. intros [A a]. rewrite xmul_eq. cbn [xbasis xorigin xidentity]. rewrite mmul_id_l, mmulv_id, vadd_zero_r. reflexivity. Qed.
Lemma xmul_id_r : forall a : rxform, xmul a xidentity = a.
Proof. intros [A a]. rewrite xmul_eq. cbn [xbasis xorigin xidentity]. rewrite mmul_id_r, mmulv_zero, vadd_zero_l. reflexivity. Qed.
Lemma xinverse_l : forall a, rigid a -> xmul (xinverse a) a = xidentity.
Proof.
  intros [A a] H. unfold rigid in H. cbn [xbasis] in H. rewrite xmul_eq. unfold xinverse, xidentity. cbn [xbasis xorigin].
  rewrite rotation_orth_l, mmulv_neg, vadd_neg by assumption. reflexivity.
Qed.
Lemma xinverse_r : forall a, rigid a -> xmul a (xinverse a) = xidentity.
Proof.
  intros [A a] H. unfold rigid in H. cbn [xbasis] in H. rewrite xmul_eq. unfold xinverse, xidentity. cbn [xbasis xorigin].
  rewrite <- mmulv_mul, rotation_orth_r, mmulv_id, vadd_comm, vadd_neg by assumption. reflexivity.
Qed.
Lemma xapply_mul : forall (a b : rxform) (v : rvec), xapply (xmul a b) v = xapply a (xapply b v).
Proof. intros [A a] [B b] v. rewrite xmul_eq, !xapply_eq. cbn [xbasis xorigin]. rewrite mmulv_mul, mmulv_add, vadd_assoc. reflexivity. Qed.
Lemma xapply_id : forall v : rvec, xapply xidentity v = v.
Proof. intros v. rewrite xapply_eq. cbn [xbasis xorigin xidentity]. rewrite mmulv_id, vadd_zero_r. reflexivity. Qed.
Lemma rigid_mul : forall a b, rigid a -> rigid b -> rigid (xmul a b).
Proof. intros a b Ha Hb. unfold rigid. rewrite xmul_eq. apply rotation_mul; assumption. Qed.
Lemma rigid_inverse : forall a, rigid a -> rigid (xinverse a).
Proof. intros a Ha. apply rotation_transpose. assumption. Qed.
Lemma vsub_eq : forall v w : rvec, vsub v w = vadd v (vneg w).
Proof. intros [] []. lm_unfold. f_equal; ring. Qed.
Lemma xinvXform_eq : forall (a : rxform) (v : rvec), xinvXform a v = xapply (xinverse a) v.
Proof. intros [A a] v. unfold xinvXform. rewrite xapply_eq. unfold xinverse. cbn [xbasis xorigin]. rewrite vsub_eq, mmulv_add. reflexivity. Qed.
Lemma xinverseTimes_eq : forall a b : rxform, xinverseTimes a b = xmul (xinverse a) b.
Proof.
  intros [A a] [B b]. rewrite xmul_eq. unfold xinverseTimes, xinverse. cbn [xbasis xorigin].
  rewrite mtransposeTimes_eq, vmulm_eq, vsub_eq, mmulv_add. reflexivity.
Qed.
Lemma rotation_dot : forall (m : rmat) (v w : rvec), rotation m -> vdot (mmulv m v) (mmulv m w) = vdot v w.
Proof.
  intros m v w H. destruct (mgetRotation_ok m H) as [U <-]. rewrite !mfromQuat_rotate by assumption. apply quatRotate_dot. assumption.
Qed.
Lemma rotation_cross : forall (m : rmat) (v w : rvec), rotation m -> vcross (mmulv m v) (mmulv m w) = mmulv m (vcross v w).
Proof.
  intros m v w H. destruct (mgetRotation_ok m H) as [U <-]. rewrite !mfromQuat_rotate by assumption. apply quatRotate_cross. assumption.
Qed.

(** ** Poses and transforms *)
Definition xpose (p : rpose) : rxform := xfromQuat (fst p) (snd p).
Lemma xpose_mul : forall a b : rpose, unitp a -> unitp b -> xmul (xpose a) (xpose b) = xpose (pose_mul a b).
Proof.
  intros [q t] [q' t'] Ha Hb. unfold unitp in *. cbn [fst snd] in *. unfold xpose, xfromQuat, pose_mul. cbn [fst snd].
  rewrite xmul_eq. cbn [xbasis xorigin]. rewrite mfromQuat_mul_unit, mfromQuat_rotate by assumption. reflexivity.
Qed.
Lemma xpose_rotation : forall a : rpose, unitp a -> same_rotation (xgetRotation (xpose a)) (fst a).
Proof. intros a Ha. apply mgetRotation_from. exact Ha. Qed.
