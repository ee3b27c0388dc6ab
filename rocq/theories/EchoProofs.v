(** * Proofs about echo.py *)
From Coq Require Import ZArith Bool Reals Lra Psatz List String Floats.SpecFloat.
From Verif Require Import RosTime Scalar LinearMath Cache BufferCore Instances RealSlerp RealQuat SpecReal RealMatrix RealEuler PyTime PyCore PyBuffer
  SpecWait SpecPyWait Echo SpecEcho.
Import ListNotations.
Open Scope R_scope.

Lemma EPS_pos : 0 < @EPS RS.
Proof. unfold EPS. cbn [RS scar slit]. assert (0 < IZR (2 ^ 50)) by (apply IZR_lt; reflexivity). unfold Rdiv. rewrite Rmult_1_l. apply Rinv_0_lt_compat. assumption. Qed.
Lemma EPS_small : @EPS RS < / 1000.
Proof. unfold EPS. cbn [RS scar slit]. unfold Rdiv. rewrite Rmult_1_l. apply Rinv_lt_contravar; [apply Rmult_lt_0_compat; [lra|apply IZR_lt; reflexivity]|apply IZR_lt; reflexivity]. Qed.

Lemma length2_pos : forall q : rquat, @EPS RS <= length2 q -> 0 < length2 q.
Proof. intros q H. pose proof EPS_pos. lra. Qed.

Lemma quaternion_matrix_ok : forall q : rquat, @EPS RS <= length2 q -> quaternion_matrix (qw q) (qx q) (qy q) (qz q) = mfromQuat q.
Proof.
  intros [x y z w] H. pose proof (length2_pos _ H) as P. unfold length2 in *. cbn [qx qy qz qw] in *.
  unfold quaternion_matrix. runf. cbn [RS scar] in *.
  set (n := w * w + x * x + y * y + z * z).
  assert (E : x * x + y * y + z * z + w * w = n) by (unfold n; ring).
  rewrite E in H, P. replace (Rltb n (@EPS RS)) with false by (symmetry; apply Rltb_false; lra).
  rewrite mfromQuat_entries by (rewrite E; lra). rewrite E. unfold V9.
  set (k := sqrt (2 / 1 / n)).
  assert (K : k * k = 2 / n). { unfold k. rewrite sqrt_sqrt; [field; lra|]. unfold Rdiv. apply Rlt_le, Rmult_lt_0_compat; [lra|apply Rinv_0_lt_compat; lra]. }
  clearbody k.
  assert (Q : forall u v, u * k * (v * k) = u * v * (2 / n)) by (intros; rewrite <- K; ring).
  rewrite !Q. unfold n in *. meq; field; lra.
Qed.

Lemma sumsq_bound : forall a b r : R, 0 <= r -> a * a + b * b = r * r -> Rabs a <= r /\ Rabs b <= r.
Proof.
  assert (X : forall a r : R, 0 <= r -> a * a <= r * r -> Rabs a <= r) by (intros a r H E; unfold Rabs; destruct (Rcase_abs a); nra).
  intros a b r H E. split; apply X; try assumption; nra.
Qed.

(** the three angles of a rotation matrix *)
Section Matrix.
Context (a b c d e f g h i : R) (Hm : rotation (V9 a b c d e f g h i)).
Let cy := sqrt (a * a + d * d).
Lemma cy_sq : cy * cy = a * a + d * d /\ 0 <= cy.
Proof. unfold cy. split; [apply sqrt_sqrt; nra|apply sqrt_pos]. Qed.
Lemma col1 : a * a + d * d + g * g = 1.
Proof. pose proof (rotation_columns _ _ _ _ _ _ _ _ _ Hm) as Col. unfold rotation in Col. lra. Qed.
Lemma pitch_ok : cos (Ratan2 (- g) cy) = cy /\ sin (Ratan2 (- g) cy) = - g.
Proof. destruct cy_sq. pose proof col1. apply atan2_unit. lra. Qed.
Lemma cy_is : cy = sqrt (1 - g * g).
Proof. unfold cy. f_equal. pose proof col1. lra. Qed.
Lemma row3 : h * h + i * i = cy * cy.
Proof. destruct Hm as ((_ & _ & R3) & _ & _). destruct cy_sq. pose proof col1. lra. Qed.

Lemma angles_away : 0 < cy -> ypr_matrix (Ratan2 d a) (Ratan2 (- g) cy) (Ratan2 h i) = V9 a b c d e f g h i.
Proof.
  intros P. destruct pitch_ok as [C Sn].
  assert (K : 0 < / cy) by (apply Rinv_0_lt_compat; assumption).
  replace (Ratan2 d a) with (Ratan2 (d / cos (Ratan2 (- g) cy)) (a / cos (Ratan2 (- g) cy))) by (rewrite C; apply (atan2_scale (/ cy)); assumption).
  replace (Ratan2 h i) with (Ratan2 (h / cos (Ratan2 (- g) cy)) (i / cos (Ratan2 (- g) cy))) by (rewrite C; apply (atan2_scale (/ cy)); assumption).
  apply euler_from_cos; [exact Hm|lra|exact Sn].
Qed.

Lemma angles_lock : cy <= / 2 -> near (2 * cy) (ypr_matrix 0 (Ratan2 (- g) cy) (Ratan2 (- f) e)) (V9 a b c d e f g h i).
Proof.
  intros L. destruct pitch_ok as [C Sn]. destruct cy_sq as [Csq Cp]. pose proof col1 as C1. pose proof row3 as R3.
  assert (R2 : d * d + e * e + f * f = 1) by (destruct Hm as ((_ & X & _) & _ & _); exact X).
  destruct (sumsq_bound a d cy Cp) as [Ba Bd]; [lra|]. destruct (sumsq_bound h i cy Cp) as [Bh Bi]; [exact R3|].
  set (rho := sqrt (e * e + f * f)).
  assert (Rsq : rho * rho = 1 - d * d) by (unfold rho; rewrite sqrt_sqrt; [lra|nra]).
  assert (Rp : 0 < rho) by (unfold rho; apply sqrt_lt_R0; nra).
  assert (R1 : rho <= 1) by nra.
  destruct (atan2_polar e (- f) rho Rp) as [Ce Se]; [nra|].
  assert (Cof := rotation_cofactors _ _ _ _ _ _ _ _ _ Hm). destruct Cof as ((_ & B & C') & _).
  rewrite ypr_entries, Ce, Se, C, Sn, cos_0, sin_0. unfold near, V9.
  (* 1 - rho is of second order *)
  assert (D : 0 <= 1 - rho <= cy * cy) by nra.
  assert (Q : forall u, Rabs u <= rho -> Rabs (u / rho - u) <= cy * cy).
  { intros u Hu. replace (u / rho - u) with (u / rho * (1 - rho)) by (field; lra). rewrite Rabs_mult, (Rabs_pos_eq (1 - rho)) by lra.
    assert (Rabs (u / rho) <= 1). { unfold Rdiv. rewrite Rabs_mult, (Rabs_pos_eq (/ rho)) by (apply Rlt_le, Rinv_0_lt_compat; assumption).
      replace 1 with (rho * / rho) by (field; lra). apply Rmult_le_compat_r; [apply Rlt_le, Rinv_0_lt_compat; assumption|assumption]. }
    pose proof (Rabs_pos (u / rho)). nra. }
  destruct (sumsq_bound e f rho) as [Be Bf]; [lra|nra|].
  assert (Qe := Q e Be). assert (Qf := Q f Bf).
  assert (G : Rabs g <= 1) by (unfold Rabs; destruct (Rcase_abs g); nra).
  assert (Lk : cy * cy <= cy / 2) by nra.
  assert (M1 : forall u v, Rabs u <= cy -> Rabs v <= cy -> Rabs (u * v) <= cy / 2). { intros u v Hu Hv. rewrite Rabs_mult. pose proof (Rabs_pos u). pose proof (Rabs_pos v). nra. }
  assert (M2 : forall u, Rabs u <= rho -> Rabs (cy * (u / rho)) <= cy).
  { intros u Hu. rewrite Rabs_mult, (Rabs_pos_eq cy) by assumption.
    assert (Rabs (u / rho) <= 1). { unfold Rdiv. rewrite Rabs_mult, (Rabs_pos_eq (/ rho)) by (apply Rlt_le, Rinv_0_lt_compat; assumption).
      replace 1 with (rho * / rho) by (field; lra). apply Rmult_le_compat_r; [apply Rlt_le, Rinv_0_lt_compat; assumption|assumption]. }
    pose proof (Rabs_pos (u / rho)). nra. }
  assert (Bf' : Rabs (- f) <= rho) by (rewrite Rabs_Ropp; assumption).
  assert (Mi := M1 d i Bd Bi). assert (Mh := M1 d h Bd Bh).
  assert (M3 : forall u, Rabs (u / rho - u) <= cy * cy -> Rabs (g * (u / rho - u)) <= cy / 2).
  { intros u Hu. rewrite Rabs_mult. pose proof (Rabs_pos g). pose proof (Rabs_pos (u / rho - u)). nra. }
  assert (T : forall u v, Rabs (u - v) <= Rabs u + Rabs v) by (intros u v; unfold Rminus; eapply Rle_trans; [apply Rabs_triang|rewrite Rabs_Ropp; lra]).
  cbn [RS scar] in *.
  repeat match goal with |- _ /\ _ => split end.
  - rewrite Rmult_1_r. eapply Rle_trans; [apply T|]. rewrite (Rabs_pos_eq cy) by assumption. lra.
  - replace (- g * (- f / rho * 1) - e / rho * 0 - b) with (g * (f / rho - f) - - (d * i)) by (rewrite B; field; lra).
    eapply Rle_trans; [apply T|]. rewrite Rabs_Ropp. specialize (M3 f Qf). lra.
  - replace (- g * (e / rho * 1) + - f / rho * 0 - c) with (- (g * (e / rho - e)) - d * h) by (rewrite C'; field; lra).
    eapply Rle_trans; [apply T|]. rewrite Rabs_Ropp. specialize (M3 e Qe). lra.
  - rewrite Rmult_0_r, Rminus_0_l, Rabs_Ropp. lra.
  - replace (- g * (- f / rho * 0) + e / rho * 1 - e) with (e / rho - e) by ring. lra.
  - replace (- g * (e / rho * 0) - - f / rho * 1 - f) with (f / rho - f) by (unfold Rdiv; ring). lra.
  - replace (- - g - g) with 0 by ring. rewrite Rabs_R0. lra.
  - eapply Rle_trans; [apply T|]. specialize (M2 (- f) Bf'). lra.
  - eapply Rle_trans; [apply T|]. specialize (M2 e Be). lra.
Qed.
End Matrix.

Lemma near_0 : forall m m', near 0 m m' -> m = m'.
Proof.
  intros [[a b c] [d e f] [g h i]] [[a' b' c'] [d' e' f'] [g' h' i']] H. unfold near in H. cbn [RS scar] in H.
  assert (Z : forall x y : R, Rabs (x - y) <= 0 -> x = y). { intros x y X. unfold Rabs in X. destruct (Rcase_abs (x - y)); lra. }
  destruct H as (A & B & C & D & E & F & G & I & J). apply Z in A, B, C, D, E, F, G, I, J. congruence.
Qed.
Lemma near_refl : forall d m, 0 <= d -> near d m m.
Proof.
  intros d [[a b c] [e f g] [h i j]] H. unfold near. assert (Z : forall x : R, Rabs (x - x) <= d) by (intros; replace (x - x) with 0 by ring; rewrite Rabs_R0; exact H).
  repeat split; apply Z.
Qed.
Lemma near_le : forall d d' m m', d <= d' -> near d m m' -> near d' m m'.
Proof. intros d d' [[a b c] [e f g] [h i j]] [[a' b' c'] [e' f' g'] [h' i' j']] L H. unfold near in *. decompose [and] H. repeat split; lra. Qed.

Lemma euler_sxyz : forall a b c d e f g h i,
  @euler_from_matrix RS (V9 a b c d e f g h i) sxyz =
  let cy := sqrt (a * a + d * d) in
  if Rltb (@EPS RS) cy then (Ratan2 h i, Ratan2 (- g) cy, Ratan2 d a) else (Ratan2 (- f) e, Ratan2 (- g) cy, 0 / 1).
Proof. intros. unfold euler_from_matrix, sxyz, V9. cbn [next_axis Nat.add Nat.sub entry row m0 m1 m2 vx vy vz Nat.eqb]. runf. cbv zeta. destruct (Rltb (@EPS RS) _); reflexivity. Qed.
Lemma zero_1 : 0 / 1 = 0. Proof. field. Qed.

Lemma mfromQuat_V9 : forall q : rquat, nonzero q -> exists a b c d e f g h i, mfromQuat q = V9 a b c d e f g h i /\ rotation (V9 a b c d e f g h i) /\ g = - sin_pitch q.
Proof.
  intros q N. pose proof (mfromQuat_rotation q N) as Rot. destruct q as [x y z w]. unfold nonzero in N. cbn [qx qy qz qw RS scar] in N.
  rewrite mfromQuat_entries in * by exact N. do 9 eexists. split; [reflexivity|]. split; [exact Rot|]. unfold sin_pitch. cbn [qx qy qz qw RS scar]. field. exact N.
Qed.
Lemma length2_nonzero : forall q : rquat, @EPS RS <= length2 q -> nonzero q.
Proof. intros q H. pose proof (length2_pos q H). unfold length2 in *. unfold nonzero. cbn [RS scar] in *. lra. Qed.

Theorem echo_angles_away : forall q : rquat, @EPS RS <= length2 q -> @EPS RS < cos_pitch q -> of_rpy (echo_rpy q) = mfromQuat q.
Proof.
  intros q H K. unfold echo_rpy. rewrite quaternion_matrix_ok by exact H.
  destruct (mfromQuat_V9 q (length2_nonzero q H)) as (a & b & c & d & e & f & g & h & i & -> & Rot & G).
  unfold cos_pitch in K. replace (1 - sin_pitch q * sin_pitch q) with (1 - g * g) in K by (rewrite G; ring).
  rewrite <- (cy_is _ _ _ _ _ _ _ _ _ Rot) in K.
  rewrite euler_sxyz. cbv zeta. replace (Rltb (@EPS RS) (sqrt (a * a + d * d))) with true by (symmetry; apply Rltb_true; exact K).
  unfold of_rpy. apply angles_away; [exact Rot|]. pose proof EPS_pos. lra.
Qed.
Theorem echo_angles_lock : forall q : rquat, @EPS RS <= length2 q -> cos_pitch q <= @EPS RS ->
  near (2 * cos_pitch q) (of_rpy (echo_rpy q)) (mfromQuat q) /\ snd (echo_rpy q) = 0.
Proof.
  intros q H K. unfold echo_rpy. rewrite quaternion_matrix_ok by exact H.
  destruct (mfromQuat_V9 q (length2_nonzero q H)) as (a & b & c & d & e & f & g & h & i & -> & Rot & G).
  unfold cos_pitch in *. replace (1 - sin_pitch q * sin_pitch q) with (1 - g * g) in * by (rewrite G; ring).
  rewrite <- (cy_is _ _ _ _ _ _ _ _ _ Rot) in *.
  rewrite euler_sxyz. cbv zeta. replace (Rltb (@EPS RS) (sqrt (a * a + d * d))) with false by (symmetry; apply Rltb_false; lra).
  unfold of_rpy. rewrite zero_1. split; [|reflexivity]. apply angles_lock; [exact Rot|]. pose proof EPS_small. lra.
Qed.
Theorem echo_short : forall q : rquat, length2 q < @EPS RS -> echo_rpy q = (0, 0, 0).
Proof.
  intros [x y z w] H. unfold length2 in H. cbn [qx qy qz qw RS scar] in H. unfold echo_rpy, quaternion_matrix. cbn [qx qy qz qw]. runf.
  replace (Rltb _ (@EPS RS)) with true by (symmetry; apply Rltb_true; cbn [RS scar]; lra).
  unfold midentity. runf. change (@M3 RS (@V3 RS ?a ?b ?c) (@V3 RS ?d ?e ?f) (@V3 RS ?g ?h ?i)) with (V9 a b c d e f g h i).
  rewrite euler_sxyz. cbv zeta. rewrite zero_1. replace (1 / 1) with 1 by field.
  replace (1 * 1 + 0 * 0) with 1 by ring. rewrite sqrt_1. replace (Rltb (@EPS RS) 1) with true by (symmetry; apply Rltb_true; pose proof EPS_small; lra).
  rewrite Ropp_0. assert (Z : Ratan2 0 1 = 0). { unfold Ratan2. destruct (Rlt_dec 0 1); [|lra]. replace (0 / 1) with 0 by field. apply atan_0. }
  rewrite Z. reflexivity.
Qed.
Theorem echo_ranges : forall q : rquat, let '(r, p, y) := echo_rpy q in - PI < r <= PI /\ - (PI / 2) <= p <= PI / 2 /\ - PI < y <= PI.
Proof.
  intros q. unfold echo_rpy. destruct (quaternion_matrix _ _ _ _) as [[a b c] [d e f] [g h i]].
  change (@M3 RS (@V3 RS a b c) (@V3 RS d e f) (@V3 RS g h i)) with (V9 a b c d e f g h i). rewrite euler_sxyz. cbv zeta.
  assert (P : - (PI / 2) <= Ratan2 (- g) (sqrt (a * a + d * d)) <= PI / 2).
  { pose proof (sqrt_pos (a * a + d * d)) as S0. unfold Ratan2. pose proof PI_RGT_0. destruct (Rlt_dec 0 _); [|destruct (Rlt_dec _ 0); [lra|]].
    - pose proof (atan_bound (- g / sqrt (a * a + d * d))). lra.
    - destruct (Rlt_dec 0 (- g)); [lra|]. destruct (Rlt_dec (- g) 0); lra. }
  pose proof PI_RGT_0.
  destruct (Rltb _ _); [pose proof (atan2_range h i); pose proof (atan2_range d a)|pose proof (atan2_range (- f) e)]; rewrite ?zero_1; repeat split; lra.
Qed.
(** the angles given to setRPY come back *)
Theorem echo_of_rpy : forall r p y : R, - PI < r <= PI -> - (PI / 2) < p < PI / 2 -> - PI < y <= PI -> @EPS RS < cos p ->
  echo_rpy (@qfromRPY RS r p y) = (r, p, y).
Proof.
  intros r p y Hr Hp Hy K. destruct (qfromRPY_ok r p y) as [U E]. unfold echo_rpy.
  assert (L : length2 (@qfromRPY RS r p y) = 1) by (unfold qunit in U; unfold length2; cbn [RS scar] in *; lra).
  rewrite quaternion_matrix_ok by (rewrite L; pose proof EPS_small; lra). rewrite E, ypr_entries, euler_sxyz. cbv zeta.
  assert (C : 0 < cos p) by (apply cos_gt_0; lra).
  replace (cos p * cos y * (cos p * cos y) + cos p * sin y * (cos p * sin y)) with (cos p * cos p * (sin y * sin y + cos y * cos y)) by ring.
  pose proof (sin2_cos2 y) as P. unfold Rsqr in P. rewrite P, Rmult_1_r, sqrt_square by lra.
  replace (Rltb (@EPS RS) (cos p)) with true by (symmetry; apply Rltb_true; exact K).
  rewrite !atan2_angle by (assumption || lra). f_equal. f_equal. rewrite Ropp_involutive.
  pose proof (atan2_angle p 1) as A. rewrite !Rmult_1_l in A. apply A; lra.
Qed.
