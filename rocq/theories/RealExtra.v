(** * The vector and angle helpers over the reals *)
From Coq Require Import ZArith Bool Reals Lra Psatz List.
From Verif Require Import RosTime Scalar LinearMath LinearExtra Instances RealSlerp RealQuat SpecReal RealMatrix RealEuler RealAxis SpecExtra.
Import ListNotations.
Open Scope R_scope.

Ltac ex_unfold :=
  unfold inner, norm, outer, minus, times in *; cbn [vx vy vz qx qy qz qw RS scar] in *.

Lemma vdot_inner : forall v w, @vdot RS v w = inner v w. Proof. reflexivity. Qed.
Lemma vlength_norm : forall v, @vlength RS v = norm v. Proof. reflexivity. Qed.
Lemma vcross_outer : forall v w, @vcross RS v w = outer v w. Proof. reflexivity. Qed.
Lemma inner_nonneg : forall v, 0 <= inner v v.
Proof. intros [a b c]. ex_unfold. nra. Qed.
Lemma inner_zero : forall v, inner v v = 0 -> v = @V3 RS 0 0 0.
Proof. intros [a b c] H. ex_unfold. f_equal; nra. Qed.
Lemma norm_sq : forall v, norm v * norm v = inner v v.
Proof. intros v. apply sqrt_sqrt, inner_nonneg. Qed.
Lemma norm_nonneg : forall v, 0 <= norm v.
Proof. intros v. apply sqrt_pos. Qed.
Lemma norm_pos : forall v, v <> @V3 RS 0 0 0 -> 0 < norm v.
Proof.
  intros v N. apply sqrt_lt_R0. pose proof (inner_nonneg v) as P. destruct P as [P|P]; [exact P|].
  exfalso. apply N, inner_zero. symmetry. exact P.
Qed.
(* Lagrange's identity *)
Lemma lagrange : forall v w, inner (outer v w) (outer v w) + inner v w * inner v w = inner v v * inner w w.
Proof. intros [a b c] [d e f]. ex_unfold. ring. Qed.
Lemma cauchy : forall v w, Rabs (inner v w) <= norm v * norm w.
Proof.
  intros v w. apply Rsqr_incr_0_var; [|apply Rmult_le_pos; apply norm_nonneg].
  rewrite <- Rsqr_abs. unfold Rsqr. pose proof (lagrange v w). pose proof (inner_nonneg (outer v w)).
  pose proof (norm_sq v). pose proof (norm_sq w).
  replace (norm v * norm w * (norm v * norm w)) with (inner v v * inner w w) by (rewrite <- H1, <- H2; ring). lra.
Qed.

Lemma Rabs_le_inv : forall a b, Rabs a <= b -> - b <= a <= b.
Proof. intros a b H. unfold Rabs in H. destruct (Rcase_abs a); lra. Qed.

(** ** angle *)
Lemma angle_ok : forall v w, v <> @V3 RS 0 0 0 -> w <> @V3 RS 0 0 0 ->
  0 <= @vangle RS v w <= PI /\ inner v w = norm v * norm w * cos (@vangle RS v w) /\
  norm (outer v w) = norm v * norm w * sin (@vangle RS v w).
Proof.
  intros v w Nv Nw. pose proof (norm_pos v Nv) as Pv. pose proof (norm_pos w Nw) as Pw.
  change (@vangle RS v w) with (@tf2Acos RS (inner v w / sqrt (inner v v * inner w w))).
  rewrite sqrt_mult by apply inner_nonneg. fold (norm v). fold (norm w).
  pose proof (cauchy v w) as C. assert (P : 0 < norm v * norm w) by (apply Rmult_lt_0_compat; assumption).
  assert (B : -1 <= inner v w / (norm v * norm w) <= 1).
  { apply Rabs_le_inv in C. split.
    - apply (Rmult_le_reg_r (norm v * norm w)); [exact P|]. unfold Rdiv. rewrite Rmult_assoc, Rinv_l by lra. lra.
    - apply (Rmult_le_reg_r (norm v * norm w)); [exact P|]. unfold Rdiv. rewrite Rmult_assoc, Rinv_l by lra. lra. }
  rewrite tf2Acos_in by exact B. split; [apply acos_bound|]. split.
  - rewrite cos_acos by exact B. field. lra.
  - rewrite sin_acos by exact B. apply Rsqr_inj; [apply norm_nonneg|apply Rmult_le_pos; [lra|apply sqrt_pos]|].
    unfold Rsqr. rewrite norm_sq.
    replace (norm v * norm w * sqrt (1 - inner v w / (norm v * norm w) * (inner v w / (norm v * norm w))) *
      (norm v * norm w * sqrt (1 - inner v w / (norm v * norm w) * (inner v w / (norm v * norm w)))))
      with (norm v * norm w * (norm v * norm w) *
        (sqrt (1 - inner v w / (norm v * norm w) * (inner v w / (norm v * norm w))) *
         sqrt (1 - inner v w / (norm v * norm w) * (inner v w / (norm v * norm w))))) by ring.
    rewrite sqrt_sqrt by nra.
    pose proof (lagrange v w) as L. rewrite <- (norm_sq v), <- (norm_sq w) in L.
    field_simplify; [|lra]. nra.
Qed.

(** ** distance *)
Lemma norm_triangle : forall u v : rvec, norm (@V3 RS (vx u + vx v) (vy u + vy v) (vz u + vz v)) <= norm u + norm v.
Proof.
  intros u v. apply Rsqr_incr_0_var; [|pose proof (norm_nonneg u); pose proof (norm_nonneg v); lra].
  unfold Rsqr. rewrite norm_sq. pose proof (cauchy u v) as C. apply Rabs_le_inv in C.
  replace ((norm u + norm v) * (norm u + norm v)) with (inner u u + inner v v + 2 * (norm u * norm v))
    by (rewrite <- !norm_sq; ring).
  destruct u as [a b c], v as [d e f]. unfold inner in *. cbn [vx vy vz RS scar] in *. lra.
Qed.
Lemma distance_norm : forall u v, @vdistance RS u v = norm (minus v u). Proof. reflexivity. Qed.
Lemma distance_metric : forall u v w,
  0 <= @vdistance RS u v /\ @vdistance RS u v = vdistance v u /\ (@vdistance RS u v = 0 <-> u = v) /\
  @vdistance RS u w <= vdistance u v + vdistance v w /\
  @vdistance2 RS u v = vdistance u v * vdistance u v.
Proof.
  intros u v w. rewrite !distance_norm. split; [apply norm_nonneg|]. split.
  { unfold norm. f_equal. destruct u as [a1 a2 a3], v as [b1 b2 b3]. ex_unfold. ring. }
  split.
  { split; intros H.
    - assert (E : inner (minus v u) (minus v u) = 0) by (rewrite <- norm_sq, H; ring).
      apply inner_zero in E. destruct u as [a b c], v as [d e f]. unfold minus in E. cbn [vx vy vz RS scar] in E. injection E as E1 E2 E3.
      f_equal; cbn [RS scar]; lra.
    - subst v. unfold norm. replace (inner (minus u u) (minus u u)) with 0 by (destruct u as [a1 a2 a3]; ex_unfold; ring). apply sqrt_0. }
  split.
  { pose proof (norm_triangle (minus v u) (minus w v)) as T.
    replace (minus w u) with (@V3 RS (vx (minus v u) + vx (minus w v)) (vy (minus v u) + vy (minus w v)) (vz (minus v u) + vz (minus w v))); [exact T|].
    destruct u as [a1 a2 a3], v as [b1 b2 b3], w as [c1 c2 c3]. unfold minus. cbn [vx vy vz RS scar]. f_equal; cbn [RS scar]; ring. }
  unfold vdistance2, vlength2. rewrite norm_sq. reflexivity.
Qed.
Lemma distance_rigid : forall (q : rquat) (t u v : rvec), qunit q ->
  @vdistance RS (vadd (quatRotate q u) t) (vadd (quatRotate q v) t) = vdistance u v.
Proof.
  intros q t u v H. rewrite !distance_norm. unfold norm. f_equal.
  replace (minus (vadd (quatRotate q v) t) (vadd (quatRotate q u) t)) with (quatRotate q (minus v u)).
  - exact (quatRotate_dot q (minus v u) (minus v u) H).
  - destruct q as [x y z w], u as [a b c], v as [d e f], t as [g h i]. unfold minus. lm_unfold. f_equal; cbn [RS scar]; ring.
Qed.

(** ** normalized *)
Lemma normalized_ok : forall v, v <> @V3 RS 0 0 0 ->
  norm (@vnormalized RS v) = 1 /\ times (norm v) (@vnormalized RS v) = v /\ @vnormalize RS v = vnormalized v.
Proof.
  intros v N. pose proof (norm_pos v N) as P. split; [|split; [|reflexivity]].
  - apply Rsqr_inj; [apply norm_nonneg|lra|]. unfold Rsqr. rewrite norm_sq. unfold vnormalized, vdivs. change (@vlength RS v) with (norm v).
    pose proof (norm_sq v) as Q. set (k := norm v) in *. destruct v as [a b c]. unfold vscale, inner in *. cbn [vx vy vz] in *. runf.
    replace (a * (1 / 1 / k) * (a * (1 / 1 / k)) + b * (1 / 1 / k) * (b * (1 / 1 / k)) + c * (1 / 1 / k) * (c * (1 / 1 / k)))
      with ((a * a + b * b + c * c) / (k * k)) by (field; lra). rewrite <- Q. field. lra.
  - unfold vnormalized, vdivs. change (@vlength RS v) with (norm v). set (k := norm v) in *. destruct v as [a b c]. unfold vscale, times. cbn [vx vy vz]. runf.
    f_equal; cbn [RS scar]; field; lra.
Qed.

(** ** lerp *)
Lemma lerp_ok : forall (v w : rvec) (t : R),
  @vlerp RS v w (0:R) = v /\ @vlerp RS v w (1:R) = w /\ @vlerp RS v w t = @vinterp RS v w t /\
  @vdistance RS v (@vlerp RS v w t) = Rabs t * vdistance v w.
Proof.
  intros v w t. rewrite !distance_norm.
  split; [destruct v as [a1 a2 a3], w as [b1 b2 b3]; unfold vlerp; cbn [vx vy vz]; runf; f_equal; cbn [RS scar]; ring|].
  split; [destruct v as [a1 a2 a3], w as [b1 b2 b3]; unfold vlerp; cbn [vx vy vz]; runf; f_equal; cbn [RS scar]; ring|].
  split; [destruct v as [a1 a2 a3], w as [b1 b2 b3]; unfold vlerp, vinterp; cbn [vx vy vz]; runf; f_equal; cbn [RS scar]; field|].
  replace (minus (@vlerp RS v w t) v) with (times t (minus w v))
    by (destruct v as [a1 a2 a3], w as [b1 b2 b3]; unfold vlerp, minus, times; cbn [vx vy vz]; runf; f_equal; cbn [RS scar]; ring).
  unfold norm. replace (inner (times t (minus w v)) (times t (minus w v))) with (t * t * inner (minus w v) (minus w v))
    by (destruct v as [a1 a2 a3], w as [b1 b2 b3]; ex_unfold; ring).
  rewrite sqrt_mult by (try apply inner_nonneg; nra). f_equal. rewrite <- (sqrt_Rsqr_abs t). reflexivity.
Qed.

(** ** axes *)
Lemma minAxis_ok : forall v i, (i < 3)%nat -> (@vminAxis RS v < 3)%nat /\ comp v (@vminAxis RS v) <= comp v i.
Proof.
  intros v i Hi. unfold vminAxis. cbn [RS sltb].
  destruct (Rltb (vx v) (vy v)) eqn:A; [destruct (Rltb (vx v) (vz v)) eqn:B|destruct (Rltb (vy v) (vz v)) eqn:B];
    (split; [lia|]); try apply Rltb_true in A; try apply Rltb_false in A; try apply Rltb_true in B; try apply Rltb_false in B;
    destruct i as [|[|[|i]]]; try lia; cbn [comp]; cbn [RS scar] in *; lra.
Qed.
Lemma maxAxis_ok : forall v i, (i < 3)%nat -> (@vmaxAxis RS v < 3)%nat /\ comp v i <= comp v (@vmaxAxis RS v).
Proof.
  intros v i Hi. unfold vmaxAxis. cbn [RS sltb].
  destruct (Rltb (vx v) (vy v)) eqn:A; [destruct (Rltb (vy v) (vz v)) eqn:B|destruct (Rltb (vx v) (vz v)) eqn:B];
    (split; [lia|]); try apply Rltb_true in A; try apply Rltb_false in A; try apply Rltb_true in B; try apply Rltb_false in B;
    destruct i as [|[|[|i]]]; try lia; cbn [comp]; cbn [RS scar] in *; lra.
Qed.
Lemma comp_abs : forall v i, comp (@vabsolute RS v) i = Rabs (comp v i).
Proof. intros v [|[|i]]; reflexivity. Qed.
Lemma setMin_ok : forall v w i, comp (@vsetMin RS v w) i = Rmin (comp v i) (comp w i).
Proof.
  assert (G : forall a b : R, @tf2SetMin RS a b = Rmin a b).
  { intros a b. unfold tf2SetMin, Rmin. cbn [RS sltb]. destruct (Rltb b a) eqn:E; [apply Rltb_true in E|apply Rltb_false in E];
      destruct (Rle_dec a b); try reflexivity; lra. }
  intros v w [|[|i]]; cbn [comp vsetMin vx vy vz]; apply G.
Qed.
Lemma setMax_ok : forall v w i, comp (@vsetMax RS v w) i = Rmax (comp v i) (comp w i).
Proof.
  assert (G : forall a b : R, @tf2SetMax RS a b = Rmax a b).
  { intros a b. unfold tf2SetMax, Rmax. cbn [RS sltb]. destruct (Rltb a b) eqn:E; [apply Rltb_true in E|apply Rltb_false in E];
      destruct (Rle_dec a b); try reflexivity; lra. }
  intros v w [|[|i]]; cbn [comp vsetMax vx vy vz]; apply G.
Qed.

(** ** products *)
Lemma skew_ok : forall v w, mmulv (@vskew RS v) w = outer v w.
Proof. intros [a b c] [d e f]. unfold vskew, outer. lm_unfold. f_equal; cbn [RS scar]; field. Qed.
Lemma triple_ok : forall u v w, @vtriple RS u v w = inner u (outer v w).
Proof. intros [a b c] [d e f] [g h i]. unfold vtriple, inner, outer. cbn [vx vy vz]. runf. ring. Qed.
Lemma scaled_ok : forall (m : rmat) (s v : rvec), mmulv (mscaled m s) v = mmulv m (vmulc s v).
Proof. intros [[a b c] [d e f] [g h i]] [x y z] [p q r]. unfold mscaled, vmulc. lm_unfold. f_equal; cbn [RS scar]; ring. Qed.
Lemma xmulq_ok : forall (t : rxform) (q : rquat) (v : rvec), rotation (xbasis t) ->
  quatRotate (xmulq t q) v = mmulv (xbasis t) (quatRotate q v).
Proof.
  intros t q v H. unfold xmulq, xgetRotation. rewrite quatRotate_mul.
  destruct (mgetRotation_ok (xbasis t) H) as [U E]. rewrite <- E at 2. rewrite mfromQuat_rotate by exact U. reflexivity.
Qed.
Lemma zero_tests : forall v, (@visZero RS v = true <-> v = @V3 RS 0 0 0) /\
  (@vfuzzyZero RS v = true <-> norm v * norm v < / 4503599627370496).
Proof.
  intros v. split.
  - unfold visZero. runf. rewrite zero1. rewrite !andb_true_iff, !Reqb_true. destruct v as [a b c]. cbn [vx vy vz]. split.
    + intros [[-> ->] ->]. reflexivity.
    + intros E. injection E as -> -> ->. auto.
  - unfold vfuzzyZero, seps. change (@vlength2 RS v) with (inner v v). rewrite norm_sq. runf. rewrite Rltb_true.
    replace (1 / 4503599627370496) with (/ 4503599627370496) by field. reflexivity.
Qed.

(** ** plane space *)
Lemma sqrt12_bounds : 0 < @sqrt12 RS /\ @sqrt12 RS * @sqrt12 RS < 1 / 2.
Proof. unfold sqrt12. cbn [RS slit]. lra. Qed.
Lemma recip_sqrt : forall a : R, 0 < a -> let k := @tf2RecipSqrt RS a in 0 < k /\ a * (k * k) = 1.
Proof.
  intros a H k. assert (P : 0 < sqrt a) by (apply sqrt_lt_R0; exact H).
  unfold k, tf2RecipSqrt. runf. rewrite one1. split.
  - apply Rdiv_lt_0_compat; lra.
  - rewrite <- (sqrt_sqrt a) at 1 by lra. field. lra.
Qed.
Lemma planeSpace_ok : forall n, inner n n = 1 -> let '(p, q) := @tf2PlaneSpace1 RS n in orthonormal n p q.
Proof.
  intros [a b c] H. destruct sqrt12_bounds as [S1 S2]. unfold tf2PlaneSpace1. cbn [vx vy vz].
  cbn [RS sabs]. unfold sgtb. cbn [RS sltb]. destruct (Rltb (@sqrt12 RS) (Rabs c)) eqn:E.
  - apply Rltb_true in E. assert (P : 0 < b * b + c * c).
    { assert (Rsqr (@sqrt12 RS) < Rsqr c).
      { rewrite (Rsqr_abs c). apply Rsqr_incrst_1; try exact E; [left; exact S1|apply Rabs_pos]. }
      assert (0 < Rsqr (@sqrt12 RS)) by (apply Rsqr_pos_lt; cbn [RS scar] in *; lra). unfold Rsqr in *. nra. }
    destruct (recip_sqrt (b * b + c * c) P) as [K1 K2]. set (k := @tf2RecipSqrt RS _) in *.
    change (@tf2RecipSqrt RS (b * b + c * c)%S) with (@tf2RecipSqrt RS (b * b + c * c)). fold k. clearbody k. clear E S1 S2.
    unfold orthonormal, inner, outer in *. cbn [vx vy vz] in *. runf. rewrite zero1. cbn [RS scar] in *.
    assert (Q : b * k * (b * k) + c * k * (c * k) = 1) by nra.
    split; [exact H|]. split; [lra|].
    split. { replace ((b * b + c * c) * k * ((b * b + c * c) * k) + - a * (b * k) * (- a * (b * k)) + a * (- c * k) * (a * (- c * k)))
      with ((b * b + c * c) * ((b * b + c * c) * (k * k)) + a * a * ((b * b + c * c) * (k * k))) by ring. rewrite K2. lra. }
    split; [ring|]. split; [ring|]. split; [ring|]. f_equal; ring.
  - apply Rltb_false in E. assert (P : 0 < a * a + b * b).
    { assert (Rsqr c <= Rsqr (@sqrt12 RS)).
      { rewrite (Rsqr_abs c). apply Rsqr_incr_1; try exact E; [apply Rabs_pos|left; exact S1]. }
      unfold Rsqr in *. unfold inner in H. cbn [vx vy vz RS scar] in *. lra. }
    destruct (recip_sqrt (a * a + b * b) P) as [K1 K2]. set (k := @tf2RecipSqrt RS _) in *.
    change (@tf2RecipSqrt RS (a * a + b * b)%S) with (@tf2RecipSqrt RS (a * a + b * b)). fold k. clearbody k. clear E S1 S2.
    unfold orthonormal, inner, outer in *. cbn [vx vy vz] in *. runf. rewrite zero1. cbn [RS scar] in *.
    assert (Q : b * k * (b * k) + a * k * (a * k) = 1) by nra.
    split; [exact H|]. split; [lra|].
    split. { replace (- c * (a * k) * (- c * (a * k)) + c * (- b * k) * (c * (- b * k)) + (a * a + b * b) * k * ((a * a + b * b) * k))
      with ((a * a + b * b) * ((a * a + b * b) * (k * k)) + c * c * ((a * a + b * b) * (k * k))) by ring. rewrite K2. lra. }
    split; [ring|]. split; [ring|]. split; [ring|]. f_equal; ring.
Qed.

(** ** Angles of quaternions *)
Lemma turns_axis : forall k t, inner k k = 1 -> turns_about k t (quatRotate (qfromAxisAngle k (t : RS))).
Proof.
  intros k t H. split; [exact H|]. intros v. rewrite axis_rotate_eq by exact H. destruct k as [a b c], v as [d e f].
  unfold vrotate. lm_unfold. reflexivity.
Qed.
Lemma getAngleShortestPath_eq : forall q, qunit q -> @qgetAngleShortestPath RS q = 2 * acos (Rabs (qw q)).
Proof.
  intros q H. pose proof (qunit_w q H) as W. unfold qgetAngleShortestPath, sgeb, two, szero. cbn [RS sltb seqb slit sopp smul]. rewrite zero1.
  destruct (Rltb 0 (qw q)) eqn:E; cbn [orb].
  - apply Rltb_true in E. rewrite tf2Acos_in by exact W. rewrite Rabs_right by (cbn [RS scar] in *; lra). cbn [RS scar]; field.
  - apply Rltb_false in E. destruct (Reqb (qw q) 0) eqn:F.
    + apply Reqb_true in F. rewrite F, Rabs_R0, tf2Acos_in by lra. cbn [RS scar]; field.
    + rewrite tf2Acos_in by (cbn [RS scar] in *; lra). rewrite Rabs_left1 by exact E. cbn [RS scar]; field.
Qed.
Lemma qunit_qneg : forall q, qunit q -> qunit (qneg q).
Proof. intros [x y z w] H. unfold qunit, qneg in *. cbn [qx qy qz qw RS scar sopp] in *. lra. Qed.
Lemma rotation_axis_pos : forall q, qunit q -> 0 <= qw q -> exists k, inner k k = 1 /\ q = qfromAxisAngle k (2 * acos (qw q) : RS).
Proof.
  intros q H P. pose proof (qunit_w q H) as W. destruct q as [x y z w]. unfold qunit in H. cbn [qx qy qz qw RS scar] in *.
  destruct (Req_dec w 1) as [->|N].
  - exists (@V3 RS 1 0 0). assert (U : inner (@V3 RS 1 0 0) (@V3 RS 1 0 0) = 1) by (unfold inner; cbn [vx vy vz RS scar]; ring).
    split; [exact U|]. rewrite qfromAxisAngle_eq by exact U. rewrite acos_1. replace (2 * 0 / 2) with 0 by field. rewrite sin_0, cos_0.
    cbn [vx vy vz RS scar]. assert (x * x = 0 /\ y * y = 0 /\ z * z = 0) as (X & Y & Z) by (repeat split; nra).
    apply Rmult_integral in X, Y, Z. f_equal; cbn [RS scar]; lra.
  - assert (Sp : 0 < sqrt (1 - w * w)) by (apply sqrt_lt_R0; nra).
    assert (Sq : sqrt (1 - w * w) * sqrt (1 - w * w) = 1 - w * w) by (apply sqrt_sqrt; nra).
    set (r := sqrt (1 - w * w)) in *. exists (@V3 RS (x / r) (y / r) (z / r)).
    assert (U : inner (@V3 RS (x / r) (y / r) (z / r)) (@V3 RS (x / r) (y / r) (z / r)) = 1).
    { unfold inner. cbn [vx vy vz RS scar]. transitivity ((x * x + y * y + z * z) / (r * r)); [field; lra|].
      rewrite Sq. replace (x * x + y * y + z * z) with (1 - w * w) by lra. field. nra. }
    split; [exact U|]. rewrite qfromAxisAngle_eq by exact U. replace (2 * acos w / 2) with (acos w) by field.
    rewrite cos_acos, sin_acos by lra. unfold Rsqr. fold r. cbn [vx vy vz RS scar]. f_equal; cbn [RS scar]; field; lra.
Qed.
Lemma getAngleShortestPath_turns : forall q, qunit q ->
  0 <= @qgetAngleShortestPath RS q <= PI /\ exists k, turns_about k (@qgetAngleShortestPath RS q) (quatRotate q).
Proof.
  intros q H. rewrite getAngleShortestPath_eq by exact H. pose proof (qunit_w q H) as W.
  assert (B : 0 <= Rabs (qw q) <= 1) by (split; [apply Rabs_pos|apply Rabs_le; exact W]).
  split. { pose proof (acos_nonneg_range _ B). lra. }
  destruct (Rle_dec 0 (qw q)) as [P|P].
  - destruct (rotation_axis_pos q H P) as (k & U & E). exists k. rewrite Rabs_right by (apply Rle_ge; exact P).
    rewrite E at 2. apply turns_axis. exact U.
  - destruct (rotation_axis_pos (qneg q) (qunit_qneg q H)) as (k & U & E).
    { unfold qneg. cbn [qw RS sopp]. cbn [RS scar] in *. lra. }
    exists k. rewrite Rabs_left by lra. destruct (turns_axis k (2 * acos (- qw q)) U) as [_ T].
    split; [exact U|]. intros v. rewrite <- (quatRotate_qneg q v). rewrite E. exact (T v).
Qed.
Lemma getAngleShortestPath_unique : forall q k t, qunit q -> 0 <= t <= PI -> turns_about k t (quatRotate q) ->
  t = @qgetAngleShortestPath RS q.
Proof.
  intros q k t H Ht [U T]. rewrite getAngleShortestPath_eq by exact H.
  destruct (turns_axis k t U) as [_ T'].
  assert (E : same_rotation q (qfromAxisAngle k (t : RS))).
  { apply mfromQuat_inj; [exact H|apply qfromAxisAngle_unit; exact U|]. apply mat_ext. intros v.
    rewrite !mfromQuat_rotate by (try apply qfromAxisAngle_unit; assumption). rewrite T, T'. reflexivity. }
  assert (C : Rabs (qw q) = cos (t / 2)).
  { assert (0 <= cos (t / 2)) by (apply cos_ge_0; lra).
    rewrite qfromAxisAngle_eq in E by exact U. destruct E as [E|E]; rewrite E; cbn [qw qneg RS sopp].
    - apply Rabs_right. lra.
    - rewrite Rabs_Ropp. apply Rabs_right. lra. }
  rewrite C, acos_cos by lra. field.
Qed.
Lemma Rmult_div_2 : forall x : R, 2 * (x / 2) = x. Proof. intros x. field. Qed.
Lemma angleShortestPath_rel : forall p q, qunit p -> qunit q ->
  @qangleShortestPath RS p q = @qgetAngleShortestPath RS (qmul q (qinv p)).
Proof.
  intros p q Hp Hq. rewrite getAngleShortestPath_eq by (apply qunit_mul; [exact Hq|apply qinv_unit; exact Hp]).
  pose proof (slerp_theta_unit p q Hp Hq) as E. unfold slerp_theta in E.
  replace (qw (qmul q (qinv p))) with (qinner p q).
  - transitivity (2 * (@qangleShortestPath RS p q / 2) : R); [symmetry; apply Rmult_div_2|rewrite E; reflexivity].
  - destruct p as [a b c d], q as [e f g h]. unfold qinner, qmul, qinv. cbn [qx qy qz qw]. runf. cbn [RS scar]; ring.
Qed.
Lemma qangle_half : forall p q, qunit p -> qunit q ->
  0 <= @qangle RS p q <= PI /\ cos (@qangle RS p q) = qinner p q /\
  (0 <= qinner p q -> @qangleShortestPath RS p q = 2 * @qangle RS p q) /\
  (qinner p q <= 0 -> @qangleShortestPath RS p q = 2 * (PI - @qangle RS p q)).
Proof.
  intros p q Hp Hq. pose proof (qinner_bound p q Hp Hq) as B.
  assert (E : @qangle RS p q = acos (qinner p q)).
  { assert (L : @qlength2 RS p * @qlength2 RS q = 1).
    { change (@qlength2 RS p) with (qx p * qx p + qy p * qy p + qz p * qz p + qw p * qw p).
      change (@qlength2 RS q) with (qx q * qx q + qy q * qy q + qz q * qz q + qw q * qw q).
      unfold qunit in *. rewrite Hp, Hq. ring. }
    change (@qangle RS p q) with (@tf2Acos RS (qinner p q / sqrt (@qlength2 RS p * @qlength2 RS q))).
    rewrite L, sqrt_1. replace (qinner p q / 1) with (qinner p q) by field.
    apply tf2Acos_in. exact B. }
  pose proof (slerp_theta_unit p q Hp Hq) as F. unfold slerp_theta in F.
  split; [rewrite E; apply acos_bound|]. split; [rewrite E; apply cos_acos; exact B|]. split; intros S0.
  - rewrite Rabs_right in F by lra. rewrite E, <- F. symmetry. apply Rmult_div_2.
  - rewrite Rabs_left1 in F by exact S0. rewrite E. rewrite acos_opp in F. rewrite <- F. symmetry. apply Rmult_div_2.
Qed.

(** ** shortestArcQuat *)
Definition Qv (u : rvec) (c : R) : rquat := @Q4 RS (vx u) (vy u) (vz u) c.
Lemma rotate_parts : forall (u v : rvec) (c : R), quatRotate (Qv u c) v =
  @V3 RS (2 * inner u v * vx u + (c * c - inner u u) * vx v + 2 * c * vx (outer u v))
         (2 * inner u v * vy u + (c * c - inner u u) * vy v + 2 * c * vy (outer u v))
         (2 * inner u v * vz u + (c * c - inner u u) * vz v + 2 * c * vz (outer u v)).
Proof. intros [a b c] [d e f] w. unfold Qv, inner, outer. lm_unfold. f_equal; cbn [RS scar]; ring. Qed.
Lemma arc_eq : forall v w : rvec, inner v v = 1 -> inner w w = 1 -> -1 + / 4503599627370496 <= inner v w ->
  exists s, 0 < s /\ s * s = 2 * (1 + inner v w) /\ @shortestArcQuat RS v w = Qv (times (/ s) (outer v w)) (s / 2).
Proof.
  intros v w Hv Hw Hd. exists (sqrt ((1 + inner v w) * 2)). assert (P : 0 < (1 + inner v w) * 2) by lra.
  split; [apply sqrt_lt_R0; exact P|]. split; [rewrite sqrt_sqrt by lra; ring|].
  assert (N : sqrt ((1 + inner v w) * 2) <> 0) by (apply Rgt_not_eq, sqrt_lt_R0; exact P).
  unfold shortestArcQuat. change (@vdot RS v w) with (inner v w). change (@vcross RS v w) with (outer v w).
  unfold seps. cbn [RS slit sltb sadd]. replace (Rltb (inner v w) (-1 / 1 + 1 / 4503599627370496)) with false.
  - unfold Qv, times. cbn [vx vy vz]. runf. rewrite one1. replace (2 / 1) with 2 by field.
    f_equal; cbn [RS scar]; field; exact N.
  - symmetry. apply Rltb_false. lra.
Qed.
Lemma outer_orth : forall v w, inner (outer v w) v = 0 /\ inner (outer v w) w = 0.
Proof. intros [a b c] [d e f]. unfold inner, outer. cbn [vx vy vz RS scar]. split; ring. Qed.
Lemma arc_rotates : forall v w : rvec, inner v v = 1 -> inner w w = 1 -> -1 + / 4503599627370496 <= inner v w ->
  qunit (shortestArcQuat v w) /\ quatRotate (shortestArcQuat v w) v = w.
Proof.
  intros v w Hv Hw Hd. destruct (arc_eq v w Hv Hw Hd) as (s & P & Sq & E). rewrite E.
  pose proof (lagrange v w) as L. rewrite Hv, Hw in L. destruct (outer_orth v w) as [O1 O2].
  assert (Ns : 1 + inner v w <> 0) by lra.
  assert (UU : inner (times (/ s) (outer v w)) (times (/ s) (outer v w)) = (1 - inner v w) / 2).
  { replace (inner (times (/ s) (outer v w)) (times (/ s) (outer v w))) with (inner (outer v w) (outer v w) / (s * s))
      by (unfold times, inner; cbn [vx vy vz RS scar]; field; lra).
    rewrite Sq. replace (inner (outer v w) (outer v w)) with ((1 - inner v w) * (1 + inner v w)) by lra. field. lra. }
  split.
  - unfold qunit, Qv. cbn [qx qy qz qw]. unfold inner in UU at 1. cbn [RS scar] in *.
    replace (s / 2 * (s / 2)) with (s * s / 4) by field. rewrite Sq. lra.
  - rewrite rotate_parts. rewrite UU. replace (s / 2 * (s / 2)) with (s * s / 4) by field. rewrite Sq.
    replace (inner (times (/ s) (outer v w)) v) with (/ s * inner (outer v w) v) by (unfold times, inner; cbn [vx vy vz RS scar]; ring).
    rewrite O1. set (d := inner v w) in *.
    assert (X : outer (times (/ s) (outer v w)) v = times (/ s) (minus w (times d v))).
    { transitivity (times (/ s) (minus (times (inner v v) w) (times d v))).
      - unfold d, outer, times, minus, inner. destruct v as [a b c], w as [e f g]. cbn [vx vy vz RS scar]. f_equal; cbn [RS scar]; ring.
      - rewrite Hv. f_equal. destruct w as [e f g]. unfold times, minus. cbn [vx vy vz RS scar]. f_equal; cbn [RS scar]; ring. }
    rewrite X. destruct v as [a b c], w as [e f g]. unfold times, minus. cbn [vx vy vz RS scar]. f_equal; cbn [RS scar]; field; lra.
Qed.
Lemma arc_opposite : forall v w : rvec, inner v v = 1 -> inner w w = 1 -> inner v w < -1 + / 4503599627370496 ->
  qunit (shortestArcQuat v w) /\ quatRotate (shortestArcQuat v w) v = times (-1) v /\
  inner (minus w (times (-1) v)) (minus w (times (-1) v)) < 2 / 4503599627370496.
Proof.
  intros v w Hv Hw Hd.
  assert (E : @shortestArcQuat RS v w = Qv (fst (@tf2PlaneSpace1 RS v)) 0).
  { unfold shortestArcQuat. change (@vdot RS v w) with (inner v w).
    unfold seps. cbn [RS slit sltb sadd]. replace (Rltb (inner v w) (-1 / 1 + 1 / 4503599627370496)) with true.
    - unfold Qv. runf. rewrite zero1. reflexivity.
    - symmetry. apply Rltb_true. lra. }
  rewrite E. pose proof (planeSpace_ok v Hv) as PS. destruct (@tf2PlaneSpace1 RS v) as [p q]. cbn [fst].
  destruct PS as (_ & Pp & _ & Op & _). split; [|split].
  - unfold qunit, Qv. cbn [qx qy qz qw]. unfold inner in Pp. cbn [RS scar] in *. lra.
  - rewrite rotate_parts. replace (inner p v) with (inner v p) by (unfold inner; cbn [RS scar]; ring). rewrite Op, Pp.
    unfold times. f_equal; cbn [RS scar]; ring.
  - replace (inner (minus w (times (-1) v)) (minus w (times (-1) v))) with (inner w w + inner v v + 2 * inner v w)
      by (destruct v, w; unfold inner, minus, times; cbn [LinearMath.vx LinearMath.vy LinearMath.vz RS scar]; ring).
    rewrite Hv, Hw. lra.
Qed.
(* a unit quaternion that fixes the unit vector v has its vector part along v *)
Lemma fixes_parallel : forall (r : rquat) (v : rvec), qunit r -> inner v v = 1 -> quatRotate r v = v ->
  exists a, r = Qv (times a v) (qw r).
Proof.
  intros r v U Hv F. pose proof (quatRotate_pure r v) as Q. rewrite F in Q.
  assert (C : qmul r (qpure v) = qmul (qpure v) r).
  { rewrite <- Q at 2. rewrite <- (qmul_assoc (qmul r (qpure v)) (qinv r) r). pose proof (qmul_inv_l r U) as I. rewrite I, qmul_id_r. reflexivity. }
  destruct r as [x y z w], v as [a b c]. unfold qpure, qmul in C. cbn [qx qy qz qw vx vy vz] in C. runf.
  injection C as C1 C2 C3 _. exists (x * a + y * b + z * c). unfold Qv, times. cbn [vx vy vz qw RS scar].
  unfold inner in Hv. cbn [vx vy vz RS scar] in Hv.
  assert (D1 : y * c = z * b) by lra. assert (D2 : z * a = x * c) by lra. assert (D3 : x * b = y * a) by lra.
  f_equal; cbn [RS scar].
  - replace ((x * a + y * b + z * c) * a) with (x * (a * a) + b * (y * a) + c * (z * a)) by ring. rewrite <- D3, D2.
    replace (x * (a * a) + b * (x * b) + c * (x * c)) with (x * (a * a + b * b + c * c)) by ring. rewrite Hv. ring.
  - replace ((x * a + y * b + z * c) * b) with (a * (x * b) + y * (b * b) + c * (z * b)) by ring. rewrite D3, <- D1.
    replace (a * (y * a) + y * (b * b) + c * (y * c)) with (y * (a * a + b * b + c * c)) by ring. rewrite Hv. ring.
  - replace ((x * a + y * b + z * c) * c) with (a * (x * c) + b * (y * c) + z * (c * c)) by ring. rewrite <- D2, D1.
    replace (a * (z * a) + b * (z * b) + z * (c * c)) with (z * (a * a + b * b + c * c)) by ring. rewrite Hv. ring.
Qed.
Lemma arc_least : forall (v w : rvec) (p : rquat), inner v v = 1 -> inner w w = 1 -> -1 + / 4503599627370496 <= inner v w ->
  qunit p -> quatRotate p v = w -> @qgetAngleShortestPath RS (shortestArcQuat v w) <= @qgetAngleShortestPath RS p.
Proof.
  intros v w p Hv Hw Hd Up Rp. destruct (arc_rotates v w Hv Hw Hd) as [Uq Rq]. destruct (arc_eq v w Hv Hw Hd) as (s & P & Sq & E).
  rewrite !getAngleShortestPath_eq by assumption. set (q := shortestArcQuat v w) in *.
  assert (Wq : 0 <= qw q) by (rewrite E; unfold Qv; cbn [qw]; cbn [RS scar]; lra).
  set (r := qmul (qinv q) p).
  assert (Ur : qunit r) by (apply qunit_mul; [apply qinv_unit|]; assumption).
  assert (F : quatRotate r v = v). { unfold r. rewrite quatRotate_mul, Rp, <- Rq. apply quatRotate_inv_l. exact Uq. }
  assert (Ep : p = qmul q r). { unfold r. rewrite qmul_assoc. pose proof (qmul_inv_r q Uq) as X. rewrite X, qmul_id_l. reflexivity. }
  destruct (fixes_parallel r v Ur Hv F) as [a Er].
  assert (W : qw p = qw q * qw r).
  { rewrite Ep at 1. rewrite Er at 1. rewrite E at 1 2. destruct (outer_orth v w) as [O1 _].
    transitivity (s / 2 * qw r - a * / s * inner (outer v w) v).
    - unfold qmul, Qv, times, inner. cbn [qx qy qz qw vx vy vz]. runf. ring.
    - rewrite O1. unfold Qv. cbn [qw]. cbn [RS scar]. ring. }
  assert (Le : Rabs (qw p) <= Rabs (qw q)).
  { rewrite W, Rabs_mult. pose proof (Rabs_pos (qw q)). pose proof (qunit_w r Ur) as Br.
    assert (Rabs (qw r) <= 1) by (apply Rabs_le; exact Br). cbn [RS scar] in *. nra. }
  assert (acos (Rabs (qw q)) <= acos (Rabs (qw p))); [|lra].
  pose proof (qunit_w q Uq) as Bq. pose proof (qunit_w p Up) as Bp.
  assert (Rabs (qw q) <= 1) by (apply Rabs_le; exact Bq). pose proof (Rabs_pos (qw p)).
  set (x := Rabs (qw q)) in *. set (y := Rabs (qw p)) in *. clearbody x y. pose proof (acos_bound x). pose proof (acos_bound y).
  destruct (Rle_dec (acos x) (acos y)) as [G|G]; [exact G|exfalso].
  assert (C : cos (acos x) < cos (acos y)) by (apply cos_decreasing_1; lra). rewrite !cos_acos in C by lra. lra.
Qed.

(** ** Angle normalisation *)
Lemma truncate_spec : forall x, (0 <= x -> IZR (truncate x) <= x < IZR (truncate x) + 1) /\
  (x < 0 -> IZR (truncate x) - 1 < x <= IZR (truncate x)).
Proof.
  intros x. unfold truncate. destruct (Rle_dec 0 x); split; intros H; try lra.
  - pose proof (archimed x). rewrite minus_IZR. lra.
  - pose proof (archimed (- x)). rewrite minus_IZR. lra.
Qed.
Lemma normalizeAngle_ok : forall a : R,
  let r : R := @tf2NormalizeAngle RS Rfmod (2 * PI) a in
  - PI <= r <= PI /\ exists k : Z, a = r + 2 * PI * IZR k.
Proof.
  intros a. unfold tf2NormalizeAngle. cbn [RS smul]. replace (2 * PI * @half RS) with PI by (unfold half; cbn [RS slit]; field).
  pose proof PI_RGT_0 as Pp. set (f := Rfmod a (2 * PI)).
  assert (F : - (2 * PI) < f < 2 * PI /\ exists k : Z, a = f + 2 * PI * IZR k).
  { unfold f, Rfmod. destruct (truncate_spec (a / (2 * PI))) as [T1 T2]. set (k := truncate (a / (2 * PI))) in *.
    assert (A : a = a / (2 * PI) * (2 * PI)) by (field; lra). split; [|exists k; ring].
    destruct (Rle_dec 0 (a / (2 * PI))) as [H|H].
    - specialize (T1 H). rewrite A at 1 2. split; nra.
    - assert (H' : a / (2 * PI) < 0) by lra. specialize (T2 H'). rewrite A at 1 2. split; nra. }
  destruct F as [B [k Ek]]. cbn [RS sltb sopp sadd ssub]. unfold sgtb. cbn [RS sltb].
  destruct (Rltb f (- PI)) eqn:E1; [apply Rltb_true in E1|apply Rltb_false in E1].
  - split; [lra|]. exists (k - 1)%Z. rewrite minus_IZR, Ek. ring.
  - destruct (Rltb PI f) eqn:E2; [apply Rltb_true in E2|apply Rltb_false in E2].
    + split; [lra|]. exists (k + 1)%Z. rewrite plus_IZR, Ek. ring.
    + split; [lra|]. exists k. exact Ek.
Qed.
