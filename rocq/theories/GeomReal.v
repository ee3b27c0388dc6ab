(** * Transforming geometry messages over the real numbers *)
From Coq Require Import ZArith Bool Reals Lra Psatz List String Lia.
From Verif Require Import RosTime Scalar LinearMath Instances RealSlerp RealQuat SpecReal RealMatrix GeomMsgs SpecGeom GeomProofs.
Import ListNotations.
Open Scope R_scope.

Definition tfx (T : rtstamped) : rxform := fromMsg_Transform (t_transform T).
Notation fq := fromMsg_Quaternion.
Notation fv := fromMsg_xyz.
Notation tv := toMsg_Vector3.
Notation tq := toMsg_Quaternion.

Lemma fv_tv : forall v : rvec, fv (tv v) = v. Proof. intros []. reflexivity. Qed.
Lemma tv_fv : forall v : rxyz, tv (fv v) = v. Proof. intros []. reflexivity. Qed.
Lemma fq_tq : forall v : rquat, fq (tq v) = v. Proof. intros []. reflexivity. Qed.
Lemma tq_fq : forall v : rgquat, tq (fq v) = v. Proof. intros []. reflexivity. Qed.
Lemma fv_inj : forall a b : rxyz, fv a = fv b -> a = b.
Proof. intros a b H. rewrite <- (tv_fv a), <- (tv_fv b), H. reflexivity. Qed.

Lemma unit_fq : forall q, is_unit q -> qunit (fq q).
Proof. intros [] H. exact H. Qed.
Lemma nonzero_fq : forall q, is_nonzero q -> nonzero (fq q).
Proof. intros [] H. exact H. Qed.
Lemma unit_nonzero : forall q, is_unit q -> is_nonzero q.
Proof. intros q H. unfold is_nonzero. rewrite H. lra. Qed.
Lemma turn_eq : forall (q : rgquat) (v : rxyz), is_unit q -> turn q v = tv (quatRotate (fq q) (fv v)).
Proof.
  intros [x y z w] [a b c] H. unfold is_unit, norm2 in H. cbn in H.
  unfold turn, plus, times, cross, axis_of, tv, fv, fq. lm_unfold. cbn [gx gy gz gqx gqy gqz gqw vx vy vz].
  assert (W : w * w = 1 - x * x - y * y - z * z) by lra.
  f_equal; ring [W].
Qed.
Lemma turn_mat : forall (q : rgquat) (v : rxyz), is_unit q -> turn q v = tv (mmulv (mfromQuat (fq q)) (fv v)).
Proof. intros q v H. rewrite turn_eq by exact H. rewrite mfromQuat_rotate by (apply unit_fq; exact H). reflexivity. Qed.
Lemma tv_add : forall v w : rvec, tv (vadd v w) = plus (tv v) (tv w).
Proof. intros [] []. reflexivity. Qed.
Lemma tv_cross : forall v w : rvec, tv (vcross v w) = cross (tv v) (tv w).
Proof. intros [] []. reflexivity. Qed.
Lemma fv_plus : forall v w, fv (plus v w) = vadd (fv v) (fv w).
Proof. intros [] []. reflexivity. Qed.
Lemma fv_minus : forall v w, fv (minus v w) = vsub (fv v) (fv w).
Proof. intros [] []. reflexivity. Qed.
Lemma fv_cross : forall v w, fv (cross v w) = vcross (fv v) (fv w).
Proof. intros [] []. reflexivity. Qed.
Lemma dot_fv : forall v w, dot v w = vdot (fv v) (fv w).
Proof. intros [] []. reflexivity. Qed.
Lemma tq_mul : forall p q : rquat, tq (qmul p q) = product (tq p) (tq q).
Proof.
  intros [a b c d] [e f g h]. unfold product, plus, times, cross, dot, axis_of, toMsg_Quaternion. lm_unfold.
  cbn [gx gy gz gqx gqy gqz gqw]. f_equal; ring.
Qed.
Lemma same_turn_tq : forall p q : rquat, same_rotation p q -> same_turn (tq p) (tq q).
Proof. intros p q [->| ->]; [left; reflexivity|right; destruct q; reflexivity]. Qed.
Lemma same_turn_turn : forall p q v, same_turn p q -> turn p v = turn q v.
Proof.
  intros p q v [->| ->]; [reflexivity|]. destruct q as [x y z w], v as [a b c].
  unfold turn, opposite, plus, times, cross, axis_of; cbn [gx gy gz gqx gqy gqz gqw RS sadd smul ssub scar]. f_equal; ring.
Qed.

Lemma tfx_rigid : forall T, is_nonzero (rot T) -> rigid (tfx T).
Proof. intros T H. apply mfromQuat_rotation. apply nonzero_fq. exact H. Qed.
Lemma tfx_basis : forall T, xbasis (tfx T) = mfromQuat (fq (rot T)). Proof. reflexivity. Qed.
Lemma tfx_origin : forall T, xorigin (tfx T) = fv (shift T). Proof. reflexivity. Qed.

Lemma point_fv : forall T p, fv (point_by T p) = xapply (tfx T) (fv p).
Proof. intros T p. rewrite point_by_eq. apply fv_tv. Qed.
Lemma vector_fv : forall T p, fv (vector_by T p) = mmulv (xbasis (tfx T)) (fv p).
Proof. intros T p. rewrite vector_by_eq. apply fv_tv. Qed.

Lemma point_moved : forall T p, is_unit (rot T) -> point_by T p = moved T p.
Proof.
  intros T p H. apply fv_inj. rewrite point_fv, xapply_eq. unfold moved. rewrite fv_plus, turn_mat, fv_tv by exact H. reflexivity.
Qed.
Lemma vector_turned : forall T p, is_unit (rot T) -> vector_by T p = turn (rot T) p.
Proof. intros T p H. apply fv_inj. rewrite vector_fv, turn_mat, fv_tv by exact H. reflexivity. Qed.

(** ** Composition and inverse as transforms *)
Lemma transform_tfx : forall x : rxform, rigid x -> fromMsg_Transform (toMsg_Transform x) = x.
Proof.
  intros [B o] H. unfold fromMsg_Transform, toMsg_Transform. cbn [translation g_rotation xorigin xbasis].
  rewrite fq_tq, fv_tv. unfold xgetRotation. cbn [xbasis]. destruct (mgetRotation_ok B H) as [_ ->]. reflexivity.
Qed.
Lemma transform_rot_unit : forall x : rxform, rigid x -> is_unit (g_rotation (toMsg_Transform x)).
Proof.
  intros [B o] H. unfold toMsg_Transform, xgetRotation. cbn [g_rotation xbasis]. destruct (mgetRotation_ok B H) as [U _].
  destruct (mgetRotation B). exact U.
Qed.
Lemma compose_tfx : forall T1 T2, is_nonzero (rot T1) -> is_nonzero (rot T2) ->
  tfx (transform_by T1 T2) = xmul (tfx T1) (tfx T2) /\ is_unit (rot (transform_by T1 T2)).
Proof.
  intros T1 T2 H1 H2. rewrite transform_by_eq. pose proof (rigid_mul _ _ (tfx_rigid _ H1) (tfx_rigid _ H2)) as R.
  split; [exact (transform_tfx _ R)|exact (transform_rot_unit _ R)].
Qed.
Lemma inverted_tfx : forall T, is_nonzero (rot T) -> tfx (inverted T) = xinverse (tfx T) /\ is_unit (rot (inverted T)).
Proof.
  intros T H. pose proof (rigid_inverse _ (tfx_rigid _ H)) as R.
  split; [exact (transform_tfx _ R)|exact (transform_rot_unit _ R)].
Qed.

(** ** Poses *)
Definition posex (p : gpose RS) : rxform := xfromQuat (fq (orientation p)) (fv (position p)).
Lemma pose_by_x : forall T p, is_nonzero (rot T) -> is_nonzero (orientation p) ->
  posex (pose_by T p) = xmul (tfx T) (posex p) /\ is_unit (orientation (pose_by T p)).
Proof.
  intros T p HT Hp. rewrite pose_by_eq.
  assert (R : rigid (xmul (tfx T) (posex p))).
  { apply rigid_mul; [apply tfx_rigid; exact HT|]. apply mfromQuat_rotation, nonzero_fq. exact Hp. }
  split; [|exact (transform_rot_unit _ R)].
  exact (transform_tfx _ R).
Qed.
Lemma posex_inj : forall p q, is_unit (orientation p) -> is_unit (orientation q) -> posex p = posex q ->
  position p = position q /\ same_turn (orientation p) (orientation q).
Proof.
  intros p q Hp Hq E. unfold posex, xfromQuat in E. assert (E1 : mfromQuat (fq (orientation p)) = mfromQuat (fq (orientation q))) by congruence.
  assert (E2 : fv (position p) = fv (position q)) by congruence. split; [apply fv_inj; exact E2|].
  rewrite <- (tq_fq (orientation p)), <- (tq_fq (orientation q)). apply same_turn_tq, mfromQuat_inj; try (apply unit_fq; assumption). exact E1.
Qed.

(** ** Wrenches *)
Lemma wrench_parts : forall T w,
  fv (force (wrench_by T w)) = mmulv (xbasis (tfx T)) (fv (force w)) /\
  fv (torque (wrench_by T w)) = vadd (mmulv (xbasis (tfx T)) (fv (torque w))) (vcross (xorigin (tfx T)) (mmulv (xbasis (tfx T)) (fv (force w)))).
Proof. intros T w. rewrite wrench_by_eq. split; reflexivity. Qed.
Lemma wrench_ext : forall a b : gwrench RS, fv (force a) = fv (force b) -> fv (torque a) = fv (torque b) -> a = b.
Proof. intros [] [] H1 H2. f_equal; apply fv_inj; assumption. Qed.
Lemma vcross_add_r : forall u v w : rvec, vcross u (vadd v w) = vadd (vcross u v) (vcross u w).
Proof. intros [] [] []. lm_unfold. f_equal; ring. Qed.
Lemma vcross_add_l : forall u v w : rvec, vcross (vadd u v) w = vadd (vcross u w) (vcross v w).
Proof. intros [] [] []. lm_unfold. f_equal; ring. Qed.

(** ** Covariances *)
Definition blk (c : nat -> R) (a b : nat) : rmat :=
  let e i j := c (6 * (3 * a + i) + (3 * b + j))%nat in
  V9 (e 0%nat 0%nat) (e 0%nat 1%nat) (e 0%nat 2%nat) (e 1%nat 0%nat) (e 1%nat 1%nat) (e 1%nat 2%nat)
     (e 2%nat 0%nat) (e 2%nat 1%nat) (e 2%nat 2%nat).
Lemma cov_blocks : forall junk c (x : rxform) a b, (a < 2)%nat -> (b < 2)%nat ->
  blk (transformCovariance junk c x) a b = mmul (mmul (xbasis x) (blk c a b)) (mtranspose (xbasis x)).
Proof.
  intros junk c x a b Ha Hb. destruct a as [|[|]]; [| |lia]; (destruct b as [|[|]]; [| |lia]); reflexivity.
Qed.
Lemma blk_ext : forall c d : nat -> R, (forall a b, (a < 2)%nat -> (b < 2)%nat -> blk c a b = blk d a b) ->
  forall k, (k < 36)%nat -> c k = d k.
Proof.
  intros c d H k Hk.
  pose proof (H 0 0)%nat as E00. pose proof (H 0 1)%nat as E01. pose proof (H 1 0)%nat as E10. pose proof (H 1 1)%nat as E11.
  unfold blk, V9 in *. cbn [Nat.mul Nat.add] in *.
  specialize (E00 ltac:(lia) ltac:(lia)). specialize (E01 ltac:(lia) ltac:(lia)).
  specialize (E10 ltac:(lia) ltac:(lia)). specialize (E11 ltac:(lia) ltac:(lia)).
  injection E00 as ? ? ? ? ? ? ? ? ?. injection E01 as ? ? ? ? ? ? ? ? ?.
  injection E10 as ? ? ? ? ? ? ? ? ?. injection E11 as ? ? ? ? ? ? ? ? ?.
  do 36 (destruct k as [|k]; [assumption|]). lia.
Qed.
Lemma cov_compose : forall j1 j2 j3 c (x y : rxform) k, (k < 36)%nat ->
  transformCovariance j1 (transformCovariance j2 c y) x k = transformCovariance j3 c (xmul x y) k.
Proof.
  intros j1 j2 j3 c x y k Hk. apply blk_ext with (k := k); [|exact Hk]. intros a b Ha Hb.
  rewrite !cov_blocks by assumption. rewrite xmul_eq. cbn [xbasis]. rewrite mtranspose_mul, !mmul_assoc. reflexivity.
Qed.
Lemma cov_identity : forall j c k, (k < 36)%nat -> transformCovariance j c (xidentity : rxform) k = c k.
Proof.
  intros j c k Hk. apply blk_ext with (k := k); [|exact Hk]. intros a b Ha Hb. rewrite cov_blocks by assumption.
  unfold xidentity. cbn [xbasis]. rewrite mmul_id_l.
  assert (E : mtranspose midentity = (midentity : rmat)) by reflexivity. rewrite E, mmul_id_r. reflexivity.
Qed.
(** the entries, with R given by its nine entries *)
Definition m9 (m : rmat) (i j : nat) : R :=
  let r := match i with O => m0 m | 1%nat => m1 m | _ => m2 m end in
  match j with O => vx r | 1%nat => vy r | _ => vz r end.
Definition bd (m : rmat) (i j : nat) : R := if Nat.eqb (i / 3) (j / 3) then m9 m (i mod 3) (j mod 3) else 0.
Definition sum3 (f : nat -> R) : R := f 0%nat + f 1%nat + f 2%nat.
Lemma sum6_bd : forall m i f, (i < 6)%nat ->
  sum6 (fun k => bd m i k * f k) = sum3 (fun k => m9 m (i mod 3) k * f (3 * (i / 3) + k)%nat).
Proof.
  intros m i f Hi. unfold sum6, sum3, bd. generalize (m9 m). intros g.
  do 6 (destruct i as [|i]; [cbn [Nat.eqb Nat.add Nat.mul Nat.div Nat.modulo Nat.divmod fst snd Nat.sub]; ring|]). lia.
Qed.
Lemma sandwich : forall A C : rmat, forall i j, (i < 3)%nat -> (j < 3)%nat ->
  m9 (mmul (mmul A C) (mtranspose A)) i j = sum3 (fun k => m9 A i k * sum3 (fun l => m9 A j l * m9 C k l)).
Proof.
  intros [[a b c] [d e f] [g h k]] [[a' b' c'] [d' e' f'] [g' h' k']] i j Hi Hj.
  do 3 (destruct i as [|i]; [do 3 (destruct j as [|j]; [unfold sum3, m9; lm_unfold; cbn [vx vy vz m0 m1 m2]; runf; ring|]); lia|]). lia.
Qed.
Lemma at66_blk : forall c i j, (i < 6)%nat -> (j < 6)%nat -> at66 c i j = m9 (blk c (i / 3) (j / 3)) (i mod 3) (j mod 3).
Proof.
  intros c i j Hi Hj. do 6 (destruct i as [|i]; [do 6 (destruct j as [|j]; [reflexivity|]); lia|]). lia.
Qed.
Lemma cov_entries : forall junk c (x : rxform) i j, (i < 6)%nat -> (j < 6)%nat ->
  at66 (transformCovariance junk c x) i j =
  sum6 (fun k => sum6 (fun l => bd (xbasis x) i k * at66 c k l * bd (xbasis x) j l)).
Proof.
  intros junk c x i j Hi Hj. rewrite at66_blk by assumption.
  assert (Ai : (i / 3 < 2)%nat) by (apply Nat.div_lt_upper_bound; lia).
  assert (Aj : (j / 3 < 2)%nat) by (apply Nat.div_lt_upper_bound; lia).
  rewrite cov_blocks, sandwich by (try assumption; apply Nat.mod_upper_bound; lia).
  transitivity (sum6 (fun k => bd (xbasis x) i k * sum6 (fun l => bd (xbasis x) j l * at66 c k l))).
  2:{ unfold sum6. ring. }
  rewrite sum6_bd by exact Hi. unfold sum3 at 1 3. rewrite !sum6_bd by exact Hj. unfold sum3.
  assert (B : forall k l, (k < 3)%nat -> (l < 3)%nat -> m9 (blk c (i / 3) (j / 3)) k l = at66 c (3 * (i / 3) + k) (3 * (j / 3) + l)).
  { intros k l Hk Hl. rewrite at66_blk by lia.
    replace ((3 * (i / 3) + k) / 3)%nat with (i / 3)%nat by (rewrite Nat.mul_comm, Nat.div_add_l, (Nat.div_small k) by lia; lia).
    replace ((3 * (j / 3) + l) / 3)%nat with (j / 3)%nat by (rewrite Nat.mul_comm, Nat.div_add_l, (Nat.div_small l) by lia; lia).
    rewrite !(Nat.add_comm (3 * _)), !(Nat.mul_comm 3), !Nat.mod_add, !Nat.mod_small by lia. reflexivity. }
  rewrite !B by lia. reflexivity.
Qed.
Lemma entry_m9 : forall q i j, is_unit q -> (i < 3)%nat -> (j < 3)%nat -> entry q i j = m9 (mfromQuat (fq q)) i j.
Proof.
  intros q i j H Hi Hj. unfold entry. rewrite turn_mat by exact H. generalize (mfromQuat (fq q)). intros [[a b c] [d e f] [g h k]].
  do 3 (destruct i as [|i]; [do 3 (destruct j as [|j]; [unfold axis, coord, m9, tv, fv; lm_unfold; cbn [gx gy gz vx vy vz m0 m1 m2]; runf; ring|]); lia|]). lia.
Qed.
Lemma blockdiag_bd : forall q i j, is_unit q -> blockdiag q i j = bd (mfromQuat (fq q)) i j.
Proof.
  intros q i j H. unfold blockdiag, bd. destruct (Nat.eqb (i / 3) (j / 3)); [|reflexivity].
  apply entry_m9; [exact H| |]; apply Nat.mod_upper_bound; lia.
Qed.
Lemma sum6_ext : forall f g, (forall i, (i < 6)%nat -> f i = g i) -> sum6 f = sum6 g.
Proof. intros f g H. unfold sum6. rewrite !H by lia. reflexivity. Qed.
Lemma cov_spec : forall T junk c i j, is_unit (rot T) -> (i < 6)%nat -> (j < 6)%nat ->
  at66 (covariance_by T junk c) i j =
  sum6 (fun k => sum6 (fun l => blockdiag (rot T) i k * at66 c k l * blockdiag (rot T) j l)).
Proof.
  intros T junk c i j H Hi Hj. unfold covariance_by. rewrite cov_entries by assumption.
  apply sum6_ext. intros k _. apply sum6_ext. intros l _. rewrite !blockdiag_bd by exact H. reflexivity.
Qed.
(** sums *)
Lemma sum6_add : forall f g, sum6 (fun i => f i + g i) = sum6 f + sum6 g.
Proof. intros. unfold sum6. ring. Qed.
Lemma sum6_mul : forall k f, k * sum6 f = sum6 (fun i => k * f i).
Proof. intros. unfold sum6. ring. Qed.
Lemma sum6_swap : forall f, sum6 (fun i => sum6 (fun j => f i j)) = sum6 (fun j => sum6 (fun i => f i j)).
Proof. intros. unfold sum6. ring. Qed.
Lemma sum6_mul_r : forall k f, sum6 f * k = sum6 (fun i => f i * k).
Proof. intros. unfold sum6. ring. Qed.
Lemma quadratic_cov : forall T junk c x, is_unit (rot T) ->
  quadratic (covariance_by T junk c) x = quadratic c (fun k => sum6 (fun i => blockdiag (rot T) i k * x i)).
Proof.
  intros T junk c x H. unfold quadratic.
  transitivity (sum6 (fun i => sum6 (fun j => sum6 (fun k => sum6 (fun l => x i * (blockdiag (rot T) i k * at66 c k l * blockdiag (rot T) j l) * x j))))).
  { apply sum6_ext. intros i Hi. apply sum6_ext. intros j Hj. rewrite cov_spec by assumption.
    rewrite sum6_mul, sum6_mul_r. apply sum6_ext. intros k _. rewrite sum6_mul, sum6_mul_r. reflexivity. }
  transitivity (sum6 (fun k => sum6 (fun l => sum6 (fun i => sum6 (fun j => x i * (blockdiag (rot T) i k * at66 c k l * blockdiag (rot T) j l) * x j))))).
  { transitivity (sum6 (fun i => sum6 (fun k => sum6 (fun l => sum6 (fun j => x i * (blockdiag (rot T) i k * at66 c k l * blockdiag (rot T) j l) * x j))))).
    { apply sum6_ext. intros i _. rewrite sum6_swap. apply sum6_ext. intros k _. apply sum6_swap. }
    rewrite sum6_swap. apply sum6_ext. intros k _. apply sum6_swap. }
  apply sum6_ext. intros k _. apply sum6_ext. intros l _.
  rewrite (Rmult_comm (sum6 _) (at66 c k l)), Rmult_assoc, sum6_mul_r, sum6_mul. apply sum6_ext. intros i _.
  rewrite !sum6_mul. apply sum6_ext. intros j _. ring.
Qed.
