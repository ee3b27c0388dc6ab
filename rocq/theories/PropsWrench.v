(** * Properties C92: how accurate transformed wrenches and covariances are in binary64 *)
From Coq Require Import ZArith Bool Reals Floats.SpecFloat List String Lia Lra.
From Verif Require Import RosTime Scalar LinearMath Cache BufferCore SpecCore SpecReal Instances GeomMsgs BufferInterface SpecGeom GeomProofs GeomReal RealQuat RealMatrix
  SpecRound FloatErr RoundNorm RoundOps RoundApply RoundPoint RoundPose RoundWrench RoundCov ExampleBuffers ExampleRound SpecApply PropsApply.
Import ListNotations.
Open Scope R_scope.

(** ** C92 *)
(** A wrench moved to another frame: the force is turned; the torque is turned and the moment of the
    turned force about the new origin (translation x force) is added.  The force errs by at most 54
    roundings of itself; the torque by 56 roundings of itself and 60 of |translation| |force|.
    [i] and [o] may be the same object. *)
Theorem C92_wrench_accuracy :
  forall lm (T : gtstamped (F64 lm)) (m : mem (gwrench (F64 lm))) i o,
  let f := xyz_val (force (m i)) in let w := xyz_val (torque (m i)) in let t := xyz_val (shift_of T) in
  rot_finite T -> 1 / 2 <= qnorm (rot_val T) <= 2 -> xyz_finite (shift_of T) -> xyz_finite (force (m i)) -> xyz_finite (torque (m i)) ->
  vnorm f <= IZR (2 ^ 1000) -> vnorm w <= IZR (2 ^ 1000) -> vnorm t <= IZR (2 ^ 1000) -> vnorm t * vnorm f <= IZR (2 ^ 1000) ->
  let out := doTransform_Wrench (const_ref T) (at_loc i) (at_loc o) m o in
  xyz_finite (force out) /\ xyz_finite (torque out) /\
  vdist (xyz_val (force out)) (turned (rot_val T) f) <= 54 * uro * vnorm f + 12 * eta /\
  vdist (xyz_val (torque out)) (rplus (turned (rot_val T) w) (rcross t (turned (rot_val T) f)))
    <= 56 * uro * vnorm w + 60 * uro * (vnorm t * vnorm f) + 13 * eta * vnorm t + 32 * eta.
Proof.
  intros lm T m i o f w t Fq Hq Ft Ff Fw Hf Hw Ht Htf. cbv zeta. rewrite (proj1 (wrench_mem T m i o)). unfold wrench_value. cbn [force torque].
  pose proof big_1000 as B. pose proof big_big as BB.
  assert (HT : vnorm t * eta <= 1).
  { pose proof eta_tiny as E. pose proof eta_pos. pose proof uro_val as UV. apply Rle_trans with (IZR (2 ^ 1000) * eta); [apply Rmult_le_compat_r; lra|].
    rewrite Rmult_comm. eapply Rle_trans; [exact E|]. rewrite UV. lra. }
  destruct (mulv_err (fromMsg_Quaternion (g_rotation (t_transform T))) (fromMsg_xyz (force (m i))) Fq Ff Hq) as (F1 & D1); [change (vnorm f <= big / 4); lra|].
  destruct (torque_err (fromMsg_Quaternion (g_rotation (t_transform T))) (fromMsg_xyz (shift_of T)) (fromMsg_xyz (force (m i))) (fromMsg_xyz (torque (m i))) Fq Ft Ff Fw Hq) as (F2 & D2).
  - change (vnorm f <= big / 8). lra.
  - change (vnorm w <= big / 8). lra.
  - change (vnorm t <= big / 8). lra.
  - change (vnorm t * vnorm f <= big / 8). lra.
  - exact HT.
  - change (xbasis (fromMsg_Transform (t_transform T))) with (mfromQuat (fromMsg_Quaternion (g_rotation (t_transform T)))).
    change (turned (rot_val T) f) with (turned (qval (fromMsg_Quaternion (g_rotation (t_transform T)))) (vval (fromMsg_xyz (force (m i))))).
    change (turned (rot_val T) w) with (turned (qval (fromMsg_Quaternion (g_rotation (t_transform T)))) (vval (fromMsg_xyz (torque (m i))))).
    change f with (vval (fromMsg_xyz (force (m i)))). change w with (vval (fromMsg_xyz (torque (m i)))). change t with (vval (fromMsg_xyz (shift_of T))).
    change (SpecGeom.shift T) with (shift_of T).
    set (rf := turned (qval _) (vval (fromMsg_xyz (force (m i))))) in *. set (rw := turned (qval _) (vval (fromMsg_xyz (torque (m i))))) in *.
    set (mf := mmulv _ (fromMsg_xyz (force (m i)))) in *. set (mw := mmulv _ (fromMsg_xyz (torque (m i)))) in *. clearbody mf mw rf rw.
    set (tt0 := fromMsg_xyz (shift_of T)) in *. clearbody tt0. clear - F1 F2 D1 D2.
    destruct mf as [a b c]. destruct mw as [a' b' c'].
    unfold vadd in F2, D2. cbn [vx vy vz] in F2, D2. unfold toMsg_Vector3, fromMsg_xyz in *. cbn [gx gy gz vx vy vz].
    unfold xyz_finite, xyz_val. cbn [gx gy gz vx vy vz]. unfold vfinite, vval in *. cbn [vx vy vz] in *.
    split; [exact F1|]. split; [exact F2|]. split; [exact D1|exact D2].
Qed.
Print Assumptions C92_wrench_accuracy.

(** The matrix a quaternion stands for, twice along the diagonal of a 6 x 6 matrix; column [k] of
    the 3 x 3 block is the turned [k]-th axis. *)
Definition unit_axis (k : nat) : vec3 RS :=
  match k with O => @V3 RS 1 0 0 | 1%nat => @V3 RS 0 1 0 | _ => @V3 RS 0 0 1 end.
Definition component (i : nat) (v : vec3 RS) : R := match i with O => vx v | 1%nat => vy v | _ => vz v end.
Definition turned_block (q : quat RS) (i k : nat) : R :=
  if Nat.eqb (i / 3) (k / 3) then component (i mod 3) (turned q (unit_axis (k mod 3))) else 0.

Lemma turned_block_bd : forall q i k, nonzero q -> turned_block q i k = bd (mfromQuat q) i k.
Proof.
  intros q i k H. unfold turned_block, bd. destruct (Nat.eqb (i / 3) (k / 3)); [|reflexivity]. rewrite turned_matrix by exact H.
  generalize (mfromQuat q). intros [[a b c] [d e f] [g h l]]. assert (A : (i mod 3 < 3)%nat) by (apply Nat.mod_upper_bound; lia). assert (B : (k mod 3 < 3)%nat) by (apply Nat.mod_upper_bound; lia).
  generalize dependent (i mod 3)%nat. generalize dependent (k mod 3)%nat. intros y Hy x Hx.
  do 3 (destruct x as [|x]; [do 3 (destruct y as [|y]; [unfold component, unit_axis, m9, mmulv, vdot; cbn [vx vy vz m0 m1 m2]; cbn [RS scar sadd smul]; ring|]); lia|]). lia.
Qed.
Lemma entries_ap : forall lm (q : quat (F64 lm)) t (junk c : nat -> F64 lm) B k, qfinite q -> 1 / 2 <= qnorm (qval q) <= 2 ->
  (forall n, (n < 36)%nat -> finite (c n) /\ Rabs (val (c n)) <= B) -> 0 <= B <= big / 128 -> (k < 36)%nat ->
  ap (transformCovariance junk c (XF (mfromQuat q) t) k)
     (transformCovariance (S := RS) (fun _ => 0) (fun n => val (c n)) (XF (mfromQuat (qval q)) (@vzero RS)) k) (151 * uro * B + 17 * eta).
Proof.
  intros lm q t junk c B k Fq Hq Hc HB Hk. pose proof (mfromQuat_near q Fq Hq) as N. pose proof (mfromQuat_rotation _ (nonzero_norm (qval q) ltac:(lra))) as R0.
  set (M := mfromQuat q) in *. set (R1 := mfromQuat (qval q)) in *. clearbody M R1.
  set (C11 := @M3 (F64 lm) (V3 (c 0%nat) (c 1%nat) (c 2%nat)) (V3 (c 6%nat) (c 7%nat) (c 8%nat)) (V3 (c 12%nat) (c 13%nat) (c 14%nat))).
  set (C12 := @M3 (F64 lm) (V3 (c 3%nat) (c 4%nat) (c 5%nat)) (V3 (c 9%nat) (c 10%nat) (c 11%nat)) (V3 (c 15%nat) (c 16%nat) (c 17%nat))).
  set (C21 := @M3 (F64 lm) (V3 (c 18%nat) (c 19%nat) (c 20%nat)) (V3 (c 24%nat) (c 25%nat) (c 26%nat)) (V3 (c 30%nat) (c 31%nat) (c 32%nat))).
  set (C22 := @M3 (F64 lm) (V3 (c 21%nat) (c 22%nat) (c 23%nat)) (V3 (c 27%nat) (c 28%nat) (c 29%nat)) (V3 (c 33%nat) (c 34%nat) (c 35%nat))).
  assert (L : m_le B C11 /\ m_le B C12 /\ m_le B C21 /\ m_le B C22).
  { unfold m_le, C11, C12, C21, C22. cbn [m0 m1 m2 vx vy vz]. split; [|split; [|split]]; (repeat match goal with |- _ /\ _ => split end); apply Hc; lia. }
  destruct L as (L11 & L12 & L21 & L22).
  pose proof (block_near M C11 R1 B R0 N L11 HB) as K11. pose proof (block_near M C12 R1 B R0 N L12 HB) as K12.
  pose proof (block_near M C21 R1 B R0 N L21 HB) as K21. pose proof (block_near M C22 R1 B R0 N L22 HB) as K22.
  unfold mnear in *. unfold transformCovariance. cbn [xbasis].
  change (@M3 RS (@V3 RS (val (c 0%nat)) (val (c 1%nat)) (val (c 2%nat))) (@V3 RS (val (c 6%nat)) (val (c 7%nat)) (val (c 8%nat))) (@V3 RS (val (c 12%nat)) (val (c 13%nat)) (val (c 14%nat)))) with (m_val C11).
  change (@M3 RS (@V3 RS (val (c 3%nat)) (val (c 4%nat)) (val (c 5%nat))) (@V3 RS (val (c 9%nat)) (val (c 10%nat)) (val (c 11%nat))) (@V3 RS (val (c 15%nat)) (val (c 16%nat)) (val (c 17%nat)))) with (m_val C12).
  change (@M3 RS (@V3 RS (val (c 18%nat)) (val (c 19%nat)) (val (c 20%nat))) (@V3 RS (val (c 24%nat)) (val (c 25%nat)) (val (c 26%nat))) (@V3 RS (val (c 30%nat)) (val (c 31%nat)) (val (c 32%nat)))) with (m_val C21).
  change (@M3 RS (@V3 RS (val (c 21%nat)) (val (c 22%nat)) (val (c 23%nat))) (@V3 RS (val (c 27%nat)) (val (c 28%nat)) (val (c 29%nat))) (@V3 RS (val (c 33%nat)) (val (c 34%nat)) (val (c 35%nat)))) with (m_val C22).
  fold C11 C12 C21 C22.
  generalize dependent (mmul (mmul M C11) (mtranspose M)). generalize dependent (mmul (mmul M C12) (mtranspose M)). generalize dependent (mmul (mmul M C21) (mtranspose M)). generalize dependent (mmul (mmul M C22) (mtranspose M)).
  generalize (mmul (mmul R1 (m_val C11)) (mtranspose R1)) (mmul (mmul R1 (m_val C12)) (mtranspose R1)) (mmul (mmul R1 (m_val C21)) (mtranspose R1)) (mmul (mmul R1 (m_val C22)) (mtranspose R1)).
  intros r1 r2 r3 r4 f1 K1 f2 K2 f3 K3 f4 K4. clear - K1 K2 K3 K4 Hk.
  do 36 (destruct k as [|k]; [cbn [Nat.eqb]; first [apply K1|apply K2|apply K3|apply K4]|]). lia.
Qed.

(** Every entry of a transformed covariance, against the exact diag(R, R) C diag(R, R)^T, in terms of
    the largest entry [B] of the covariance.  [junk] is what was in the uninitialised output array. *)
Theorem C92_covariance_accuracy :
  forall lm (T : gtstamped (F64 lm)) (junk c : nat -> F64 lm) B i j,
  rot_finite T -> 1 / 2 <= qnorm (rot_val T) <= 2 ->
  (forall n, (n < 36)%nat -> finite (c n) /\ Rabs (val (c n)) <= B) -> B <= IZR (2 ^ 1000) -> (i < 6)%nat -> (j < 6)%nat ->
  let out := covariance_by T junk c (6 * i + j)%nat in
  let exact := sum6 (fun k => sum6 (fun l => turned_block (rot_val T) i k * val (c (6 * k + l)%nat) * turned_block (rot_val T) j l)) in
  finite out /\ Rabs (val out - exact) <= 151 * uro * B + 17 * eta.
Proof.
  intros lm T junk c B i j Fq Hq Hc HB Hi Hj. cbv zeta.
  assert (HB' : 0 <= B <= big / 128).
  { split; [pose proof (Rabs_pos (val (c 0%nat))); pose proof (Hc 0%nat ltac:(lia)); lra|]. eapply Rle_trans; [exact HB|]. unfold big. apply (Rmult_le_reg_l 128); [lra|].
    replace (128 * (IZR (2 ^ 1023) / 128)) with (IZR (2 ^ 1023)) by field. rewrite <- !mult_IZR. apply IZR_le. intros C; discriminate C. }
  pose proof (entries_ap lm (fromMsg_Quaternion (g_rotation (t_transform T))) (fromMsg_xyz (shift_of T)) junk c B (6 * i + j)%nat Fq Hq Hc HB' ltac:(lia)) as K.
  set (x := @XF RS (mfromQuat (qval (fromMsg_Quaternion (g_rotation (t_transform T))))) (@vzero RS)) in K.
  pose proof (cov_entries (fun _ => 0) (fun n => val (c n)) x i j Hi Hj) as E. unfold at66 at 1 in E. rewrite E in K. clear E.
  assert (X : sum6 (fun k => sum6 (fun l => bd (xbasis x) i k * at66 (fun n => val (c n)) k l * bd (xbasis x) j l)) =
              sum6 (fun k => sum6 (fun l => turned_block (rot_val T) i k * val (c (6 * k + l)%nat) * turned_block (rot_val T) j l))).
  { apply sum6_ext. intros k _. apply sum6_ext. intros l _. rewrite !turned_block_bd by (apply nonzero_norm; lra). reflexivity. }
  rewrite X in K. exact K.
Qed.
Print Assumptions C92_covariance_accuracy.

(** In binary64 the transform of a symmetric covariance need not be symmetric, but it nearly is. *)
Theorem C92_nearly_symmetric :
  forall lm (T : gtstamped (F64 lm)) (junk c : nat -> F64 lm) B i j,
  rot_finite T -> 1 / 2 <= qnorm (rot_val T) <= 2 ->
  (forall n, (n < 36)%nat -> finite (c n) /\ Rabs (val (c n)) <= B) -> B <= IZR (2 ^ 1000) ->
  (forall k l, (k < 6)%nat -> (l < 6)%nat -> val (c (6 * k + l)%nat) = val (c (6 * l + k)%nat)) -> (i < 6)%nat -> (j < 6)%nat ->
  Rabs (val (covariance_by T junk c (6 * i + j)%nat) - val (covariance_by T junk c (6 * j + i)%nat)) <= 302 * uro * B + 34 * eta.
Proof.
  intros lm T junk c B i j Fq Hq Hc HB Hs Hi Hj.
  destruct (C92_covariance_accuracy lm T junk c B i j Fq Hq Hc HB Hi Hj) as (_ & D1). destruct (C92_covariance_accuracy lm T junk c B j i Fq Hq Hc HB Hj Hi) as (_ & D2).
  set (e1 := sum6 _) in D1. set (e2 := sum6 _) in D2.
  assert (E : e2 = e1).
  { unfold e1, e2. rewrite (sum6_swap (fun k l => turned_block (rot_val T) i k * val (c (6 * k + l)%nat) * turned_block (rot_val T) j l)).
    apply sum6_ext. intros k Hk. apply sum6_ext. intros l Hl. rewrite (Hs l k Hl Hk). ring. }
  rewrite E in D2. clearbody e1. set (a := val (covariance_by T junk c (6 * i + j)%nat)) in *. set (b := val (covariance_by T junk c (6 * j + i)%nat)) in *. clearbody a b. clear - D1 D2.
  replace (a - b) with ((a - e1) - (b - e1)) by ring. pose proof (abs2m _ _ _ _ D1 D2). lra.
Qed.
Print Assumptions C92_nearly_symmetric.

(** Met by the message of quaternion (0, 0, 1, 1) and translation (1, 2, 3), by a force (3, -4, 0)
    and a torque (1, 2, 3), and by the identity covariance. *)
Definition a_wrench : gwrench D64 := mkWrench a_point (@mkXyz D64 (f64_of_Z 1) (f64_of_Z 2) (f64_of_Z 3)).
Definition identity66 (n : nat) : D64 := if Nat.eqb (n mod 7) 0 then f64_of_Z 1 else f64_of_Z 0.
Local Opaque f64_of_Z.
Example C92_example :
  xyz_finite (force a_wrench) /\ xyz_finite (torque a_wrench) /\ vnorm (xyz_val (force a_wrench)) <= 5 /\ vnorm (xyz_val (torque a_wrench)) <= 4 /\
  vnorm (xyz_val (shift_of a_turn)) <= 4 /\
  (forall n, (n < 36)%nat -> finite (identity66 n) /\ Rabs (val (identity66 n)) <= 1) /\
  (forall k l, (k < 6)%nat -> (l < 6)%nat -> val (identity66 (6 * k + l)) = val (identity66 (6 * l + k))).
Proof.
  destruct (small_ints 0) as (F0 & V0); [cbn; auto 9|]. destruct (small_ints 1) as (F1 & V1); [cbn; auto 9|]. destruct (small_ints 4) as (F4 & V4); [cbn; auto 9|].
  destruct (small_ints 2) as (F2 & V2); [cbn; auto 9|]. destruct (small_ints 3) as (F3 & V3); [cbn; auto 9|]. apply finiteb_ok in F0, F1, F2, F3, F4. destruct (fopp_ok _ F4) as (F4' & V4').
  assert (N4 : sqrt (1 * 1 + 2 * 2 + 3 * 3) <= 4) by (replace 4 with (sqrt (4 * 4)) by (apply sqrt_square; lra); apply sqrt_le_1; lra).
  split; [split; [exact F3|split; [exact F4'|exact F0]]|]. split; [split; [exact F1|split; [exact F2|exact F3]]|]. split; [|split; [|split; [|split]]].
  - unfold vnorm, xyz_val, a_wrench, a_point. cbn [vx vy vz gx gy gz force]. rewrite V3, V4', V4, V0. replace (3 * 3 + - (4) * - (4) + 0 * 0) with (5 * 5) by ring. rewrite sqrt_square by lra. apply Rle_refl.
  - unfold vnorm, xyz_val, a_wrench. cbn [vx vy vz gx gy gz torque]. rewrite V1, V2, V3. exact N4.
  - unfold vnorm, shift_of, xyz_val, a_turn. cbn [vx vy vz gx gy gz translation t_transform]. rewrite V1, V2, V3. exact N4.
  - intros n _. unfold identity66. destruct (Nat.eqb (n mod 7) 0); [split; [exact F1|]; rewrite V1, Rabs_pos_eq; lra|split; [exact F0|]; rewrite V0, Rabs_pos_eq; lra].
  - intros k l Hk Hl. unfold identity66.
    do 6 (destruct k as [|k]; [do 6 (destruct l as [|l]; [cbn [Nat.mul Nat.add]; reflexivity|]); lia|]). lia.
Qed.
(** "Nearly" is needed: for the quaternion (1, 2, 3, 4) / 4 and the covariance with n + m in row n,
    column m, entries (0, 1) and (1, 0) of the result differ. *)
Definition quarter (n : Z) : D64 := SFdiv prec64 emax64 (f64_of_Z n) (f64_of_Z 4).
Definition a_tilt : gtstamped D64 :=
  mkTstamped (mkHeader 0%Z 15%Z "base"%string) "beacon"%string
    (mkGtransform (@mkXyz D64 (f64_of_Z 1) (f64_of_Z 2) (f64_of_Z 3)) (@mkGquat D64 (quarter 1) (quarter 2) (quarter 3) (quarter 4))).
Definition sums66 (n : nat) : D64 := f64_of_Z (Z.of_nat (n / 6 + n mod 6)).
Local Transparent f64_of_Z.
Lemma sums66_symmetric : forall k l, (k < 6)%nat -> (l < 6)%nat -> sums66 (6 * k + l) = sums66 (6 * l + k).
Proof.
  intros k l Hk Hl. unfold sums66. f_equal. f_equal.
  do 6 (destruct k as [|k]; [do 6 (destruct l as [|l]; [reflexivity|]); lia|]). lia.
Qed.
Theorem C92_exact_symmetry_refuted :
  (forall k l, (k < 6)%nat -> (l < 6)%nat -> sums66 (6 * k + l) = sums66 (6 * l + k)) /\
  SFeqb (covariance_by a_tilt (fun _ => f64_of_Z 0) sums66 1) (covariance_by a_tilt (fun _ => f64_of_Z 0) sums66 6) = false.
Proof. split; [exact sums66_symmetric|]. vm_compute. reflexivity. Qed.
Print Assumptions C92_exact_symmetry_refuted.
