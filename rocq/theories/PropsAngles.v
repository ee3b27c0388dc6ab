(** * Property theorems: quaternions from angles in binary64 (C10, C39, C75) *)
From Coq Require Import ZArith Bool List String Lia Reals Lra Psatz Floats.SpecFloat.
From Verif Require Import RosTime Scalar LinearMath Cache BufferCore SpecCore Malformed Instances SpecReal RealSlerp RealQuat
  SpecRound SpecInterp SpecAngles FloatErr FloatMore RoundNorm RoundOps RoundSlerp RoundInterp RoundAccept RoundRPY RoundIdeal
  TfTopics StaticPublisher SpecStaticPublisher.
Import ListNotations.
Open Scope string_scope.
Open Scope list_scope.
Open Scope R_scope.

(** ** C10 *)
(** A message with good names, no NaN in its translation and a finite rotation whose squared length
    is within 99/10000 of 1 is accepted as well-formed, whatever the rounding of the check. *)
Theorem C10_nearly_unit_rotation_is_well_formed :
  forall lm (m : tmsg (F64 lm)),
  stripSlash (tm_child m) <> stripSlash (tm_frame m) -> stripSlash (tm_child m) <> "" -> stripSlash (tm_frame m) <> "" ->
  Forall (fun x : F64 lm => x <> S754_nan) [vx (tm_trans m); vy (tm_trans m); vz (tm_trans m)] ->
  qfinite (tm_rot m) -> Rabs (qnorm (qval (tm_rot m)) * qnorm (qval (tm_rot m)) - 1) <= 99 / 10000 ->
  ~ malformed m.
Proof.
  intros lm m N1 N2 N3 T F N M. pose proof (near_unit_valid (tm_rot m) F N) as V.
  destruct M as [M|[M|[M|[M|M]]]]; try contradiction.
  - assert (NaN : forall x : F64 lm, sisnan x = true -> x = S754_nan) by (intros [ | | | ] H; try discriminate; reflexivity).
    assert (Fin : forall x : F64 lm, finite x -> x <> S754_nan) by (intros [ | | | ] H; try discriminate; contradiction).
    inversion T as [|? ? T1 T2]; subst. inversion T2 as [|? ? T3 T4]; subst. inversion T4 as [|? ? T5 _]; subst.
    destruct F as (F1 & F2 & F3 & F4). apply Exists_exists in M as (x & I & E). apply NaN in E. subst x.
    cbn [In] in I. decompose [or] I; try contradiction; try (eapply Fin; [|eassumption]; assumption).
    all: congruence.
  - unfold quat_valid, sone in V. destruct (tm_rot m) as [x y z w]. cbn [qx qy qz qw] in V. rewrite V in M. discriminate.
Qed.
Print Assumptions C10_nearly_unit_rotation_is_well_formed.

(** ** C39 *)
(** setRPY with doubles, for a C library whose sin and cos are right to within four units in the
    last place of 1: for all finite angles, however large, the four numbers are finite and within
    76 * 2^-53 of the exact unit quaternion of these angles. *)
Theorem C39_setRPY_in_doubles :
  forall lm (roll pitch yaw : F64 lm), accurate_trig lm -> finite roll -> finite pitch -> finite yaw ->
  qfinite (qfromRPY roll pitch yaw) /\
  qdist (qval (qfromRPY roll pitch yaw)) (@qfromRPY RS (val roll) (val pitch) (val yaw)) <= 76 * uro.
Proof. intros lm roll pitch yaw T. apply rpy_close. exact T. Qed.
Print Assumptions C39_setRPY_in_doubles.

(** ** C75 *)
(** static_transform_publisher with angles: what it publishes is well-formed unless its names are
    not, and its rotation is the one asked for up to 76 * 2^-53. *)
Theorem C75_angles_are_accepted :
  forall lm (atof : string -> F64 lm) param now x y z yaw pitch roll frame child, accurate_trig lm -> frame <> child ->
  Forall (fun a : F64 lm => a <> S754_nan) [atof x; atof y; atof z] -> Forall finite [atof yaw; atof pitch; atof roll] ->
  exists m : tmsg (F64 lm),
    static_publisher atof param now [x; y; z; yaw; pitch; roll; frame; child] = Spins [[m]] /\
    tm_stamp m = now /\ tm_frame m = frame /\ tm_child m = child /\ tm_trans m = V3 (atof x) (atof y) (atof z) /\
    qfinite (tm_rot m) /\
    qdist (qval (tm_rot m)) (@qfromRPY RS (val (atof roll)) (val (atof pitch)) (val (atof yaw))) <= 76 * uro /\
    (malformed m <-> stripSlash child = stripSlash frame \/ stripSlash child = "" \/ stripSlash frame = "").
Proof.
  intros lm atof param now x y z yaw pitch roll frame child T Ne Nt An.
  inversion An as [|? ? A1 An2]; subst. inversion An2 as [|? ? A2 An3]; subst. inversion An3 as [|? ? A3 _]; subst.
  destruct (rpy_close T (atof roll) (atof pitch) (atof yaw) A3 A2 A1) as (F & D).
  exists (mkTmsg now frame child (V3 (atof x) (atof y) (atof z)) (qfromRPY (atof roll) (atof pitch) (atof yaw))).
  split. { unfold static_publisher, check_and_send. cbn [tm_frame tm_child]. destruct (String.eqb_spec frame child); [contradiction|reflexivity]. }
  cbn [tm_stamp tm_frame tm_child tm_trans tm_rot]. do 4 (split; [reflexivity|]). split; [exact F|]. split; [exact D|].
  split; [|intros H; unfold malformed; cbn [tm_child tm_frame]; tauto].
  intros M. destruct (string_dec (stripSlash child) (stripSlash frame)) as [E1|N1]; [auto|].
  destruct (string_dec (stripSlash child) "") as [E2|N2]; [auto|]. destruct (string_dec (stripSlash frame) "") as [E3|N3]; [auto|exfalso].
  revert M. apply C10_nearly_unit_rotation_is_well_formed; try assumption. cbn [tm_rot].
  assert (Un : qnorm (exact_rpy (atof roll) (atof pitch) (atof yaw)) = 1).
  { pose proof (proj1 (RealEuler.qfromRPY_ok (val (atof roll)) (val (atof pitch)) (val (atof yaw)))) as U. unfold exact_rpy.
    unfold qunit in U. unfold qnorm. match goal with |- sqrt ?x = 1 => replace x with 1 by (symmetry; exact U) end. apply sqrt_1. }
  set (q := qfromRPY (atof roll) (atof pitch) (atof yaw)) in *. clearbody q. set (e := exact_rpy (atof roll) (atof pitch) (atof yaw)) in *. clearbody e.
  pose proof (qnorm_dist (qval q) e) as B1. pose proof (qnorm_dist e (qval q)) as B2.
  assert (Sy : qdist e (qval q) = qdist (qval q) e).
  { unfold qdist. rewrite !qnorm_N4. cbn [qx qy qz qw]. rewrite <- N4_abs, <- (N4_abs (qx (qval q) - qx e)). f_equal; apply Rabs_minus_sym. }
  pose proof (qnorm_pos (qval q)) as P. rewrite uro_val in *. set (n := qnorm (qval q)) in *. clearbody n. apply Rabs_le. nra.
Qed.
Print Assumptions C75_angles_are_accepted.

(** The correctly rounded sin and cos are accurate; and the angles of an example. *)
Lemma ideal_trig : accurate_trig ideal_libm.
Proof.
  intros x F. pose proof big_big as BB. pose proof uro_pos as U. pose proof eta_u as EU. cbn [ideal_libm lm_sin lm_cos].
  pose proof (SIN_bound (val x)) as SB. pose proof (COS_bound (val x)) as CB.
  split.
  - destruct (fofR_ok (sin (val x))) as (G & V); [apply Rabs_le; lra|]. split; [exact G|]. rewrite V.
    eapply Rle_trans; [apply rnd_err|]. assert (Rabs (sin (val x)) <= 1) by (apply Rabs_le; lra).
    assert (uro * Rabs (sin (val x)) <= uro * 1) by (apply Rmult_le_compat_l; lra). lra.
  - destruct (fofR_ok (cos (val x))) as (G & V); [apply Rabs_le; lra|]. split; [exact G|]. rewrite V.
    eapply Rle_trans; [apply rnd_err|]. assert (Rabs (cos (val x)) <= 1) by (apply Rabs_le; lra).
    assert (uro * Rabs (cos (val x)) <= uro * 1) by (apply Rmult_le_compat_l; lra). lra.
Qed.
Definition atof_i (s : string) : F64 ideal_libm := if String.eqb s "1" then f64_of_Z 1 else if String.eqb s "100" then f64_of_Z 100 else f64_of_Z 0.
Example C75_angles_are_accepted_example :
  exists m : tmsg (F64 ideal_libm),
    static_publisher atof_i (fun _ => None) 7%Z ["1"; "0"; "0"; "1"; "100"; "0"; "base"; "camera"] = Spins [[m]] /\ ~ malformed m.
Proof.
  destruct (C75_angles_are_accepted ideal_libm atof_i (fun _ => None) 7%Z "1" "0" "0" "1" "100" "0" "base" "camera" ideal_trig) as (m & E & _ & _ & _ & _ & _ & _ & M).
  - discriminate.
  - repeat constructor; intros C; discriminate C.
  - repeat constructor.
  - exists m. split; [exact E|]. rewrite M. intros [C|[C|C]]; discriminate C.
Qed.
