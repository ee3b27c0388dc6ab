(** * A libm that meets the accuracy asked of it: correct rounding of the real functions *)
From Coq Require Import ZArith Bool Reals Floats.SpecFloat List String Lia Lra Psatz.
From Verif Require Import RosTime Scalar LinearMath Cache BufferCore SpecCore Instances SpecRound SpecInterp FloatErr RoundNorm RoundOps SlerpWeights FloatMore RoundSlerp RoundInterp.
Import ListNotations.
Open Scope string_scope.
Open Scope list_scope.
Open Scope R_scope.
Local Notation u := uro.

(** [atan2] plays no role in lookups; sin, cos, acos and asin are the real functions, correctly
    rounded. *)
Definition ideal_libm : libm := {|
  lm_sin := fun x => f64_of_R (sin (val x)); lm_cos := fun x => f64_of_R (cos (val x));
  lm_acos := fun x => f64_of_R (acos (val x)); lm_asin := fun x => f64_of_R (asin (val x));
  lm_atan2 := fun y x => f64_of_R (atan (val y / val x)) |}.

Lemma acos_gap : forall x, finite x -> -1 <= val x <= 1 -> acos (val x) = 0 \/ 1 / 1000000000 <= acos (val x).
Proof.
  intros x F H. destruct (Req_dec (val x) 1) as [E|N]; [left; rewrite E; apply acos_1|]. right.
  pose proof (below_one x F ltac:(lra)) as B. pose proof (acos_bound (val x)) as A. pose proof (cos_acos (val x) H) as C.
  set (y := acos (val x)) in *. clearbody y. destruct (Rle_or_lt y (17 / 10)) as [Y|Y]; [|lra].
  pose proof (one_minus_cos y ltac:(lra)) as (_ & O). rewrite C in O. rewrite uro_val in *.
  destruct (Rle_or_lt (1 / 1000000000) y) as [G|G]; [exact G|]. exfalso. nra.
Qed.
Theorem ideal_accurate : accurate_libm ideal_libm.
Proof.
  pose proof big_big as BB. pose proof uro_pos as U. pose proof eta_pos as E0. split.
  - intros x F H. cbn [ideal_libm lm_sin]. pose proof (SIN_bound (val x)) as SB.
    destruct (fofR_ok (sin (val x))) as (G & V); [apply Rabs_le; lra|]. split; [exact G|]. rewrite V.
    eapply Rle_trans; [apply rnd_err|]. pose proof (Rabs_pos (sin (val x))). assert (0 <= u * Rabs (sin (val x))) by (apply Rmult_le_pos; lra). lra.
  - intros x F H. cbn [ideal_libm lm_acos]. pose proof (acos_bound (val x)) as AB. pose proof PI_4 as P4.
    destruct (fofR_ok (acos (val x))) as (G & V); [apply Rabs_le; lra|]. split; [exact G|]. rewrite V.
    assert (0 <= u * acos (val x)) by (apply Rmult_le_pos; lra).
    eapply Rle_trans; [apply rnd_rel0; destruct (acos_gap x F H); [left; assumption|right; lra]|]. lra.
Qed.

(** ** a small buffer, for any libm *)
Section Ex.
Context (lm : libm).
Definition ivec (x y z : Z) : vec3 (F64 lm) := @V3 (F64 lm) (f64_of_Z x) (f64_of_Z y) (f64_of_Z z).
Definition iquat (x y z w : Z) : quat (F64 lm) := @Q4 (F64 lm) (f64_of_Z x) (f64_of_Z y) (f64_of_Z z) (f64_of_Z w).
Definition imsg (p c : string) (t : time) (q : quat (F64 lm)) (v : vec3 (F64 lm)) : tmsg (F64 lm) :=
  {| tm_frame := p; tm_child := c; tm_stamp := t; tm_rot := q; tm_trans := v |}.
(** a base that turns by a half turn between times 10 and 20, with a camera on it *)
Definition turning : list (@core_op (F64 lm)) :=
  [OSet (imsg "world" "base" 10%Z (iquat 0 0 0 1) (ivec 1 0 0)) "x" false;
   OSet (imsg "world" "base" 20%Z (iquat 0 0 1 0) (ivec 3 4 0)) "x" false;
   OSet (imsg "base" "camera" 10%Z (iquat 1 0 0 0) (ivec 0 0 2)) "x" true].
Definition is_ok {A} (r : res A) : bool := match r with Ok _ => true | _ => false end.
Lemma turning_lookup : exists m, lookupTransform (run (init_core 1000%Z) turning) "world" "camera" 15%Z = Ok m.
Proof.
  assert (E : is_ok (lookupTransform (run (init_core 1000%Z) turning) "world" "camera" 15%Z) = true) by (vm_compute; reflexivity).
  destruct (lookupTransform (run (init_core 1000%Z) turning) "world" "camera" 15%Z) as [m| |]; try discriminate. exists m. reflexivity.
Qed.
Lemma int_ok : forall n, (Z.abs n < 2 ^ 53)%Z -> double (f64_of_Z n) /\ finite (f64_of_Z n) /\ val (f64_of_Z n) = IZR n.
Proof.
  intros n H. destruct (fofZ_exact n H) as (F & V). split; [|split; assumption]. destruct (f64_of_Z n); try reflexivity; exact F.
Qed.
Lemma turning_finite : finite_ops 10 turning.
Proof.
  assert (G : forall a b c d x y z, (Z.abs a < 2 ^ 53)%Z -> (Z.abs b < 2 ^ 53)%Z -> (Z.abs c < 2 ^ 53)%Z -> (Z.abs d < 2 ^ 53)%Z ->
    (Z.abs x < 2 ^ 53)%Z -> (Z.abs y < 2 ^ 53)%Z -> (Z.abs z < 2 ^ 53)%Z -> (x * x + y * y + z * z <= 100)%Z ->
    double (qx (iquat a b c d)) /\ double (qy (iquat a b c d)) /\ double (qz (iquat a b c d)) /\ double (qw (iquat a b c d)) /\
    vfinite (ivec x y z) /\ vnorm (vval (ivec x y z)) <= 10).
  { intros a b c d x y z A B C D X Y Z N. destruct (int_ok x X) as (_ & FX & VX). destruct (int_ok y Y) as (_ & FY & VY). destruct (int_ok z Z) as (_ & FZ & VZ).
    split; [apply int_ok, A|]. split; [apply int_ok, B|]. split; [apply int_ok, C|]. split; [apply int_ok, D|].
    split; [split; [exact FX|split; [exact FY|exact FZ]]|]. unfold vnorm, vval, ivec. cbn [vx vy vz]. rewrite VX, VY, VZ.
    rewrite <- (sqrt_square 10) by lra. apply sqrt_le_1_alt. rewrite <- !mult_IZR, <- !plus_IZR. apply IZR_le. exact N. }
  intros m a st H. cbn [turning In] in H.
  destruct H as [H|[H|[H|[]]]]; injection H as <- _ _; cbn [imsg tm_rot tm_trans]; apply G; reflexivity || (intros C; discriminate C).
Qed.
Lemma turning_ok : Forall op_ok turning.
Proof.
  unfold turning. apply Forall_cons; [|apply Forall_cons; [|apply Forall_cons; [|apply Forall_nil]]]; cbn [op_ok imsg tm_stamp];
    split; (intros C; discriminate C) || reflexivity.
Qed.
End Ex.
