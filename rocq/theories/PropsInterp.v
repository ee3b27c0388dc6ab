(** * Properties C04 (in binary64) and C68: interpolation in binary64 *)
From Coq Require Import ZArith Bool Reals Floats.SpecFloat List String Lia Lra.
From Verif Require Import RosTime Scalar LinearMath Cache SpecCache CacheProofs CacheTheorems BufferCore SpecCore SpecReal Instances SpecRound SpecInterp
  FloatErr RoundNorm RoundOps RoundAccept RoundHistory RoundIdeal.
Import ListNotations.
Open Scope R_scope.
Local Opaque MAX_GRAPH_DEPTH.

(** ** C04, an interior sample in binary64: the translation is the stored one, number for number,
    the rotation the stored one up to 332 units of roundoff (2^-53). *)
Theorem C04_stored_stamp_binary64 :
  forall lm, accurate_libm lm ->
  forall (F : Type) (feqb : F -> F -> bool) max (ops : list (cache_op (F64 lm) F)) (l : list (storage (F64 lm) F)) x err,
  (0 <= max < dur_bound)%Z -> (forall x, In (Offer x) ops -> (0 <= st_stamp x)%Z) ->
  run_cache (Dynamic max []) ops = Dynamic max l -> (forall y, In y l -> sample_ok (IZR (2 ^ 1000)) y) -> In x l -> st_stamp x <> 0%Z ->
  exists d, getData feqb (Dynamic max l) (st_stamp x) err = Ok (Some d, err) /\
    st_stamp d = st_stamp x /\ st_frame d = st_frame x /\ st_child d = st_child x /\
    vfinite (st_trans d) /\ qfinite (st_rot d) /\
    vval (st_trans d) = vval (st_trans x) /\ qdist (qval (st_rot d)) (qval (st_rot x)) <= 332 * uro.
Proof. exact (fun lm LM F => @stored_stamp_64 lm LM F). Qed.
Print Assumptions C04_stored_stamp_binary64.

(** ** C68 *)
(** Between two samples: the translation a fraction t of the way on the straight line, the
    rotation a fraction t of the way on the shorter arc, with t the exact fraction of time. *)
Theorem C68_interpolated_sample :
  forall lm, accurate_libm lm ->
  forall (F : Type) (feqb : F -> F -> bool) max (ops : list (cache_op (F64 lm) F)) (l : list (storage (F64 lm) F)) older newer t err L,
  (0 <= max < dur_bound)%Z -> (forall x, In (Offer x) ops -> (0 <= st_stamp x)%Z) ->
  run_cache (Dynamic max []) ops = Dynamic max l ->
  bracketing l older newer t -> sample_ok L older -> sample_ok L newer -> L <= IZR (2 ^ 1000) ->
  feqb (st_frame older) (st_frame newer) = true ->
  exists d, getData feqb (Dynamic max l) t err = Ok (Some d, err) /\
    st_stamp d = t /\ st_frame d = st_frame older /\
    interpolates older newer (IZR (t - st_stamp older) / IZR (st_stamp newer - st_stamp older)) (st_rot d) (st_trans d).
Proof.
  intros lm LM F feqb max ops l older newer t err L Hm Hops E B So Sn HL Ef. destruct B as (Ho & Hn & B & G).
  eexists. split; [rewrite (interpolation_neighbours feqb max ops l older newer t err Hm Hops E); [rewrite Ef; reflexivity|exact (conj Ho (conj Hn (conj B G)))]|].
  cbn [st_stamp st_frame st_rot st_trans]. split; [reflexivity|]. split; [reflexivity|].
  destruct (run_cache_inv max ops) as (l' & E' & N & W & P); [lia|assumption|]. rewrite E in E'. injection E' as <-.
  pose proof (W _ _ Ho Hn) as Ww. pose proof (dur_62 max (proj2 Hm)) as M62.
  exact (interp_samples LM older newer (t - st_stamp older) (st_stamp newer - st_stamp older) L So Sn HL ltac:(lia) ltac:(lia)).
Qed.
Print Assumptions C68_interpolated_sample.

(** Whatever doubles a message carries: if it is accepted, its quaternion is finite and its
    length is 1 up to less than one percent. *)
Theorem C68_accepted_rotation :
  forall lm (s : core (F64 lm)) (m : tmsg (F64 lm)) a st,
  double (qx (tm_rot m)) -> double (qy (tm_rot m)) -> double (qz (tm_rot m)) -> double (qw (tm_rot m)) ->
  snd (setTransform s m a st) = Ok true ->
  qfinite (tm_rot m) /\ 99 / 100 <= qnorm (qval (tm_rot m)) <= 1006 / 1000.
Proof.
  intros lm s m a st D1 D2 D3 D4 H. apply quat_valid_norm; try assumption.
  unfold setTransform in H. destruct (setTransform_error (strip_msg m)) eqn:B; [discriminate|].
  unfold setTransform_error in B. apply orb_false_iff in B as (_ & B). apply negb_false_iff in B. exact B.
Qed.
Print Assumptions C68_accepted_rotation.

(** Finite translations in, finite numbers out: no history and no time makes a lookup return an
    infinity or a NaN, and the result is the exact composition of the links up to the stated
    error. *)
Theorem C68_lookup_is_finite :
  forall lm, accurate_libm lm ->
  forall ct (ops : list (@core_op (F64 lm))) L tgt src t msg, (0 <= ct < dur_bound)%Z -> Forall op_ok ops -> finite_ops L ops ->
  / IZR (2 ^ 900) <= L <= IZR (2 ^ 800) -> tgt <> src ->
  let s := run (init_core ct) ops in
  lookupTransform s tgt src t = Ok msg ->
  exists ds dt c, climbs s (tm_stamp msg) src ds c /\ climbs s (tm_stamp msg) tgt dt c /\
    (List.length ds <= MAX_GRAPH_DEPTH)%nat /\ (List.length dt <= MAX_GRAPH_DEPTH)%nat /\
    let N := (List.length ds + List.length dt)%nat in
    let e := pose_mul (pose_inv (climb_pose (map exact_link dt))) (climb_pose (map exact_link ds)) in
    qfinite (tm_rot msg) /\ vfinite (tm_trans msg) /\
    qdist (qval (tm_rot msg)) (fst e) <= 21 * INR (S N) * uro * (101 / 100) ^ N /\
    vdist (vval (tm_trans msg)) (snd e) <= 256 * (INR (S N) * INR (S N)) * uro * ((101 / 100) ^ (4 * N) * L).
Proof. exact (fun lm LM => @lookup_finite lm LM). Qed.
Print Assumptions C68_lookup_is_finite.

(** The hypotheses are met: by correctly rounded sin and acos, ... *)
Example C68_accurate_libm_example : accurate_libm ideal_libm.
Proof. exact ideal_accurate. Qed.
(** ... by a base that turns between times 10 and 20 with a camera on it, looked up at 15, ... *)
Example C68_lookup_example : forall lm,
  Forall op_ok (turning lm) /\ finite_ops 10 (turning lm) /\ / IZR (2 ^ 900) <= 10 <= IZR (2 ^ 800) /\
  exists m, lookupTransform (run (init_core 1000%Z) (turning lm)) "world"%string "camera"%string 15%Z = Ok m.
Proof.
  intros lm. split; [apply turning_ok|]. split; [apply turning_finite|]. split; [|apply turning_lookup].
  split; [|apply IZR_le; intros C; discriminate C]. apply Rle_trans with (/ 1); [|lra]. apply Rinv_le_contravar; [lra|]. apply IZR_le. intros C; discriminate C.
Qed.
(** ... and by the two samples of that base, 5 of 10 nanoseconds apart from the first. *)
Example C68_interpolation_example : forall lm,
  let one := sample_of (imsg lm "world" "base" 10%Z (iquat lm 0 0 0 1) (ivec lm 1 0 0)) in
  let two := sample_of (imsg lm "world" "base" 20%Z (iquat lm 0 0 1 0) (ivec lm 3 4 0)) in
  run_cache (Dynamic 1000%Z []) [Offer one; Offer two] = Dynamic 1000%Z [two; one] /\
  bracketing [two; one] one two 15%Z /\ sample_ok 10 one /\ sample_ok 10 two.
Proof.
  intros lm one two. split; [reflexivity|]. split.
  { split; [cbn; auto|]. split; [cbn; auto|]. split; [cbn; lia|]. intros x [<-|[<-|[]]]; cbn; lia. }
  assert (G : forall a b c d x y z t, (Z.abs a < 2 ^ 53)%Z -> (Z.abs b < 2 ^ 53)%Z -> (Z.abs c < 2 ^ 53)%Z -> (Z.abs d < 2 ^ 53)%Z ->
    (Z.abs x < 2 ^ 53)%Z -> (Z.abs y < 2 ^ 53)%Z -> (Z.abs z < 2 ^ 53)%Z -> (a * a + b * b + c * c + d * d = 1)%Z -> (x * x + y * y + z * z <= 100)%Z ->
    sample_ok 10 (sample_of (imsg lm "world" "base" t (iquat lm a b c d) (ivec lm x y z)))).
  { intros a b c d x y z t A B C D X Y Z N M. destruct (int_ok x X) as (_ & FX & VX). destruct (int_ok y Y) as (_ & FY & VY). destruct (int_ok z Z) as (_ & FZ & VZ).
    destruct (int_ok a A) as (_ & FA & VA). destruct (int_ok b B) as (_ & FB & VB). destruct (int_ok c C) as (_ & FC & VC). destruct (int_ok d D) as (_ & FD & VD).
    unfold sample_ok, sample_of, imsg. cbn [st_rot st_trans tm_rot tm_trans].
    split; [split; [exact FA|split; [exact FB|split; [exact FC|exact FD]]]|]. split; [|split; [split; [exact FX|split; [exact FY|exact FZ]]|]].
    - unfold qnorm, qval, iquat. cbn [qx qy qz qw]. rewrite VA, VB, VC, VD, <- !mult_IZR, <- !plus_IZR, N, sqrt_1. lra.
    - unfold vnorm, vval, ivec. cbn [vx vy vz]. rewrite VX, VY, VZ.
      rewrite <- (sqrt_square 10) by lra. apply sqrt_le_1_alt. rewrite <- !mult_IZR, <- !plus_IZR. apply IZR_le. exact M. }
  split; apply G; reflexivity || (intros C; discriminate C).
Qed.
