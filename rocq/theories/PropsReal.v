(** * Properties C19, C21, C24: which rigid motion a lookup returns *)
From Coq Require Import ZArith Bool List String Lia Arith Reals Floats.SpecFloat.
From Verif Require Import RosTime Scalar LinearMath Cache SpecCache BufferCore SpecCore Instances RealSlerp RealQuat SpecReal
  RealMatrix LookupPose LookupFixed ExampleBuffers ExampleReal.
Import ListNotations.
Open Scope Z_scope.
Open Scope string_scope.

(** ** C19 *)
(** [climb_pose ds] is the product of the links on a climb, [pose_mul]/[pose_inv] compose and
    invert rigid motions given as (unit quaternion, translation); see SpecCore. *)
Theorem C19_lookup_is_path_composition :
  forall (s : core RS) tgt src t m c ds dt,
  reachable s -> unit_samples s -> tgt <> src ->
  lookupTransform s tgt src t = Ok m ->
  depth_ok s (tm_stamp m) src -> depth_ok s (tm_stamp m) tgt ->
  climbs s (tm_stamp m) src ds c -> climbs s (tm_stamp m) tgt dt c ->
  msg_pose m = pose_mul (pose_inv (climb_pose dt)) (climb_pose ds).
Proof. exact lookup_pose. Qed.
Print Assumptions C19_lookup_is_path_composition.

(** In every arithmetic, including floating point: which product is computed. *)
Theorem C19_exact_product :
  forall (S : Scalar) (s : core S) tgt src t m, reachable s -> tgt <> src ->
  lookupTransform s tgt src t = Ok m ->
  (exists ds, climbs s (tm_stamp m) src ds tgt /\ msg_pose m = climb_pose ds) \/
  (exists dt, climbs s (tm_stamp m) tgt dt src /\ msg_pose m = pose_inv (climb_pose dt)) \/
  (exists ds dt c, climbs s (tm_stamp m) src ds c /\ climbs s (tm_stamp m) tgt dt c /\ link s (tm_stamp m) c = None /\
     msg_pose m = pose_mul (pose_inv (climb_pose dt)) (climb_pose ds)).
Proof. exact (fun S => @lookup_pose_cases S). Qed.
Print Assumptions C19_exact_product.

(** The hypothesis on stored rotations follows from the same of the messages. *)
Theorem C19_unit_messages_keep_unit :
  forall ct ops, 0 <= ct < dur_bound -> Forall op_ok ops -> unit_ops ops -> unit_samples (run (init_core ct) ops).
Proof. exact unit_run. Qed.
Print Assumptions C19_unit_messages_keep_unit.

(** Every rotation a lookup returns is then a unit quaternion. *)
Theorem C19_result_is_unit :
  forall (s : core RS) tgt src t m, reachable s -> unit_samples s -> lookupTransform s tgt src t = Ok m -> qunit (tm_rot m).
Proof. exact lookup_unit. Qed.
Print Assumptions C19_result_is_unit.

(** A moving base between two samples, a sensor on it and a beacon: met at time 15. *)
Example C19_example :
  reachable rbot /\ unit_samples rbot /\ (forall n, depth_ok rbot 15 n) /\
  (exists m, lookupTransform rbot "beacon" "lidar" 15 = Ok m) /\
  (exists ds, climbs rbot 15 "lidar" ds "map" /\ List.length ds = 2%nat) /\
  (exists ds, climbs rbot 15 "beacon" ds "map" /\ List.length ds = 1%nat).
Proof.
  split; [exact rbot_reachable|]. split; [exact rbot_unit|]. split; [intros n; apply rbot_depth|].
  split; [apply rbot_lookup; cbn; auto 6|]. destruct rbot_climbs as (A & _ & B). split; assumption.
Qed.

(** ** C21 *)
Theorem C21_inverse :
  forall (s : core RS) a b t m m', reachable s -> unit_samples s -> t <> 0 ->
  depth_ok s t a -> depth_ok s t b ->
  lookupTransform s a b t = Ok m -> lookupTransform s b a t = Ok m' -> msg_pose m' = pose_inv (msg_pose m).
Proof. exact lookup_inverse. Qed.
Print Assumptions C21_inverse.

Theorem C21_inverse_latest :
  forall (s : core RS) a b m m', reachable s -> unit_samples s ->
  (forall t, depth_ok s t a) -> (forall t, depth_ok s t b) ->
  lookupTransform s a b 0 = Ok m -> lookupTransform s b a 0 = Ok m' ->
  tm_stamp m' = tm_stamp m /\ msg_pose m' = pose_inv (msg_pose m).
Proof. exact lookup_inverse_latest. Qed.
Print Assumptions C21_inverse_latest.

Theorem C21_chain :
  forall (s : core RS) a b c t m1 m2 m3, reachable s -> unit_samples s -> t <> 0 ->
  depth_ok s t a -> depth_ok s t b -> depth_ok s t c ->
  lookupTransform s a b t = Ok m1 -> lookupTransform s b c t = Ok m2 -> lookupTransform s a c t = Ok m3 ->
  msg_pose m3 = pose_mul (msg_pose m1) (msg_pose m2).
Proof. exact lookup_chain. Qed.
Print Assumptions C21_chain.

(** [pose_inv] is the inverse and [pose_mul] acts like doing one motion after the other. *)
Theorem C21_pose_operations_mean_motions :
  (forall a : pose RS, qunit (fst a) -> pose_mul (pose_inv a) a = pose_id /\ pose_mul a (pose_inv a) = pose_id) /\
  (forall (a b : pose RS) v, let act (p : pose RS) v := vadd (quatRotate (fst p) v) (snd p) in
     act (pose_mul a b) v = act a (act b v)).
Proof.
  split; [intros a H; split; [apply pose_inv_l|apply pose_inv_r]; exact H|].
  intros [qa ta] [qb tb] v. cbn. rewrite quatRotate_mul, quatRotate_add, <- vadd_assoc. reflexivity.
Qed.
Print Assumptions C21_pose_operations_mean_motions.

Theorem C21_latest_common_time_symmetric :
  forall (S : Scalar) (s : core S) a b, reachable s -> known s a -> known s b -> a <> b -> depth_ok s 0 a -> depth_ok s 0 b ->
  latest_common_time s a b = latest_common_time s b a.
Proof. exact (fun S => @lct_sym S). Qed.
Print Assumptions C21_latest_common_time_symmetric.

Example C21_example :
  (exists m, lookupTransform rbot "beacon" "lidar" 15 = Ok m) /\ (exists m, lookupTransform rbot "lidar" "beacon" 15 = Ok m) /\
  (exists m, lookupTransform rbot "beacon" "base" 15 = Ok m) /\ (exists m, lookupTransform rbot "base" "lidar" 15 = Ok m).
Proof. repeat split; apply rbot_lookup; cbn; auto 6. Qed.

(** The unit hypothesis is needed: setTransform accepts quaternions of squared norm up to 1.01,
    and then the two directions do not cancel. *)
Definition loose : core D64 := run (init_core 100)
  [ dyn "p" "x" 10 (v64 0 0 0) (@Q4 D64 (slit 0 1) (slit 0 1) (slit 0 1) (slit 257 256)) ].
Lemma ok_two : forall {A B} (r : res A) (r' : res B) (f : A -> B -> bool),
  match r, r' with Ok m, Ok m' => f m m' | _, _ => false end = true -> exists m m', r = Ok m /\ r' = Ok m' /\ f m m' = true.
Proof. intros A B [m| |] [m'| |] f H; try discriminate. eauto 6. Qed.
Theorem C21_non_unit_refuted :
  exists (s : core D64) a b t m m', reachable s /\
    lookupTransform s a b t = Ok m /\ lookupTransform s b a t = Ok m' /\
    seqb (qw (qmul (tm_rot m') (tm_rot m))) (slit 66049 65536) = true.
Proof.
  exists loose, "p", "x", 10.
  destruct (ok_two (lookupTransform loose "p" "x" 10) (lookupTransform loose "x" "p" 10)
    (fun m m' => seqb (qw (qmul (tm_rot m') (tm_rot m))) (slit 66049 65536))) as (m & m' & E & E' & H); [vmr|].
  exists m, m'. split; [apply reach_by; vmr|]. auto.
Qed.
Print Assumptions C21_non_unit_refuted.

(** ** C24 *)
Theorem C24_fixed_succeeds_iff :
  forall (S : Scalar) (s : core S) tgt t1 src t2 fix_, reachable s ->
  ((exists m, lookupTransformFixed s tgt t1 src t2 fix_ = Ok m) <->
   (plain tgt /\ known s tgt) /\ (plain src /\ known s src) /\ (plain fix_ /\ known s fix_) /\
   (exists m1, lookupTransform s fix_ src t2 = Ok m1) /\ (exists m2, lookupTransform s tgt fix_ t1 = Ok m2)).
Proof. exact (fun S => @fixed_iff S). Qed.
Print Assumptions C24_fixed_succeeds_iff.

Theorem C24_fixed_header :
  forall (S : Scalar) (s : core S) tgt t1 src t2 fix_ m m2, lookupTransformFixed s tgt t1 src t2 fix_ = Ok m ->
  lookupTransform s tgt fix_ t1 = Ok m2 -> tm_frame m = tgt /\ tm_child m = src /\ tm_stamp m = tm_stamp m2.
Proof. exact (fun S => @fixed_header S). Qed.
Print Assumptions C24_fixed_header.

(** The product, up to the sign of the quaternion (the code goes through matrices). *)
Theorem C24_fixed_is_product :
  forall (s : core RS) tgt t1 src t2 fix_ m m1 m2, reachable s -> unit_samples s ->
  lookupTransformFixed s tgt t1 src t2 fix_ = Ok m ->
  lookupTransform s fix_ src t2 = Ok m1 -> lookupTransform s tgt fix_ t1 = Ok m2 ->
  same_motion (msg_pose m) (pose_mul (msg_pose m2) (msg_pose m1)).
Proof. exact fixed_pose. Qed.
Print Assumptions C24_fixed_is_product.

Theorem C24_same_time_is_direct :
  forall (s : core RS) tgt src fix_ t m m', reachable s -> unit_samples s -> t <> 0 ->
  depth_ok s t tgt -> depth_ok s t src -> depth_ok s t fix_ ->
  lookupTransformFixed s tgt t src t fix_ = Ok m -> lookupTransform s tgt src t = Ok m' ->
  tm_stamp m = tm_stamp m' /\ same_motion (msg_pose m) (msg_pose m').
Proof. exact fixed_same_time. Qed.
Print Assumptions C24_same_time_is_direct.

Example C24_example : exists m, lookupTransformFixed rbot "beacon" 15 "lidar" 15 "map" = Ok m.
Proof.
  apply C24_fixed_succeeds_iff; [exact rbot_reachable|].
  split; [split; [plain_tac|apply rbot_known; cbn; auto 6]|]. split; [split; [plain_tac|apply rbot_known; cbn; auto 6]|].
  split; [split; [plain_tac|apply rbot_known; cbn; auto 6]|]. split; apply rbot_lookup; cbn; auto 6.
Qed.
