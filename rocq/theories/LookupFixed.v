(** * Lookups through a fixed frame, and symmetry of the latest common time *)
From Coq Require Import ZArith Bool List String Lia Arith Reals.
From Verif Require Import RosTime Scalar LinearMath Cache SpecCache CacheProofs CacheQueries
  BufferCore SpecCore CoreInv Naturality CoreSet WalkSpec LctSpec Bridge WalkMain Sim Forget LookupBase LookupTheorems LookupTree
  History Instances RealSlerp RealQuat SpecReal RealMatrix LookupPose.
Import ListNotations.
Open Scope Z_scope.
Local Opaque MAX_GRAPH_DEPTH.

Section P.
Context {S : Scalar}.

Theorem fixed_iff : forall (s : core S) tgt t1 src t2 fix_ , reachable s ->
  ((exists m, lookupTransformFixed s tgt t1 src t2 fix_ = Ok m) <->
   (plain tgt /\ known s tgt) /\ (plain src /\ known s src) /\ (plain fix_ /\ known s fix_) /\
   (exists m1, lookupTransform s fix_ src t2 = Ok m1) /\ (exists m2, lookupTransform s tgt fix_ t1 = Ok m2)).
Proof.
  intros s tgt t1 src t2 fix_ R. apply reachable_wf in R as W. unfold lookupTransformFixed.
  assert (V : forall arg n, (exists i, validateFrameId s arg n = Ok i) <-> plain n /\ known s n).
  { intros arg n. destruct (plain_dec n) as [P|P].
    - destruct (known_dec s n) as [K|K]; [rewrite validate_known by assumption|rewrite validate_unknown by assumption]; split; eauto.
      + intros [i H]. discriminate.
      + intros [_ H]. contradiction.
    - destruct (validate_not_plain s arg n P) as [e ->]. split; [intros [i H]; discriminate|intros [H _]; contradiction]. }
  split.
  - intros [m H].
    destruct (validateFrameId s "lookupTransform argument target_frame" tgt) as [i|c e|] eqn:E1; cbn [bind] in H; try discriminate.
    destruct (validateFrameId s "lookupTransform argument source_frame" src) as [j|c e|] eqn:E2; cbn [bind] in H; try discriminate.
    destruct (validateFrameId s "lookupTransform argument fixed_frame" fix_) as [k|c e|] eqn:E3; cbn [bind] in H; try discriminate.
    destruct (lookupTransform s fix_ src t2) as [m1|c e|] eqn:E4; cbn [bind] in H; try discriminate.
    destruct (lookupTransform s tgt fix_ t1) as [m2|c e|] eqn:E5; cbn [bind] in H; try discriminate.
    split; [apply (V "lookupTransform argument target_frame"%string); eauto|].
    split; [apply (V "lookupTransform argument source_frame"%string); eauto|].
    split; [apply (V "lookupTransform argument fixed_frame"%string); eauto|]. split; eauto.
  - intros (A & B & C & (m1 & E4) & (m2 & E5)).
    apply (V "lookupTransform argument target_frame"%string) in A as [i ->].
    apply (V "lookupTransform argument source_frame"%string) in B as [j ->].
    apply (V "lookupTransform argument fixed_frame"%string) in C as [k ->]. cbn [bind].
    rewrite E4. cbn [bind]. rewrite E5. cbn [bind]. eauto.
Qed.

Theorem fixed_header : forall (s : core S) tgt t1 src t2 fix_ m m2, lookupTransformFixed s tgt t1 src t2 fix_ = Ok m ->
  lookupTransform s tgt fix_ t1 = Ok m2 -> tm_frame m = tgt /\ tm_child m = src /\ tm_stamp m = tm_stamp m2.
Proof.
  intros s tgt t1 src t2 fix_ m m2 H E. unfold lookupTransformFixed in H.
  destruct (validateFrameId s _ tgt) as [i|c e|]; cbn [bind] in H; try discriminate.
  destruct (validateFrameId s _ src) as [j|c e|]; cbn [bind] in H; try discriminate.
  destruct (validateFrameId s _ fix_) as [k|c e|]; cbn [bind] in H; try discriminate.
  destruct (lookupTransform s fix_ src t2) as [m1|c e|]; cbn [bind] in H; try discriminate.
  rewrite E in H. cbn [bind] in H. inversion H; subst. cbn. auto.
Qed.

(** ** the latest common time does not depend on the direction *)
Lemma oldest_nonzero_unique : forall l r r', oldest_nonzero l r -> oldest_nonzero l r' -> r = r'.
Proof.
  intros l r r' [(-> & H)|(N & L & I & M)] [(-> & H')|(N' & L' & I' & M')]; [reflexivity| | |].
  - destruct (H _ I') as [|]; [congruence|]. lia.
  - destruct (H' _ I) as [|]; [congruence|]. lia.
  - pose proof (M _ I' N'). pose proof (M' _ I N). lia.
Qed.
Theorem lct_sym : forall (s : core S) a b, reachable s -> known s a -> known s b -> a <> b -> depth_ok s 0 a -> depth_ok s 0 b ->
  latest_common_time s a b = latest_common_time s b a.
Proof.
  intros s a b R Ka Kb Ne Da Db. apply reachable_wf in R as W.
  assert (Dec : (exists c, common_ancestor s 0 a b c) \/ ~ (exists c, common_ancestor s 0 a b c)).
  { destruct (known_live s a W Ka) as (i & Li & Ni & _). destruct (known_live s b W Kb) as (j & Lj & Nj & _). 
    assert (D : i <> j) by congruence.
    pose proof (lct_outcome_ok s i j None W Lj Li (not_eq_sym D)) as O.
    inversion O as [es et p H1 H2 H3 H4 H5 H6 Eo|es m et m' err' H1 H2 H3 H4 H5 Ex Eo|q es m err' H1 H2 H3 Ex Eo].
    - left. destruct (iclimb_climbs s 0 _ _ _ W Lj H1) as [C1 _]. destruct (iclimb_climbs s 0 _ _ _ W Li H2) as [C2 _].
      rewrite Ni in C2. rewrite Nj in C1. exists (name_of s p). split; eauto.
    - right. intros (c & (d1 & C1) & (d2 & C2)).
      destruct (climbs_iclimb s 0 _ _ _ W C1 i Li Ni) as (f1 & k1 & _ & Ec & L1 & I1).
      destruct (climbs_iclimb s 0 _ _ _ W C2 j Lj Nj) as (f2 & k2 & _ & Ec' & L2 & I2).
      assert (k1 = k2) by (apply (live_inj s); congruence). subst k2.
      apply H5. eapply tops_meet; [exact H1|exact H2|exact H3|exact H4|exact I2|exact I1].
    - exfalso. destruct H1 as [->| ->].
      + destruct (iclimb_climbs s 0 _ _ _ W Lj H2) as [C _]. rewrite Nj in C. specialize (Db _ _ C). rewrite map_length in Db. lia.
      + destruct (iclimb_climbs s 0 _ _ _ W Li H2) as [C _]. rewrite Ni in C. specialize (Da _ _ C). rewrite map_length in Da. lia. }
  destruct Dec as [Hc|Hn].
  - destruct (nearest_exists s 0 a b Da Db Hc) as (c & ds & dt & C1 & C2 & Near).
    assert (Near' : forall c', common_ancestor s 0 b a c' -> exists es, climbs s 0 c es c') by (intros c' [X Y]; apply Near; split; assumption).
    destruct (lct_is_oldest s b a ds dt c R Kb Ka (not_eq_sym Ne) Da Db C1 C2 Near) as (r & -> & O).
    destruct (lct_is_oldest s a b dt ds c R Ka Kb Ne Db Da C2 C1 Near') as (r' & -> & O').
    do 3 f_equal. eapply oldest_nonzero_unique; [exact O'|].
    eapply oldest_nonzero_perm; [|exact O]. intros x. rewrite !map_app, !in_app_iff. tauto.
  - rewrite (lct_disconnected s b a R Kb Ka (not_eq_sym Ne) Da Db) by (intros c Hc; apply Hn; eauto).
    rewrite (lct_disconnected s a b R Ka Kb Ne Db Da); [reflexivity|]. intros c [X Y]. apply Hn. exists c. split; assumption.
Qed.
End P.

(** ** Over the reals *)
Theorem lookup_inverse_latest : forall (s : core RS) a b m m', reachable s -> unit_samples s ->
  (forall t, depth_ok s t a) -> (forall t, depth_ok s t b) ->
  lookupTransform s a b 0 = Ok m -> lookupTransform s b a 0 = Ok m' ->
  tm_stamp m' = tm_stamp m /\ msg_pose m' = pose_inv (msg_pose m).
Proof.
  intros s a b m m' R U Da Db H H'. destruct (string_dec a b) as [->|Ne].
  { rewrite H in H'. inversion H'; subst. split; [reflexivity|]. rewrite (lookup_self_pose s b 0 m' H), pose_inv_id. reflexivity. }
  apply reachable_wf in R as W.
  destruct (lookup_ok_inv s a b 0 m W Ne H) as (_ & Ka & _ & Kb & _).
  assert (E : tm_stamp m' = tm_stamp m).
  { destruct (lookup_header s a b 0 m R H) as (_ & _ & _ & L). destruct (lookup_header s b a 0 m' R H') as (_ & _ & _ & L').
    specialize (L eq_refl Ne). specialize (L' eq_refl (not_eq_sym Ne)).
    rewrite (lct_sym s a b R Ka Kb Ne (Da 0) (Db 0)) in L. rewrite L in L'. congruence. }
  split; [assumption|].
  destruct (lookup_common s a b 0 m R H Ne) as (c & ds & dt & C1 & C2).
  rewrite (lookup_pose s a b 0 m c ds dt R U Ne H (Db _) (Da _) C1 C2).
  rewrite <- E in C1, C2.
  rewrite (lookup_pose s b a 0 m' c dt ds R U (not_eq_sym Ne) H' (Da _) (Db _) C2 C1).
  pose proof (climb_unit _ _ _ _ _ U C1). pose proof (climb_unit _ _ _ _ _ U C2).
  rewrite pose_inv_mul, pose_inv_inv; auto using unitp_inv.
Qed.

Theorem fixed_pose : forall (s : core RS) tgt t1 src t2 fix_ m m1 m2, reachable s -> unit_samples s ->
  lookupTransformFixed s tgt t1 src t2 fix_ = Ok m ->
  lookupTransform s fix_ src t2 = Ok m1 -> lookupTransform s tgt fix_ t1 = Ok m2 ->
  same_motion (msg_pose m) (pose_mul (msg_pose m2) (msg_pose m1)).
Proof.
  intros s tgt t1 src t2 fix_ m m1 m2 R U H E1 E2. unfold lookupTransformFixed in H.
  destruct (validateFrameId s _ tgt) as [i|c e|]; cbn [bind] in H; try discriminate.
  destruct (validateFrameId s _ src) as [j|c e|]; cbn [bind] in H; try discriminate.
  destruct (validateFrameId s _ fix_) as [k|c e|]; cbn [bind] in H; try discriminate.
  rewrite E1 in H. cbn [bind] in H. rewrite E2 in H. cbn [bind] in H.
  pose proof (lookup_unit s fix_ src t2 m1 R U E1) as U1. pose proof (lookup_unit s tgt fix_ t1 m2 R U E2) as U2.
  change (msg_to_tf2 m2) with (xpose (msg_pose m2)) in H. change (msg_to_tf2 m1) with (xpose (msg_pose m1)) in H.
  rewrite xpose_mul in H by assumption. set (p := pose_mul (msg_pose m2) (msg_pose m1)) in *.
  assert (Up : unitp p) by (apply unitp_mul; assumption).
  apply (f_equal (fun r => match r with Ok x => msg_pose x | _ => msg_pose m end)) in H. rewrite <- H.
  unfold msg_pose at 1. cbn [tm_rot tm_trans]. split; cbn [fst snd]; [|reflexivity].
  apply xpose_rotation. assumption.
Qed.

Theorem fixed_same_time : forall (s : core RS) tgt src fix_ t m m', reachable s -> unit_samples s -> t <> 0 ->
  depth_ok s t tgt -> depth_ok s t src -> depth_ok s t fix_ ->
  lookupTransformFixed s tgt t src t fix_ = Ok m -> lookupTransform s tgt src t = Ok m' ->
  tm_stamp m = tm_stamp m' /\ same_motion (msg_pose m) (msg_pose m').
Proof.
  intros s tgt src fix_ t m m' R U Hz Dt Ds Df H H'.
  destruct (proj1 (fixed_iff s tgt t src t fix_ R) (ex_intro _ m H)) as (_ & _ & _ & (m1 & E1) & (m2 & E2)).
  split.
  - destruct (fixed_header s tgt t src t fix_ m m2 H E2) as (_ & _ & ->).
    rewrite (lookup_stamp RS s tgt fix_ t m2 R Hz E2), (lookup_stamp RS s tgt src t m' R Hz H'). reflexivity.
  - rewrite (lookup_chain s tgt fix_ src t m2 m1 m' R U Hz Dt Df Ds E2 E1 H'). eapply fixed_pose; eassumption.
Qed.
