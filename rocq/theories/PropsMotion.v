(** * Properties C89: looked-up poses move no faster than the data *)
From Coq Require Import ZArith Bool Reals List String Lia Lra.
From Verif Require Import RosTime Scalar LinearMath Cache SpecCache BufferCore SpecCore Instances RealSlerp RealQuat SpecReal SpecRound RoundNorm SpecMotion MotionProofs
  Bridge CoreSet History Malformed CoreTheorems ExampleBuffers LookupPose ExampleReal LookupTheorems LookupTree.
Import ListNotations.
Open Scope R_scope.
Local Open Scope list_scope.
Local Opaque MAX_GRAPH_DEPTH.

(** ** C89 *)
(** One link, read at any two times: if its stored samples move at most at [V] and [W], so does
    what is read between them, whichever samples lie in between. *)
Theorem C89_one_link :
  forall (s : core RS) V W n t t' d d', reachable s -> unit_samples s -> 0 <= V -> 0 <= W -> limited s V W n ->
  t <> 0%Z -> t' <> 0%Z -> sample_at s t n = Some d -> sample_at s t' n = Some d' ->
  vdist (st_trans d) (st_trans d') <= V * secs (Z.abs (t - t')) /\
  (forall v, vdist (quatRotate (st_rot d) v) (quatRotate (st_rot d') v) <= W * secs (Z.abs (t - t')) * vnorm v).
Proof. exact sample_speed. Qed.
Print Assumptions C89_one_link.

(** A whole lookup, at any two requested times [q] and [q'] (latest included): a point at most
    [rho] away, taken along the same [k] links at both times, lands at two places no further
    apart than the time between allows. *)
Theorem C89_lookup_moves_points_slowly :
  forall (s : core RS) tgt src q q' m m' c c' ds dt ds' dt' V W L rho v,
  reachable s -> unit_samples s -> tgt <> src -> 0 <= V -> 0 <= W -> 0 <= L ->
  lookupTransform s tgt src q = Ok m -> lookupTransform s tgt src q' = Ok m' ->
  let t := tm_stamp m in let t' := tm_stamp m' in
  t <> 0%Z -> t' <> 0%Z -> depth_ok s t src -> depth_ok s t tgt -> depth_ok s t' src -> depth_ok s t' tgt ->
  climbs s t src ds c -> climbs s t tgt dt c -> climbs s t' src ds' c' -> climbs s t' tgt dt' c' ->
  passed ds = passed ds' -> passed dt = passed dt' ->
  (forall n, In n (passed ds ++ passed dt) -> limited s V W n /\ within_reach s L n) ->
  vnorm v <= rho ->
  let k := INR (List.length ds + List.length dt) in
  vdist (takes (msg_pose m) v) (takes (msg_pose m') v) <= k * (V + W * (rho + k * L)) * secs (Z.abs (t - t')).
Proof. exact lookup_speed. Qed.
Print Assumptions C89_lookup_moves_points_slowly.

(** ... and the orientation turns no faster than the links' together. *)
Theorem C89_lookup_turns_slowly :
  forall (s : core RS) tgt src q q' m m' c c' ds dt ds' dt' V W v,
  reachable s -> unit_samples s -> tgt <> src -> 0 <= V -> 0 <= W ->
  lookupTransform s tgt src q = Ok m -> lookupTransform s tgt src q' = Ok m' ->
  let t := tm_stamp m in let t' := tm_stamp m' in
  t <> 0%Z -> t' <> 0%Z -> depth_ok s t src -> depth_ok s t tgt -> depth_ok s t' src -> depth_ok s t' tgt ->
  climbs s t src ds c -> climbs s t tgt dt c -> climbs s t' src ds' c' -> climbs s t' tgt dt' c' ->
  passed ds = passed ds' -> passed dt = passed dt' ->
  (forall n, In n (passed ds ++ passed dt) -> limited s V W n /\ exists L, within_reach s L n) ->
  vdist (quatRotate (tm_rot m) v) (quatRotate (tm_rot m') v) <=
    INR (List.length ds + List.length dt) * W * secs (Z.abs (t - t')) * vnorm v.
Proof. exact lookup_turns. Qed.
Print Assumptions C89_lookup_turns_slowly.

(** ** The hypotheses are met: the moving base of C19, its lidar and a beacon, at 12 and at 18 *)
Lemma rbot_at : forall t, t = 12%Z \/ t = 18%Z ->
  (exists d, link rbot t "base" = Some d /\ st_frame d = "map"%string) /\
  (exists d, link rbot t "lidar" = Some d /\ st_frame d = "base"%string) /\
  (exists d, link rbot t "beacon" = Some d /\ st_frame d = "map"%string).
Proof.
  intros t [-> | ->]; unfold link, sample_at; rewrite !rbot_hist by discriminate;
    change (String.eqb "base" "base") with true; cbn iota; repeat split; eexists; split; reflexivity.
Qed.
Lemma rbot_paths : forall t, t = 12%Z \/ t = 18%Z -> exists d1 d2 d3,
  climbs rbot t "lidar" [d2; d1] "map" /\ climbs rbot t "beacon" [d3] "map" /\
  passed [d2; d1] = ["lidar"; "base"]%string /\ passed [d3] = ["beacon"]%string.
Proof.
  intros t H. destruct (rbot_at t H) as ((d1 & L1 & F1) & (d2 & L2 & F2) & (d3 & L3 & F3)).
  exists d1, d2, d3. split; [econstructor; [exact L2|]; rewrite F2; econstructor; [exact L1|]; rewrite F1; constructor|].
  split; [econstructor; [exact L3|]; rewrite F3; constructor|].
  cbn [passed map]. rewrite (link_child _ _ _ _ rbot_reachable L1), (link_child _ _ _ _ rbot_reachable L2), (link_child _ _ _ _ rbot_reachable L3). split; reflexivity.
Qed.
Lemma rbot_found : forall t, t = 12%Z \/ t = 18%Z -> exists m, lookupTransform rbot "beacon" "lidar" t = Ok m.
Proof.
  intros t H. apply (lookup_succeeds_iff rbot "beacon" "lidar" t rbot_reachable rbot_early);
    [destruct H as [-> | ->]; unfold dur_bound; lia|plain_tac|plain_tac|apply rbot_known; cbn; auto 6|apply rbot_known; cbn; auto 6|discriminate|apply rbot_depth|apply rbot_depth|].
  destruct (rbot_paths t H) as (d1 & d2 & d3 & A & B & _). exists "map"%string. split; eauto.
Qed.
Lemma rbot_limited : forall n, limited rbot 300000000 400000000 n /\ within_reach rbot 5 n.
Proof.
  assert (G : forall n c, hist rbot n = Some c -> n <> NO_PARENT).
  { intros n c H ->. rewrite hist_NO_PARENT in H by apply CoreSet.reachable_wf, rbot_reachable. discriminate H. }
  intros n. split.
  - intros c H. pose proof (G n c H) as Hn. rewrite rbot_hist in H by exact Hn.
    destruct (String.eqb n "base"); [|destruct (String.eqb n "lidar"); [|destruct (String.eqb n "beacon"); [|discriminate H]]]; injection H as <-; cbn [samples].
    + split; [intros a b [<-|[<-|[]]] [<-|[<-|[]]]; reflexivity|].
      intros a b ([<-|[<-|[]]] & [<-|[<-|[]]] & L & _); cbn [xs st_stamp] in L; try (exfalso; lia). cbn [xs st_stamp st_trans st_rot].
      change (20 - 10)%Z with 10%Z. unfold secs. split.
      * unfold vdist, vnorm, rv. cbn [vx vy vz].
        replace (300000000 * (10 / 1000000000)) with 3 by lra. apply (Rle_trans _ (sqrt (3 * 3))); [apply sqrt_le_1_alt; cbn [RS scar]; lra|rewrite sqrt_square; lra].
      * unfold turned_by, qinner, turn, still. cbn [qx qy qz qw]. pose proof (acos_bound (Rabs (3 / 5 * 0 + 0 * 0 + 0 * 0 + 4 / 5 * 1))) as B.
        assert (C : acos (Rabs (3 / 5 * 0 + 0 * 0 + 0 * 0 + 4 / 5 * 1)) <= PI / 2).
        { apply acos_nonneg_range. split; [apply Rabs_pos|]. rewrite Rabs_right; lra. }
        pose proof PI_4. cbn [RS scar] in *. lra.
    + split; [intros a b [<-|[]] [<-|[]]; reflexivity|]. intros a b ([<-|[]] & [<-|[]] & L & _). lia.
    + split; [intros a b [<-|[]] [<-|[]]; reflexivity|]. intros a b ([<-|[]] & [<-|[]] & L & _). lia.
  - intros c x H Hx. pose proof (G n c H) as Hn. rewrite rbot_hist in H by exact Hn.
    assert (K : forall a b c : R, a * a + b * b + c * c <= 25 -> vnorm (rv a b c) <= 5).
    { intros a b c0 Q. unfold vnorm, rv. cbn [vx vy vz]. rewrite <- (sqrt_square 5) by lra. apply sqrt_le_1_alt. cbn [RS scar]. lra. }
    destruct (String.eqb n "base"); [|destruct (String.eqb n "lidar"); [|destruct (String.eqb n "beacon"); [|discriminate H]]]; injection H as <-; cbn [samples] in Hx.
    + destruct Hx as [<-|[<-|[]]]; apply K; lra.
    + destruct Hx as [<-|[]]; apply K; lra.
    + destruct Hx as [<-|[]]; apply K; lra.
Qed.
Lemma rbot_moves : forall v, vnorm v <= 1 -> exists m m',
  lookupTransform rbot "beacon" "lidar" 12%Z = Ok m /\ lookupTransform rbot "beacon" "lidar" 18%Z = Ok m' /\
  vdist (takes (msg_pose m) v) (takes (msg_pose m') v) <= 121.
Proof.
  intros v Hv. destruct (rbot_found 12%Z ltac:(auto)) as (m & Lk). destruct (rbot_found 18%Z ltac:(auto)) as (m' & Lk').
  exists m, m'. split; [exact Lk|]. split; [exact Lk'|].
  pose proof (lookup_stamp RS rbot _ _ 12%Z m rbot_reachable ltac:(lia) Lk) as E. pose proof (lookup_stamp RS rbot _ _ 18%Z m' rbot_reachable ltac:(lia) Lk') as E'.
  destruct (rbot_paths 12%Z ltac:(auto)) as (d1 & d2 & d3 & A & B & P & Q). destruct (rbot_paths 18%Z ltac:(auto)) as (d1' & d2' & d3' & A' & B' & P' & Q').
  pose proof (C89_lookup_moves_points_slowly rbot "beacon" "lidar" 12%Z 18%Z m m' "map" "map" [d2; d1] [d3] [d2'; d1'] [d3'] 300000000 400000000 5 1 v rbot_reachable rbot_unit) as T.
  cbv zeta in T. rewrite E, E' in T.
  specialize (T ltac:(discriminate) ltac:(lra) ltac:(lra) ltac:(lra) Lk Lk' ltac:(lia) ltac:(lia) (rbot_depth _ _) (rbot_depth _ _) (rbot_depth _ _) (rbot_depth _ _) A B A' B').
  rewrite P, P', Q, Q' in T. specialize (T eq_refl eq_refl (fun n _ => rbot_limited n) Hv). eapply Rle_trans; [exact T|].
  cbn [List.length Nat.add]. change (Z.abs (12 - 18))%Z with 6%Z. unfold secs. cbn [INR]. lra.
Qed.
Example C89_example :
  reachable rbot /\ unit_samples rbot /\ (forall n, limited rbot 300000000 400000000 n /\ within_reach rbot 5 n) /\
  (forall t, t = 12%Z \/ t = 18%Z -> exists d1 d2 d3,
    climbs rbot t "lidar" [d2; d1] "map" /\ climbs rbot t "beacon" [d3] "map" /\
    passed [d2; d1] = ["lidar"; "base"]%string /\ passed [d3] = ["beacon"]%string) /\
  (forall v, vnorm v <= 1 -> exists m m',
    lookupTransform rbot "beacon" "lidar" 12%Z = Ok m /\ lookupTransform rbot "beacon" "lidar" 18%Z = Ok m' /\
    vdist (takes (msg_pose m) v) (takes (msg_pose m') v) <= 121).
Proof. exact (conj rbot_reachable (conj rbot_unit (conj rbot_limited (conj rbot_paths rbot_moves)))). Qed.

(** The numbers of the quaternion may still jump although nothing moves at all: a frame at
    rest, whose second message carries the same orientation with the other sign. *)
Definition resting_ops : list (core_op RS) :=
  [ OSet (rmsg "map" "base" 10%Z (rv 0 0 0) still) "me" false;
    OSet (rmsg "map" "base" 20%Z (rv 0 0 0) (qneg still)) "me" false ].
Definition resting : core RS := run (init_core 100%Z) resting_ops.
Lemma resting_ok : Forall op_ok resting_ops.
Proof. repeat constructor; cbn; unfold valid_time; cbn; lia. Qed.
Lemma resting_reachable : reachable resting.
Proof. exists 100%Z, resting_ops. split; [unfold dur_bound; lia|]. split; [exact resting_ok|reflexivity]. Qed.
Lemma neg_still_unit : qunit (qneg still).
Proof. unfold qunit, qneg, still. cbn. field. Qed.
Lemma resting_hist : forall n, n <> NO_PARENT -> hist resting n =
  if String.eqb n "base" then Some (Dynamic 100%Z [xs 20%Z (rv 0 0 0) (qneg still) "map" "base"; xs 10%Z (rv 0 0 0) still "map" "base"]) else None.
Proof.
  intros n Hn. unfold resting. rewrite hist_run; [|unfold dur_bound; lia|exact resting_ok|assumption].
  unfold resting_ops. cbn [fold_left frame_step].
  rewrite (good_msg "map" "base" 10%Z (rv 0 0 0) still still_unit ltac:(cbn; discriminate) ltac:(cbn; discriminate) ltac:(cbn; discriminate)).
  rewrite (good_msg "map" "base" 20%Z (rv 0 0 0) (qneg still) neg_still_unit ltac:(cbn; discriminate) ltac:(cbn; discriminate) ltac:(cbn; discriminate)).
  change (tm_child (strip_msg (rmsg "map" "base" 10%Z (rv 0 0 0) still))) with "base"%string.
  change (tm_child (strip_msg (rmsg "map" "base" 20%Z (rv 0 0 0) (qneg still)))) with "base"%string.
  rewrite !(String.eqb_sym _ n). destruct (String.eqb n "base"); reflexivity.
Qed.
Lemma resting_inner : qinner still (qneg still) = - (1).
Proof. unfold qinner, qneg, still. cbn [qx qy qz qw]. cbn. cbn [RS scar]. ring. Qed.
Lemma resting_turn : turned_by still (qneg still) = 0.
Proof. unfold turned_by. rewrite resting_inner, Rabs_Ropp, Rabs_R1, acos_1. ring. Qed.
Lemma resting_slerp : forall r, @qslerp RS still (qneg still) r = still.
Proof.
  intros r. assert (E : slerp_theta still (qneg still) = 0).
  { rewrite slerp_theta_unit by (apply still_unit || apply neg_still_unit). rewrite resting_inner, Rabs_Ropp, Rabs_R1. exact acos_1. }
  rewrite slerp_eq. cbv zeta. rewrite E. destruct (Req_EM_T 0 0); [reflexivity|congruence].
Qed.
Lemma resting_links : (exists d, link resting 15%Z "base" = Some d /\ st_frame d = "map"%string /\ st_rot d = still) /\
  (exists d, link resting 20%Z "base" = Some d /\ st_frame d = "map"%string /\ st_rot d = qneg still).
Proof.
  split; unfold link, sample_at; rewrite resting_hist by discriminate; change (String.eqb "base" "base") with true; cbn iota; eexists; (split; [reflexivity|]).
  - split; [reflexivity|]. cbn [st_rot]. apply resting_slerp.
  - split; reflexivity.
Qed.
Theorem C89_quaternion_numbers_jump_refuted :
  exists (s : core RS) m m', reachable s /\ unit_samples s /\ (forall n, limited s 0 0 n) /\
    lookupTransform s "map" "base" 15%Z = Ok m /\ lookupTransform s "map" "base" 20%Z = Ok m' /\
    qdist (tm_rot m) (tm_rot m') = 2.
Proof.
  assert (Hb : forall n c, hist resting n = Some c -> c = Dynamic 100%Z [xs 20%Z (rv 0 0 0) (qneg still) "map" "base"; xs 10%Z (rv 0 0 0) still "map" "base"]).
  { intros n c H. destruct (string_dec n NO_PARENT) as [->|Hn].
    - rewrite hist_NO_PARENT in H by apply reachable_wf, resting_reachable. discriminate H.
    - rewrite resting_hist in H by exact Hn. destruct (String.eqb n "base"); [injection H as <-; reflexivity|discriminate H]. }
  assert (U : unit_samples resting).
  { intros n c x H Hx. rewrite (Hb n c H) in Hx. destruct Hx as [<-|[<-|[]]]; [exact neg_still_unit|exact still_unit]. }
  assert (Li : forall n, limited resting 0 0 n).
  { intros n c H. rewrite (Hb n c H). cbn [samples]. split; [intros a b [<-|[<-|[]]] [<-|[<-|[]]]; reflexivity|].
    intros a b ([<-|[<-|[]]] & [<-|[<-|[]]] & L & _); cbn [xs st_stamp] in L; try (exfalso; lia). cbn [xs st_stamp st_trans st_rot]. split.
    - rewrite vdist_self. lra.
    - rewrite resting_turn. lra. }
  assert (Ea : early resting).
  { intros n c x H Hx. rewrite (Hb n c H) in Hx. destruct Hx as [<-|[<-|[]]]; reflexivity. }
  assert (Kn : forall n, n = "map"%string \/ n = "base"%string -> known resting n).
  { intros n H. apply known_run; [unfold dur_bound; lia|exact resting_ok|]. split; [destruct H as [-> | ->]; discriminate|].
    apply Exists_cons_hd. split; [apply (good_msg "map" "base" 10%Z (rv 0 0 0) still still_unit); cbn; discriminate|].
    destruct H as [-> | ->]; [right|left]; reflexivity. }
  assert (Nl : forall t, link resting t "map" = None).
  { intros t. unfold link, sample_at. rewrite resting_hist by discriminate. reflexivity. }
  assert (Dm : forall t, depth_ok resting t "map").
  { intros t ds c C. destruct C as [|n d ds c L C]; [cbn; lia|]. rewrite Nl in L. discriminate L. }
  assert (Db : forall t d, link resting t "base" = Some d -> st_frame d = "map"%string -> depth_ok resting t "base").
  { intros t d L F ds c C. inversion C as [|n d0 ds0 c0 L0 C0]; subst; [cbn; lia|]. rewrite L in L0. injection L0 as <-. rewrite F in C0.
    inversion C0 as [|n1 d1 ds1 c1 L1 C1]; subst; [vm_compute; lia|]. rewrite Nl in L1. discriminate L1. }
  assert (G : forall t d, (0 < t < dur_bound)%Z -> link resting t "base" = Some d -> st_frame d = "map"%string ->
    exists m, lookupTransform resting "map" "base" t = Ok m /\ tm_rot m = st_rot d).
  { intros t d Ht L F. assert (C : climbs resting t "base" [d] "map") by (econstructor; [exact L|rewrite F; constructor]).
    destruct (proj2 (lookup_succeeds_iff resting "map" "base" t resting_reachable Ea Ht ltac:(plain_tac) ltac:(plain_tac) (Kn _ (or_introl eq_refl)) (Kn _ (or_intror eq_refl)) ltac:(discriminate) (Db t d L F) (Dm t))) as (m & Lk).
    { exists "map"%string. split; [exists [d]; exact C|exists []; constructor]. }
    exists m. split; [exact Lk|]. pose proof (lookup_stamp RS resting _ _ t m resting_reachable ltac:(lia) Lk) as E.
    pose proof (lookup_pose resting "map" "base" t m "map" [d] [] resting_reachable U ltac:(discriminate) Lk) as P. rewrite E in P. specialize (P (Db t d L F) (Dm t) C (climbs_nil _ _ _)).
    change (climb_pose []) with (@pose_id RS) in P. rewrite pose_inv_id, pose_mul_id_l in P. unfold climb_pose in P. cbn [fold_left] in P. rewrite pose_mul_id_r in P. exact (f_equal fst P). }
  destruct resting_links as ((d & L & F & Q) & (d' & L' & F' & Q')).
  destruct (G 15%Z d ltac:(unfold dur_bound; lia) L F) as (m & Lk & E). destruct (G 20%Z d' ltac:(unfold dur_bound; lia) L' F') as (m' & Lk' & E').
  exists resting, m, m'. split; [exact resting_reachable|]. split; [exact U|]. split; [exact Li|]. split; [exact Lk|]. split; [exact Lk'|].
  rewrite E, E', Q, Q'. unfold qdist, qnorm, qneg, still. cbn [qx qy qz qw]. apply (eq_trans (y := sqrt (2 * 2))); [f_equal; rf|apply sqrt_square; lra].
Qed.
Print Assumptions C89_quaternion_numbers_jump_refuted.
