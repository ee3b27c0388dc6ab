(** * Property theorems: tf2_ros::Buffer's waiting calls (C53) *)
From Coq Require Import ZArith Bool List String Lia Floats.SpecFloat.
From Verif Require Import RosTime Scalar LinearMath Cache BufferCore SpecCore Instances CoreSet ExampleBuffers
  TfBuffer SpecWait WaitProofs.
Import ListNotations.
Open Scope string_scope.
Open Scope list_scope.
Open Scope Z_scope.

(** ** C53 *)
(** The answer of a waiting canTransform is BufferCore's answer at an instant during the call:
    never a remembered one. *)
Theorem C53_answer_is_current :
  forall (S : Scalar) fuel (w : world S) i u timeout errstr o,
  can_wait fuel true w i u timeout errstr = Some (Ok o) ->
  exists j err, (i < j < o_next o)%nat /\ can u (w_core (w j)) (emptied errstr) = Ok (o_value o, err).
Proof. intros S. exact wait_answer. Qed.
Print Assumptions C53_answer_is_current.

(** It answers false only because the transform is missing at the end, and only after the
    deadline has passed, or the clock has jumped back by more than 3 s, or the node is shutting
    down, or the transform was there at a poll and is gone again. *)
Theorem C53_false_only_for_a_reason :
  forall (S : Scalar) fuel (w : world S) i u timeout errstr o, real_world w ->
  can_wait fuel true w i u timeout errstr = Some (Ok o) -> o_value o = false ->
  exists j err, (i < j < o_next o)%nat /\ can u (w_core (w j)) (emptied errstr) = Ok (false, err) /\
  exists k, (i < k < j)%nat /\
    (w_now (w i) + timeout <= w_now (w k) \/ w_now (w k) + 3 * 10 ^ 9 < w_now (w i) \/ w_ok (w k) = false \/
     available u w k).
Proof. intros S. exact wait_false. Qed.
Print Assumptions C53_false_only_for_a_reason.

(** Without clearing, clock jumps or shutdown: false means that the timeout has expired. *)
Theorem C53_false_means_timeout :
  forall (S : Scalar) fuel (w : world S) i u timeout errstr o, real_world w ->
  can_wait fuel true w i u timeout errstr = Some (Ok o) -> o_value o = false ->
  (forall k, (i < k)%nat -> w_ok (w k) = true /\ w_now (w i) <= w_now (w k) + 3 * 10 ^ 9) ->
  (forall k j, (k <= j)%nat -> available u w k -> available u w j) -> errstr = None ->
  exists k, (i < k < o_next o)%nat /\ w_now (w i) + timeout <= w_now (w k).
Proof.
  intros S fuel w i u timeout errstr o R H F G M E. subst errstr.
  destruct (wait_false fuel w i u timeout None o R H F) as (j & err & B & Q & k & Bk & [D|[D|[D|D]]]).
  - exists k. split; [lia|exact D].
  - destruct (G k) as [_ G2]; [lia|]. unfold three_seconds in D. lia.
  - destruct (G k) as [G1 _]; [lia|]. congruence.
  - assert (A : available u w j) by (apply (M k); [lia|exact D]). unfold available in A. cbn [emptied] in Q. congruence.
Qed.
Print Assumptions C53_false_means_timeout.

(** It sleeps only after having seen the deadline ahead and the transform missing; so a call for
    a transform that is there does not sleep at all. *)
Theorem C53_sleeps_only_if_needed :
  forall (S : Scalar) fuel (w : world S) i u timeout errstr o, real_world w ->
  can_wait fuel true w i u timeout errstr = Some (Ok o) ->
  forall m, (m < o_sleeps o)%nat ->
  exists k1 k2, (i + 4 * m < k1 <= i + 4 * m + 4)%nat /\ (i + 4 * m < k2 <= i + 4 * m + 4)%nat /\
    w_now (w k1) < w_now (w i) + timeout /\ ~ available u w k2.
Proof.
  intros S fuel w i u timeout errstr o R H m Hm. destruct (wait_sleeps fuel w i u timeout errstr o R H m Hm) as (A & B & _).
  exists (i + 1 + 4 * m)%nat, (i + 1 + 4 * m + 1)%nat. repeat split; auto; lia.
Qed.
Print Assumptions C53_sleeps_only_if_needed.
Theorem C53_returns_at_once_if_available :
  forall (S : Scalar) fuel (w : world S) i u timeout, real_world w ->
  valid_time (w_now (w i) + timeout) -> (forall k, valid_time (w_now (w k) + 3 * 10 ^ 9)) ->
  (forall k, available u w k) ->
  exists o, can_wait fuel true w i u timeout None = Some (Ok o) /\ o_value o = true /\ o_sleeps o = 0%nat.
Proof.
  intros S fuel w i u timeout R V C A. destruct (wait_ends 0 fuel w i u timeout R V C) as (o & E & N & _); [lia|right; left; apply A|].
  exists o. split; [exact E|]. split; [|lia]. destruct (wait_answer fuel w i u timeout None o E) as (j & err & _ & Q).
  specialize (A j). unfold available in A. cbn [emptied] in Q. congruence.
Qed.
Print Assumptions C53_returns_at_once_if_available.

(** Once the transform is available to stay, at instant i + k, the call returns within the next
    two rounds, and true unless it had returned before. *)
Theorem C53_wakes_up :
  forall (S : Scalar) k fuel (w : world S) i u timeout, real_world w ->
  valid_time (w_now (w i) + timeout) -> (forall k, valid_time (w_now (w k) + 3 * 10 ^ 9)) -> (k <= fuel)%nat ->
  (forall k', (i + k <= k')%nat -> available u w k') ->
  exists o, can_wait fuel true w i u timeout None = Some (Ok o) /\ (o_next o <= i + k + 9)%nat /\
    (o_value o = true \/ (o_next o <= i + k)%nat).
Proof.
  intros S k fuel w i u timeout R V C F A. destruct (wait_prompt k fuel w i u timeout R V C F A) as (o & E & B & D).
  exists o. split; [exact E|]. split; [exact B|]. destruct D as [(j & _ & _ & D)|D]; auto.
Qed.
Print Assumptions C53_wakes_up.

(** It comes back: if each of the first m sleeps takes the clock forward by d and m*d >= timeout,
    after at most m sleeps (the code sleeps for timeout/100 at a time, so m is about 100). *)
Theorem C53_returns_after_the_timeout :
  forall (S : Scalar) m d (w : world S) i u timeout fuel, real_world w ->
  valid_time (w_now (w i) + timeout) -> (forall k, valid_time (w_now (w k) + 3 * 10 ^ 9)) -> (m <= fuel)%nat ->
  (forall k, (k < m)%nat -> w_now (w (i + 1 + 4 * k)%nat) + d <= w_now (w (i + 1 + 4 * (k + 1))%nat)) ->
  w_now (w i) <= w_now (w (i + 1)%nat) -> timeout <= Z.of_nat m * d ->
  exists o, can_wait fuel true w i u timeout None = Some (Ok o) /\ (o_sleeps o <= m)%nat.
Proof. intros S. exact wait_sleep_bound. Qed.
Print Assumptions C53_returns_after_the_timeout.

(** No exception escapes canTransform while the clock stays in ros::Time's range. *)
Theorem C53_no_exception :
  forall (S : Scalar) fuel (w : world S) i u timeout c e, real_world w ->
  valid_time (w_now (w i) + timeout) -> (forall k, valid_time (w_now (w k) + 3 * 10 ^ 9)) ->
  can_wait fuel true w i u timeout None <> Some (Throw c e) /\ can_wait fuel true w i u timeout None <> Some UB.
Proof. intros S. exact wait_no_throw. Qed.
Print Assumptions C53_no_exception.

(** lookupTransform with a timeout is BufferCore's lookupTransform at the instant after the wait,
    whatever the wait answered; and if nobody writes in between, it succeeds iff the wait
    answered true. *)
Theorem C53_lookup_is_current :
  forall (S : Scalar) fuel dedicated (w : world S) i u timeout o,
  can_wait fuel dedicated w i u timeout None = Some (Ok o) ->
  lookup_wait fuel dedicated w i u timeout = Some (lookup u (w_core (w (o_next o)))).
Proof. intros S. exact lookup_wait_is. Qed.
Print Assumptions C53_lookup_is_current.
Theorem C53_lookup_succeeds_iff_can :
  forall (S : Scalar) fuel (w : world S) i u timeout o, real_world w -> times_early u ->
  can_wait fuel true w i u timeout None = Some (Ok o) ->
  (forall j, (j + 1 = o_next o)%nat -> w_core (w j) = w_core (w (o_next o)) /\ early (w_core (w j))) ->
  (o_value o = true <-> exists m, lookup_wait fuel true w i u timeout = Some (Ok m)).
Proof. intros S. exact lookup_after_wait. Qed.
Print Assumptions C53_lookup_succeeds_iff_can.

(** A clock that advances 20 ns per observation; the robot's data arrives at instant 10. *)
Definition arrives : world D64 := fun k => mkInstant (Z.min (1000 + 20 * Z.of_nat k) 1000000) (if (k <? 10)%nat then init_core 100 else robot) true.
Definition asked : question := Simple "base" "beacon" 15.
Definition asked_fixed : question := Advanced "base" 15 "beacon" 7 "map".
Definition show (r : option (res outcome)) : option (bool * nat * nat) :=
  match r with Some (Ok o) => Some (o_value o, o_next o, o_sleeps o) | _ => None end.
Lemma reachable_init100 : reachable (init_core 100 : core D64).
Proof. apply (reach_by 100 []); reflexivity. Qed.
Lemma arrives_real : real_world arrives.
Proof. intros k. cbn [arrives w_core]. destruct (k <? 10)%nat; [apply reachable_init100|exact robot_reachable]. Qed.
Example C53_example :
  real_world arrives /\ times_early asked /\ times_early asked_fixed /\
  ~ available asked arrives 9 /\ (forall k', (10 <= k')%nat -> available asked arrives k') /\
  (forall k', (10 <= k')%nat -> available asked_fixed arrives k') /\
  show (can_wait 50 true arrives 0 asked 1000 None) = Some (true, 12%nat, 2%nat) /\
  show (can_wait 50 true arrives 0 asked_fixed 1000 (Some EEmpty)) = Some (true, 13%nat, 2%nat) /\
  show (can_wait 50 true arrives 0 asked 60 None) = Some (false, 7%nat, 1%nat) /\
  show (can_wait 50 true arrives 0 (Simple "base" "beacon" 50) 1000 None) = Some (false, 55%nat, 13%nat) /\
  valid_time (w_now (arrives 0%nat) + 1000) /\ (forall k, valid_time (w_now (arrives k) + 3 * 10 ^ 9)) /\
  (forall k, (k < 13)%nat -> w_now (arrives (0 + 1 + 4 * k)%nat) + 80 <= w_now (arrives (0 + 1 + 4 * (k + 1))%nat)) /\
  1000 <= Z.of_nat 13 * 80 /\
  w_now (arrives 0%nat) <= w_now (arrives 1%nat).
Proof.
  split; [exact arrives_real|]. split; [unfold asked, times_early, dur_bound; lia|].
  split; [unfold asked_fixed, times_early, dur_bound; lia|].
  split. { unfold available. intros H. apply (f_equal (fun r => match r with Ok (b, _) => b | _ => false end)) in H. revert H. vm_compute. discriminate. }
  assert (A : forall u, can u robot None = Ok (true, None) -> forall k', (10 <= k')%nat -> available u arrives k').
  { intros u H k Hk. unfold available. cbn [arrives w_core]. destruct (Nat.ltb_spec k 10); [lia|exact H]. }
  split; [apply A; vmr|]. split; [apply A; vmr|].
  split; [vmr|]. split; [vmr|]. split; [vmr|]. split; [vmr|].
  split; [split; vm_compute; congruence|]. split; [intros k; cbn [arrives w_now]; unfold valid_time, time_bound; lia|].
  split; [intros k Hk; cbn [arrives w_now]; lia|]. split; [lia|cbn [arrives w_now]; lia].
Qed.

(** The whole call blocks forever, whatever the timeout, if the clock stands still (a paused
    simulation) and the transform does not come. *)
Theorem C53_paused_clock_blocks_forever_refuted :
  forall (S : Scalar) (w : world S) i u timeout, real_world w ->
  valid_time (w_now (w i) + timeout) -> (forall k, valid_time (w_now (w k) + 3 * 10 ^ 9)) -> 0 < timeout ->
  (forall k, w_now (w k) = w_now (w i) /\ w_ok (w k) = true /\ ~ available u w k) ->
  forall fuel errstr, can_wait fuel true w i u timeout errstr = None.
Proof. intros S w i u timeout R V C P H fuel. apply wait_frozen; assumption. Qed.
Print Assumptions C53_paused_clock_blocks_forever_refuted.
Definition paused : world D64 := fun k => mkInstant 1000 (init_core 100) true.
Example C53_paused_example :
  real_world paused /\ valid_time (w_now (paused 0%nat) + 5) /\ (forall k, valid_time (w_now (paused k) + 3 * 10 ^ 9)) /\
  (forall k, w_now (paused k) = w_now (paused 0%nat) /\ w_ok (paused k) = true /\ ~ available asked paused k).
Proof.
  split; [intros k; apply reachable_init100|]. split; [split; vm_compute; congruence|]. split; [intros k; split; vm_compute; congruence|].
  intros k. split; [reflexivity|]. split; [reflexivity|]. unfold available. cbn [paused w_core].
  intros H. apply (f_equal (fun r => match r with Ok (b, _) => b | _ => false end)) in H. revert H. vm_compute. discriminate.
Qed.

(** Without a dedicated thread canTransform with a timeout answers false at once even if the
    transform is there, while lookupTransform with the same arguments returns it. *)
Theorem C53_without_thread_false_although_available_refuted :
  forall (S : Scalar) fuel (w : world S) i u timeout errstr m, lookup u (w_core (w i)) = Ok m ->
  show (can_wait fuel false w i u timeout errstr) = Some (false, i, 0%nat) /\
  lookup_wait fuel false w i u timeout = Some (Ok m).
Proof.
  intros S fuel w i u timeout errstr m L. rewrite wait_no_thread. split; [reflexivity|].
  rewrite (lookup_wait_is _ _ _ _ _ _ _ (wait_no_thread fuel w i u timeout None)). cbn [o_next]. rewrite L. reflexivity.
Qed.
Print Assumptions C53_without_thread_false_although_available_refuted.

(** A transform that is seen at a poll and cleared before the final check: false, long before the
    deadline. *)
Definition flickers : world D64 := fun k => mkInstant 1000 (if (k =? 2)%nat then robot else init_core 100) true.
Theorem C53_cleared_between_polls_refuted :
  real_world flickers /\ available asked flickers 2 /\ show (can_wait 50 true flickers 0 asked 1000000 None) = Some (false, 4%nat, 0%nat).
Proof.
  split. { intros k. cbn [flickers w_core]. destruct (k =? 2)%nat; [exact robot_reachable|apply reachable_init100]. }
  split; [unfold available; vmr|vmr].
Qed.
Print Assumptions C53_cleared_between_polls_refuted.
