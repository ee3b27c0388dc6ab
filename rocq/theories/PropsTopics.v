(** * Property theorems: broadcasters and TransformListener (C51, C52) *)
From Coq Require Import ZArith Bool List String Lia Floats.SpecFloat.
From Verif Require Import RosTime Scalar LinearMath Cache BufferCore SpecCore Instances CoreSet Malformed ExampleBuffers
  Requests SpecRequests RequestProofs RequestHistory TfTopics SpecTopics TopicProofs.
Import ListNotations.
Open Scope string_scope.
Open Scope list_scope.
Open Scope Z_scope.

(** ** C51 *)
(** The k-th message published on /tf_static holds exactly the latest transform of every child
    frame sent so far, once. *)
Theorem C51_one_latest_per_child :
  forall (S : Scalar) (calls : list (list (tmsg S))) k msg,
  nth_error (static_published [] calls) k = Some msg ->
  let sent := List.concat (firstn (k + 1) calls) in
  NoDup (map (fun m => tm_child m) msg) /\
  (forall m, In m msg <-> latest_for_child sent m) /\
  (forall m, In m sent -> exists m', In m' msg /\ tm_child m' = tm_child m).
Proof. intros S calls k msg H. rewrite Nat.add_1_r. exact (one_latest_per_child calls k msg H). Qed.
Print Assumptions C51_one_latest_per_child.

(** A subscriber that connects after j+1 calls receives the latched message j and what follows.
    It ends up with the same histories as one that was there from the start, and answers alike
    for all frames it has heard of. *)
Theorem C51_late_subscriber_catches_up :
  forall (S : Scalar) ct (calls : list (list (tmsg S))) j,
  0 <= ct < dur_bound -> (j < List.length calls)%nat ->
  (forall c m, In c calls -> In m c -> valid_time (tm_stamp m) /\ ~ malformed m) ->
  let early := run (init_core ct) (receive_static (static_published [] calls)) in
  let late := run (init_core ct) (receive_static (skipn j (static_published [] calls))) in
  (forall n, hist late n = hist early n) /\
  (forall n, known late n -> known early n) /\
  (forall tgt src t, known late tgt -> known late src ->
     same_answer (lookupTransform late tgt src t) (lookupTransform early tgt src t) /\
     canTransform late tgt src t None = canTransform early tgt src t None /\
     latest_common_time late tgt src = latest_common_time early tgt src).
Proof. exact (fun S => @late_subscriber S). Qed.
Print Assumptions C51_late_subscriber_catches_up.

(** The latched message alone is the case j = number of calls - 1. *)
Theorem C51_latched_message :
  forall (S : Scalar) (published : list (tfmessage S)),
  latched published = skipn (List.length published - 1) published.
Proof. exact (fun S => @latched_last S). Qed.
Print Assumptions C51_latched_message.

(** TransformBroadcaster publishes what it is given, in order. *)
Theorem C51_plain_broadcaster :
  forall (S : Scalar) (msgs : list (tmsg S)), sendTransform msgs = msgs.
Proof. exact (fun S => @plain_broadcast S). Qed.
Print Assumptions C51_plain_broadcaster.

Definition camera1 : tmsg D64 := msg "base" "camera" 1 (v64 1 0 0) id64.
Definition camera2 : tmsg D64 := msg "base" "camera" 2 (v64 2 0 0) id64.
Definition lidar1 : tmsg D64 := msg "base" "lidar" 3 (v64 0 1 0) id64.
Definition static_calls : list (list (tmsg D64)) := [[camera1; lidar1]; [camera2]].
Definition show_net (net : list (tmsg D64)) := map (fun m => (tm_child m, tm_stamp m)) net.
Lemma static_calls_ok : forall c m, In c static_calls -> In m c -> valid_time (tm_stamp m) /\ ~ malformed m.
Proof.
  intros c m Hc Hm. cut (valid_timeb (tm_stamp m) && negb (bad_message (strip_msg m)) = true).
  { intros H. apply andb_prop in H as [H1 H2]. apply andb_prop in H1 as [H0 H1]. apply Z.leb_le in H0. apply Z.ltb_lt in H1.
    split; [split; assumption|]. apply not_malformed, negb_true_iff, H2. }
  revert c m Hc Hm.
  intros c m [<-|[<-|[]]] Hm; cbn [In] in Hm; repeat destruct Hm as [<-|Hm]; try contradiction; vmr.
Qed.
Example C51_example :
  map show_net (static_published [] static_calls) = [[("camera", 1); ("lidar", 3)]; [("camera", 2); ("lidar", 3)]] /\
  (forall c m, In c static_calls -> In m c -> valid_time (tm_stamp m) /\ ~ malformed m) /\
  map show_net (latched (static_published [] static_calls)) = [[("camera", 2); ("lidar", 3)]].
Proof. split; [vmr|]. split; [exact static_calls_ok|vmr]. Qed.

(** The Python broadcaster latches only its last call: a late subscriber misses what earlier
    calls sent. *)
Theorem C51_python_late_subscriber_refuted :
  let early := run (init_core 100) (receive_static (py_static_published [[camera1]; [lidar1]])) in
  let late := run (init_core 100) (receive_static (latched (py_static_published [[camera1]; [lidar1]]))) in
  (exists m, lookupTransform early "base" "camera" 0 = Ok m) /\
  (exists e, lookupTransform late "base" "camera" 0 = Throw LookupException e).
Proof. cbv zeta. split; [apply ok_by; vmr|apply throw_by; vmr]. Qed.
Print Assumptions C51_python_late_subscriber_refuted.

(** The broadcaster does not validate: a malformed transform replaces a good one in the latched
    message, and only late subscribers lose the frame. *)
Definition camera_bad : tmsg D64 := msg "camera" "camera" 4 (v64 0 0 0) id64.
Theorem C51_malformed_replaces_refuted :
  let pubs := static_published [] [[camera1]; [camera_bad]] in
  let early := run (init_core 100) (receive_static pubs) in
  let late := run (init_core 100) (receive_static (latched pubs)) in
  (exists m, lookupTransform early "base" "camera" 0 = Ok m) /\
  (exists e, lookupTransform late "base" "camera" 0 = Throw LookupException e).
Proof. cbv zeta. split; [apply ok_by; vmr|apply throw_by; vmr]. Qed.
Print Assumptions C51_malformed_replaces_refuted.

(** ** C52 *)
(** A listener to which no exception occurs makes exactly the API calls [calls_for_all]: for each
    message clear() if the clock is behind the previous message's, then setTransform for every
    transform, in order.  [evs] are the request callbacks run meanwhile. *)
Theorem C52_listener_makes_exactly_these_calls :
  forall (S : Scalar) warn (l l' : listener S) h evs,
  listen_all warn l h = (l', evs, Ok tt) ->
  l_last l' = last_clock (l_last l) h /\
  exists log, req_run (l_buf l) (calls_for_all (l_last l) h) = (l_buf l', log) /\ events_of log = evs.
Proof. intros S warn l l' h evs. apply listen_all_calls. Qed.
Print Assumptions C52_listener_makes_exactly_these_calls.

Theorem C52_clears_exactly_on_backward_jumps :
  forall (S : Scalar) (h : list (arrival S)) last, In RClear (calls_for_all last h) <-> goes_back last h.
Proof. exact (fun S => @clears_iff S). Qed.
Print Assumptions C52_clears_exactly_on_backward_jumps.

(** A new listener has seen no clock yet: its first message never clears the buffer, whatever
    the clock reads (simulated time starts at 0). *)
Theorem C52_first_message_never_clears :
  forall (S : Scalar) warn (b : buf S) l' a evs, valid_time (a_now a) ->
  listen warn (init_listener b) a = (l', evs, Ok tt) ->
  l_last l' = a_now a /\ exists log, req_run b (map (fun m => RSet m (a_who a) (a_static a)) (a_msg a)) = (l_buf l', log) /\ events_of log = evs.
Proof.
  intros S warn b l' a evs V H. pose proof (listen_all_calls (S:=S) [a] warn (init_listener b)) as L. cbn [listen_all] in L. rewrite H in L. rewrite app_nil_r in L.
  destruct (L _ _ eq_refl) as (E & log & R & X). split; [exact E|]. exists log. split; [|exact X].
  cbn [calls_for_all] in R. unfold calls_for in R. cbn [init_listener l_last l_buf] in R.
  replace (a_now a <? 0) with false in R by (symmetry; apply Z.ltb_ge; destruct V; lia). rewrite app_nil_r in R. exact R.
Qed.
Print Assumptions C52_first_message_never_clears.

(** No exception occurs if stamps and pending requests stay within ros::Time's range and the
    clock never jumps back by 2^31 s. *)
Theorem C52_listener_returns :
  forall (S : Scalar) warn (l : listener S) h,
  req_reachable (l_buf l) -> times_in_range (l_buf l) -> valid_time (l_last l) ->
  Forall (arrival_ok (c_cache_time (b_core (l_buf l)))) h -> short_jumps (l_last l) h ->
  exists l' evs, listen_all warn l h = (l', evs, Ok tt).
Proof.
  intros S warn l h R T V F J. destruct (reach_binv _ R) as [I C]. apply listen_all_ok; auto. lia.
Qed.
Print Assumptions C52_listener_returns.

(** After a backward jump every time-varying sample in the buffer comes from the message that
    revealed it. *)
Theorem C52_jump_forgets_time_varying_data :
  forall (S : Scalar) warn (l l' : listener S) a evs,
  listen warn l a = (l', evs, Ok tt) -> a_now a < l_last l ->
  reachable (b_core (l_buf l)) -> Forall (fun m => valid_time (tm_stamp m)) (a_msg a) ->
  forall n mx kept x, hist (b_core (l_buf l')) n = Some (Dynamic mx kept) -> In x kept ->
  exists m, In m (a_msg a) /\ stripSlash (tm_child m) = n /\ x = sample_of (strip_msg m).
Proof. intros S warn l l' a evs. apply after_jump. Qed.
Print Assumptions C52_jump_forgets_time_varying_data.

(** A malformed transform anywhere in a message changes nothing for the others. *)
Theorem C52_malformed_transform_is_skipped :
  forall (S : Scalar) warn (l : listener S) now before m after who st, malformed m ->
  subscription_callback warn l now (before ++ m :: after) who st = subscription_callback warn l now (before ++ after) who st.
Proof. exact (fun S => @malformed_skipped S). Qed.
Print Assumptions C52_malformed_transform_is_skipped.

Definition l0 : listener D64 := init_listener (init_buf 100).
Definition tick (now : time) (ms : list (tmsg D64)) : arrival D64 := mkArrival now "robot" false ms.
Definition bag : list (arrival D64) :=
  [ tick 50 [msg "odom" "base" 49 (v64 1 0 0) id64; msg "odom" "odom" 49 (v64 1 0 0) id64; msg "base" "arm" 48 (v64 0 1 0) id64];
    tick 60 [msg "odom" "base" 59 (v64 2 0 0) id64];
    tick 10 [msg "odom" "base" 9 (v64 0 0 0) id64] ].
Definition stamps_of (b : buf D64) (n : string) : option (list time) :=
  option_map (fun c => map (fun x => st_stamp x) (samples c)) (hist (b_core b) n).
Definition after_bag : listener D64 := fst (fst (listen_all true l0 bag)).
Example C52_example :
  req_reachable (l_buf l0) /\ times_in_range (l_buf l0) /\ valid_time (l_last l0) /\
  Forall (arrival_ok 100) bag /\ short_jumps 0 bag /\ goes_back 0 bag /\
  stamps_of (l_buf (fst (fst (listen_all true l0 (firstn 2 bag))))) "base" = Some [59; 49] /\
  stamps_of (l_buf after_bag) "base" = Some [9] /\ stamps_of (l_buf after_bag) "arm" = Some [] /\
  match snd (listen_all true l0 bag) with Ok _ => true | _ => false end = true.
Proof.
  split. { apply (rr_init 100). unfold dur_bound. lia. }
  split; [intros p []|]. split; [split; vm_compute; congruence|].
  split. { repeat constructor; vm_compute; congruence. }
  split; [repeat split; vm_compute; congruence|].
  split; [right; right; left; vm_compute; reflexivity|]. split; [vmr|]. split; [vmr|]. split; vmr.
Qed.

(** rostime's exception is not a tf2::TransformException: a transform whose stamp is too close to
    the end of ros::Time's range makes the callback throw, and the transforms behind it in the
    message are lost. *)
Theorem C52_range_error_loses_the_rest_refuted :
  let bad := msg "odom" "base" TIME_MAX (v64 1 0 0) id64 in
  let good := msg "base" "arm" 51 (v64 0 1 0) id64 in
  let r := listen true (fst (fst (listen true l0 (tick 50 [msg "odom" "base" 49 (v64 0 0 0) id64])))) (tick 51 [bad; good]) in
  match snd r with Throw RuntimeError ETimeRange => true | _ => false end = true /\
  stamps_of (l_buf (fst (fst r))) "arm" = None /\ ~ malformed good.
Proof.
  cbv zeta. split; [vmr|]. split; [vmr|]. apply not_malformed. vmr.
Qed.
Print Assumptions C52_range_error_loses_the_rest_refuted.

(** With the warning enabled a backward jump of 2^31 s or more throws before the buffer is
    cleared and before the clock is remembered, so the listener stays deaf. *)
Theorem C52_deaf_after_long_jump_refuted :
  forall (S : Scalar) (l : listener S) h, h <> [] ->
  (forall a, In a h -> valid_time (a_now a) /\ a_now a + dur_bound <= l_last l) -> valid_time (l_last l) ->
  Forall (fun a => listen true l a = (l, [], Throw RuntimeError ETimeRange)) h.
Proof.
  intros S l h _ H V. apply Forall_forall. intros a Ha. destruct (H a Ha) as [Va J]. unfold listen, subscription_callback.
  replace (a_now a <? l_last l) with true by (symmetry; apply Z.ltb_lt; unfold dur_bound in J; lia). cbn [andb].
  unfold time_sub, valid_durb. replace (l_last l - a_now a <? dur_bound) with false by (symmetry; apply Z.ltb_ge; lia).
  rewrite andb_false_r. reflexivity.
Qed.
Print Assumptions C52_deaf_after_long_jump_refuted.
Example C52_deaf_example :
  let l := fst (fst (listen true l0 (tick (2 ^ 31 * 10 ^ 9 + 5) [msg "odom" "base" 49 (v64 0 0 0) id64]))) in
  l_last l = 2 ^ 31 * 10 ^ 9 + 5 /\ valid_time (l_last l) /\
  (forall a, In a [tick 3 [camera1]; tick 4 [lidar1]] -> valid_time (a_now a) /\ a_now a + dur_bound <= l_last l).
Proof.
  cbv zeta. assert (E : l_last (fst (fst (listen true l0 (tick (2 ^ 31 * 10 ^ 9 + 5) [msg "odom" "base" 49 (v64 0 0 0) id64])))) = 2 ^ 31 * 10 ^ 9 + 5) by vmr.
  rewrite E. split; [reflexivity|]. split; [split; vm_compute; congruence|].
  intros a [<-|[<-|[]]]; split; try (split; vm_compute; congruence); vm_compute; congruence.
Qed.
