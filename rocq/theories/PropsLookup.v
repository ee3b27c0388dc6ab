(** * Property theorems: lookups (C13-C18, C20, C22, C23, C29, C54)

    Times are nanoseconds; [dur_bound] is 2^31 s (January 2038).  [early s]: every stamp kept
    in [s] is below it.  [link], [climbs], [tops_at], [common_ancestor], [depth_ok], [endless],
    [oldest_nonzero] are defined in SpecCore.v. *)
From Coq Require Import ZArith Bool List String Lia Floats.SpecFloat.
From Verif Require Import RosTime Scalar LinearMath Cache SpecCache BufferCore SpecCore Instances
  LookupTheorems LookupTree LookupFail CoreTheorems Malformed NoRange SpecReal LookupDirect ExampleBuffers.
Import ListNotations.
Open Scope Z_scope.
Open Scope string_scope.

(** ** C13 *)
Theorem C13_can_iff_lookup :
  forall (S : Scalar) (s : core S) tgt src t,
  reachable s -> early s -> 0 <= t < dur_bound ->
  (canTransform s tgt src t None = Ok (true, None) <-> exists m, lookupTransform s tgt src t = Ok m).
Proof. exact (fun S => @can_iff_lookup S). Qed.
Print Assumptions C13_can_iff_lookup.

(** Without the range hypotheses. *)
Theorem C13_lookup_implies_can :
  forall (S : Scalar) (s : core S) tgt src t m,
  reachable s -> lookupTransform s tgt src t = Ok m -> canTransform s tgt src t None = Ok (true, None).
Proof. exact (fun S => @lookup_can S). Qed.
Print Assumptions C13_lookup_implies_can.

Theorem C13_can_implies_lookup_or_range_error :
  forall (S : Scalar) (s : core S) tgt src t,
  reachable s -> canTransform s tgt src t None = Ok (true, None) ->
  (exists m, lookupTransform s tgt src t = Ok m) \/ lookupTransform s tgt src t = Throw RuntimeError ETimeRange.
Proof. exact (fun S => @can_lookup_or_range S). Qed.
Print Assumptions C13_can_implies_lookup_or_range_error.

(** canTransform always returns; asked for an error string it agrees with lookup everywhere. *)
Theorem C13_can_returns :
  forall (S : Scalar) (s : core S) tgt src t,
  reachable s -> exists b, canTransform s tgt src t None = Ok (b, None).
Proof. intros S s tgt src t R. apply can_total, CoreSet.reachable_wf, R. Qed.
Print Assumptions C13_can_returns.

Theorem C13_can_with_error_string :
  forall (S : Scalar) (s : core S) tgt src t,
  reachable s ->
  ((exists e, canTransform s tgt src t (Some EEmpty) = Ok (true, e)) <-> (exists m, lookupTransform s tgt src t = Ok m)).
Proof. exact (fun S => @can_lookup_string S). Qed.
Print Assumptions C13_can_with_error_string.

(** Two static frames under a frame whose two samples are 2^31 s away from the time asked. *)
Definition far_ops : list (core_op D64) :=
  [ dyn "q" "p" 1 (v64 0 0 0) id64; dyn "q" "p" 2 (v64 0 0 0) id64;
    sta "p" "x" 0 (v64 0 0 0) id64; sta "p" "y" 0 (v64 0 0 0) id64 ].
Definition far : core D64 := run (init_core 100) far_ops.
Lemma far_reachable : reachable far.
Proof. apply reach_by; vmr. Qed.
Theorem C13_beyond_2038_refuted :
  exists (s : core D64) tgt src t, reachable s /\ valid_time t /\
  canTransform s tgt src t None = Ok (true, None) /\ lookupTransform s tgt src t = Throw RuntimeError ETimeRange.
Proof.
  exists far, "x", "y", (2 ^ 31 * 10 ^ 9 + 10). split; [exact far_reachable|].
  split; [split; vm_compute; congruence|]. split; vmr.
Qed.
Print Assumptions C13_beyond_2038_refuted.

Example C13_example :
  reachable robot /\ early robot /\
  canTransform robot "base" "beacon" 15 None = Ok (true, None) /\
  canTransform robot "base" "beacon" 22 None = Ok (false, None) /\
  canTransform robot "y" "beacon" 15 None = Ok (false, None).
Proof. split; [exact robot_reachable|]. split; [exact robot_early|]. repeat split; vmr. Qed.

(** ** C14 *)
Theorem C14_can_iff_lookup_fixed :
  forall (S : Scalar) (s : core S) tgt t1 src t2 fix_,
  reachable s -> early s -> 0 <= t1 < dur_bound -> 0 <= t2 < dur_bound ->
  (canTransformFixed s tgt t1 src t2 fix_ None = Ok (true, None) <->
   exists m, lookupTransformFixed s tgt t1 src t2 fix_ = Ok m).
Proof. exact (fun S => @can_iff_lookup_fixed S). Qed.
Print Assumptions C14_can_iff_lookup_fixed.

Example C14_example :
  canTransformFixed robot "base" 12 "base" 18 "map" None = Ok (true, None) /\
  (exists m, lookupTransformFixed robot "base" 12 "base" 18 "map" = Ok m) /\
  canTransformFixed robot "base" 12 "base" 19 "map" None = Ok (false, None).
Proof. split; [vmr|]. split; [apply ok_by; vmr|vmr]. Qed.

(** ** C15 *)
Theorem C15_lookup_of_itself :
  forall (S : Scalar) (s : core S) f t, reachable s ->
  exists m, lookupTransform s f f t = Ok m /\ tm_frame m = f /\ tm_child m = f /\
    tm_rot m = qidentity /\ tm_trans m = vzero /\
    (t <> 0 -> tm_stamp m = t) /\
    (t = 0 -> known s f ->
     tm_stamp m = match hist s f with Some (Dynamic _ (x :: _)) => st_stamp x | _ => 0 end).
Proof. exact (fun S => @lookup_self S). Qed.
Print Assumptions C15_lookup_of_itself.
(** The first entry of a history is its newest (C01). *)
Example C15_example :
  option_map (fun c => map (fun x => st_stamp x) (samples c)) (hist robot "base") = Some [18; 12] /\
  lookupTransform robot "base" "base" 0 =
    Ok {| tm_stamp := 18; tm_frame := "base"; tm_child := "base"; tm_trans := v64 0 0 0; tm_rot := id64 |} /\
  lookupTransform robot "never heard of" "never heard of" 7 =
    Ok {| tm_stamp := 7; tm_frame := "never heard of"; tm_child := "never heard of"; tm_trans := v64 0 0 0; tm_rot := id64 |}.
Proof. repeat split; vmr. Qed.

(** ** C16 *)
Theorem C16_header :
  forall (S : Scalar) (s : core S) tgt src t m, reachable s -> lookupTransform s tgt src t = Ok m ->
  tm_frame m = tgt /\ tm_child m = src /\ (t <> 0 -> tm_stamp m = t) /\
  (t = 0 -> tgt <> src -> latest_common_time s tgt src = Ok (NO_ERROR, Some (tm_stamp m))).
Proof. exact (fun S => @lookup_header S). Qed.
Print Assumptions C16_header.
Example C16_example :
  match lookupTransform robot "base" "beacon" 0 with Ok m => tm_stamp m = 18 | _ => False end /\
  latest_common_time robot "base" "beacon" = Ok (NO_ERROR, Some 18).
Proof. split; [|vmr]. exact (@eq_refl Z 18 <: match lookupTransform robot "base" "beacon" 0 with Ok m => tm_stamp m = 18 | _ => False end). Qed.

(** ** C17 *)
Theorem C17_latest_equals_at_its_stamp :
  forall (S : Scalar) (s : core S) tgt src m, reachable s ->
  lookupTransform s tgt src 0 = Ok m -> lookupTransform s tgt src (tm_stamp m) = Ok m.
Proof. exact (fun S => @latest_then_at_stamp S). Qed.
Print Assumptions C17_latest_equals_at_its_stamp.
Example C17_example : lookupTransform robot "base" "beacon" 0 = lookupTransform robot "base" "beacon" 18.
Proof. vmr. Qed.

(** ** C18 *)
Theorem C18_latest_common_time_is_oldest_of_newest :
  forall (S : Scalar) (s : core S) tgt src ds dt c,
  reachable s -> known s tgt -> known s src -> tgt <> src ->
  depth_ok s 0 src -> depth_ok s 0 tgt ->
  climbs s 0 src ds c -> climbs s 0 tgt dt c ->
  (forall c', common_ancestor s 0 src tgt c' -> exists es, climbs s 0 c es c') ->
  exists r, latest_common_time s tgt src = Ok (NO_ERROR, Some r) /\
    oldest_nonzero (map (@st_stamp S string) (ds ++ dt)) r.
Proof. exact (fun S => @lct_is_oldest S). Qed.
Print Assumptions C18_latest_common_time_is_oldest_of_newest.

Theorem C18_disconnected :
  forall (S : Scalar) (s : core S) tgt src,
  reachable s -> known s tgt -> known s src -> tgt <> src ->
  depth_ok s 0 src -> depth_ok s 0 tgt ->
  (forall c, ~ common_ancestor s 0 src tgt c) ->
  latest_common_time s tgt src = Ok (CONNECTIVITY_ERROR, None).
Proof. exact (fun S => @lct_disconnected S). Qed.
Print Assumptions C18_disconnected.

(** A nearest common ancestor always exists when there is a common one. *)
Theorem C18_nearest_common_ancestor_exists :
  forall (S : Scalar) (s : core S) t a b,
  depth_ok s t a -> depth_ok s t b -> (exists c, common_ancestor s t a b c) ->
  exists c ds dt, climbs s t a ds c /\ climbs s t b dt c /\
    (forall c', common_ancestor s t a b c' -> exists es, climbs s t c es c').
Proof. exact (fun S => @nearest_exists S). Qed.
Print Assumptions C18_nearest_common_ancestor_exists.

Example C18_example :
  known robot "base" /\ known robot "beacon" /\ depth_ok robot 0 "base" /\ depth_ok robot 0 "beacon" /\
  (exists ds, climbs robot 0 "base" ds "map" /\ map (fun x => st_stamp x) ds = [18; 20]) /\
  (exists dt, climbs robot 0 "beacon" dt "map" /\ map (fun x => st_stamp x) dt = [25]) /\
  latest_common_time robot "beacon" "base" = Ok (NO_ERROR, Some 18) /\
  latest_common_time robot "y" "base" = Ok (CONNECTIVITY_ERROR, None).
Proof.
  split; [known_tac|]. split; [known_tac|]. split; [depth_tac|]. split; [depth_tac|].
  split; [exists (climb_list 2 robot 0 "base"); split; [apply climb_to; vmr|vmr]|].
  split; [exists (climb_list 1 robot 0 "beacon"); split; [apply climb_to; vmr|vmr]|].
  split; vmr.
Qed.

(** ** C20 *)
Theorem C20_lookup_succeeds_iff_common_ancestor :
  forall (S : Scalar) (s : core S) tgt src t,
  reachable s -> early s -> 0 < t < dur_bound ->
  plain tgt -> plain src -> known s tgt -> known s src -> tgt <> src ->
  depth_ok s t src -> depth_ok s t tgt ->
  ((exists m, lookupTransform s tgt src t = Ok m) <-> exists c, common_ancestor s t src tgt c).
Proof. exact (fun S => @lookup_succeeds_iff S). Qed.
Print Assumptions C20_lookup_succeeds_iff_common_ancestor.
Example C20_example :
  plain "base" /\ plain "beacon" /\ depth_ok robot 15 "base" /\ depth_ok robot 15 "beacon" /\
  common_ancestor robot 15 "base" "beacon" "world".
Proof.
  split; [plain_tac|]. split; [plain_tac|]. split; [depth_tac|]. split; [depth_tac|].
  split; [exists (climb_list 3 robot 15 "base")|exists (climb_list 2 robot 15 "beacon")]; apply climb_to; vmr.
Qed.

(** ** C22 *)
(** Every query returns a value or throws one of the listed exceptions; none runs forever (the
    model's functions are total) and none is undefined. *)
Theorem C22_every_lookup_ends :
  forall (S : Scalar) (s : core S) tgt src t, reachable s ->
  (exists m, lookupTransform s tgt src t = Ok m) \/
  exists cl e, lookupTransform s tgt src t = Throw cl e /\
    In cl [InvalidArgumentException; LookupException; ConnectivityException; ExtrapolationException; RuntimeError].
Proof. exact (fun S => @lookup_total S). Qed.
Print Assumptions C22_every_lookup_ends.

Theorem C22_cycle_is_reported :
  forall (S : Scalar) (s : core S) tgt src t, reachable s -> t <> 0 ->
  plain tgt -> plain src -> known s tgt -> known s src -> tgt <> src ->
  endless s t src -> ~ (exists ds, climbs s t src ds tgt) ->
  exists str, lookupTransform s tgt src t = Throw LookupException (ELoop str).
Proof. exact (fun S => @lookup_cyclic_source S). Qed.
Print Assumptions C22_cycle_is_reported.

(** The bound is on depth: a chain of more than 1000 links is reported as a loop as well. *)
Theorem C22_deep_source_reported_as_loop :
  forall (S : Scalar) (s : core S) tgt src t ds m, reachable s -> t <> 0 ->
  plain tgt -> plain src -> known s tgt -> known s src -> tgt <> src ->
  climbs s t src ds m -> (MAX_GRAPH_DEPTH < List.length ds)%nat -> ~ In tgt (passed ds) ->
  exists str, lookupTransform s tgt src t = Throw LookupException (ELoop str).
Proof. exact (fun S => @lookup_deep_source S). Qed.
Print Assumptions C22_deep_source_reported_as_loop.

Theorem C22_deep_target_reported_as_loop :
  forall (S : Scalar) (s : core S) tgt src t ds m dt m', reachable s -> early s -> 0 < t < dur_bound ->
  plain tgt -> plain src -> known s tgt -> known s src -> tgt <> src ->
  climbs s t src ds m -> link s t m = None -> (List.length ds <= MAX_GRAPH_DEPTH)%nat ->
  climbs s t tgt dt m' -> (MAX_GRAPH_DEPTH < List.length dt)%nat -> ~ In src (passed dt) -> ~ In m (passed dt) ->
  exists str, lookupTransform s tgt src t = Throw LookupException (ELoop str).
Proof. exact (fun S => @lookup_deep_target S). Qed.
Print Assumptions C22_deep_target_reported_as_loop.

Example C22_example :
  endless cycle 10 "a" /\ (forall ds, ~ climbs cycle 10 "a" ds "c") /\ known cycle "a" /\ known cycle "c" /\
  exists str, lookupTransform cycle "c" "a" 10 = Throw LookupException (ELoop str).
Proof.
  assert (E : endless cycle 10 "a").
  { apply (endless_by cycle 10 "a" (hd (map_storage (fun _ => "") {| st_rot := id64; st_trans := v64 0 0 0; st_stamp := 0; st_frame := ""; st_child := "" |}) (climb_list 1 cycle 10 "a")) (climb_list 1 cycle 10 "b")).
    apply climb_to; vmr. }
  split; [exact E|].
  split; [|split; [known_tac|split; [known_tac|apply loop_by; vmr]]].
  assert (G : forall n ds m, climbs cycle 10 n ds m -> n = "a" \/ n = "b" -> m = "a" \/ m = "b").
  { intros n ds m C. induction C as [n|n d ds m L C IH]; intros Hn; [exact Hn|]. apply IH.
    apply link_edge in L. rewrite cycle_edges in L. destruct L as [L|[L|[L|[]]]]; injection L as L1 L2; subst n; rewrite <- L2; auto.
    destruct Hn; discriminate. }
  intros ds C. destruct (G _ _ _ C (or_introl eq_refl)); discriminate.
Qed.

(** ** C23 *)
Theorem C23_invalid_argument_iff :
  forall (S : Scalar) (s : core S) tgt src t, reachable s ->
  ((exists e, lookupTransform s tgt src t = Throw InvalidArgumentException e) <->
   tgt <> src /\ (~ plain tgt \/ (known s tgt /\ ~ plain src))).
Proof. exact (fun S => @lookup_invalid_iff S). Qed.
Print Assumptions C23_invalid_argument_iff.

Theorem C23_unknown_frame :
  forall (S : Scalar) (s : core S) tgt src t, reachable s -> tgt <> src -> plain tgt ->
  (~ known s tgt \/ (plain src /\ ~ known s src)) ->
  exists e, lookupTransform s tgt src t = Throw LookupException e.
Proof. exact (fun S => @lookup_unknown S). Qed.
Print Assumptions C23_unknown_frame.

(** Both frames known, no chain over the depth bound: exactly three outcomes. *)
Theorem C23_three_outcomes :
  forall (S : Scalar) (s : core S) tgt src t, reachable s -> early s -> 0 < t < dur_bound ->
  plain tgt -> plain src -> known s tgt -> known s src -> tgt <> src ->
  depth_ok s t src -> depth_ok s t tgt ->
  (exists c m, common_ancestor s t src tgt c /\ lookupTransform s tgt src t = Ok m) \/
  (exists ms mt e, tops_at s t src ms /\ tops_at s t tgt mt /\ ms <> mt /\ hist s ms = None /\ hist s mt = None /\
     lookupTransform s tgt src t = Throw ConnectivityException e) \/
  (exists ms mt e, tops_at s t src ms /\ tops_at s t tgt mt /\ ms <> mt /\ (hist s ms <> None \/ hist s mt <> None) /\
     lookupTransform s tgt src t = Throw ExtrapolationException e).
Proof. exact (fun S => @lookup_class S). Qed.
Print Assumptions C23_three_outcomes.

Theorem C23_connectivity_iff :
  forall (S : Scalar) (s : core S) tgt src t, reachable s -> early s -> 0 < t < dur_bound ->
  plain tgt -> plain src -> known s tgt -> known s src -> tgt <> src ->
  depth_ok s t src -> depth_ok s t tgt ->
  ((exists e, lookupTransform s tgt src t = Throw ConnectivityException e) <->
   exists ms mt, tops_at s t src ms /\ tops_at s t tgt mt /\ ms <> mt /\ hist s ms = None /\ hist s mt = None).
Proof. exact (fun S => @lookup_connectivity_iff S). Qed.
Print Assumptions C23_connectivity_iff.

Theorem C23_extrapolation_iff :
  forall (S : Scalar) (s : core S) tgt src t, reachable s -> early s -> 0 < t < dur_bound ->
  plain tgt -> plain src -> known s tgt -> known s src -> tgt <> src ->
  depth_ok s t src -> depth_ok s t tgt ->
  ((exists e, lookupTransform s tgt src t = Throw ExtrapolationException e) <->
   exists ms mt, tops_at s t src ms /\ tops_at s t tgt mt /\ ms <> mt /\ (hist s ms <> None \/ hist s mt <> None)).
Proof. exact (fun S => @lookup_extrapolation_iff S). Qed.
Print Assumptions C23_extrapolation_iff.

Example C23_example :
  lookupTransform robot "y" "beacon" 15 = Throw ConnectivityException (EConnectivity "y" "beacon") /\
  lookupTransform robot "base" "beacon" 22 = Throw ExtrapolationException (EWhenLookingUp (EExtrapFuture 22 18) "beacon" "base") /\
  lookupTransform robot "base" "ghost" 15 = Throw LookupException (ENoSuchFrame "lookupTransform argument source_frame" "ghost") /\
  lookupTransform robot "base" "" 15 = Throw InvalidArgumentException (EEmptyFrameId "lookupTransform argument source_frame") /\
  depth_ok robot 22 "base" /\ depth_ok robot 22 "beacon".
Proof. split; [vmr|]. split; [vmr|]. split; [vmr|].
  split; [vmr|]. split; depth_tac. Qed.

(** ** C29 *)
Theorem C29_no_runtime_error_before_2038 :
  forall (S : Scalar) (s : core S), reachable s -> early s ->
  (forall m a st cl e, valid_time (tm_stamp m) -> valid_time (tm_stamp m + c_cache_time s) ->
     snd (setTransform s m a st) <> Throw cl e) /\
  (forall tgt src t e, 0 <= t < dur_bound -> lookupTransform s tgt src t <> Throw RuntimeError e) /\
  (forall tgt t1 src t2 fix_ e, 0 <= t1 < dur_bound -> 0 <= t2 < dur_bound ->
     lookupTransformFixed s tgt t1 src t2 fix_ <> Throw RuntimeError e) /\
  (forall tgt src t e, 0 <= t < dur_bound -> canTransform s tgt src t (Some EEmpty) <> Throw RuntimeError e) /\
  (forall tgt src t cl e, canTransform s tgt src t None <> Throw cl e) /\
  (forall tgt src cl e, latest_common_time s tgt src <> Throw cl e).
Proof. exact (fun S => @no_runtime_error S). Qed.
Print Assumptions C29_no_runtime_error_before_2038.

(** Beyond: a stamp near the end of ros::Time's range makes setTransform throw. *)
Theorem C29_set_throws_refuted :
  exists m : tmsg D64, valid_time (tm_stamp m) /\
    snd (setTransform robot m "me" false) = Throw RuntimeError ETimeRange.
Proof.
  exists (msg "odom" "base" (2 ^ 32 * 10 ^ 9 - 5) (v64 0 0 0) id64). split; [split; vm_compute; congruence|vmr].
Qed.
Print Assumptions C29_set_throws_refuted.
Theorem C29_lookup_throws_refuted :
  exists (s : core D64) tgt src t, reachable s /\ valid_time t /\ lookupTransform s tgt src t = Throw RuntimeError ETimeRange.
Proof.
  exists far, "x", "y", (2 ^ 31 * 10 ^ 9 + 10). split; [exact far_reachable|].
  split; [split; vm_compute; congruence|]. vmr.
Qed.
Print Assumptions C29_lookup_throws_refuted.
Example C29_example : reachable robot /\ early robot /\ c_cache_time robot = 100.
Proof. split; [exact robot_reachable|]. split; [exact robot_early|vmr]. Qed.

(** ** C54 *)
Theorem C54_latest_lookup_succeeds_iff :
  forall (S : Scalar) (s : core S) tgt src, reachable s -> early s ->
  plain tgt -> plain src -> known s tgt -> known s src -> tgt <> src ->
  (forall t, depth_ok s t src) -> (forall t, depth_ok s t tgt) ->
  ((exists m, lookupTransform s tgt src 0 = Ok m) <->
   exists r c, latest_common_time s tgt src = Ok (NO_ERROR, Some r) /\ common_ancestor s r src tgt c).
Proof. exact (fun S => @lookup_zero_iff S). Qed.
Print Assumptions C54_latest_lookup_succeeds_iff.

(** The newest links connect the frames, and yet the lookup at time zero fails. *)
Definition apart_ops : list (core_op D64) :=
  [ dyn "p" "x" 10 (v64 1 0 0) id64; dyn "p" "y" 20 (v64 0 1 0) id64 ].
Definition apart : core D64 := run (init_core 100) apart_ops.
Theorem C54_connected_but_no_common_time_refuted :
  exists (s : core D64) tgt src, reachable s /\ known s tgt /\ known s src /\
    (exists c, common_ancestor s 0 src tgt c) /\
    latest_common_time s tgt src = Ok (NO_ERROR, Some 10) /\
    exists e, lookupTransform s tgt src 0 = Throw ExtrapolationException e.
Proof.
  exists apart, "x", "y". split; [apply reach_by; vmr|]. split; [known_tac|]. split; [known_tac|].
  split; [exists "p"; split; [exists (climb_list 1 apart 0 "y")|exists (climb_list 1 apart 0 "x")]; apply climb_to; vmr|].
  split; [vmr|apply throw_by; vmr].
Qed.
Print Assumptions C54_connected_but_no_common_time_refuted.

Example C54_example : (forall t, depth_ok robot t "base") /\ (forall t, depth_ok robot t "beacon") /\
  exists m, lookupTransform robot "base" "beacon" 0 = Ok m.
Proof.
  split; [intros t; apply robot_depth|]. split; [intros t; apply robot_depth|]. apply ok_by; vmr.
Qed.

(** ** C20: a frame in its own parent *)
(** Needs no bound on depth: cycles and endless chains above the parent do not matter. *)
Theorem C20_own_parent_always_works :
  forall (S : Scalar) (s : core S) child t d,
  reachable s -> early s -> 0 < t < dur_bound -> plain child -> plain (st_frame d) -> st_frame d <> child ->
  link s t child = Some d ->
  exists m, lookupTransform s (st_frame d) child t = Ok m /\
    (msg_pose m = pose_mul (pose_of d) pose_id \/ msg_pose m = pose_mul (pose_inv pose_id) (pose_mul (pose_of d) pose_id)).
Proof.
  intros S s child t d R E T P1 P2 N L. destruct (CoreTheorems.link_parent s t child d (CoreSet.reachable_wf s R) L) as (K1 & _ & K2).
  destruct (lookup_direct s (st_frame d) child t d R E T P2 P1 K1 K2 N L eq_refl) as (m & A & _ & _ & _ & B). exists m. split; assumption.
Qed.
Print Assumptions C20_own_parent_always_works.
(** In [cycle], "a" and "b" are each other's parent; "r" is the parent of "c". *)
Example C20_own_parent_example :
  reachable cycle /\ early cycle /\ option_map (fun d => st_frame d) (link cycle 10 "b") = Some "a" /\
  (exists m, lookupTransform cycle "a" "b" 10 = Ok m) /\ (exists m, lookupTransform cycle "b" "a" 10 = Ok m).
Proof.
  split; [exact cycle_reachable|]. split; [apply early_by; vm_compute; reflexivity|]. split; [vmr|].
  split; apply ok_by; vmr.
Qed.
