(** * Property theorems: what setTransform and clear do to a buffer (C08-C12, C25-C28)

    [hist s n] is everything buffer [s] keeps about the frame called [n]; [sample_at s t n] the
    sample frame [n] yields at time [t]; [known s n]: [n] is registered.  All of them, and
    [reachable], are in SpecCore.v. *)
From Coq Require Import ZArith Bool List String Lia Reals Sorting.Permutation Floats.SpecFloat.
From Verif Require Import RosTime Scalar LinearMath Cache SpecCache BufferCore SpecCore Instances
  CoreSet History CoreTheorems Malformed ExampleBuffers.
Import ListNotations.
Open Scope Z_scope.
Open Scope string_scope.

(** ** C08 *)
Theorem C08_static_holds_at_every_time :
  forall (S : Scalar) (s : core S) m a st post n t,
  reachable s -> valid_time (tm_stamp m) -> Forall op_ok post ->
  n = stripSlash (tm_child m) -> n <> NO_PARENT -> ~ malformed m ->
  (hist s n = None /\ st = true) \/ (exists x, hist s n = Some (Static x)) ->
  not_set_again n post ->
  sample_at (run s (OSet m a st :: post)) t n =
    Some {| st_rot := tm_rot m; st_trans := tm_trans m; st_stamp := t;
            st_frame := stripSlash (tm_frame m); st_child := n |}.
Proof.
  intros S s m a st post n t R V P N NP M H NS.
  apply static_last_wins; try assumption. apply not_malformed; assumption.
Qed.
Print Assumptions C08_static_holds_at_every_time.

(** "map" is static in [robot]; it is set again, then cleared, and other frames are set. *)
Definition new_map : tmsg D64 := msg "/world" "map" 77 (v64 1 2 3) id64.
Definition later : list (core_op D64) := [OClear; dyn "odom" "base" 30 (v64 1 0 0) id64; dyn "map" "map" 3 (v64 0 0 0) id64].
Example C08_example :
  reachable robot /\ hist robot "map" = Some (Static (Some
     {| st_rot := zpi64; st_trans := v64 0 5 0; st_stamp := 0; st_frame := "world"; st_child := "map" |})) /\
  not_set_again "map" later /\ Forall op_ok later /\ ~ malformed new_map /\
  sample_at (run robot (OSet new_map "me" false :: later)) 123 "map" =
    Some {| st_rot := id64; st_trans := v64 1 2 3; st_stamp := 123; st_frame := "world"; st_child := "map" |}.
Proof.
  split; [exact robot_reachable|]. split; [vmr|].
  split; [constructor; [exact I|constructor; [right; discriminate|constructor; [left; vmr|constructor]]]|].
  split; [apply ops_ok_by; vmr|].
  split; [apply not_malformed; vmr|vmr].
Qed.

(** ** C09 *)
Theorem C09_frame_kind_never_changes :
  forall (S : Scalar) (s : core S) ops n c,
  reachable s -> Forall op_ok ops -> hist s n = Some c ->
  exists c', hist (run s ops) n = Some c' /\
    match c with
    | Dynamic max _ => exists l, c' = Dynamic max l
    | Static _ => exists x, c' = Static x
    end.
Proof.
  intros S s ops n c R O H. destruct (kind_fixed s ops n c R O H) as (c' & E & K). exists c'. split; [assumption|].
  destruct c, c'; cbn in K; try contradiction; subst; eauto.
Qed.
Print Assumptions C09_frame_kind_never_changes.

Theorem C09_first_accepted_decides :
  forall (S : Scalar) (s : core S) m a st n,
  reachable s -> valid_time (tm_stamp m) -> n = stripSlash (tm_child m) -> n <> NO_PARENT ->
  ~ malformed m -> hist s n = None ->
  exists c, hist (step s (OSet m a st)) n = Some c /\
    (if st then exists x, c = Static x else exists l, c = Dynamic (c_cache_time s) l).
Proof. exact (fun S => @first_decides S). Qed.
Print Assumptions C09_first_accepted_decides.

(** "odom" is time-varying; a later is_static = true does not make it static. *)
Example C09_example :
  hist (run robot [OClear; sta "map" "odom" 40 (v64 1 1 1) id64]) "odom" =
    Some (Dynamic 100 [ {| st_rot := id64; st_trans := v64 1 1 1; st_stamp := 40;
                           st_frame := "map"; st_child := "odom" |} ]) /\
  hist robot "world" = None.
Proof. split; vmr. Qed.

(** ** C10 *)
Theorem C10_malformed_changes_nothing :
  forall (S : Scalar) (s : core S) m a st,
  malformed m -> setTransform s m a st = (s, Ok false).
Proof. exact (fun S => @malformed_rejected S). Qed.
Print Assumptions C10_malformed_changes_nothing.

Theorem C10_accepted_iff :
  forall (S : Scalar) (s : core S) m a st,
  reachable s -> valid_time (tm_stamp m) -> valid_time (tm_stamp m + c_cache_time s) ->
  stripSlash (tm_child m) <> NO_PARENT ->
  (snd (setTransform s m a st) = Ok true <->
   ~ malformed m /\
   match hist s (stripSlash (tm_child m)) with
   | Some (Dynamic _ l) =>
       forall y, In y l -> st_stamp y <= tm_stamp m + c_cache_time s /\ st_stamp y <> tm_stamp m
   | _ => True
   end) /\
  (snd (setTransform s m a st) = Ok true \/ snd (setTransform s m a st) = Ok false).
Proof.
  intros S s m a st R V V' N. destruct (set_verdict s m a st R V V' N) as [H1 H2]. split; [|assumption].
  rewrite H1, not_malformed. reflexivity.
Qed.
Print Assumptions C10_accepted_iff.

(** The numeric part over the reals and in binary64. *)
Theorem C10_norm_test_over_reals :
  forall (m : tmsg RS) x y z w, tm_rot m = @Q4 RS x y z w ->
  stripSlash (tm_child m) <> stripSlash (tm_frame m) -> stripSlash (tm_child m) <> "" -> stripSlash (tm_frame m) <> "" ->
  (malformed m <-> (1 / 100 <= Rabs (w * w + x * x + y * y + z * z - 1))%R).
Proof. exact malformed_real. Qed.
Print Assumptions C10_norm_test_over_reals.

Theorem C10_nan_refused_in_binary64 :
  forall lm (s : core (F64 lm)) (m : tmsg (F64 lm)) a st,
  In (S754_nan : F64 lm) [vx (tm_trans m); vy (tm_trans m); vz (tm_trans m);
               qx (tm_rot m); qy (tm_rot m); qz (tm_rot m); qw (tm_rot m)] ->
  setTransform s m a st = (s, Ok false).
Proof. exact nan_rejected. Qed.
Print Assumptions C10_nan_refused_in_binary64.

(** The test does not refuse infinite translations. *)
Theorem C10_infinite_translation_accepted_refuted :
  exists m : tmsg D64, vx (tm_trans m) = S754_infinity false /\
    snd (setTransform robot m "me" false) = Ok true.
Proof.
  exists (msg "odom" "base" 50 (@V3 D64 (S754_infinity false) (f64_of_Z 0) (f64_of_Z 0)) id64).
  split; [vmr|vmr].
Qed.
Print Assumptions C10_infinite_translation_accepted_refuted.

Definition half64 : f64 := @slit D64 1 2.
Example C10_example :
  snd (setTransform robot (msg "odom" "base" 30 (v64 0 0 0) id64) "me" false) = Ok true /\
  (** repeated stamp, stale stamp, same names, short quaternion, NaN *)
  map (fun m => snd (setTransform robot m "me" false))
    [ msg "odom" "base" 18 (v64 0 0 0) id64;
      msg "odom" "/odom" 30 (v64 0 0 0) id64;
      msg "/" "base" 30 (v64 0 0 0) id64;
      msg "odom" "base" 30 (v64 0 0 0) (@Q4 D64 half64 half64 half64 (f64_of_Z 0));
      msg "odom" "base" 30 (@V3 D64 S754_nan half64 half64) id64 ]
  = [Ok false; Ok false; Ok false; Ok false; Ok false] /\
  (** "beacon" has samples at 25 and 5 and the storage time is 100 *)
  snd (setTransform (step robot (dyn "map" "beacon" 200 (v64 0 0 0) id64)) (msg "map" "beacon" 99 (v64 0 0 0) id64) "me" false) = Ok false /\
  snd (setTransform (step robot (dyn "map" "beacon" 200 (v64 0 0 0) id64)) (msg "map" "beacon" 100 (v64 0 0 0) id64) "me" false) = Ok true.
Proof. repeat split; vmr. Qed.

(** ** C11 *)
Theorem C11_rejected_transform_no_effect :
  forall (S : Scalar) (s s' : core S) m a st tgt src t,
  reachable s -> valid_time (tm_stamp m) ->
  setTransform s m a st = (s', Ok false) -> known s tgt -> known s src ->
  same_answer (lookupTransform s tgt src t) (lookupTransform s' tgt src t) /\
  canTransform s tgt src t None = canTransform s' tgt src t None /\
  latest_common_time s tgt src = latest_common_time s' tgt src.
Proof. intros S s s' m a st tgt src t. apply rejected_no_effect. Qed.
Print Assumptions C11_rejected_transform_no_effect.

(** A stale message that names a new parent is refused, but it does register the name. *)
Definition stale : tmsg D64 := msg "elsewhere" "base" 18 (v64 9 9 9) id64.
Example C11_example :
  setTransform robot stale "me" false = (step robot (OSet stale "me" false), Ok false) /\
  valid_time (tm_stamp stale) /\ known robot "base" /\ known robot "beacon" /\
  ~ known robot "elsewhere" /\ known (step robot (OSet stale "me" false)) "elsewhere".
Proof.
  split; [vmr|]. split; [split; vm_compute; congruence|].
  split; [known_tac|]. split; [known_tac|]. split; [intros [H _]; vm_compute in H; discriminate|known_tac].
Qed.

(** ** C12 *)
Theorem C12_ids_are_stable :
  forall (S : Scalar) (s : core S) ops n,
  reachable s -> Forall op_ok ops -> known s n ->
  known (run s ops) n /\ lookupFrameNumber (run s ops) n = lookupFrameNumber s n.
Proof. exact (fun S => @ids_stable S). Qed.
Print Assumptions C12_ids_are_stable.

Theorem C12_ids_are_a_bijection :
  forall (S : Scalar) (s : core S), reachable s ->
  (forall n n', known s n -> known s n' -> lookupFrameNumber s n = lookupFrameNumber s n' -> n = n') /\
  (forall n, known s n -> lookupFrameString s (lookupFrameNumber s n) = Ok n /\ lookupFrameNumber s n <> 0%nat) /\
  (forall i n, lookupFrameString s i = Ok n -> i <> 0%nat -> known s n /\ lookupFrameNumber s n = i) /\
  NoDup (getFrameStrings s) /\ (forall n, In n (getFrameStrings s) <-> known s n).
Proof. exact (fun S => @ids_bijective S). Qed.
Print Assumptions C12_ids_are_a_bijection.

Example C12_example :
  getFrameStrings robot = ["base"; "odom"; "map"; "world"; "beacon"; "y"; "x"] /\
  getFrameStrings (run robot (later ++ [dyn "new" "base" 60 (v64 0 0 0) id64])) =
    ["base"; "odom"; "map"; "world"; "beacon"; "y"; "x"; "new"].
Proof. split; vmr. Qed.

(** ** C25 *)
Theorem C25_interleaving_across_frames_invisible :
  forall (S : Scalar) ct (ops ops' : list (core_op S)) tgt src t,
  0 <= ct < dur_bound -> Forall op_ok ops -> Forall op_ok ops' ->
  (forall n, filter (about n) ops = filter (about n) ops') ->
  let s := run (init_core ct) ops in let s' := run (init_core ct) ops' in
  (tgt = src -> t = 0 -> known s tgt) ->
  same_answer (lookupTransform s tgt src t) (lookupTransform s' tgt src t) /\
  canTransform s tgt src t None = canTransform s' tgt src t None /\
  latest_common_time s tgt src = latest_common_time s' tgt src.
Proof. exact (fun S => @interleaving_invisible S). Qed.
Print Assumptions C25_interleaving_across_frames_invisible.

Theorem C25_delivery_order_invisible :
  forall (S : Scalar) ct (ops ops' : list (core_op S)) tgt src t,
  0 <= ct < dur_bound -> Permutation ops ops' ->
  (forall o, In o ops -> is_dynamic_set o) ->
  (forall n, stamps_ok ct (offers n ops) /\ NoDup (map (fun x => st_stamp x) (offers n ops))) ->
  Forall op_ok ops ->
  let s := run (init_core ct) ops in let s' := run (init_core ct) ops' in
  (tgt = src -> t = 0 -> known s tgt) ->
  same_answer (lookupTransform s tgt src t) (lookupTransform s' tgt src t) /\
  canTransform s tgt src t None = canTransform s' tgt src t None /\
  latest_common_time s tgt src = latest_common_time s' tgt src.
Proof. exact (fun S => @delivery_order_invisible S). Qed.
Print Assumptions C25_delivery_order_invisible.

Theorem C25_answers_depend_on_histories_only :
  forall (S : Scalar) (s s' : core S) tgt src t, reachable s -> reachable s' ->
  (forall n, hist s n = hist s' n) -> (forall n, known s n <-> known s' n) ->
  (tgt = src -> t = 0 -> known s tgt) ->
  same_answer (lookupTransform s tgt src t) (lookupTransform s' tgt src t) /\
  canTransform s tgt src t None = canTransform s' tgt src t None /\
  latest_common_time s tgt src = latest_common_time s' tgt src.
Proof. exact (fun S => @same_knowledge S). Qed.
Print Assumptions C25_answers_depend_on_histories_only.

(** Two interleavings of the same two streams: the ids differ, the answers do not. *)
Definition stream1 : list (core_op D64) :=
  [dyn "m" "u" 10 (v64 1 0 0) id64; dyn "m" "v" 11 (v64 0 1 0) zpi64; dyn "m" "u" 20 (v64 2 0 0) id64].
Definition stream2 : list (core_op D64) :=
  [dyn "m" "v" 11 (v64 0 1 0) zpi64; dyn "m" "u" 10 (v64 1 0 0) id64; dyn "m" "u" 20 (v64 2 0 0) id64].
Example C25_example :
  (forall n, filter (about n) stream1 = filter (about n) stream2) /\
  getFrameStrings (run (init_core 100) stream1) <> getFrameStrings (run (init_core 100) stream2) /\
  Permutation stream1 stream2 /\
  (forall n, stamps_ok 100 (offers n stream1) /\ NoDup (map (fun x => st_stamp x) (offers n stream1))) /\
  lookupTransform (run (init_core 100) stream1) "u" "v" 11 = lookupTransform (run (init_core 100) stream2) "u" "v" 11 /\
  (exists m, lookupTransform (run (init_core 100) stream1) "u" "v" 11 = Ok m).
Proof.
  split.
  { intros n. unfold stream1, stream2, dyn, msg. cbn [filter about tm_child].
    change (stripSlash "u") with "u". change (stripSlash "v") with "v".
    destruct (String.eqb "u" n) eqn:E; destruct (String.eqb "v" n) eqn:E2; try reflexivity.
    apply String.eqb_eq in E, E2. subst. discriminate. }
  split; [vm_compute; discriminate|]. split; [constructor|].
  split.
  { intros n. unfold stream1, offers, dyn, msg. cbn [flat_map tm_child].
    change (bad_message (strip_msg _)) with false.
    cbn [negb andb strip_msg tm_child sample_of]. change (stripSlash "u") with "u". change (stripSlash "v") with "v".
    destruct (String.eqb "u" n) eqn:E; destruct (String.eqb "v" n) eqn:E2; cbn.
    - apply String.eqb_eq in E, E2. subst. discriminate.
    - split; [|repeat constructor; cbn; intuition discriminate]. repeat constructor; vm_compute; congruence.
    - split; [|repeat constructor; cbn; intuition discriminate]. repeat constructor; vm_compute; congruence.
    - split; constructor. }
  split; [vmr|apply ok_by; vmr].
Qed.

(** ** C26 *)
Theorem C26_other_histories_untouched :
  forall (S : Scalar) (s : core S) m a st n,
  reachable s -> valid_time (tm_stamp m) -> n <> stripSlash (tm_child m) ->
  hist (step s (OSet m a st)) n = hist s n.
Proof. exact (fun S => @set_other_frames S). Qed.
Print Assumptions C26_other_histories_untouched.

Theorem C26_unrelated_lookups_untouched :
  forall (S : Scalar) (s : core S) m a st tgt src t,
  reachable s -> valid_time (tm_stamp m) -> t <> 0 -> known s tgt -> known s src ->
  (forall ds, ~ climbs s t src ds (stripSlash (tm_child m))) ->
  (forall ds, ~ climbs s t tgt ds (stripSlash (tm_child m))) ->
  let s' := step s (OSet m a st) in
  same_answer (lookupTransform s tgt src t) (lookupTransform s' tgt src t) /\
  canTransform s tgt src t None = canTransform s' tgt src t None.
Proof. exact (fun S => @set_unrelated_frames S). Qed.
Print Assumptions C26_unrelated_lookups_untouched.

Example C26_example :
  (forall ds, ~ climbs robot 15 "base" ds "beacon") /\ (forall ds, ~ climbs robot 15 "odom" ds "beacon") /\
  (exists m, lookupTransform robot "odom" "base" 15 = Ok m) /\
  option_map (fun c => map (fun x => st_stamp x) (samples c)) (hist robot "beacon") = Some [25; 5] /\
  option_map (fun c => map (fun x => st_stamp x) (samples c))
    (hist (step robot (dyn "odom" "beacon" 15 (v64 0 0 0) id64)) "beacon") = Some [25; 15; 5].
Proof.
  split; [intros ds; apply (never_by 10); vmr|].
  split; [intros ds; apply (never_by 10); vmr|].
  split; [apply ok_by; vmr|]. split; [vmr|vmr].
Qed.

(** ** C27 *)
Theorem C27_clear_forgets_dynamic :
  forall (S : Scalar) (s : core S) n mx l t,
  reachable s -> hist s n = Some (Dynamic mx l) -> sample_at (clear s) t n = None.
Proof. exact (fun S => @clear_dynamic S). Qed.
Print Assumptions C27_clear_forgets_dynamic.

Theorem C27_clear_keeps_static :
  forall (S : Scalar) (s : core S) n x t,
  reachable s -> hist s n = Some (Static x) ->
  hist (clear s) n = hist s n /\ sample_at (clear s) t n = sample_at s t n.
Proof. exact (fun S => @clear_static S). Qed.
Print Assumptions C27_clear_keeps_static.

Theorem C27_clear_keeps_names :
  forall (S : Scalar) (s : core S) n, known (clear s) n <-> known s n.
Proof. exact (fun S => @clear_names S). Qed.
Print Assumptions C27_clear_keeps_names.

(** After clear(), any well-formed message for a time-varying frame is accepted, whatever its
    stamp was compared to the forgotten ones. *)
Theorem C27_fresh_start_after_clear :
  forall (S : Scalar) (s : core S) m a st n mx l,
  reachable s -> valid_time (tm_stamp m) -> valid_time (tm_stamp m + c_cache_time s) ->
  ~ malformed m -> n = stripSlash (tm_child m) -> hist s n = Some (Dynamic mx l) ->
  snd (setTransform (clear s) m a st) = Ok true /\
  hist (step (clear s) (OSet m a st)) n =
    Some (Dynamic (c_cache_time s)
      [{| st_rot := tm_rot m; st_trans := tm_trans m; st_stamp := tm_stamp m;
          st_frame := stripSlash (tm_frame m); st_child := n |}]).
Proof.
  intros S s m a st n mx l R V V' M N H.
  destruct (clear_then_set s m a st n mx l R V V' (proj2 (not_malformed m) M) N H) as [H1 H2].
  split; [assumption|]. rewrite H2. subst n. reflexivity.
Qed.
Print Assumptions C27_fresh_start_after_clear.

Example C27_example :
  lookupTransform (clear robot) "map" "base" 15 =
    Throw ExtrapolationException (EWhenLookingUp EEmpty "base" "map") /\
  lookupTransform (clear robot) "world" "map" 15 = lookupTransform robot "world" "map" 15 /\
  snd (setTransform robot (msg "odom" "base" 18 (v64 0 0 0) id64) "me" false) = Ok false /\
  snd (setTransform (clear robot) (msg "odom" "base" 18 (v64 0 0 0) id64) "me" false) = Ok true.
Proof. repeat split; vmr. Qed.

(** ** C28 *)
Theorem C28_slash_has_no_effect_on_set :
  forall (S : Scalar) (s : core S) m m' a st,
  tm_stamp m = tm_stamp m' -> tm_trans m = tm_trans m' -> tm_rot m = tm_rot m' ->
  stripSlash (tm_child m) = stripSlash (tm_child m') ->
  stripSlash (tm_frame m) = stripSlash (tm_frame m') ->
  setTransform s m a st = setTransform s m' a st.
Proof. exact (fun S => @slash_same_effect S). Qed.
Print Assumptions C28_slash_has_no_effect_on_set.

Theorem C28_strip_is_remove_one_slash :
  forall n, startsWithSlash n = false -> stripSlash ("/" ++ n) = n /\ stripSlash n = n.
Proof. exact strip_once. Qed.
Print Assumptions C28_strip_is_remove_one_slash.

(** Every frame name accepted by setTransform is registered under the stripped name, and
    queries accept that name unless it still starts with a slash. *)
Theorem C28_accepted_name_is_queryable :
  forall (S : Scalar) (s : core S) m a st,
  reachable s -> valid_time (tm_stamp m) -> snd (setTransform s m a st) = Ok true ->
  stripSlash (tm_child m) <> NO_PARENT ->
  known (step s (OSet m a st)) (stripSlash (tm_child m)) /\
  (startsWithSlash (stripSlash (tm_child m)) = false -> plain (stripSlash (tm_child m))).
Proof. exact (fun S => @accepted_is_known S). Qed.
Print Assumptions C28_accepted_name_is_queryable.

(** With two leading slashes the accepted frame can never be queried. *)
Theorem C28_double_slash_unreachable_refuted :
  exists m : tmsg D64, snd (setTransform robot m "me" false) = Ok true /\
  forall name t, In name ["x2"; "/x2"; "//x2"] ->
  exists c e, lookupTransform (step robot (OSet m "me" false)) "map" name t = Throw c e.
Proof.
  exists (msg "map" "//x2" 15 (v64 0 0 0) id64). split; [vmr|].
  intros name t [<-|[<-|[<-|[]]]].
  - exists LookupException, (ENoSuchFrame "lookupTransform argument source_frame" "x2"). vmr.
  - exists InvalidArgumentException, (ESlashFrameId "lookupTransform argument source_frame" "/x2"). vmr.
  - exists InvalidArgumentException, (ESlashFrameId "lookupTransform argument source_frame" "//x2"). vmr.
Qed.
Print Assumptions C28_double_slash_unreachable_refuted.

Example C28_example :
  setTransform robot (msg "/odom" "/base" 30 (v64 0 0 0) id64) "me" false =
  setTransform robot (msg "odom" "base" 30 (v64 0 0 0) id64) "me" false /\
  lookupTransform robot "/odom" "base" 15 =
    Throw InvalidArgumentException (ESlashFrameId "lookupTransform argument target_frame" "/odom").
Proof. split; vmr. Qed.
