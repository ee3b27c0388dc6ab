(** * Property theorems: what the error texts say (C79)

    [gap s t n x] (SpecErrors.v): frame [n] has a history that cannot be used at time [t] and [x]
    states why, with the right numbers.  [tops_at s t n m]: going up from [n] at time [t] ends at
    [m].  Error texts are structured values; their rendering is not modelled. *)
From Coq Require Import ZArith Bool List String Lia Floats.SpecFloat.
From Verif Require Import RosTime Scalar LinearMath Cache SpecCache BufferCore SpecCore Instances
  LookupTheorems LookupTree LookupFail CoreTheorems SpecErrors ErrorProofs ExampleBuffers.
Import ListNotations.
Open Scope Z_scope.
Open Scope string_scope.

(** ** C79 *)

(** An extrapolation error names both frames of the query, and blames the frame where the way up
    from the target ends, unless that frame never had a parent: then the one where the way up from
    the source ends.  The requested time and the limit of the data it quotes are right. *)
Theorem C79_extrapolation_text :
  forall (S : Scalar) (s : core S) tgt src t e,
  reachable s -> plain tgt -> plain src -> known s tgt -> known s src -> tgt <> src ->
  lookupTransform s tgt src t = Throw ExtrapolationException e ->
  exists x t', e = EWhenLookingUp x src tgt /\ resolves s tgt src t t' /\
    exists ms mt, tops_at s t' src ms /\ tops_at s t' tgt mt /\
      ((hist s mt <> None /\ gap s t' mt x) \/ (hist s mt = None /\ hist s ms <> None /\ gap s t' ms x)).
Proof. intros S s tgt src t e R P1 P2 K1 K2 Ne H. exact (lookup_text s tgt src t _ _ R P1 P2 K1 K2 Ne H). Qed.
Print Assumptions C79_extrapolation_text.

(** A connectivity error names the two frames of the query, target first. *)
Theorem C79_connectivity_text :
  forall (S : Scalar) (s : core S) tgt src t e,
  reachable s -> plain tgt -> plain src -> known s tgt -> known s src -> tgt <> src ->
  lookupTransform s tgt src t = Throw ConnectivityException e -> e = EConnectivity tgt src.
Proof. intros S s tgt src t e R P1 P2 K1 K2 Ne H. exact (lookup_text s tgt src t _ _ R P1 P2 K1 K2 Ne H). Qed.
Print Assumptions C79_connectivity_text.

(** A lookup error between known frames is about a loop and lists all frames. *)
Theorem C79_loop_text :
  forall (S : Scalar) (s : core S) tgt src t e,
  reachable s -> plain tgt -> plain src -> known s tgt -> known s src -> tgt <> src ->
  lookupTransform s tgt src t = Throw LookupException e -> exists str, allFramesAsString s = Ok str /\ e = ELoop str.
Proof. intros S s tgt src t e R P1 P2 K1 K2 Ne H. exact (lookup_text s tgt src t _ _ R P1 P2 K1 K2 Ne H). Qed.
Print Assumptions C79_loop_text.

(** A name that is empty, starts with a slash or is unknown: the exception says which argument it
    is and what is wrong with it; the target is looked at first. *)
Theorem C79_bad_name_text :
  forall (S : Scalar) (s : core S) tgt src t cl e, reachable s -> tgt <> src ->
  (complaint s "lookupTransform argument target_frame" tgt cl e -> lookupTransform s tgt src t = Throw cl e) /\
  (plain tgt -> known s tgt -> complaint s "lookupTransform argument source_frame" src cl e ->
   lookupTransform s tgt src t = Throw cl e).
Proof. exact (fun S => @lookup_complaint S). Qed.
Print Assumptions C79_bad_name_text.

Theorem C79_bad_name_text_fixed :
  forall (S : Scalar) (s : core S) tgt t1 src t2 fix_ cl e, reachable s ->
  (complaint s "lookupTransform argument target_frame" tgt cl e -> lookupTransformFixed s tgt t1 src t2 fix_ = Throw cl e) /\
  (plain tgt -> known s tgt -> complaint s "lookupTransform argument source_frame" src cl e ->
   lookupTransformFixed s tgt t1 src t2 fix_ = Throw cl e) /\
  (plain tgt -> known s tgt -> plain src -> known s src ->
   complaint s "lookupTransform argument fixed_frame" fix_ cl e -> lookupTransformFixed s tgt t1 src t2 fix_ = Throw cl e).
Proof. exact (fun S => @lookup_fixed_complaint S). Qed.
Print Assumptions C79_bad_name_text_fixed.

(** Between known frames canTransform, given an empty string, fills it with exactly the text
    lookupTransform throws. *)
Theorem C79_can_explains :
  forall (S : Scalar) (s : core S) tgt src t,
  reachable s -> plain tgt -> plain src -> known s tgt -> known s src -> tgt <> src ->
  canTransform s tgt src t (Some EEmpty) = verdict (lookupTransform s tgt src t).
Proof. exact (fun S => @can_text S). Qed.
Print Assumptions C79_can_explains.

(** Through a fixed frame: the text of the first leg that fails, from the target. *)
Theorem C79_can_fixed_explains :
  forall (S : Scalar) (s : core S) tgt t1 src t2 fix_ err,
  reachable s -> plain tgt -> plain src -> plain fix_ -> known s tgt -> known s src -> known s fix_ ->
  canTransformFixed s tgt t1 src t2 fix_ err =
  match canTransform s tgt fix_ t1 err with
  | Ok (true, _) => canTransform s fix_ src t2 err
  | r => r
  end.
Proof. exact (fun S => @can_fixed_legs S). Qed.
Print Assumptions C79_can_fixed_explains.

(** For unknown names it appends, for each of them in order, which argument does not exist. *)
Theorem C79_can_missing_text :
  forall (S : Scalar) (s : core S) tgt src t old l,
  reachable s -> plain tgt -> plain src -> tgt <> src ->
  absent s [("canTransform: target_frame", tgt); ("canTransform: source_frame", src)] l -> l <> [] ->
  canTransform s tgt src t (Some old) = Ok (false, Some (told old l)) /\ canTransform s tgt src t None = Ok (false, None).
Proof. exact (fun S => @can_absent S). Qed.
Print Assumptions C79_can_missing_text.

Theorem C79_can_missing_text_fixed :
  forall (S : Scalar) (s : core S) tgt t1 src t2 fix_ old l,
  reachable s -> plain tgt -> plain src -> plain fix_ ->
  absent s [("canTransform: target_frame", tgt); ("canTransform: source_frame", src); ("fixed_frame", fix_)] l -> l <> [] ->
  canTransformFixed s tgt t1 src t2 fix_ (Some old) = Ok (false, Some (told old l)) /\
  canTransformFixed s tgt t1 src t2 fix_ None = Ok (false, None).
Proof. exact (fun S => @can_fixed_absent S). Qed.
Print Assumptions C79_can_missing_text_fixed.

(** Success leaves the caller's string as it was. *)
Theorem C79_success_is_silent :
  forall (S : Scalar) (s : core S) tgt src t err e, reachable s -> canTransform s tgt src t err = Ok (true, e) -> e = err.
Proof. exact (fun S => @can_true_silent S). Qed.
Print Assumptions C79_success_is_silent.

(** But so does refusing an empty name or one with a leading slash: no reason is given. *)
Theorem C79_bad_name_is_silent_refuted :
  forall (S : Scalar) (s : core S) tgt src t err, tgt <> src -> ~ plain tgt \/ ~ plain src ->
  canTransform s tgt src t err = Ok (false, err).
Proof. exact (fun S => @can_not_plain S). Qed.
Print Assumptions C79_bad_name_is_silent_refuted.
Theorem C79_bad_name_is_silent_fixed_refuted :
  forall (S : Scalar) (s : core S) tgt t1 src t2 fix_ err, ~ plain tgt \/ ~ plain src \/ ~ plain fix_ ->
  canTransformFixed s tgt t1 src t2 fix_ err = Ok (false, err).
Proof. exact (fun S => @can_fixed_not_plain S). Qed.
Print Assumptions C79_bad_name_is_silent_fixed_refuted.

(** And a text left in the caller's string can come back as the reason. *)
Definition emptied : core D64 :=
  run (init_core 100) [dyn "a" "b" 10 (v64 0 0 0) id64; dyn "c" "d" 10 (v64 0 0 0) id64; OClear].
Theorem C79_stale_text_refuted :
  exists (s : core D64) tgt src t stale, reachable s /\ stale <> EEmpty /\
  canTransform s tgt src t (Some stale) = Ok (false, Some (EWhenLookingUp stale src tgt)).
Proof.
  exists emptied, "b", "d", 5, (EText "left over"). split; [apply reach_by; vmr|]. split; [discriminate|vmr].
Qed.
Print Assumptions C79_stale_text_refuted.

(** A robot whose odometry ends at 20, asked for 22; asked for 3; a beacon asked for 22 against a
    disconnected frame; unknown frames. *)
Example C79_example :
  reachable robot /\ plain "base" /\ plain "map" /\ known robot "base" /\ known robot "map" /\
  lookupTransform robot "map" "base" 22 = Throw ExtrapolationException (EWhenLookingUp (EExtrapFuture 22 18) "base" "map") /\
  lookupTransform robot "base" "map" 3 = Throw ExtrapolationException (EWhenLookingUp (EExtrapPast 3 12) "map" "base") /\
  lookupTransform robot "y" "base" 15 = Throw ConnectivityException (EConnectivity "y" "base") /\
  canTransform robot "base" "map" 3 (Some EEmpty) = Ok (false, Some (EWhenLookingUp (EExtrapPast 3 12) "map" "base")) /\
  absent robot [("canTransform: target_frame", "nowhere"); ("canTransform: source_frame", "base")]
    [ENoSuchFrame "canTransform: target_frame" "nowhere"] /\
  lookupTransform robot "nowhere" "base" 15 = Throw LookupException (ENoSuchFrame "lookupTransform argument target_frame" "nowhere").
Proof.
  assert (K1 : known robot "base") by (split; [vmr|discriminate]). assert (K2 : known robot "map") by (split; [vmr|discriminate]).
  split; [exact robot_reachable|]. split; [split; [discriminate|reflexivity]|]. split; [split; [discriminate|reflexivity]|].
  split; [exact K1|]. split; [exact K2|]. split; [vmr|]. split; [vmr|]. split; [vmr|]. split; [vmr|]. split; [|vmr].
  apply absent_unknown.
  - intros [H _]. assert (E : frameExists robot "nowhere" = false) by vmr. congruence.
  - apply absent_known; [exact K1|constructor].
Qed.
Example C79_loop_example :
  exists str, lookupTransform cycle "c" "a" 10 = Throw LookupException (ELoop str) /\ allFramesAsString cycle = Ok str.
Proof.
  let str := eval vm_compute in (match allFramesAsString cycle with Ok x => x | _ => "" end) in exists str.
  split; vmr.
Qed.
