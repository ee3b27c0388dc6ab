(** * Property theorems: what a buffer reports about itself (C58)

    [_getParent], [allFramesAsString], [allFramesAsYAML], [_allFramesAsDot].  Vocabulary
    ([parent_line], [describes], [last_sender], [drawn_as_root]) is in SpecIntro.v, [hist],
    [sample_at] and [link] in SpecCore.v. *)
From Coq Require Import ZArith Bool List String Lia.
From Verif Require Import RosTime Scalar LinearMath Cache SpecCache BufferCore SpecCore Instances
  ExampleBuffers Introspection SpecIntro IntroProofs.
Import ListNotations.
Open Scope string_scope.
Open Scope list_scope.
Open Scope Z_scope.

(** _getParent names the parent of the sample the frame yields at that time, and nothing when the
    frame yields none (or its parent is the reserved root). *)
Theorem C58_get_parent_is_the_parent_at_that_time :
  forall (S : Scalar) (s : core S) n t, reachable s -> known s n ->
  getParentName s n t =
  Ok (match sample_at s t n with
      | Some d => if String.eqb (st_frame d) "NO_PARENT" then None else Some (st_frame d)
      | None => None
      end).
Proof.
  intros S s n t R K. rewrite (get_parent_known s n t R K). unfold link.
  change "NO_PARENT" with NO_PARENT. destruct (sample_at s t n) as [d|]; [|reflexivity].
  destruct (String.eqb (st_frame d) NO_PARENT); reflexivity.
Qed.
Print Assumptions C58_get_parent_is_the_parent_at_that_time.

Theorem C58_get_parent_of_unknown_frame :
  forall (S : Scalar) ct (ops : list (core_op S)) n t,
  0 <= ct < dur_bound -> Forall op_ok ops ->
  (forall m a st, In (OSet m a st) ops -> stripSlash (tm_child m) <> "NO_PARENT") ->
  ~ known (run (init_core ct) ops) n ->
  getParentName (run (init_core ct) ops) n t = Ok None.
Proof.
  intros S ct ops n t H1 H2 H3 H4. apply get_parent_unknown; auto. apply Forall_forall. intros [m a st|] Hi; [|exact I].
  exact (H3 m a st Hi).
Qed.
Print Assumptions C58_get_parent_of_unknown_frame.

(** Without that side condition: after a message for a child called "NO_PARENT", every unknown
    name has a parent. *)
Theorem C58_unknown_frame_has_a_parent_refuted :
  exists m : tmsg D64, snd (setTransform robot m "me" true) = Ok true /\
    ~ known (step robot (OSet m "me" true)) "nobody" /\
    getParentName (step robot (OSet m "me" true)) "nobody" 15 = Ok (Some "map").
Proof.
  exists (msg "map" "NO_PARENT" 15 (v64 0 0 0) id64). split; [vmr|]. split; [|vmr].
  intros [H _]. vm_compute in H. discriminate.
Qed.
Print Assumptions C58_unknown_frame_has_a_parent_refuted.

(** allFramesAsString lists, in order of registration, every frame that has been a child, each once,
    with the parent of its newest sample. *)
Theorem C58_all_frames_as_string :
  forall (S : Scalar) (s : core S), reachable s ->
  allFramesAsString s =
  Ok (fold_right String.append "" (map (parent_line s) (filter (has_history s) (getFrameStrings s)))).
Proof. exact (fun S => @frames_as_string S). Qed.
Print Assumptions C58_all_frames_as_string.

(** allFramesAsYAML describes, in order of registration, exactly the frames that have data, each
    correctly, and never fails. *)
Theorem C58_all_frames_as_yaml :
  forall (S : Scalar) (s : core S) now, reachable s ->
  exists rows,
    allFramesAsYAML s now = Ok (match getFrameStrings s with [] => None | _ => Some rows end) /\
    Forall2 (describes s now) (filter (has_data s) (getFrameStrings s)) rows.
Proof.
  intros S s now R. destruct (frames_as_yaml s now R) as (rows & E & F). exists rows. split; [assumption|].
  clear E. induction F as [|n r ns rs [H _] F IH]; constructor; auto.
Qed.
Print Assumptions C58_all_frames_as_yaml.

(** The reported broadcaster is the sender of the last accepted message for the frame. *)
Theorem C58_broadcaster_is_the_last_accepted_sender :
  forall (S : Scalar) ct (ops : list (core_op S)) now rows,
  0 <= ct < dur_bound ->
  (forall m a st, In (OSet m a st) ops -> valid_time (tm_stamp m) /\ valid_time (tm_stamp m + ct)) ->
  allFramesAsYAML (run (init_core ct) ops) now = Ok (Some rows) ->
  forall r, In r rows -> last_sender ct (y_name r) ops (y_broadcaster r).
Proof.
  intros S ct ops now rows Hct Hv E r Hr.
  assert (Hf : Forall (fun o => match o with OSet m _ _ => valid_time (tm_stamp m) /\ valid_time (tm_stamp m + ct) | OClear => True end) ops).
  { apply Forall_forall. intros [m a st|] Hi; [exact (Hv m a st Hi)|exact I]. }
  assert (R : reachable (run (@init_core S ct) ops)).
  { exists ct, ops. split; [assumption|]. split; [|reflexivity]. eapply Forall_impl; [|exact Hf]. intros [m a st|]; cbn; tauto. }
  destruct (frames_as_yaml _ now R) as (rows' & E' & F). rewrite E in E'.
  destruct (getFrameStrings (run (init_core ct) ops)) as [|n0 ns]; [discriminate|]. injection E' as E'. subst rows'.
  clear E. remember (filter (has_data (run (init_core ct) ops)) (n0 :: ns)) as l. clear Heql.
  induction F as [|n r' ns' rs [D B] F IH]; [destruct Hr|]. destruct Hr as [->|Hr]; [|apply IH; assumption].
  destruct D as (d & c & hi & lo & Hd & _ & _ & _ & Hn & _). rewrite B, Hn. eapply broadcaster_recorded; eassumption.
Qed.
Print Assumptions C58_broadcaster_is_the_last_accepted_sender.

(** The graph has one edge per frame with data, and its roots are exactly the frames that have been
    a child and have no parent now, plus (given the current time) those that were only parents. *)
Theorem C58_all_frames_as_dot :
  forall (S : Scalar) (s : core S) now, reachable s ->
  exists rows,
    allFramesAsDot s now = Ok (rows, filter (drawn_as_root s now) (getFrameStrings s)) /\
    Forall2 (describes s now) (filter (has_data s) (getFrameStrings s)) rows.
Proof.
  intros S s now R. destruct (frames_as_dot s now R) as (rows & E & F). exists rows. split; [assumption|].
  clear E. induction F as [|n r ns rs [H _] F IH]; constructor; auto.
Qed.
Print Assumptions C58_all_frames_as_dot.

(** [robot] after another node took over "base" and a stale message was refused. *)
Definition relayed : list (core_op D64) :=
  robot_ops ++ [OSet (msg "odom" "base" 30 (v64 0 0 0) id64) "other" false;
                OSet (msg "odom" "base" 18 (v64 0 0 0) id64) "stale" false].
Definition show_rows (r : res (option (list (row D64)))) : list (string * string * string) :=
  match r with Ok (Some l) => map (fun r => (y_name r, y_parent r, y_broadcaster r)) l | _ => [] end.
Definition show_roots (r : res (list (row D64) * list string)) : list string :=
  match r with Ok (_, l) => l | _ => [] end.
Example C58_example :
  map (fun n => match getParentName robot n 15 with Ok (Some p) => p | _ => "" end) ["base"; "map"; "world"; "beacon"] =
    ["odom"; "world"; ""; "map"] /\
  getParentName robot "base" 30 = Ok None /\
  show_rows (allFramesAsYAML (run (init_core 100) relayed) (f64_of_Z 0)) =
    [("base", "odom", "other"); ("odom", "map", "me"); ("map", "world", "me"); ("beacon", "map", "me"); ("y", "x", "me")] /\
  show_rows (allFramesAsYAML (clear robot) (f64_of_Z 0)) = [("map", "world", "me"); ("y", "x", "me")] /\
  show_roots (allFramesAsDot robot (f64_of_Z 0)) = [] /\
  show_roots (allFramesAsDot robot (f64_of_Z 40)) = ["world"; "x"] /\
  show_roots (allFramesAsDot (clear robot) (f64_of_Z 0)) = ["base"; "odom"; "beacon"] /\
  match allFramesAsString (run (init_core 100) [sta "w" "m" 0 (v64 0 0 0) id64; dyn "m" "b" 1 (v64 0 0 0) id64; OClear]) with
  | Ok str => str | _ => "" end =
    ("Frame m exists with parent w." ++ newline ++ "Frame b exists with parent NO_PARENT." ++ newline)%string.
Proof. repeat split; vmr. Qed.
