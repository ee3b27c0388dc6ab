(** * Property C77: view_frames.py *)
From Coq Require Import ZArith Bool List String Lia.
From Verif Require Import RosTime Scalar LinearMath Cache BufferCore SpecCore Instances CoreSet ExampleBuffers Introspection SpecIntro ViewFrames SpecViewFrames ViewFramesProofs.
Import ListNotations.
Open Scope string_scope.
Open Scope list_scope.

(** It draws exactly one edge per frame that has data, in order of registration, from the parent of
    its newest sample, with a correct label; the legend points to a frame that is a parent and has
    no data itself (a root).  This is so whenever some frame with data is under a root. *)
Theorem C77_draws_the_tree :
  forall (S : Scalar) resolve (s : core S), reachable s -> ordinary_names resolve s ->
  (exists n p, child_of s n p /\ has_data s p = false) ->
  exists edges root, view_frames resolve s = Ok (Graph edges root) /\
    Forall2 (shows s) (filter (has_data s) (getFrameStrings s)) edges /\
    (exists n, child_of s n root) /\ has_data s root = false.
Proof.
  intros S resolve s R O (n & p & C & P). destruct (view_spec resolve s R O) as (o & E & H).
  assert (D : has_data s n = true) by (apply has_data_iff; exists p; exact C).
  destruct o as [|edges root| |].
  - exfalso. pose proof (data_listed s n R D) as I. rewrite H in I. destruct I.
  - exists edges, root. split; [exact E|exact H].
  - exfalso. destruct H as [_ H]. rewrite H in D. discriminate.
  - exfalso. destruct H as [_ H]. rewrite (H n p C) in P. discriminate.
Qed.
Print Assumptions C77_draws_the_tree.
(** All outcomes. *)
Theorem C77_outcomes :
  forall (S : Scalar) resolve (s : core S), reachable s -> ordinary_names resolve s ->
  (view_frames resolve s = Ok NoData <-> getFrameStrings s = []) /\
  (view_frames resolve s = Ok NoneHasNoLen <-> getFrameStrings s <> [] /\ forall n, has_data s n = false) /\
  (view_frames resolve s = Ok UnboundRoot <-> (exists n, has_data s n = true) /\ rootless s) /\
  ((exists edges root, view_frames resolve s = Ok (Graph edges root)) <-> exists n p, child_of s n p /\ has_data s p = false).
Proof.
  intros S resolve s R O. destruct (view_spec resolve s R O) as (o & E & H).
  assert (Empty : getFrameStrings s = [] -> forall n, has_data s n = false).
  { intros G n. destruct (has_data s n) eqn:D; [|reflexivity]. pose proof (data_listed s n R D) as I. rewrite G in I. destruct I. }
  assert (Gr : (exists n p, child_of s n p /\ has_data s p = false) -> exists edges root, view_frames resolve s = Ok (Graph edges root)).
  { intros X. destruct (C77_draws_the_tree S resolve s R O X) as (edges & root & Y & _). eauto. }
  assert (NotEx : forall n p, child_of s n p -> (forall m, has_data s m = false) -> False).
  { intros n p C X. assert (D : has_data s n = true) by (apply has_data_iff; exists p; exact C). rewrite X in D. discriminate. }
  rewrite E. destruct o as [|edges root| |].
  - split; [split; [intros _; exact H|intros _; reflexivity]|]. split; [split; [discriminate|intros [X _]; contradiction]|]. split.
    + split; [discriminate|]. intros [[n D] _]. rewrite (Empty H) in D. discriminate.
    + split; [intros (? & ? & X); discriminate|]. intros (n & p & C & _). exfalso. exact (NotEx n p C (Empty H)).
  - destruct H as (F & [n C] & D). split; [split; [discriminate|]|split; [split; [discriminate|]|split; [split; [discriminate|]|]]].
    + intros G. exfalso. exact (NotEx n root C (Empty G)).
    + intros [_ X]. exfalso. exact (NotEx n root C X).
    + intros [_ X]. rewrite (X n root C) in D. discriminate.
    + split; [intros _; exists n, root; auto|eauto].
  - destruct H as [G X]. split; [split; [discriminate|intros Y; contradiction]|]. split; [split; [auto|reflexivity]|]. split.
    + split; [discriminate|]. intros [[n D] _]. rewrite X in D. discriminate.
    + split; [intros (? & ? & Y); discriminate|]. intros (n & p & C & _). exfalso. exact (NotEx n p C X).
  - destruct H as [[n D] X]. split; [split; [discriminate|]|split; [split; [discriminate|]|split; [split; [|reflexivity]|]]].
    + intros G. rewrite (Empty G) in D. discriminate.
    + intros [_ Y]. rewrite Y in D. discriminate.
    + intros _. split; [exists n; exact D|exact X].
    + split; [intros (? & ? & Y); discriminate|]. intros (n' & p & C & P). rewrite (X n' p C) in P. discriminate.
Qed.
Print Assumptions C77_outcomes.
(** The UnboundLocalError means that every frame with data is under a cycle; so if the chain of one
    of them ends, the graph is drawn. *)
Theorem C77_unbound_means_cycles :
  forall (S : Scalar) resolve (s : core S), reachable s -> ordinary_names resolve s ->
  (view_frames resolve s = Ok UnboundRoot -> forall n, has_data s n = true -> endless s 0 n) /\
  (forall n, has_data s n = true -> ~ endless s 0 n -> exists edges root, view_frames resolve s = Ok (Graph edges root)).
Proof.
  intros S resolve s R O. pose proof (C77_outcomes S resolve s R O) as (A & B & C & D). split.
  - intros E n H. apply C in E. apply rootless_endless; tauto.
  - intros n H N. destruct (view_spec resolve s R O) as (o & E & Ho). destruct o as [|edges root| |].
    + exfalso. pose proof (data_listed s n R H) as I. rewrite Ho in I. destruct I.
    + eauto.
    + exfalso. destruct Ho as [_ X]. rewrite X in H. discriminate.
    + exfalso. apply N. apply rootless_endless; tauto.
Qed.
Print Assumptions C77_unbound_means_cycles.

(** PyYAML's reading of some plain scalars *)
Definition py_yaml (n : string) : ykey :=
  if String.eqb n "yes" then KOther 1 "True" else if String.eqb n "1" then KOther 1 "1" else if String.eqb n "01" then KOther 1 "1"
  else if String.eqb n "null" then KOther 0 "None" else KStr n.
Definition shown (r : res (drawing D64)) : list (string * string) * string :=
  match r with
  | Ok (Graph es root) => (map (fun e => (g_from e, g_to e)) es, root)
  | Ok NoData => ([], "no data") | Ok NoneHasNoLen => ([], "TypeError") | Ok UnboundRoot => ([], "UnboundLocalError") | _ => ([], "?")
  end.
Lemma all_ordinary : forall l : list string, forallb (fun n => match py_yaml n with KStr m => String.eqb m n | KOther _ _ => false end) l = true ->
  forall n, In n l -> py_yaml n = KStr n.
Proof.
  intros l G n I. rewrite forallb_forall in G. specialize (G n I). destruct (py_yaml n) as [m|]; [|discriminate]. apply String.eqb_eq in G. rewrite G. reflexivity.
Qed.
Lemma robot_ordinary : ordinary_names py_yaml robot.
Proof. unfold ordinary_names. apply all_ordinary. vmr. Qed.
Definition loop : core D64 := run (init_core 100) [dyn "a" "b" 10 (v64 1 0 0) id64; dyn "b" "a" 10 (v64 1 0 0) id64].
Example C77_example :
  ordinary_names py_yaml robot /\
  shown (view_frames py_yaml robot) = ([("odom", "base"); ("map", "odom"); ("world", "map"); ("map", "beacon"); ("x", "y")], "x") /\
  shown (view_frames py_yaml (init_core 100)) = ([], "no data") /\
  shown (view_frames py_yaml cycle) = ([("a", "b"); ("b", "a"); ("r", "c")], "r") /\
  shown (view_frames py_yaml loop) = ([], "UnboundLocalError").
Proof. split; [exact robot_ordinary|]. split; [vmr|]. split; [vmr|]. split; vmr. Qed.
(** "No tf data received" is not what one gets if frames are known but all data were cleared (the
    listener clears on a backwards jump of the clock). *)
Definition emptied : core D64 := run (init_core 100) [dyn "map" "base" 1 (v64 0 0 0) id64; OClear].
Theorem C77_cleared_buffer_refuted : shown (view_frames py_yaml emptied) = ([], "TypeError").
Proof. vmr. Qed.
Print Assumptions C77_cleared_buffer_refuted.
(** Frames whose names YAML does not read as strings: "yes" is drawn as "True" when it is a child
    and as "yes" when it is a parent, so the tree falls apart, and the legend takes it for a root;
    "1" and "01" become one, with the parent of the latter. *)
Definition odd : core D64 := run (init_core 100) [sta "map" "yes" 0 (v64 0 0 0) id64; sta "yes" "laser" 0 (v64 0 0 0) id64].
Definition ones : core D64 := run (init_core 100) [sta "map" "1" 0 (v64 0 0 0) id64; sta "odom" "01" 0 (v64 0 0 0) id64; sta "odom" "base" 0 (v64 0 0 0) id64].
Theorem C77_odd_names_refuted :
  shown (view_frames py_yaml odd) = ([("map", "True"); ("yes", "laser")], "yes") /\
  shown (view_frames py_yaml ones) = ([("odom", "1"); ("odom", "base")], "odom").
Proof. split; vmr. Qed.
Print Assumptions C77_odd_names_refuted.
