(** * Property theorems: the frame chain (C35)

    [tree_path s t source target l]: [l] is the list of frames from [source] up to the nearest
    common ancestor at time [t] and down to [target]; [turns_at_parent]: that ancestor is the
    source's direct parent, the target is strictly below it, and it is not the root of the tree
    (both in SpecCore.v). *)
From Coq Require Import ZArith Bool List String Lia.
From Verif Require Import RosTime Scalar LinearMath Cache SpecCache BufferCore SpecCore CoreSet Instances
  LookupTheorems LookupTree ChainPath ExampleBuffers.
Import ListNotations.
Open Scope Z_scope.
Open Scope string_scope.

(** Whenever a transform is found, there is exactly one tree path, free of repetitions,
    starting with the source and ending with the target. *)
Theorem C35_path_is_well_defined :
  forall (S : Scalar) (s : core S) t source target c,
  reachable s -> known s source -> known s target -> depth_ok s t source -> depth_ok s t target ->
  common_ancestor s t source target c ->
  exists l, tree_path s t source target l /\ (forall l', tree_path s t source target l' -> l' = l) /\
    NoDup l /\ (exists l', l = source :: l') /\ (exists l', l = (l' ++ [target])%list).
Proof.
  intros S s t a b c R Ka Kb Da Db H. destruct (path_exists s t a b c R Ka Kb Da Db H) as [l Hl].
  exists l. split; [assumption|]. split; [intros l' Hl'; eapply path_unique; [exact R|exact Ka|exact Kb|exact Da|exact Db|exact Hl'|exact Hl]|].
  split; [eapply path_NoDup; [exact R|exact Ka|exact Kb|exact Da|exact Db|exact Hl]|]. eapply path_ends; eassumption.
Qed.
Print Assumptions C35_path_is_well_defined.

(** The chain reported for a transform that exists is that path (the times of the trivial half,
    target to target or source to source, do not matter). *)
Theorem C35_chain_is_tree_path :
  forall (S : Scalar) (s : core S) target source t t' m l,
  reachable s -> target <> source -> lookupTransform s target source t = Ok m ->
  depth_ok s (tm_stamp m) source -> depth_ok s (tm_stamp m) target ->
  tree_path s (tm_stamp m) source target l -> ~ turns_at_parent s (tm_stamp m) source target ->
  chainAsVector s target t' source t target = Ok l /\ chainAsVector s target t source t' source = Ok l.
Proof.
  intros S s target source t t' m l R Ne H Ds Dt P N. pose proof (reachable_wf s R) as W.
  pose proof (leg_path s target source t m l W Ne H Ds Dt P N) as L.
  split; [apply chain_to_target|apply chain_from_source]; assumption.
Qed.
Print Assumptions C35_chain_is_tree_path.

(** Through a fixed frame: the two paths, joined at the fixed frame, which is listed once. *)
Theorem C35_chain_through_fixed_frame :
  forall (S : Scalar) (s : core S) target t1 source t2 fixed m1 m2 l1 l2,
  reachable s -> fixed <> source -> target <> fixed ->
  lookupTransform s fixed source t2 = Ok m2 -> lookupTransform s target fixed t1 = Ok m1 ->
  depth_ok s (tm_stamp m2) source -> depth_ok s (tm_stamp m2) fixed -> depth_ok s (tm_stamp m1) fixed -> depth_ok s (tm_stamp m1) target ->
  tree_path s (tm_stamp m2) source fixed (l1 ++ [fixed]) -> ~ turns_at_parent s (tm_stamp m2) source fixed ->
  tree_path s (tm_stamp m1) fixed target (fixed :: l2) -> ~ turns_at_parent s (tm_stamp m1) fixed target ->
  chainAsVector s target t1 source t2 fixed = Ok (l1 ++ fixed :: l2)%list.
Proof.
  intros S s target t1 source t2 fixed m1 m2 l1 l2 R N1 N2 H2 H1 D1 D2 D3 D4 P2 T2 P1 T1. pose proof (reachable_wf s R) as W.
  apply chain_join; [exact W| |].
  - eapply (leg_path s fixed source t2 m2); eassumption.
  - eapply (leg_path s target fixed t1 m1); eassumption.
Qed.
Print Assumptions C35_chain_through_fixed_frame.

(** In the excluded case the frames above the turning point, up to the root, are listed too. *)
Theorem C35_turning_at_parent_lists_up_to_root :
  forall (S : Scalar) (s : core S) target source t t' m d dt w root,
  reachable s -> target <> source -> lookupTransform s target source t = Ok m ->
  depth_ok s (tm_stamp m) source -> depth_ok s (tm_stamp m) target ->
  link s (tm_stamp m) source = Some d -> climbs s (tm_stamp m) target dt (st_frame d) -> dt <> [] -> ~ In source (passed dt) ->
  climbs s (tm_stamp m) (st_frame d) w root -> link s (tm_stamp m) root = None ->
  chainAsVector s target t' source t target = Ok (source :: passed w ++ root :: rev (passed dt))%list.
Proof.
  intros S s target source t t' m d dt w root R Ne H Ds Dt Hl C Hne Hni Cw Hr. pose proof (reachable_wf s R) as W.
  apply chain_to_target; [exact W|]. eapply leg_turns; eassumption.
Qed.
Print Assumptions C35_turning_at_parent_lists_up_to_root.

(** So the unrestricted claim is false: siblings under "map", which is itself under "world". *)
Theorem C35_every_chain_is_the_tree_path_refuted :
  exists (s : core D64) target source t m l l', reachable s /\ target <> source /\ lookupTransform s target source t = Ok m /\
    depth_ok s (tm_stamp m) source /\ depth_ok s (tm_stamp m) target /\
    tree_path s (tm_stamp m) source target l /\ chainAsVector s target t source t target = Ok l' /\ l' <> l.
Proof.
  assert (E : exists m, lookupTransform robot "odom" "beacon" 15 = Ok m) by (apply ok_by; vmr). destruct E as [m Hm].
  assert (Em : tm_stamp m = 15).
  { destruct (lookup_header robot "odom" "beacon" 15 m robot_reachable Hm) as [_ H]. apply H. lia. }
  exists robot, "odom", "beacon", 15, m, ["beacon"; "map"; "odom"], ["beacon"; "map"; "world"; "odom"].
  rewrite Em. split; [exact robot_reachable|]. split; [discriminate|]. split; [exact Hm|].
  split; [apply robot_depth|]. split; [apply robot_depth|]. split; [|split; [vmr|discriminate]].
  exists (climb_list 1 robot 15 "beacon"), (climb_list 1 robot 15 "odom"), "map".
  split; [apply climb_to; vmr|]. split; [apply climb_to; vmr|]. split; [|vmr].
  vm_compute. intros n [<-|[]] [H|[]]; discriminate.
Qed.
Print Assumptions C35_every_chain_is_the_tree_path_refuted.

(** The hypotheses hold for a path that goes up two links and down one. *)
Example C35_example :
  reachable robot /\ (exists m, lookupTransform robot "beacon" "base" 15 = Ok m) /\
  depth_ok robot 15 "base" /\ depth_ok robot 15 "beacon" /\
  tree_path robot 15 "base" "beacon" ["base"; "odom"; "map"; "beacon"] /\
  ~ turns_at_parent robot 15 "base" "beacon" /\
  chainAsVector robot "beacon" 3 "base" 15 "beacon" = Ok ["base"; "odom"; "map"; "beacon"] /\
  chainAsVector robot "beacon" 15 "base" 16 "map" = Ok ["base"; "odom"; "map"; "beacon"].
Proof.
  split; [exact robot_reachable|]. split; [apply ok_by; vmr|]. split; [apply robot_depth|]. split; [apply robot_depth|].
  split; [|split; [|split; vmr]].
  - exists (climb_list 2 robot 15 "base"), (climb_list 1 robot 15 "beacon"), "map".
    split; [apply climb_to; vmr|]. split; [apply climb_to; vmr|]. split; [|vmr].
    vm_compute. intros n [<-|[<-|[]]] [H|[]]; discriminate.
  - intros (d & dt & Hl & C & Hne & Hni & Hp).
    assert (Ed : st_frame d = "odom").
    { assert (X : option_map (@st_frame D64 string) (link robot 15 "base") = Some "odom") by vmr. rewrite Hl in X. cbn in X. congruence. }
    rewrite Ed in C. revert C. eapply (never_by 5). vmr.
Qed.
