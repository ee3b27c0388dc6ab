(** * Specification vocabulary for a remote client of a node in a network (C94) *)
From Coq Require Import ZArith Bool List String Sorted Arith.
From Verif Require Import RosTime Scalar LinearMath Cache BufferCore SpecCore TfBuffer SpecWait TfAction SpecAction Requests TfTopics SpecTopics Network SpecReal SpecNetwork.
Import ListNotations.
Open Scope nat_scope.

Section Spec.
Context {S : Scalar}.
Notation net_op := (net_op S).
Notation core := (core S).
Notation server_op := (@server_op S).

(** [c]: what node [j] knows at some moment not before the [k]-th event of the network. *)
Definition known_after (warn : bool) (ct : duration) (nops : list net_op) (j : nat) (k : nat) (c : core) : Prop :=
  exists n, k <= n <= List.length nops /\ c = node_core (net_run warn ct (firstn n nops)) j.

(** A server on node [j]: each of its steps is tagged with the number of network events that had
    happened when it began; messages may come in while it is under way.  The steps are listed in the order they
    begin. *)
Definition on_node (warn : bool) (ct : duration) (nops : list net_op) (j : nat) (sops : list (nat * server_op)) : Prop :=
  StronglySorted le (map fst sops) /\
  forall k o c, In (k, o) sops -> looked_in o c -> known_after warn ct nops j k c.

(** The transform [m] from frame [src] to frame [tgt] at time [t] is composed of links somebody broadcast. *)
Definition from_broadcasts (nops : list net_op) (m : tmsg S) (tgt src : string) (t : time) : Prop :=
  tm_frame m = tgt /\ tm_child m = src /\ (t <> 0%Z -> tm_stamp m = t) /\
  let good ds := forall d, In d ds -> broadcast_link nops (tm_stamp m) d in
  ((exists ds, leads src ds tgt /\ good ds /\ msg_pose m = climb_pose ds) \/
   (exists dt, leads tgt dt src /\ good dt /\ msg_pose m = pose_inv (climb_pose dt)) \/
   (exists ds dt c, leads src ds c /\ leads tgt dt c /\ good ds /\ good dt /\ msg_pose m = pose_mul (pose_inv (climb_pose dt)) (climb_pose ds))).
End Spec.
