(** * Properties C67: what rounding does to a lookup in binary64 *)
From Coq Require Import ZArith Bool Reals Floats.SpecFloat List String Lia Lra.
From Verif Require Import RosTime Scalar LinearMath Cache BufferCore SpecCore SpecReal Instances SpecRound RoundLookup ExampleBuffers ExampleRound.
Import ListNotations.
Open Scope R_scope.

(** ** C67 *)
(** The links on the two climbs carry finite numbers, quaternions of length at most [k] and
    translations of length at most [L].  [e] is the exact composition of the numbers in those
    links; [uro] is 2^-53. *)
Theorem C67_lookup_rounding_error :
  forall lm (s : core (F64 lm)) tgt src t msg (k L : R),
  reachable s -> tgt <> src -> lookupTransform s tgt src t = Ok msg ->
  (forall ds c, climbs s (tm_stamp msg) src ds c \/ climbs s (tm_stamp msg) tgt ds c -> Forall (link_ok k L) ds) ->
  1 <= k -> / IZR (2 ^ 900) <= L -> k ^ (8 * MAX_GRAPH_DEPTH) * L <= IZR (2 ^ 980) ->
  exists ds dt c, climbs s (tm_stamp msg) src ds c /\ climbs s (tm_stamp msg) tgt dt c /\
    (List.length ds <= MAX_GRAPH_DEPTH)%nat /\ (List.length dt <= MAX_GRAPH_DEPTH)%nat /\
    let N := (List.length ds + List.length dt)%nat in
    let e := pose_mul (pose_inv (climb_pose (map exact_link dt))) (climb_pose (map exact_link ds)) in
    qfinite (tm_rot msg) /\ vfinite (tm_trans msg) /\
    qdist (qval (tm_rot msg)) (fst e) <= 21 * INR (S N) * uro * k ^ N /\
    vdist (vval (tm_trans msg)) (snd e) <= 128 * (INR (S N) * INR (S N)) * uro * (k ^ (4 * N) * L).
Proof. exact lookup_rounding. Qed.
Print Assumptions C67_lookup_rounding_error.

(** Quaternions within 2^-20 of unit length: the constants no longer depend on [k]. *)
Theorem C67_near_unit_rotations :
  forall lm (s : core (F64 lm)) tgt src t msg (L : R),
  reachable s -> tgt <> src -> lookupTransform s tgt src t = Ok msg ->
  (forall ds c, climbs s (tm_stamp msg) src ds c \/ climbs s (tm_stamp msg) tgt ds c -> Forall (link_ok (1 + / IZR (2 ^ 20)) L) ds) ->
  / IZR (2 ^ 900) <= L <= IZR (2 ^ 979) ->
  exists ds dt c, climbs s (tm_stamp msg) src ds c /\ climbs s (tm_stamp msg) tgt dt c /\
    let N := (List.length ds + List.length dt)%nat in
    let e := pose_mul (pose_inv (climb_pose (map exact_link dt))) (climb_pose (map exact_link ds)) in
    qdist (qval (tm_rot msg)) (fst e) <= 22 * INR (S N) * uro /\
    vdist (vval (tm_trans msg)) (snd e) <= 130 * (INR (S N) * INR (S N)) * uro * L.
Proof. exact lookup_rounding_near_unit. Qed.
Print Assumptions C67_near_unit_rotations.

(** Met by the base and the beacon of a robot at time 15, in binary64. *)
Example C67_example :
  reachable robot /\ (exists m, lookupTransform robot "base"%string "beacon"%string 15%Z = Ok m) /\
  (forall n, In n ["base"; "beacon"]%string -> forall ds c, climbs robot 15%Z n ds c -> Forall (link_ok (1 + / IZR (2 ^ 20)) 10) ds) /\
  / IZR (2 ^ 900) <= 10 <= IZR (2 ^ 979).
Proof. exact robot_rounding. Qed.
