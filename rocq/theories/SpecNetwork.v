(** * Specification vocabulary for networks of broadcasters and listeners (C87) *)
From Coq Require Import ZArith Bool List String.
From Verif Require Import RosTime Scalar LinearMath Cache BufferCore SpecCore Requests SpecRequests TfTopics SpecTopics Network.
Import ListNotations.
Open Scope Z_scope.

Section Spec.
Context {S : Scalar}.
Notation tmsg := (tmsg S).
Notation net_op := (net_op S).

(** Somebody has given [m] to a broadcaster; [st]: a static one. *)
Definition sent (ops : list net_op) (m : tmsg) (st : bool) : Prop :=
  exists o, In o ops /\
  match o with
  | Broadcast _ ms => st = false /\ In m ms
  | BroadcastStatic _ _ ms | PyBroadcastStatic _ ms => st = true /\ In m ms
  | Receive _ _ _ => False
  end.
(** ... a well-formed one, for the link from [child] to [parent]. *)
Definition sent_link (ops : list net_op) (m : tmsg) (child parent : string) : Prop :=
  (exists st, sent ops m st) /\ ~ malformed m /\ stripSlash (tm_child m) = child /\ stripSlash (tm_frame m) = parent.

(** The link [d] (pose of st_child in st_frame) used at time [t] comes from what was broadcast:
    it is a transform of a frame somebody broadcasts as static, or broadcast for exactly this time (or
    the latest was asked for), or interpolated between one broadcast for an earlier and one for a
    later time with the same parent, or the earlier one if the later has another parent. *)
Inductive broadcast_link (ops : list net_op) (t : time) (d : storage S string) : Prop :=
| of_static : forall m m0 p, sent_link ops m (st_child d) (st_frame d) ->
    sent ops m0 true -> sent_link ops m0 (st_child d) p ->
    pose_of d = (tm_rot m, tm_trans m) -> broadcast_link ops t d
| at_its_stamp : forall m, sent_link ops m (st_child d) (st_frame d) -> t = 0 \/ tm_stamp m = t ->
    pose_of d = (tm_rot m, tm_trans m) -> broadcast_link ops t d
| between : forall m m', sent_link ops m (st_child d) (st_frame d) -> sent_link ops m' (st_child d) (st_frame d) ->
    tm_stamp m <= t < tm_stamp m' ->
    (let ratio := sdiv (sofns (t - tm_stamp m)) (sofns (tm_stamp m' - tm_stamp m)) in
     pose_of d = (qslerp (tm_rot m) (tm_rot m') ratio, vinterp (tm_trans m) (tm_trans m') ratio)) ->
    broadcast_link ops t d
| before_change : forall m m' p, sent_link ops m (st_child d) (st_frame d) -> sent_link ops m' (st_child d) p -> p <> st_frame d ->
    tm_stamp m <= t < tm_stamp m' -> pose_of d = (tm_rot m, tm_trans m) -> broadcast_link ops t d.

(** The links [ds] lead from frame [a] to frame [b], each from a child to its parent. *)
Inductive leads : string -> list (storage S string) -> string -> Prop :=
| leads_nil : forall a, leads a [] a
| leads_cons : forall d ds b, leads (st_frame d) ds b -> leads (st_child d) (d :: ds) b.

(** What is broadcast has ros::Time stamps. *)
Definition net_ok (ops : list net_op) : Prop := forall m st, sent ops m st -> valid_time (tm_stamp m).

(** A transform among the arrivals *)
Definition received (got : list (arrival S)) (m : tmsg) (st : bool) : Prop :=
  exists a, In a got /\ a_static a = st /\ In m (a_msg a).
(** The same well-formed transforms arrived, in whatever order, messages and number of copies *)
Definition same_receipts (got got' : list (arrival S)) : Prop :=
  forall m st, ~ malformed m -> (received got m st <-> received got' m st).
(** Node [j] has received every message published so far. *)
Definition caught_up (n : network S) (j : nat) : Prop :=
  forall who st msg, In (who, st, msg) (k_topics n) -> exists a, In a (k_got n j) /\ a_static a = st /\ a_msg a = msg.
(** The well-formed transforms received for one frame are of one kind; two with the same stamp, or two
    static ones, are the same. *)
Definition unambiguous (got : list (arrival S)) : Prop :=
  forall m st m' st', received got m st -> received got m' st' -> ~ malformed m -> ~ malformed m' ->
  stripSlash (tm_child m) = stripSlash (tm_child m') ->
  st = st' /\ (st = true \/ tm_stamp m = tm_stamp m' -> strip_msg m = strip_msg m').
End Spec.
