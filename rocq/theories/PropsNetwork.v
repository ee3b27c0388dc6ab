(** * C87: what a node looks up is what was broadcast *)
From Coq Require Import ZArith Bool List String Lia Arith.
From Verif Require Import RosTime Scalar LinearMath Cache SpecCache BufferCore SpecCore CoreInv CoreSet LookupTheorems LookupTree LookupPose Malformed SpecReal CoreTheorems
  Requests SpecRequests TfTopics SpecTopics Network SpecNetwork NetworkProofs Instances ExampleBuffers.
Import ListNotations.
Open Scope Z_scope.
Open Scope string_scope.
Open Scope list_scope.

(** Whatever the transport loses, delays, repeats or reorders, whatever the clocks and however
    often buffers are cleared, a transform a node looks up is composed of links somebody
    broadcast; in particular it is never older than asked (only links of static frames are used at other times than
    they were broadcast for). *)
Theorem C87_only_what_was_broadcast :
  forall (S : Scalar) warn ct (ops : list (net_op S)) j tgt src t m, 0 <= ct < dur_bound -> net_ok ops -> tgt <> src ->
  lookupTransform (node_core (net_run warn ct ops) j) tgt src t = Ok m ->
  tm_frame m = tgt /\ tm_child m = src /\ (t <> 0 -> tm_stamp m = t) /\
  let good ds := forall d, In d ds -> broadcast_link ops (tm_stamp m) d in
  ((exists ds, leads src ds tgt /\ good ds /\ msg_pose m = climb_pose ds) \/
   (exists dt, leads tgt dt src /\ good dt /\ msg_pose m = pose_inv (climb_pose dt)) \/
   (exists ds dt c, leads src ds c /\ leads tgt dt c /\ good ds /\ good dt /\ msg_pose m = pose_mul (pose_inv (climb_pose dt)) (climb_pose ds))).
Proof.
  intros S warn ct ops j tgt src t m Hct Hok Ne H. pose proof (node_reachable warn ct ops j Hct Hok) as R. destruct (lookup_header _ _ _ _ _ R H) as (A & B & C & _).
  split; [exact A|]. split; [exact B|]. split; [exact C|]. cbv zeta.
  assert (G : forall a ds b, climbs (node_core (net_run warn ct ops) j) (tm_stamp m) a ds b -> leads a ds b /\ forall d, In d ds -> broadcast_link ops (tm_stamp m) d).
  { intros a ds b X. destruct (climbs_links _ _ _ _ _ R X) as (Y & Z). split; [exact Y|]. intros d Hd. destruct (Z d Hd) as (nm & L). exact (broadcast_origin warn ct ops j _ nm d Hct Hok L). }
  destruct (lookup_pose_cases _ _ _ _ _ R Ne H) as [(ds & X & E)|[(dt & X & E)|(ds & dt & c & X & Y & _ & E)]].
  - left. exists ds. destruct (G _ _ _ X). auto.
  - right. left. exists dt. destruct (G _ _ _ X). auto.
  - right. right. exists ds, dt, c. destruct (G _ _ _ X), (G _ _ _ Y). auto 10.
Qed.
Print Assumptions C87_only_what_was_broadcast.

(** Two nodes whose clocks do not jump back and which have received the same transforms, in whatever order and grouping and
    with whatever repetitions, give the same answers, provided publishers do not contradict each other. *)
Theorem C87_same_receipts_same_answers :
  forall (S : Scalar) warn ct (ops : list (net_op S)) j j' tgt src t, 0 <= ct < dur_bound ->
  let n := net_run warn ct ops in
  Forall (arrival_ok ct) (k_got n j) -> Forall (arrival_ok ct) (k_got n j') -> ~ goes_back 0 (k_got n j) -> ~ goes_back 0 (k_got n j') ->
  same_receipts (k_got n j) (k_got n j') -> unambiguous (k_got n j) ->
  let s := node_core n j in let s' := node_core n j' in
  (tgt = src -> t = 0 -> known s tgt) ->
  same_answer (lookupTransform s tgt src t) (lookupTransform s' tgt src t) /\
  canTransform s tgt src t None = canTransform s' tgt src t None /\
  latest_common_time s tgt src = latest_common_time s' tgt src.
Proof.
  intros S warn ct ops j j' tgt src t Hct n Fa Fb Na Nb Sm U.
  destruct (steady_node warn ct ops j Hct Fa Na) as (co & E & Al & D). destruct (steady_node warn ct ops j' Hct Fb Nb) as (co' & E' & Al' & D').
  cbv zeta. fold n in E, E', D, D'. rewrite E, E'.
  assert (Rg : forall got (m : tmsg S) st, Forall (arrival_ok ct) got -> received got m st -> in_range ct m).
  { intros got m st F (a & Ha & _ & Hm). rewrite Forall_forall in F. destruct (F a Ha) as (_ & G). rewrite Forall_forall in G. exact (G m Hm). }
  apply agreement; [exact Hct|exact Al|exact Al'| | | |].
  - intros m st H. apply D in H. exact (Rg _ _ _ Fa H).
  - intros m st H. apply D' in H. exact (Rg _ _ _ Fb H).
  - intros m st B. rewrite D, D'. apply Sm, not_malformed, B.
  - intros m st m' st' H H' B B' C. apply D in H. apply D in H'. apply U; try assumption; apply not_malformed; assumption.
Qed.
Print Assumptions C87_same_receipts_same_answers.

(** ... in particular two nodes that have received, in any order, everything published. *)
Theorem C87_caught_up_nodes_agree :
  forall (S : Scalar) warn ct (ops : list (net_op S)) j j' tgt src t, 0 <= ct < dur_bound ->
  let n := net_run warn ct ops in
  Forall (arrival_ok ct) (k_got n j) -> Forall (arrival_ok ct) (k_got n j') -> ~ goes_back 0 (k_got n j) -> ~ goes_back 0 (k_got n j') ->
  caught_up n j -> caught_up n j' -> unambiguous (k_got n j) ->
  let s := node_core n j in let s' := node_core n j' in
  (tgt = src -> t = 0 -> known s tgt) ->
  same_answer (lookupTransform s tgt src t) (lookupTransform s' tgt src t) /\
  canTransform s tgt src t None = canTransform s' tgt src t None /\
  latest_common_time s tgt src = latest_common_time s' tgt src.
Proof.
  intros S warn ct ops j j' tgt src t Hct n Fa Fb Na Nb Ca Cb U. apply C87_same_receipts_same_answers; try assumption.
  intros m st _. rewrite (caught_up_receipts warn ct ops j Ca), (caught_up_receipts warn ct ops j' Cb). reflexivity.
Qed.
Print Assumptions C87_caught_up_nodes_agree.

(** ** a network *)
(** Odometry and a driver; node 0 hears them in order, node 1 in another order and one message twice. *)
Definition odom10 : tmsg D64 := msg "odom" "base" 10 (v64 1 0 0) id64.
Definition odom20 : tmsg D64 := msg "odom" "base" 20 (v64 3 0 0) id64.
Definition laser0 : tmsg D64 := msg "base" "laser" 0 (v64 0 1 0) id64.
Definition two_nodes : list (net_op D64) :=
  [Broadcast "odometry" [odom10]; BroadcastStatic 0 "driver" [laser0]; Broadcast "odometry" [odom20];
   Receive 0 0 100; Receive 0 1 101; Receive 0 2 102; Receive 1 2 200; Receive 1 1 200; Receive 1 0 201; Receive 1 2 202].
Notation net2 := (@net_run D64 false 100 two_nodes).
Lemma sent_two : forall m st, sent two_nodes m st -> (m = odom10 /\ st = false) \/ (m = odom20 /\ st = false) \/ (m = laser0 /\ st = true).
Proof.
  intros m st (o & Ho & H). unfold two_nodes in Ho. cbn [In] in Ho.
  destruct Ho as [<-|[<-|[<-|Ho]]]; [| | |repeat (destruct Ho as [<-|Ho]; [destruct H|]); destruct Ho]; destruct H as (-> & [<-|[]]); auto.
Qed.
Lemma two_nodes_ok : net_ok two_nodes.
Proof. intros m st H. destruct (sent_two m st H) as [(-> & _)|[(-> & _)|(-> & _)]]; (split; [vm_compute; congruence|vm_compute; reflexivity]). Qed.
Lemma got_two : k_got net2 0%nat = [mkArrival 100 "odometry" false [odom10]; mkArrival 101 "driver" true [laser0]; mkArrival 102 "odometry" false [odom20]] /\
  k_got net2 1%nat = [mkArrival 200 "odometry" false [odom20]; mkArrival 200 "driver" true [laser0]; mkArrival 201 "odometry" false [odom10]; mkArrival 202 "odometry" false [odom20]] /\
  k_topics net2 = [("odometry", false, [odom10]); ("driver", true, [laser0]); ("odometry", false, [odom20])].
Proof. unfold two_nodes, net_run. cbn [fold_left net_step nth_error k_topics k_got init_network app k_static]. repeat split. Qed.
Lemma unambiguous_two : unambiguous (k_got net2 0%nat).
Proof.
  intros m st m' st' H H' _ _ C. destruct (all_received_sent false 100 two_nodes) as (_ & _ & X). 
  pose proof (sent_two _ _ (X 0%nat m st H)) as Y. pose proof (sent_two _ _ (X 0%nat m' st' H')) as Y'. clear H H' X. rename Y into H, Y' into H'.
  destruct H as [(-> & ->)|[(-> & ->)|(-> & ->)]], H' as [(-> & ->)|[(-> & ->)|(-> & ->)]]; try (split; [reflexivity|intros _; reflexivity]);
    try (split; [reflexivity|intros [Y|Y]; [discriminate Y|exfalso; revert Y; vm_compute; discriminate]]); exfalso; revert C; vm_compute; discriminate.
Qed.
Example C87_two_nodes :
  0 <= 100 < dur_bound /\ net_ok two_nodes /\
  Forall (arrival_ok 100) (k_got net2 0%nat) /\ Forall (arrival_ok 100) (k_got net2 1%nat) /\
  ~ goes_back 0 (k_got net2 0%nat) /\ ~ goes_back 0 (k_got net2 1%nat) /\ caught_up net2 0 /\ caught_up net2 1 /\ unambiguous (k_got net2 0%nat) /\
  lookupTransform (node_core net2 0) "odom" "laser" 15 = Ok {| tm_stamp := 15; tm_frame := "odom"; tm_child := "laser"; tm_trans := v64 2 1 0; tm_rot := id64 |} /\
  lookupTransform (node_core net2 1) "odom" "laser" 15 = Ok {| tm_stamp := 15; tm_frame := "odom"; tm_child := "laser"; tm_trans := v64 2 1 0; tm_rot := id64 |}.
Proof.
  split; [split; vm_compute; [congruence|reflexivity]|]. split; [exact two_nodes_ok|]. destruct got_two as (G0 & G1 & T).
  assert (Ok1 : forall m, m = odom10 \/ m = odom20 \/ m = laser0 -> in_range 100 m) by (intros m [->|[->| ->]]; repeat split; vm_compute; congruence).
  assert (Nw : forall k, ((0 <=? k) && (k <? 1000))%Z = true -> valid_time k) by (intros k Hk; apply andb_true_iff in Hk as (A & B); apply Z.leb_le in A; apply Z.ltb_lt in B; split; [exact A|unfold time_bound; lia]).
  split; [rewrite G0; repeat (apply Forall_cons; [split; [apply Nw; reflexivity|apply Forall_cons; [apply Ok1; auto|apply Forall_nil]]|]); apply Forall_nil|].
  split; [rewrite G1; repeat (apply Forall_cons; [split; [apply Nw; reflexivity|apply Forall_cons; [apply Ok1; auto|apply Forall_nil]]|]); apply Forall_nil|].
  split; [rewrite G0; cbn [goes_back a_now]; lia|]. split; [rewrite G1; cbn [goes_back a_now]; lia|].
  split; [intros w st p H; rewrite T in H; rewrite G0; cbn [In] in H; destruct H as [H|[H|[H|[]]]]; injection H as <- <- <-; eexists; [split; [left; reflexivity|split; reflexivity]|split; [right; left; reflexivity|split; reflexivity]|split; [right; right; left; reflexivity|split; reflexivity]]|].
  split; [intros w st p H; rewrite T in H; rewrite G1; cbn [In] in H; destruct H as [H|[H|[H|[]]]]; injection H as <- <- <-; eexists; [split; [right; right; left; reflexivity|split; reflexivity]|split; [right; left; reflexivity|split; reflexivity]|split; [left; reflexivity|split; reflexivity]]|].
  split; [exact unambiguous_two|]. split; vmr.
Qed.

(** Two publishers that contradict each other (same frame, same stamp): nodes that received the same messages in
    different orders disagree for good. *)
Theorem C87_contradicting_publishers_refuted :
  let ops := [Broadcast "a" [msg "odom" "base" 10 (v64 1 0 0) id64]; Broadcast "b" [msg "odom" "base" 10 (v64 2 0 0) id64];
              Receive 0 0 50; Receive 0 1 50; Receive 1 1 50; Receive 1 0 50] in
  let n := net_run false 100 ops in
  lookupTransform (node_core n 0) "odom" "base" 0 = Ok {| tm_stamp := 10; tm_frame := "odom"; tm_child := "base"; tm_trans := v64 1 0 0; tm_rot := id64 |} /\
  lookupTransform (node_core n 1) "odom" "base" 0 = Ok {| tm_stamp := 10; tm_frame := "odom"; tm_child := "base"; tm_trans := v64 2 0 0; tm_rot := id64 |}.
Proof. cbv zeta. split; vmr. Qed.
Print Assumptions C87_contradicting_publishers_refuted.

(** A node whose clock jumped back between two messages has lost the first one. *)
Theorem C87_clock_jump_refuted :
  let ops := [Broadcast "a" [odom10]; Broadcast "a" [odom20]; Receive 0 0 50; Receive 0 1 51; Receive 1 0 50; Receive 1 1 49] in
  let n := net_run false 100 ops in
  (exists m, lookupTransform (node_core n 0) "odom" "base" 15 = Ok m) /\
  (exists e, lookupTransform (node_core n 1) "odom" "base" 15 = Throw ExtrapolationException e).
Proof. cbv zeta. split; [apply ok_by; vmr|apply throw_by; vmr]. Qed.
Print Assumptions C87_clock_jump_refuted.

