(** * C95: what a message filter calls ready can be transformed, by what was broadcast *)
From Coq Require Import ZArith Bool List String Lia Arith.
From Verif Require Import RosTime Scalar LinearMath Cache SpecCache BufferCore SpecCore CoreInv CoreSet CoreTheorems History LookupTheorems LookupTree LookupPose LookupDirect SpecReal Malformed Instances ExampleBuffers
  Requests SpecRequests RequestProofs TfTopics SpecTopics TopicProofs MessageFilter SpecFilter FilterProofs Network SpecNetwork NetworkProofs SpecRemote SpecFilterNet
  PropsLookup PropsRequests PropsFilter PropsNetwork.
Import ListNotations.
Open Scope list_scope.
Open Scope Z_scope.
Local Opaque MAX_GRAPH_DEPTH.

Section P.
Context {S : Scalar}.
Notation net_op := (net_op S).
Notation filt := (filt S).

Lemma fed_ok : forall (nops : list net_op) cops, net_ok nops -> Forall (fed nops) cops -> Forall (@op_ok S) cops.
Proof. intros nops cops Ok F. eapply Forall_impl; [|exact F]. intros [m a st|] H; [exact (Ok m st H)|exact I]. Qed.

Theorem fed_link : forall ct (nops : list net_op) cops t nm d, 0 <= ct < dur_bound -> net_ok nops -> Forall (fed nops) cops ->
  link (run (init_core ct) cops) t nm = Some d -> broadcast_link nops t d.
Proof.
  intros ct nops cops t nm d Hct Ok Fd L. pose proof (fed_ok nops cops Ok Fd) as F. rewrite Forall_forall in Fd.
  destruct (link_origin ct cops t nm d Hct F L) as (_ & N).
  assert (Sn : forall m a st, In (OSet m a st) cops -> sent nops m st) by (intros m a st H; exact (Fd _ H)).
  assert (Lk : forall m p, (exists st, set_for cops (st_child d) m st) -> stripSlash (tm_frame m) = p -> sent_link nops m (st_child d) p).
  { intros m p (st & a & H & B & C) P. split; [exists st; exact (Sn m a st H)|]. split; [apply not_malformed, B|]. split; assumption. }
  destruct N as [(m & m0 & A & P & S0 & Q)|[(m & A & P & T & Q)|(m & m' & A & A' & P & T & [(P' & Q)|(P' & Q)])]].
  - eapply of_static with (m0 := m0) (p := stripSlash (tm_frame m0)); [apply Lk; [exact A|exact P]| | |exact Q]; [destruct S0 as (a & H & _); exact (Sn _ _ _ H)|apply Lk; [exists true; exact S0|reflexivity]].
  - eapply at_its_stamp; [apply Lk; [exact A|exact P]|exact T|exact Q].
  - eapply between with (m' := m'); [apply Lk; [exact A|exact P]|apply Lk; [exact A'|exact P']|exact T|exact Q].
  - eapply before_change with (m' := m') (p := stripSlash (tm_frame m')); [apply Lk; [exact A|exact P]|apply Lk; [exact A'|reflexivity]|exact P'|exact T|exact Q].
Qed.

Theorem fed_lookup : forall ct (nops : list net_op) cops tgt src t m, 0 <= ct < dur_bound -> net_ok nops -> Forall (fed nops) cops -> tgt <> src ->
  lookupTransform (run (init_core ct) cops) tgt src t = Ok m -> from_broadcasts nops m tgt src t.
Proof.
  intros ct nops cops tgt src t m Hct Ok Fd Ne H. set (s := run (init_core ct) cops) in *.
  assert (R : reachable s) by (exists ct, cops; split; [exact Hct|]; split; [eapply fed_ok; eassumption|reflexivity]).
  destruct (lookup_header _ _ _ _ _ R H) as (A & B & C & _). split; [exact A|]. split; [exact B|]. split; [exact C|]. cbv zeta.
  assert (G : forall a ds b, climbs s (tm_stamp m) a ds b -> leads a ds b /\ forall d, In d ds -> broadcast_link nops (tm_stamp m) d).
  { intros a ds b X. destruct (climbs_links _ _ _ _ _ R X) as (Y & Z). split; [exact Y|]. intros d Hd. destruct (Z d Hd) as (nm & L). exact (fed_link ct nops cops _ nm d Hct Ok Fd L). }
  destruct (lookup_pose_cases _ _ _ _ _ R Ne H) as [(ds & X & E)|[(dt & X & E)|(ds & dt & c & X & Y & _ & E)]].
  - left. exists ds. destruct (G _ _ _ X). auto.
  - right. left. exists dt. destruct (G _ _ _ X). auto.
  - right. right. exists ds, dt, c. destruct (G _ _ _ X), (G _ _ _ Y). auto 10.
Qed.

(** The buffer under a filter *)
Lemma transformable_buf : forall (f : filt) h r, f_buf (fst (mf_transformable f h r)) = f_buf f.
Proof.
  intros f h r. unfold mf_transformable. destruct (find_info h (f_msgs f)) as [[[l1 i0] l2]|]; [|reflexivity].
  destruct (Nat.ltb _ _); [reflexivity|]. destruct (match r with TransformAvailable => _ | TransformFailure => _ end) as [[]| |]; reflexivity.
Qed.
Lemma fire_buf : forall evs (f : filt) read, f_buf (fst (fire f evs read)) = f_buf f.
Proof.
  induction evs as [|e evs IH]; intros f read; [reflexivity|]. cbn [fire]. destruct (ev_cb e =? f_cb f); [|apply IH].
  pose proof (transformable_buf f (ev_handle e) (read O)) as E. destruct (mf_transformable f (ev_handle e) (read O)) as [f1 [x| |]]; cbn [fst] in *; [rewrite IH; exact E|exact E|exact E].
Qed.
Lemma finish_core : forall (f : filt) i, b_core (f_buf (add_finish f i)) = b_core (f_buf f).
Proof.
  intros f i. unfold add_finish. destruct (Nat.eqb _ _); [reflexivity|]. destruct (negb _ && _); [|reflexivity].
  destruct (f_msgs f) as [|x l]; [reflexivity|]. cbn [with_msgs emit with_buf f_buf]. apply cancel_all_core.
Qed.
Lemma add_core : forall (f : filt) fr st, b_core (f_buf (fst (mf_add f fr st))) = b_core (f_buf f).
Proof.
  intros f fr st. unfold mf_add, add_begin. destruct (f_targets (note_added f fr st)) as [|tgt l]; [reflexivity|]. destruct (String.eqb _ _); [reflexivity|].
  pose proof (add_requests_core (tgt :: l) (f_buf (note_added f fr st)) (f_cb (note_added f fr st)) (mf_stripSlash fr) st (f_tol (note_added f fr st)) (O, [])) as E.
  destruct (add_requests _ _ _ _ _ _ _) as [b r]. cbn [fst] in E. destruct r as [[[n hs]|]| |]; cbn [fst]; [|exact E..]. rewrite finish_core. exact E.
Qed.
Lemma step_core : forall (f : filt) o, exists cops, b_core (f_buf (mf_step f o)) = run (b_core (f_buf f)) cops /\
  forall m a st, In (OSet m a st) cops -> exists read, o = MTransform m a st read.
Proof.
  intros f o. assert (Same : forall f' : filt, b_core (f_buf f') = b_core (f_buf f) -> exists cops, b_core (f_buf f') = run (b_core (f_buf f)) cops /\ forall m a st, In (OSet m a st) cops -> exists read, o = MTransform m a st read).
  { intros f' E. exists []. split; [exact E|]. intros m a st []. }
  destruct o as [fr st|l|d|n| | |m a st read|o]; cbn [mf_step].
  - apply Same, add_core.
  - apply Same. reflexivity.
  - apply Same. reflexivity.
  - apply Same. reflexivity.
  - apply Same. unfold mf_clear, addTransformableCallback, removeTransformableCallback. destruct (next_cb_handle _ _ _); reflexivity.
  - apply Same. unfold mf_spin. destruct (f_outbox f); reflexivity.
  - exists [OSet m a st]. split.
    + pose proof (set_transform_core (f_buf f) m a st) as E. unfold mf_set_transform. destruct (set_transform (f_buf f) m a st) as [b r]. cbn [fst] in E.
      destruct r as [[v evs]| |]; [|exact E..]. pose proof (fire_buf evs (with_buf f b) read) as E2. destruct (fire (with_buf f b) evs read) as [f2 [x| |]]; cbn [fst] in *; rewrite E2; exact E.
    + intros m' a' st' [H|[]]. injection H as <- <- <-. exists read. reflexivity.
  - destruct (polite f o) eqn:P; [|apply Same; reflexivity]. destruct o as [m a st| | |cb|cb tgt src t|h]; cbn [req_step]; [discriminate P| | | | |].
    + exists [OClear]. split; [reflexivity|]. intros m a st [H|[]]. discriminate H.
    + apply Same. unfold addTransformableCallback. destruct (next_cb_handle _ _ _); reflexivity.
    + apply Same. reflexivity.
    + apply Same. pose proof (add_request_core (f_buf f) cb tgt src t) as E. destruct (addTransformableRequest (f_buf f) cb tgt src t) as [b r]. exact E.
    + apply Same. reflexivity.
Qed.
Lemma run_core : forall (nops : list net_op) ops (f : filt), Forall (filter_fed nops) ops ->
  exists cops, b_core (f_buf (mf_run f ops)) = run (b_core (f_buf f)) cops /\ Forall (fed nops) cops.
Proof.
  intros nops. induction ops as [|o ops IH]; intros f F; [exists []; split; [reflexivity|constructor]|]. inversion F as [|? ? F1 F2]; subst. cbn [mf_run].
  destruct (step_core f o) as (c1 & E1 & H1). destruct (IH (mf_step f o) F2) as (c2 & E2 & H2). exists (c1 ++ c2). split.
  - rewrite E2, E1. unfold run. rewrite fold_left_app. reflexivity.
  - apply Forall_app. split; [|exact H2]. apply Forall_forall. intros [m a st|] H; [|exact I]. destruct (H1 _ _ _ H) as (read & ->). exact F1.
Qed.
Lemma new_core : forall ct target q cbq (f : filt), new_filter (init_buf ct) target q cbq = Some f -> b_core (f_buf f) = init_core ct.
Proof.
  intros ct target q cbq f H. unfold new_filter in H. unfold addTransformableCallback in H. destruct (next_cb_handle _ _ _) as [h|]; [|discriminate H]. injection H as <-. reflexivity.
Qed.
End P.

(** Whatever is put into a buffer, in whatever order and between whatever clear()s: if all of it was
    broadcast, a transform looked up is composed of links somebody broadcast. *)
Theorem C95_any_buffer_fed_by_broadcasts :
  forall (S : Scalar) ct (nops : list (net_op S)) cops tgt src t m, 0 <= ct < dur_bound -> net_ok nops -> Forall (fed nops) cops -> tgt <> src ->
  lookupTransform (run (init_core ct) cops) tgt src t = Ok m -> from_broadcasts nops m tgt src t.
Proof. intros S. exact fed_lookup. Qed.
Print Assumptions C95_any_buffer_fed_by_broadcasts.

(** When a message filter on a node reports a message ready, the user's callback, run there and then,
    can look up the transform from the message's frame to each target frame, at the message's stamp and
    the tolerance after it; and what it gets is composed of links somebody broadcast. *)
Theorem C95_ready_means_transformable_by_broadcasts :
  forall (S : Scalar) ct (nops : list (net_op S)) target q cbq f0 ops o new out,
  0 <= ct < dur_bound -> sent_early nops -> new_filter (init_buf ct) target q cbq = Some f0 -> Forall (filter_fed nops) (ops ++ [o]) ->
  let f := mf_run f0 ops in let f' := mf_step f o in
  new_verdicts f f' new -> In out new -> o_outcome out = Ready ->
  let src := stripSlash (o_frame out) in
  forall tgt t, In tgt (f_targets f') -> tgt <> src -> plain tgt -> plain src -> needed_times (f_tol f') (o_stamp out) t -> 0 <= t < dur_bound ->
  exists m, lookupTransform (b_core (f_buf f')) tgt src t = Ok m /\ from_broadcasts nops m tgt src t.
Proof.
  intros S ct nops target q cbq f0 ops o new out Hct Er N Fd f f' V I Rd src tgt t It Ne P1 P2 Nt Ht.
  assert (Ok : net_ok nops) by (intros m st H; destruct (Er m st H); split; [assumption|unfold dur_bound, time_bound in *; lia]).
  assert (Mr : mf_reachable f) by (exists (init_buf ct), target, q, cbq, f0, ops; split; [exact N|reflexivity]).
  destruct (C46_ready_only_when_transformable S f o new out Mr V I Rd tgt It) as (A & B).
  assert (Av : available (b_core (f_buf f')) tgt src t = true).
  { destruct Nt as [->|(Tn & E)]; [destruct A as [A|A]; [destruct (Ne A)|exact A]|]. destruct (B Tn) as (t' & E' & [X|X]); [destruct (Ne X)|]. pose proof (eq_trans (eq_sym E') E) as Q. injection Q as ->. exact X. }
  destruct (run_core nops (ops ++ [o]) f0 Fd) as (cops & E & F).
  assert (E' : b_core (f_buf f') = run (init_core ct) cops).
  { rewrite <- (new_core ct target q cbq f0 N), <- E. unfold f', f. f_equal. f_equal. clear. revert f0. induction ops as [|x ops IH]; intros f0; [reflexivity|]. cbn [mf_run app]. apply IH. }
  rewrite E' in Av |- *. set (s := run (init_core ct) cops) in *.
  assert (R : reachable s) by (exists ct, cops; split; [exact Hct|]; split; [eapply fed_ok; eassumption|reflexivity]).
  assert (Ea : early s).
  { apply early_run; [exact Hct|eapply fed_ok; eassumption|]. intros m a st H. rewrite Forall_forall in F. apply (Er m st). exact (F _ H). }
  apply (C30_available_is_canTransform S s tgt src t R Ne P1 P2) in Av. apply (C13_can_iff_lookup S s tgt src t R Ea Ht) in Av as (m & L).
  exists m. split; [exact L|]. exact (fed_lookup ct nops cops tgt src t m Hct Ok F Ne L).
Qed.
Print Assumptions C95_ready_means_transformable_by_broadcasts.

(** ** an example *)
(** The laser of the network [two_nodes] of C87: a scan with stamp 15 waits for odometry up to 15 + 5. *)
Definition scan_ops : list (mf_op D64) :=
  [MSetTolerance 5; MTransform laser0 "driver" true avail; MTransform odom10 "odometry" false avail; MAdd "/laser" 15].
Definition scan_last : mf_op D64 := MTransform odom20 "odometry" false avail.
Notation scan_filter := (match new_filter (@init_buf D64 100) "/odom" 5 false with Some f => f | None => mkFilt (init_buf 0) 0 [] 0 0 0 [] false [] [] [] [] end).
Lemma scan_fed : Forall (filter_fed two_nodes) (scan_ops ++ [scan_last]).
Proof.
  unfold scan_ops, scan_last. cbn [app]. apply Forall_cons; [exact I|].
  apply Forall_cons; [exists (BroadcastStatic 0 "driver" [laser0]); split; [right; left; reflexivity|split; [reflexivity|left; reflexivity]]|].
  apply Forall_cons; [exists (Broadcast "odometry" [odom10]); split; [left; reflexivity|split; [reflexivity|left; reflexivity]]|].
  apply Forall_cons; [exact I|]. apply Forall_cons; [|apply Forall_nil].
  exists (Broadcast "odometry" [odom20]). split; [right; right; left; reflexivity|split; [reflexivity|left; reflexivity]].
Qed.
Lemma two_nodes_early : sent_early two_nodes.
Proof. intros m st H. destruct (sent_two m st H) as [(-> & _)|[(-> & _)|(-> & _)]]; (split; [vm_compute; congruence|vm_compute; reflexivity]). Qed.
Example C95_example :
  sent_early two_nodes /\ new_filter (@init_buf D64 100) "/odom" 5 false = Some scan_filter /\ Forall (filter_fed two_nodes) (scan_ops ++ [scan_last]) /\
  let f := mf_run scan_filter scan_ops in let f' := mf_step f scan_last in
  f_emitted f = [] /\ f_emitted f' = [mkOut 0 "/laser" 15 Ready] /\ f_targets f' = ["odom"] /\ f_tol f' = 5 /\
  lookupTransform (b_core (f_buf f')) "odom" "laser" 20 = Ok {| tm_stamp := 20; tm_frame := "odom"; tm_child := "laser"; tm_trans := v64 3 1 0; tm_rot := id64 |}.
Proof.
  split; [exact two_nodes_early|]. split; [reflexivity|]. split; [exact scan_fed|]. cbv zeta.
  split; [vmr|]. split; [vmr|]. split; [vmr|]. split; [vmr|]. vmr.
Qed.

(** With a callback queue the user's callback runs later; by then the transform a message was called ready
    for may have left the buffer. *)
Theorem C95_queued_callback_refuted :
  exists f : filt D64, mf_reachable f /\ f_delivered f = [mkOut 0 "/laser" 15 Ready] /\
  exists e, lookupTransform (b_core (f_buf f)) "odom" "laser" 15 = Throw ExtrapolationException e.
Proof.
  exists (mf_run (match new_filter (@init_buf D64 100) "/odom" 5 true with Some f => f | None => mkFilt (init_buf 0) 0 [] 0 0 0 [] false [] [] [] [] end)
    (scan_ops ++ [scan_last; MTransform (msg "odom" "base" 300 (v64 5 0 0) id64) "odometry" false avail; MSpin])).
  split; [|split; [vmr|apply throw_by; vmr]].
  exists (init_buf 100), "/odom", 5%nat, true. eexists. eexists. split; reflexivity.
Qed.
Print Assumptions C95_queued_callback_refuted.
