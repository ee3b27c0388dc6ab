(** * C94: what a remote client is told is what was broadcast *)
From Coq Require Import ZArith Bool List String Lia Arith Sorted.
From Verif Require Import RosTime Scalar LinearMath Cache BufferCore SpecCore CoreSet CoreTheorems LookupTheorems LookupTree LookupPose SpecReal Instances ExampleBuffers
  TfBuffer SpecWait TfAction SpecAction ActionProofs Requests TfTopics SpecTopics Network SpecNetwork NetworkProofs SpecRemote PropsAction PropsNetwork PropsReal.
Import ListNotations.
Open Scope Z_scope.
Open Scope string_scope.
Open Scope list_scope.

Section P.
Context {S : Scalar}.
Notation net_op := (net_op S).
Notation server_op := (@server_op S).

Lemma run_app : forall (a b : list server_op) sv sv' log, server_run sv (a ++ b) = (sv', log) ->
  exists sv1 la lb, server_run sv a = (sv1, la) /\ server_run sv1 b = (sv', lb) /\ log = la ++ lb.
Proof.
  induction a as [|o a IH]; intros b sv sv' log H; cbn [app server_run] in H |- *; [eauto 8|].
  destruct (server_step sv o) as [[s1 ev] x]. destruct (server_run s1 (a ++ b)) as [s2 l2] eqn:R. injection H as <- <-.
  destruct (IH _ _ _ _ R) as (sv1 & la & lb & A & B & ->). exists sv1, ((o, ev, x) :: la), lb. rewrite A. auto.
Qed.
Lemma not_yet : forall id r (log : list (@log_entry S)), times_finished id log = 0%nat -> ~ In (Succeeded id r) (events_in log).
Proof.
  intros id r log H I. unfold times_finished in H. apply length_zero_iff_nil in H.
  assert (J : In (Succeeded id r) (filter (finishes id) (events_in log))) by (apply filter_In; split; [exact I|apply Nat.eqb_refl]). rewrite H in J. destruct J.
Qed.
Lemma sorted_after : forall (a b : list (nat * server_op)) x y, StronglySorted le (map fst (a ++ x :: b)) -> In y (x :: b) -> (fst x <= fst y)%nat.
Proof.
  intros a b x y H I. rewrite map_app in H. cbn [map] in H. induction (map fst a) as [|z l IH]; cbn [app] in H; inversion H as [|? ? H1 H2]; subst.
  - destruct I as [<-|I]; [lia|]. rewrite Forall_forall in H2. apply H2, in_map, I.
  - apply IH. exact H1.
Qed.

(** The result of a goal is looked up in a buffer the server saw after the goal had come. *)
Theorem result_after_goal : forall (sops : list (nat * server_op)) sv log g r,
  NoDup (goal_ids (map snd sops)) -> server_run empty_server (map snd sops) = (sv, log) -> StronglySorted le (map fst sops) ->
  (exists now0 o, In (SGoal g now0 o) (map snd sops)) -> In (Succeeded (g_id g) r) (events_in log) ->
  exists k now0 o, In (k, SGoal g now0 o) sops /\
  exists k' o' c, In (k', o') sops /\ (k <= k')%nat /\ looked_in o' c /\ answers r (lookup (goal_question g) c).
Proof.
  intros sops sv log g r N H St (now0 & o & I) E.
  apply in_map_iff in I as ([k x] & X & I). cbn [snd] in X. subst x. exists k, now0, o. split; [exact I|].
  destruct (in_split _ _ I) as (l1 & l2 & ->). rewrite map_app in N, H. cbn [map snd] in N, H.
  destruct (run_app _ _ _ _ _ H) as (sv1 & la & lb & Ra & Rb & ->).
  assert (U : ~ In (g_id g) (goal_ids (map snd l1))).
  { unfold goal_ids in N |- *. rewrite flat_map_app in N. cbn [flat_map app] in N. apply NoDup_remove_2 in N. intros J. apply N, in_or_app. left. exact J. }
  assert (F : In (Succeeded (g_id g) r) (events_in lb)).
  { unfold events_in in E |- *. rewrite flat_map_app in E. apply in_app_or in E as [E|E]; [|exact E]. exfalso.
    exact (not_yet (g_id g) r la (never_if_unknown _ _ _ Ra _ U) E). }
  destruct (run_came _ [] _ _ _ Ra (Forall_nil _) (Forall_nil _)) as ((A & B) & _). cbn [app] in A, B.
  destruct (run_came _ _ _ _ _ Rb A B) as (_ & G). destruct (G _ _ F) as (g' & c & o' & G1 & (n1 & s1 & G2) & G3 & G4 & G5).
  assert (g' = g). { eapply goal_unique; [exact N|exact G2| |exact G1]. apply in_or_app. right. left. reflexivity. }
  subst g'. change (SGoal g now0 o :: map snd l2) with (map snd ((k, SGoal g now0 o) :: l2)) in G3. apply in_map_iff in G3 as ([k' x] & X & G3). cbn [snd] in X. subst x.
  exists k', o', c. split; [apply in_or_app; right; exact G3|]. split; [exact (sorted_after l1 l2 (k, SGoal g now0 o) (k', o') St G3)|]. split; [exact G4|exact G5].
Qed.

(** What was broadcast stays broadcast. *)
Lemma sent_prefix : forall n (ops : list net_op) m st, sent (firstn n ops) m st -> sent ops m st.
Proof.
  intros n ops m st (o & I & H). exists o. split; [|exact H]. rewrite <- (firstn_skipn n ops). apply in_or_app. left. exact I.
Qed.
Lemma sent_link_prefix : forall n (ops : list net_op) m c p, sent_link (firstn n ops) m c p -> sent_link ops m c p.
Proof. intros n ops m c p ((st & H) & X). split; [exists st; eapply sent_prefix, H|exact X]. Qed.
Lemma link_prefix : forall n (ops : list net_op) t d, broadcast_link (firstn n ops) t d -> broadcast_link ops t d.
Proof.
  intros n ops t d [m m0 p A B C D|m A B C|m m' A B C D|m m' p A B C D E].
  - eapply of_static; [eapply sent_link_prefix, A|eapply sent_prefix, B|eapply sent_link_prefix, C|exact D].
  - eapply at_its_stamp; [eapply sent_link_prefix, A|exact B|exact C].
  - eapply between; [eapply sent_link_prefix, A|eapply sent_link_prefix, B|exact C|exact D].
  - eapply before_change; [eapply sent_link_prefix, A|eapply sent_link_prefix, B|exact C|exact D|exact E].
Qed.
End P.

(** A remote lookup that the server answers gives what the node the server runs on would
    have answered itself at some moment after the goal had come in: no answer is older than the question. *)
Theorem C94_no_answer_older_than_the_question :
  forall (S : Scalar) warn ct (nops : list (net_op S)) j (sops : list (nat * @server_op S)) sv log id padding answer u timeout r,
  on_node warn ct nops j sops ->
  NoDup (goal_ids (map snd sops)) -> server_run empty_server (map snd sops) = (sv, log) -> served (map snd sops) log answer ->
  - dur_bound <= timeout + padding < dur_bound ->
  answer (client_goal id u timeout) = Success r ->
  exists k now0 o, In (k, SGoal (client_goal id u timeout) now0 o) sops /\
  exists n, (k <= n <= List.length nops)%nat /\
    client_lookup id padding answer u timeout = lookup u (node_core (net_run warn ct (firstn n nops)) j).
Proof.
  intros S warn ct nops j sops sv log id padding answer u timeout r (St & See) N H Sv V A.
  destruct (Sv _ _ A) as (G & E). destruct (result_after_goal sops sv log _ r N H St G E) as (k & now0 & o & I & k' & o' & c & I' & L & Lk & An).
  exists k, now0, o. split; [exact I|]. destruct (See _ _ _ I' Lk) as (n & Ln & ->). exists n. split; [lia|].
  destruct (client_goal_question id u timeout) as (Q & T & _). rewrite Q in An. rewrite client_lookup_goal. fold (client_goal id u timeout). unfold processGoal. rewrite T.
  replace (dur_add timeout padding) with (Some (timeout + padding)).
  2:{ unfold dur_add, valid_durb. destruct V as [V1 V2]. rewrite (proj2 (Z.leb_le _ _) V1), (proj2 (Z.ltb_lt _ _) V2). reflexivity. }
  cbn [lift_time bind]. rewrite A. apply processResult_answers, An.
Qed.
Print Assumptions C94_no_answer_older_than_the_question.

Lemma broadcasts_prefix : forall (S : Scalar) warn ct (nops : list (net_op S)) j n tgt src t m, 0 <= ct < dur_bound -> net_ok nops -> tgt <> src ->
  lookupTransform (node_core (net_run warn ct (firstn n nops)) j) tgt src t = Ok m -> from_broadcasts nops m tgt src t.
Proof.
  intros S warn ct nops j n tgt src t m Hct Hok Ne L.
  assert (Hok' : net_ok (firstn n nops)) by (intros m' st Sn; eapply Hok, sent_prefix, Sn).
  destruct (C87_only_what_was_broadcast S warn ct (firstn n nops) j tgt src t m Hct Hok' Ne L) as (P1 & P2 & P3 & P4).
  split; [exact P1|]. split; [exact P2|]. split; [exact P3|]. cbv zeta in P4 |- *.
  destruct P4 as [(ds & X & G & Y)|[(dt & X & G & Y)|(ds & dt & c & X & X' & G & G' & Y)]].
  - left. exists ds. split; [exact X|]. split; [|exact Y]. intros d D. eapply link_prefix, G, D.
  - right. left. exists dt. split; [exact X|]. split; [|exact Y]. intros d D. eapply link_prefix, G, D.
  - right. right. exists ds, dt, c. split; [exact X|]. split; [exact X'|]. split; [intros d D; eapply link_prefix, G, D|]. split; [intros d D; eapply link_prefix, G', D|exact Y].
Qed.
Lemma remote_ok : forall (S : Scalar) warn ct (nops : list (net_op S)) j (sops : list (nat * @server_op S)) sv log id padding answer u timeout m,
  on_node warn ct nops j sops ->
  NoDup (goal_ids (map snd sops)) -> server_run empty_server (map snd sops) = (sv, log) -> served (map snd sops) log answer ->
  - dur_bound <= timeout + padding < dur_bound -> client_lookup id padding answer u timeout = Ok m ->
  exists n, (n <= List.length nops)%nat /\ lookup u (node_core (net_run warn ct (firstn n nops)) j) = Ok m.
Proof.
  intros S warn ct nops j sops sv log id padding answer u timeout m On N H Sv V L.
  destruct (answer (client_goal id u timeout)) as [| |r] eqn:A.
  1,2: pose proof (remote_local _ _ _ id padding answer u timeout N H Sv V) as X; rewrite A in X; destruct X as [e X]; rewrite X in L; discriminate L.
  destruct (C94_no_answer_older_than_the_question S warn ct nops j sops sv log id padding answer _ timeout r On N H Sv V A) as (k & now0 & o & _ & n & Ln & E).
  exists n. split; [lia|]. rewrite <- E. exact L.
Qed.

(** A transform a remote client gets is composed of links somebody broadcast, and is for the time
    asked. *)
Theorem C94_only_what_was_broadcast :
  forall (S : Scalar) warn ct (nops : list (net_op S)) j (sops : list (nat * @server_op S)) sv log id padding answer tgt src t timeout m,
  0 <= ct < dur_bound -> net_ok nops -> on_node warn ct nops j sops ->
  NoDup (goal_ids (map snd sops)) -> server_run empty_server (map snd sops) = (sv, log) -> served (map snd sops) log answer ->
  - dur_bound <= timeout + padding < dur_bound -> tgt <> src ->
  client_lookupTransform id padding answer tgt src t timeout = Ok m -> from_broadcasts nops m tgt src t.
Proof.
  intros S warn ct nops j sops sv log id padding answer tgt src t timeout m Hct Hok On N H Sv V Ne L.
  change (client_lookupTransform id padding answer tgt src t timeout) with (client_lookup id padding answer (Simple tgt src t) timeout) in L.
  destruct (remote_ok S warn ct nops j sops sv log id padding answer _ timeout m On N H Sv V L) as (n & _ & E).
  exact (broadcasts_prefix S warn ct nops j n tgt src t m Hct Hok Ne E).
Qed.
Print Assumptions C94_only_what_was_broadcast.

(** The same of an advanced lookup: both of its legs are composed of broadcast links, and were known to
    the node at one moment. *)
Theorem C94_both_legs_were_broadcast :
  forall (S : Scalar) warn ct (nops : list (net_op S)) j (sops : list (nat * @server_op S)) sv log id padding answer tgt t1 src t2 fix_ timeout m,
  0 <= ct < dur_bound -> net_ok nops -> on_node warn ct nops j sops ->
  NoDup (goal_ids (map snd sops)) -> server_run empty_server (map snd sops) = (sv, log) -> served (map snd sops) log answer ->
  - dur_bound <= timeout + padding < dur_bound -> tgt <> fix_ -> fix_ <> src ->
  client_lookupTransformFixed id padding answer tgt t1 src t2 fix_ timeout = Ok m ->
  tm_frame m = tgt /\ tm_child m = src /\
  exists m1 m2 n, from_broadcasts nops m1 fix_ src t2 /\ from_broadcasts nops m2 tgt fix_ t1 /\ tm_stamp m = tm_stamp m2 /\
    let s := node_core (net_run warn ct (firstn n nops)) j in
    lookupTransform s fix_ src t2 = Ok m1 /\ lookupTransform s tgt fix_ t1 = Ok m2 /\ lookupTransformFixed s tgt t1 src t2 fix_ = Ok m.
Proof.
  intros S warn ct nops j sops sv log id padding answer tgt t1 src t2 fix_ timeout m Hct Hok On N H Sv V Ne1 Ne2 L.
  change (client_lookupTransformFixed id padding answer tgt t1 src t2 fix_ timeout) with (client_lookup id padding answer (Advanced tgt t1 src t2 fix_) timeout) in L.
  destruct (remote_ok S warn ct nops j sops sv log id padding answer _ timeout m On N H Sv V L) as (n & _ & E). cbn [lookup] in E.
  assert (Hok' : net_ok (firstn n nops)) by (intros m' st Sn; eapply Hok, sent_prefix, Sn).
  pose proof (node_reachable warn ct (firstn n nops) j Hct Hok') as R.
  pose proof E as X. apply (ex_intro (fun m => _ = Ok m)) in X. apply (C24_fixed_succeeds_iff S _ tgt t1 src t2 fix_ R) in X as (_ & _ & _ & (m1 & L1) & (m2 & L2)).
  destruct (C24_fixed_header S _ _ _ _ _ _ _ _ E L2) as (A & B & C).
  split; [exact A|]. split; [exact B|]. exists m1, m2, n. cbv zeta.
  split; [exact (broadcasts_prefix S warn ct nops j n _ _ _ _ Hct Hok Ne2 L1)|]. split; [exact (broadcasts_prefix S warn ct nops j n _ _ _ _ Hct Hok Ne1 L2)|]. auto.
Qed.
Print Assumptions C94_both_legs_were_broadcast.

(** ** an example *)
(** A server on node 0 of the network [two_nodes] of C87.  Goal 1 comes when only the odometry for time 10
    has come in (event 4) and waits; a tick after event 4 finds nothing, one after event 6 answers.  Goal 2 comes
    at the end and is answered at once. *)
Notation at_event n := (node_core (@net_run D64 false 100 (firstn n two_nodes)) 0).
Definition remote_ops : list (nat * @server_op D64) :=
  [ (4%nat, SGoal (ask 1 (Simple "odom" "laser" 15) 100) 100 (mkSight (at_event 4) 100 (at_event 4)));
    (4%nat, SPush 1);
    (4%nat, STick (fun _ => mkSight (at_event 4) 100 (at_event 4)));
    (5%nat, STick (fun _ => mkSight (at_event 6) 102 (at_event 7)));
    (10%nat, SGoal (ask 2 (Simple "laser" "nowhere" 15) 0) 300 (mkSight (at_event 10) 300 (at_event 10)));
    (10%nat, SGoal (ask 3 (Advanced "odom" 15 "laser" 12 "base") 0) 301 (mkSight (at_event 10) 301 (at_event 10))) ].
Definition remote_answer : goal -> reply D64 := from_log (map snd remote_ops) (snd (server_run empty_server (map snd remote_ops))).
Lemma remote_on_node : on_node false 100 two_nodes 0 remote_ops.
Proof.
  split; [unfold remote_ops; cbn [map fst]; repeat constructor; lia|].
  intros k o c I L. unfold remote_ops in I. cbn [In] in I.
  destruct I as [I|[I|[I|[I|[I|[I|[]]]]]]]; injection I as <- <-; cbn [looked_in v_lookup] in L.
  - exists 4%nat. split; [cbn; lia|exact L].
  - destruct L.
  - destruct L as [_ L]. exists 4%nat. split; [cbn; lia|exact L].
  - destruct L as [_ L]. exists 7%nat. split; [cbn; lia|exact L].
  - exists 10%nat. split; [cbn; lia|exact L].
  - exists 10%nat. split; [cbn; lia|exact L].
Qed.
Example C94_example :
  0 <= 100 < dur_bound /\ net_ok two_nodes /\ on_node false 100 two_nodes 0 remote_ops /\ NoDup (goal_ids (map snd remote_ops)) /\
  served (map snd remote_ops) (snd (server_run empty_server (map snd remote_ops))) remote_answer /\
  client_lookupTransform 1 2000 remote_answer "odom" "laser" 15 100 = Ok {| tm_stamp := 15; tm_frame := "odom"; tm_child := "laser"; tm_trans := v64 2 1 0; tm_rot := id64 |} /\
  show_lookup (client_lookup 2 2000 remote_answer (Simple "laser" "nowhere" 15) 0) = (Some LookupException, None) /\
  client_lookupTransformFixed 3 2000 remote_answer "odom" 15 "laser" 12 "base" 0 = Ok {| tm_stamp := 15; tm_frame := "odom"; tm_child := "laser"; tm_trans := v64 2 1 0; tm_rot := id64 |}.
Proof.
  split; [split; vm_compute; [congruence|reflexivity]|]. split; [exact two_nodes_ok|]. split; [exact remote_on_node|].
  split. { replace (goal_ids (map snd remote_ops)) with [1; 2; 3]%nat by reflexivity. repeat constructor; cbn; intuition congruence. }
  split; [apply from_log_served|]. split; [vmr|]. split; vmr.
Qed.
