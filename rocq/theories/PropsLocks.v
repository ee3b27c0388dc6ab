(* C63, C64: calls from several threads, at the level of mutexes and shared variables. *)
From Coq Require Import List Bool Arith Lia.
From Verif Require Import SpecLocks Locks LockProofs LockRuns LockExec.
Import ListNotations.

(* A program of several threads: each makes any calls accepted by [P], in any order, any number of
   times, its exceptions caught. *)
Definition threads_of (C : setup) (P : call -> Prop) (progs : list (list (act mutex var))) : Prop :=
  forall tr, In tr progs -> exists o, client C P tr o.
Definition any_call (c : call) : Prop := True.

(** ** C63 *)
Theorem C63_never_deadlocks :
  forall C progs s, well_behaved C -> threads_of C any_call progs -> reach (start progs) s ->
  ~ finished s -> exists i, can_go s i.
Proof. exact threads_progress. Qed.
Print Assumptions C63_never_deadlocks.

Theorem C63_every_thread_finishes :
  forall C progs s, well_behaved C -> threads_of C any_call progs -> reach (start progs) s ->
  (exists s', reach s s' /\ finished s') /\
  (forall i s', step s i s' -> remaining (length progs) s' < remaining (length progs) s) /\
  (finished s -> forall i t, s i = Some t -> holds t = []).
Proof. exact threads_finish. Qed.
Print Assumptions C63_every_thread_finishes.

(* Programs used below: one buffer, one filter on it. *)
Definition quiet : setup :=
  mkSetup 1 (fun _ => 0) (fun _ => None) (fun _ => skip) (fun _ => skip) (fun _ => skip) True.
(* the usual output callback: look the transform up *)
Definition usual : setup :=
  mkSetup 1 (fun _ => 0) (fun _ => None) (fun _ => lookupTransform 0) (fun _ => skip) (fun _ => skip) True.
Lemma usual_well_behaved : well_behaved usual.
Proof.
  split; [|split].
  - intros f tr o H. cbn [usual output] in H. unfold polite. destruct o.
    + apply once_i. left. left. exists 0. left. exact H.
    + apply loop_throw. left. left. exists 0. left. exact H.
  - intros f tr o [-> ->]. apply loop_end.
  - intros b tr o [-> ->]. apply loop_end.
Qed.
(* a transform arrives, the queued message becomes ready and its callback looks up a transform *)
Definition fire : {tr | run usual (SetTransform 0) tr Done}.
Proof.
  eexists. go. R. go. all: go. 1: R; go. 1: L; go. 1: L; go. 1: R; go. 1: O.
  1: apply when_i; [exact I|]; go. 1: L; go. 1: L; go. 1: Z. 1: R; go. 1: Z. 1: R; go. 1: L; go. 1: O.
  1: apply when_i; [exact I|]; go. 1: apply (pick_i 0), when_i; [split; [constructor|reflexivity]|]; go.
  1: O; go. 1: R; go. 1: R; go. 1: R; go. 1: Z. 1: L. 1: unfold messageReady; cbn [usual queue_of]; go.
  1: cbn [usual output]; go. 1: R; go. 1: Z. exact skip_i.
Defined.
(* meanwhile another thread adds a message and the filter is cleared by a third *)
Definition adding : {tr | run usual (Add 0) tr Done}.
Proof.
  eexists. go. R. R. go. 1: O; go. 1: R; go. 1: Z. 1: R; go. 1: R; go. 1: Z. 1: R; go. R; go. 1: R; go. L; go.
Defined.
Definition clearing : {tr | run usual (FilterClear 0) tr Done}.
Proof. eexists. go. cbn [usual queue_of]. exact skip_i. Defined.
Example C63_example :
  well_behaved usual /\
  threads_of usual any_call [proj1_sig fire; proj1_sig adding; proj1_sig clearing] /\
  In (Acq (MessagesMx 0) Upgrade) (proj1_sig fire) /\ In (Acq (MessagesMx 0) Exclusive) (proj1_sig adding).
Proof.
  split; [exact usual_well_behaved|]. split.
  - intros tr [<-|[<-|[<-|[]]]]; exists Done.
    + exact (client_i usual any_call (SetTransform 0) _ I (proj2_sig fire)).
    + exact (client_i usual any_call (Add 0) _ I (proj2_sig adding)).
    + exact (client_i usual any_call (FilterClear 0) _ I (proj2_sig clearing)).
  - split; vm_compute; tauto.
Qed.

(* An output callback that adds a message to its own filter: the filter calls it with messages_mutex_
   held, and add() needs that mutex to queue the message. *)
Definition recursive_add : setup :=
  mkSetup 1 (fun _ => 0) (fun _ => None) (add quiet) (fun _ => skip) (fun _ => skip) True.
Definition fire_then_add : {tr | run recursive_add (SetTransform 0) tr Done}.
Proof.
  eexists. go. R. go. all: go. 1: R; go. 1: L; go. 1: L; go. 1: R; go. 1: O.
  1: apply when_i; [exact I|]; go. 1: L; go. 1: L; go. 1: Z. 1: R; go. 1: Z. 1: R; go. 1: L; go. 1: O.
  1: apply when_i; [exact I|]; go. 1: apply (pick_i 0), when_i; [split; [constructor|reflexivity]|]; go.
  1: O; go. 1: R; go. 1: R; go. 1: R; go. 1: Z. 1: L. 1: unfold messageReady; cbn [recursive_add queue_of]; go.
  1: cbn [recursive_add output]; go.
  1: R. 1: R; go. 1: O; go. 1: R; go. 1: Z. 1: R; go. 1: R; go. 1: Z. 1: R; go. 1: R; go. 1: R; go. 1: L; go.
  exact skip_i.
Defined.
Theorem C63_callback_adding_to_its_own_filter_refuted :
  exists C progs s, output C = add quiet /\ threads_of C any_call progs /\ reach (start progs) s /\
  stuck_for_good s 0.
Proof.
  set (t := proj1_sig fire_then_add).
  assert (H : exists s, reach (start [t]) s /\
    eqp (pool_of match runf [mkThread [] t] (repeat 0 44) with Some ts => ts | None => [] end) s).
  { apply (run_start (repeat 0 44)). vm_compute. reflexivity. }
  destruct H as (s & Rs & E). exists recursive_add, [t], s. split; [reflexivity|]. split.
  { intros tr [<-|[]]. exists Done. exact (client_i recursive_add any_call (SetTransform 0) _ I (proj2_sig fire_then_add)). }
  split; [exact Rs|]. specialize (E 0). vm_compute in E. symmetry in E.
  eapply self_stuck; [exact E| | |reflexivity]; [cbn [holds In]; tauto|]. exact (fun x => x).
Qed.
Print Assumptions C63_callback_adding_to_its_own_filter_refuted.

(* An output callback that sets a transform for which another queued message was waiting. *)
Definition recursive_set : setup :=
  mkSetup 1 (fun _ => 0) (fun _ => None) (fun _ => setTransform quiet 0) (fun _ => skip) (fun _ => skip) True.
Definition fire_then_set : {tr | run recursive_set (SetTransform 0) tr Done}.
Proof.
  eexists. go. R. go. 1: R; go. 1: L; go. 1: L; go. 1: R; go. 1: O.
  1: apply when_i; [exact I|]; go. 1: L; go. 1: L; go. 1: Z. 1: R; go. 1: Z. 1: R; go. 1: L; go. 1: O.
  1: apply when_i; [exact I|]; go. 1: apply (pick_i 0), when_i; [split; [constructor|reflexivity]|]; go.
  1: O; go. 1: R; go. 1: R; go. 1: R; go. 1: Z. 1: L. 1: unfold messageReady; cbn [recursive_set queue_of]; go.
  1: cbn [recursive_set output]; go.
  1: R; go. 1: R; go. 1: L; go. 1: L; go. 1: R; go. 1: O.
  1: apply when_i; [exact I|]; go. 1: L; go. 1: L; go. 1: Z. 1: R; go. 1: Z. 1: R; go. 1: L; go. 1: O.
  1: apply when_i; [exact I|]; go. 1: apply (pick_i 0), when_i; [split; [constructor|reflexivity]|]; go.
  1: O; go. 1: R; go. 1: R; go. 1: R; go. 1: Z. 1: L. 1: unfold messageReady; cbn [quiet queue_of]; go.
  all: exact skip_i.
Defined.
Theorem C63_callback_setting_a_transform_refuted :
  exists C progs s, output C = (fun _ => setTransform quiet 0) /\ threads_of C any_call progs /\
  reach (start progs) s /\ stuck_for_good s 0.
Proof.
  set (t := proj1_sig fire_then_set).
  assert (H : exists s, reach (start [t]) s /\
    eqp (pool_of match runf [mkThread [] t] (repeat 0 47) with Some ts => ts | None => [] end) s).
  { apply (run_start (repeat 0 47)). vm_compute. reflexivity. }
  destruct H as (s & Rs & E). exists recursive_set, [t], s. split; [reflexivity|]. split.
  { intros tr [<-|[]]. exists Done. exact (client_i recursive_set any_call (SetTransform 0) _ I (proj2_sig fire_then_set)). }
  split; [exact Rs|]. specialize (E 0). vm_compute in E. symmetry in E.
  eapply self_stuck; [exact E| | |reflexivity]; [cbn [holds In]; tauto|]. exact (fun x => x).
Qed.
Print Assumptions C63_callback_setting_a_transform_refuted.

(* With a callback queue the callback runs without messages_mutex_; but if it adds a message while
   another thread clears the filter, each waits for the other: clear() holds messages_mutex_ and waits
   for the running callback to end, the callback waits for messages_mutex_. *)
Definition quiet_queue : setup :=
  mkSetup 1 (fun _ => 0) (fun _ => Some 0) (fun _ => skip) (fun _ => skip) (fun _ => skip) True.
Definition queued_add : setup :=
  mkSetup 1 (fun _ => 0) (fun _ => Some 0) (add quiet_queue) (fun _ => skip) (fun _ => skip) True.
Definition deliver_then_add : {tr | run queued_add (Deliver 0) tr Done}.
Proof.
  eexists. go. cbn [queued_add queue_of]. go. L. go. cbn [queued_add output]. go.
  1: R. 1: R; go. 1: O; go. 1: R; go. 1: Z. 1: R; go. 1: R; go. 1: Z. 1: R; go. 1: R; go. 1: R; go. 1: L; go.
Defined.
Definition queued_clear : {tr | run queued_add (FilterClear 0) tr Done}.
Proof. eexists. go. cbn [queued_add queue_of]. go. Defined.
Theorem C63_clear_against_a_queued_callback_refuted :
  exists C progs s, queue_of C 0 = Some 0 /\ output C = add quiet_queue /\ threads_of C any_call progs /\
  reach (start progs) s /\ deadlocked s.
Proof.
  set (t := proj1_sig deliver_then_add). set (u := proj1_sig queued_clear).
  assert (H : exists s, reach (start [t; u]) s /\
    eqp (pool_of match runf [mkThread [] t; mkThread [] u] (repeat 0 20 ++ repeat 1 13) with Some ts => ts | None => [] end) s).
  { apply (run_start (repeat 0 20 ++ repeat 1 13)). vm_compute. reflexivity. }
  destruct H as (s & Rs & E). exists queued_add, [t; u], s. split; [reflexivity|]. split; [reflexivity|]. split.
  { intros tr [<-|[<-|[]]]; exists Done.
    - exact (client_i queued_add any_call (Deliver 0) _ I (proj2_sig deliver_then_add)).
    - exact (client_i queued_add any_call (FilterClear 0) _ I (proj2_sig queued_clear)). }
  split; [exact Rs|]. assert (E0 := E 0). assert (E1 := E 1). vm_compute in E0, E1. symmetry in E0, E1.
  assert (E2 : forall i, 2 <= i -> s i = None).
  { intros i Hi. rewrite <- E. unfold pool_of. apply nth_error_None. vm_compute. exact Hi. }
  clear E. split.
  - intros F. specialize (F 0 _ E0). discriminate F.
  - intros i s' St. destruct i as [|[|i]].
    + inversion St as [h l m k Hi Hf|h1 h2 l k Hi Ho|h1 h2 l k Hi|h1 h2 l m k Hi|h x k Hi|h x k Hi];
        rewrite E0 in Hi; try discriminate Hi. injection Hi as <- <- <- <-.
      eapply (fun H => Hf 1 _ _ E1 H). cbn [holds In]. tauto.
    + inversion St as [h l m k Hi Hf|h1 h2 l k Hi Ho|h1 h2 l k Hi|h1 h2 l m k Hi|h x k Hi|h x k Hi];
        rewrite E1 in Hi; try discriminate Hi. injection Hi as <- <- <- <-.
      eapply (fun H => Hf 0 _ _ E0 H). cbn [holds In]. tauto.
    + assert (N : s (S (S i)) = None) by (apply E2; lia).
      destruct St as [h l m k Hi Hf|h1 h2 l k Hi Ho|h1 h2 l k Hi|h1 h2 l m k Hi|h x k Hi|h x k Hi];
        rewrite N in Hi; discriminate Hi.
Qed.
Print Assumptions C63_clear_against_a_queued_callback_refuted.

(** ** C64 *)
(* Variables only ever touched under their mutex. *)
Definition always_protected (x : var) : Prop :=
  match x with
  | Requests _ | CallbackMap _ | Messages _ | Statistics _ | FailureSlots _ | Goals _ => True
  | _ => False
  end.
Theorem C64_lists_and_queues_never_race :
  forall C progs s x, well_behaved C -> threads_of C any_call progs -> reach (start progs) s ->
  always_protected x -> ~ race s x.
Proof.
  intros C progs s x W T Rs Hx.
  destruct x; cbn [always_protected] in Hx; try contradiction;
  refine (threads_no_race 0 C any_call progs s _ _ (fun c _ => safe_run0 C c W) T Rs _); reflexivity.
Qed.
Print Assumptions C64_lists_and_queues_never_race.

(* Without transformable requests (so without message filters at work): the transforms themselves. *)
Theorem C64_transforms_never_race_without_requests :
  forall C progs s b, well_behaved C -> ~ requests_made C -> threads_of C without_requests progs ->
  reach (start progs) s -> ~ race s (FrameData b).
Proof.
  intros C progs s b W N T Rs.
  refine (threads_no_race 1 C without_requests progs s _ _ (fun c Hc => safe_run1 C c W N Hc) T Rs _); reflexivity.
Qed.
Print Assumptions C64_transforms_never_race_without_requests.

(* ... and without fixed-frame lookups: the frame names too. *)
Theorem C64_names_never_race_without_fixed_lookups :
  forall C progs s b, ~ requests_made C -> (forall b tr o, listener C b tr o -> skip tr o) ->
  threads_of C without_fixed progs -> reach (start progs) s ->
  ~ race s (FrameNames b) /\ ~ race s (FrameData b).
Proof.
  intros C progs s b N Hl T Rs.
  split; refine (threads_no_race 2 C without_fixed progs s _ _ (fun c Hc => safe_run2 C c N Hl Hc) T Rs _); reflexivity.
Qed.
Print Assumptions C64_names_never_race_without_fixed_lookups.

(* A program in which nobody makes requests. *)
Definition plain : setup :=
  mkSetup 0 (fun _ => 0) (fun _ => None) (fun _ => skip) (fun _ => skip) (fun _ => skip) False.
Definition new_frame : {tr | run plain (SetTransform 0) tr Done}.
Proof.
  eexists. go. R. go. 1: R; go. 1: R; go. 1: R; go. 1: R; go. 1: Z. 1: Z. exact skip_i.
Defined.
Definition fixed_lookup : {tr | run plain (LookupFixed 0) tr Done}.
Proof. eexists. go. 1: L. 1: L; go. L; L; go. Defined.
Example C64_example :
  ~ requests_made plain /\ threads_of plain without_fixed [proj1_sig new_frame; proj1_sig new_frame] /\
  In (Wr (FrameData 0)) (proj1_sig new_frame) /\ In (Wr (FrameNames 0)) (proj1_sig new_frame).
Proof.
  split; [exact (fun x => x)|]. split; [|split; vm_compute; tauto].
  intros tr [<-|[<-|[]]]; exists Done; exact (client_i plain without_fixed (SetTransform 0) _ I (proj2_sig new_frame)).
Qed.

Definition races (C : setup) (P : call -> Prop) (x : var) : Prop :=
  exists progs s, threads_of C P progs /\ reach (start progs) s /\ race s x.
Lemma races_by C (P : call -> Prop) x c1 c2 (t1 : {tr | run C c1 tr Done}) (t2 : {tr | run C c2 tr Done}) n1 n2 :
  P c1 -> P c2 ->
  match runf [mkThread [] (proj1_sig t1); mkThread [] (proj1_sig t2)] (repeat 0 n1 ++ repeat 1 n2) with
  | Some [mkThread _ (a :: _); mkThread _ (b :: _)] => accesses a x /\ accesses b x /\ (a = Wr x \/ b = Wr x)
  | _ => False
  end -> races C P x.
Proof.
  intros H1 H2 H.
  destruct (runf [mkThread [] (proj1_sig t1); mkThread [] (proj1_sig t2)] (repeat 0 n1 ++ repeat 1 n2)) as [ts|] eqn:E; [|contradiction].
  destruct (run_start (repeat 0 n1 ++ repeat 1 n2) [proj1_sig t1; proj1_sig t2] ts E) as (s & Rs & Es).
  destruct ts as [|[h1 [|a k1]] [|[h2 [|b k2]] [|? ?]]]; try contradiction.
  exists [proj1_sig t1; proj1_sig t2], s. split.
  { intros tr [<-|[<-|[]]]; exists Done; [exact (client_i C P c1 _ H1 (proj2_sig t1))|exact (client_i C P c2 _ H2 (proj2_sig t2))]. }
  split; [exact Rs|]. destruct H as (Ha & Hb & Hw).
  exists 0, 1, (mkThread h1 (a :: k1)), (mkThread h2 (b :: k2)), a, b, k1, k2.
  split; [discriminate|]. rewrite <- !Es. cbn [pool_of nth_error todo]. repeat (split; [first [reflexivity|assumption]|]). exact Hw.
Qed.
Ltac race_now := vm_compute; unfold accesses; auto.

(* A fixed-frame lookup reads the table of names without the lock, while setTransform adds a name. *)
Theorem C64_fixed_frame_lookup_races_refuted : races plain without_requests (FrameNames 0).
Proof. apply (races_by plain without_requests _ (LookupFixed 0) (SetTransform 0) fixed_lookup new_frame 0 3); [exact I|exact I|race_now]. Qed.
Print Assumptions C64_fixed_frame_lookup_races_refuted.

(* A request walks the tree without the lock, while setTransform changes it. *)
Definition request : {tr | run quiet (AddRequest 0) tr Done}.
Proof. eexists. go. R; go. 1: Z. 1: R; go. 1: R; go. 1: O; go. 1: L; go. R; go. Defined.
Definition set_only : {tr | run quiet (SetTransform 0) tr Done}.
Proof. eexists. go. R. go. 1: R; go. 1: L; go. 1: L; go. 1: R; go. 1: Z. 1: Z. exact skip_i. Defined.
Theorem C64_requests_race_with_setTransform_refuted :
  races quiet any_call (FrameData 0) /\ races quiet any_call (FrameNames 0) /\ races quiet any_call (RequestCounter 0).
Proof.
  split; [|split].
  - apply (races_by quiet any_call _ (AddRequest 0) (SetTransform 0) request set_only 4 2); [exact I|exact I|race_now].
  - apply (races_by quiet any_call _ (AddRequest 0) (SetTransform 0) request set_only 0 3); [exact I|exact I|race_now].
  - apply (races_by quiet any_call _ (AddRequest 0) (AddRequest 0) request request 5 5); [exact I|exact I|race_now].
Qed.
Print Assumptions C64_requests_race_with_setTransform_refuted.

(* setTransform calls a filter's callback through a reference into the callback map, after all locks
   are released, while clear() (or the destructor) of that filter erases the entry. *)
Theorem C64_callback_used_while_destroyed_refuted : races usual any_call (CallbackEntry 0).
Proof. apply (races_by usual any_call _ (SetTransform 0) (FilterClear 0) fire clearing 18 3); [exact I|exact I|race_now]. Qed.
Print Assumptions C64_callback_used_while_destroyed_refuted.

(* Reconfiguring a filter while messages arrive. *)
Definition set_targets : {tr | run usual (SetTargetFrames 0) tr Done}.
Proof. eexists. go. Defined.
Definition set_tolerance : {tr | run usual (SetTolerance 0) tr Done}.
Proof. eexists. go. Defined.
Definition set_size : {tr | run usual (SetQueueSize 0) tr Done}.
Proof. eexists. go. Defined.
Theorem C64_reconfiguring_a_filter_races_refuted :
  races usual any_call (Targets 0) /\ races usual any_call (ExpectedCount 0) /\
  races usual any_call (Tolerance 0) /\ races usual any_call (QueueSize 0) /\
  races usual any_call (CallbackHandle 0) /\ races usual any_call (Incoming 0).
Proof.
  split; [|split; [|split; [|split; [|split]]]].
  - apply (races_by usual any_call _ (Add 0) (SetTargetFrames 0) adding set_targets 0 1); [exact I|exact I|race_now].
  - apply (races_by usual any_call _ (Add 0) (SetTargetFrames 0) adding set_targets 1 3); [exact I|exact I|race_now].
  - apply (races_by usual any_call _ (Add 0) (SetTolerance 0) adding set_tolerance 14 1); [exact I|exact I|race_now].
  - apply (races_by usual any_call _ (Add 0) (SetQueueSize 0) adding set_size 17 0); [exact I|exact I|race_now].
  - apply (races_by usual any_call _ (Add 0) (FilterClear 0) adding clearing 5 11); [exact I|exact I|race_now].
  - apply (races_by usual any_call _ (Add 0) (Add 0) adding adding 21 21); [exact I|exact I|race_now].
Qed.
Print Assumptions C64_reconfiguring_a_filter_races_refuted.
