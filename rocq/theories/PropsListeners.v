(** * C88: transform listeners come and go, several on one buffer *)
From Coq Require Import ZArith Bool List String Lia Arith.
From Verif Require Import RosTime Scalar LinearMath Cache SpecCache BufferCore SpecCore CoreInv CoreSet CoreTheorems Malformed
  Requests SpecRequests TfTopics SpecTopics Network SpecNetwork NetworkProofs Listeners SpecListeners ListenersProofs Instances ExampleBuffers.
Import ListNotations.
Open Scope Z_scope.
Open Scope string_scope.
Open Scope list_scope.

(** In a process with any number of transform listeners on one buffer, with or without threads of their
    own, however their steps interleave: the buffer is in the state the calls, one after the other, lead to; *)
Theorem C88_buffer_is_what_the_calls_made_it :
  forall (S : Scalar) warn ct (ops : list (proc_op S)), let p := proc_run warn ct ops in
  p_core p = run (init_core ct) (calls_in (p_log p)).
Proof. intros S warn ct ops. apply log_replays. Qed.
Print Assumptions C88_buffer_is_what_the_calls_made_it.

(** every listener does for each message it takes what it owes, in order, and nothing else, except for
    the transforms still to be set of the message it is working on; no thread dies of an exception. *)
Theorem C88_each_listener_does_what_it_owes :
  forall (S : Scalar) warn ct (ops : list (proc_op S)) k, 0 <= ct < dur_bound -> calm ct ops ->
  let p := proc_run warn ct ops in
  p_crashed p = false /\
  exists rest, by_listener k (p_log p) ++ rest = owed_notes k 0 (taken k (p_log p)) /\
    (forall x, In x rest -> exists m who st, x = Put k m who st) /\ (between_callbacks p k -> rest = []).
Proof.
  intros S warn ct ops k Hct Cm p. destruct (calm_ok warn ct ops Hct Cm) as [C _ _ Sl]. split; [exact C|]. fold p in Sl. specialize (Sl k). destruct (nth_error (p_slots p) k) as [[v|]|] eqn:E.
  - exists (rest_of k v). split; [apply (lo_owed _ _ _ _ _ Sl)|]. split.
    + intros x Hx. unfold rest_of in Hx. destruct (v_work v) as [[[who st] ms]|]; [|destruct Hx]. apply in_map_iff in Hx as (m & <- & _). eauto.
    + intros B. unfold rest_of. rewrite (B v E). reflexivity.
  - exists []. rewrite app_nil_r. split; [exact Sl|]. split; [intros x []|reflexivity].
  - exists []. destruct Sl as (X & Y). rewrite X, Y. split; [reflexivity|]. split; [intros x []|reflexivity].
Qed.
Print Assumptions C88_each_listener_does_what_it_owes.

(** The messages a listener takes are, in order, messages that were queued for it; *)
Theorem C88_messages_are_taken_in_order :
  forall (S : Scalar) warn ct (ops : list (proc_op S)) k, let p := proc_run warn ct ops in
  subsequence (map message_of (taken k (p_log p)) ++ waiting p k) (queued_for k ops).
Proof. intros S warn ct ops k. apply in_order. Qed.
Print Assumptions C88_messages_are_taken_in_order.

(** if the transport loses none, all that were queued since it was constructed, up to those still waiting. *)
Theorem C88_no_message_is_skipped :
  forall (S : Scalar) warn ct (ops : list (proc_op S)) spin ops' k, 0 <= ct < dur_bound -> calm ct (ops ++ NewListener spin :: ops') ->
  k = List.length (p_slots (proc_run warn ct ops)) -> no_loss k ops' ->
  let p := proc_run warn ct (ops ++ NewListener spin :: ops') in ~ destroyed p k ->
  map message_of (taken k (p_log p)) ++ waiting p k = queued_for k ops'.
Proof.
  intros S warn ct ops spin ops' k Hct Cm Ek Nl p Nd. pose proof (po_alive _ _ _ (calm_ok warn ct _ Hct Cm)) as C. fold p in C.
  assert (L : (k < List.length (p_slots p))%nat).
  { unfold p in *. rewrite proc_app in C |- *. cbn [fold_left] in C |- *. pose proof (fold_crash _ _ _ C) as C1. pose proof (crash_stays _ _ _ C1) as C0. eapply Nat.lt_le_trans; [|apply fold_grow]. unfold proc_step. rewrite C0. cbn [p_slots]. rewrite app_length, Ek. cbn. lia. }
  unfold waiting. destruct (nth_error (p_slots p) k) as [[v|]|] eqn:E; [|destruct (Nd E)|apply nth_error_None in E; lia].
  exact (nothing_lost warn ct ops spin ops' k v Ek Nl C E).
Qed.
Print Assumptions C88_no_message_is_skipped.

(** Once the destructor of a listener has returned, the listener does nothing more. *)
Theorem C88_nothing_after_the_destructor :
  forall (S : Scalar) warn ct (ops ops' : list (proc_op S)) k, destroyed (proc_run warn ct ops) k ->
  by_listener k (p_log (proc_run warn ct (ops ++ ops'))) = by_listener k (p_log (proc_run warn ct ops)).
Proof. intros S warn ct ops ops' k. apply after_destruction. Qed.
Print Assumptions C88_nothing_after_the_destructor.

(** The destructor returns: the listener's thread only finishes the round of callbacks it is in, whatever keeps
    arriving.  With messages of at most [B] transforms it takes that many turns of the thread at most. *)
Theorem C88_destructor_returns :
  forall (S : Scalar) warn ct B (ops1 ops2 : list (proc_op S)) k, 0 <= ct < dur_bound ->
  let ops := ops1 ++ BeginDestroy k :: ops2 ++ [EndDestroy k] in
  calm ct ops -> threaded (proc_run warn ct ops1) k ->
  (forall x, In x (queued_for k (ops1 ++ ops2)) -> (List.length (snd x) <= B)%nat) ->
  (List.length (queued_for k ops1) * (B + 2) + 2 <= turns k ops2)%nat ->
  destroyed (proc_run warn ct ops) k.
Proof.
  intros S warn ct B ops1 ops2 k Hct ops Cm Th Sm Tn. apply (join_returns warn ct B); try assumption. exact (po_alive _ _ _ (calm_ok warn ct _ Hct Cm)).
Qed.
Print Assumptions C88_destructor_returns.

(** Whether the buffer lets queries wait is decided by the last listener constructed with a thread and
    the last setUsingDedicatedThread(). *)
Theorem C88_who_decides_about_waiting :
  forall (S : Scalar) warn ct (ops : list (proc_op S)), 0 <= ct < dur_bound -> calm ct ops ->
  p_waits (proc_run warn ct ops) = waits_allowed ops.
Proof. intros S warn ct ops Hct Cm. apply waits_flag, (po_alive _ _ _ (calm_ok warn ct ops Hct Cm)). Qed.
Print Assumptions C88_who_decides_about_waiting.

(** With steady clocks, two processes in which the same transforms were set, by however many listeners and in
    whatever order, give the same answers, if the publishers do not contradict each other. *)
Theorem C88_how_many_listeners_does_not_matter :
  forall (S : Scalar) warn warn' ct (ops ops' : list (proc_op S)) tgt src t, 0 <= ct < dur_bound -> calm ct ops -> calm ct ops' ->
  let p := proc_run warn ct ops in let p' := proc_run warn' ct ops' in
  steady_clocks (p_log p) -> steady_clocks (p_log p') -> same_puts (p_log p) (p_log p') -> consistent (p_log p) ->
  (tgt = src -> t = 0 -> known (p_core p) tgt) ->
  same_answer (lookupTransform (p_core p) tgt src t) (lookupTransform (p_core p') tgt src t) /\
  canTransform (p_core p) tgt src t None = canTransform (p_core p') tgt src t None /\
  latest_common_time (p_core p) tgt src = latest_common_time (p_core p') tgt src.
Proof.
  intros S warn warn' ct ops ops' tgt src t Hct Cm Cm' p p' St St' Sp Co. unfold p, p'. rewrite !log_replays. fold p p'.
  assert (Rg : forall w o (m : tmsg S) st, calm ct o -> put_in (p_log (proc_run w ct o)) m st -> in_range ct m).
  { intros w o m st C (k & who & H). destruct (put_received w ct o k m who st Hct C H) as (msg & A & B). exact (proj1 C k who st msg m A B). }
  apply agreement; [exact Hct|exact (steady_calls warn ct ops Hct Cm St)|exact (steady_calls warn' ct ops' Hct Cm' St')| | | |].
  - intros m st H. apply put_calls in H. exact (Rg warn ops m st Cm H).
  - intros m st H. apply put_calls in H. exact (Rg warn' ops' m st Cm' H).
  - intros m st B. unfold delivered. rewrite !put_calls. apply Sp, not_malformed, B.
  - intros m st m' st' H H' B B' C. apply put_calls in H. apply put_calls in H'. apply Co; try assumption; apply not_malformed; assumption.
Qed.
Print Assumptions C88_how_many_listeners_does_not_matter.

(** One listener alone makes of its messages the buffer C52 is about. *)
Theorem C88_one_listener :
  forall (S : Scalar) warn ct (ops : list (proc_op S)) k, 0 <= ct < dur_bound -> calm ct ops -> let p := proc_run warn ct ops in
  (forall j, j <> k -> by_listener j (p_log p) = []) -> between_callbacks p k ->
  exists l' evs, listen_all warn (init_listener (init_buf ct)) (taken k (p_log p)) = (l', evs, Ok tt) /\ p_core p = b_core (l_buf l').
Proof.
  intros S warn ct ops k Hct Cm p On Bc. apply alone; try assumption. intros x Hx. destruct (Nat.eq_dec (note_by x) k) as [E|N]; [exact E|]. exfalso.
  assert (X : In x (by_listener (note_by x) (p_log p))) by (apply filter_In; split; [exact Hx|destruct x; apply Nat.eqb_refl]). rewrite (On _ N) in X. destruct X.
Qed.
Print Assumptions C88_one_listener.

(** ** a process *)
(** Listener 0 with its own thread, listener 1 served by the user; then 0 is destroyed. *)
Definition base10 : tmsg D64 := msg "odom" "base" 10 (v64 1 0 0) id64.
Definition base20 : tmsg D64 := msg "odom" "base" 20 (v64 3 0 0) id64.
Definition laser0' : tmsg D64 := msg "base" "laser" 0 (v64 0 1 0) id64.
Definition start : list (proc_op D64) :=
  [NewListener true; NewListener false; Arrive 0 "odometry" false [base10; base20]; Arrive 1 "driver" true [laser0'];
   Step 0 100; Step 0 100; Spin 1 101; Step 0 101].
Definition finish : list (proc_op D64) := [Spin 1 102; Step 0 102; Arrive 0 "odometry" false [base20]; Spin 1 102; Step 0 103; Step 0 103; Step 0 103; Step 0 104; Step 0 105].
Definition whole : list (proc_op D64) := start ++ BeginDestroy 0 :: finish ++ [EndDestroy 0].
Notation proc88 := (@proc_run D64 false 100 whole).
Lemma calm88 : calm 100 whole.
Proof.
  assert (Ok1 : forall m, m = base10 \/ m = base20 \/ m = laser0' -> in_range 100 m) by (intros m [->|[->| ->]]; repeat split; vm_compute; congruence).
  split; [|split].
  - intros k who st ms m H Hm. apply Ok1. unfold whole, start, finish in H. cbn [app In] in H.
    repeat (destruct H as [H|H]; [first [discriminate H|injection H as <- <- <- <-; cbn [In] in Hm; decompose [or] Hm; subst; auto; contradiction]|]). destruct H.
  - intros t H. change (clocks whole) with [100; 100; 101; 101; 102; 102; 102; 103; 103; 103; 104; 105]%Z in H. assert (B : 0 <= t <= 200) by (cbn [In] in H; lia). split; [lia|unfold time_bound; lia].
  - intros t t' H H'. change (clocks whole) with [100; 100; 101; 101; 102; 102; 102; 103; 103; 103; 104; 105]%Z in H, H'. assert (B : 100 <= t <= 105) by (cbn [In] in H; lia). assert (B' : 100 <= t' <= 105) by (cbn [In] in H'; lia). unfold dur_bound. lia.
Qed.
Example C88_a_process :
  0 <= 100 < dur_bound /\ calm 100 whole /\ threaded (@proc_run D64 false 100 start) 0 /\
  (forall x, In x (queued_for 0 (start ++ finish)) -> (List.length (snd x) <= 2)%nat) /\
  (List.length (queued_for 0 start) * (2 + 2) + 2 <= turns 0 finish)%nat /\ destroyed proc88 0 /\
  lookupTransform (p_core proc88) "odom" "laser" 15 = Ok {| tm_stamp := 15; tm_frame := "odom"; tm_child := "laser"; tm_trans := v64 2 1 0; tm_rot := id64 |}.
Proof.
  split; [split; vm_compute; [congruence|reflexivity]|]. split; [exact calm88|].
  assert (Th : threaded (@proc_run D64 false 100 start) 0) by (eexists; split; [reflexivity|discriminate]).
  assert (Sm : forall x, In x (queued_for 0 (start ++ finish)) -> (List.length (snd x) <= 2)%nat) by (intros x H; cbn [start finish app queued_for flat_map Nat.eqb In] in H; decompose [or] H; subst; cbn [snd List.length]; try lia; contradiction).
  assert (Tn : (List.length (queued_for 0 start) * (2 + 2) + 2 <= turns 0 finish)%nat) by (cbn; lia).
  split; [exact Th|]. split; [exact Sm|]. split; [exact Tn|]. split; [apply (C88_destructor_returns D64 false 100 2); [split; vm_compute; [congruence|reflexivity]|exact calm88|exact Th|exact Sm|exact Tn]|]. vmr.
Qed.

(** Destroying the only listener with a thread does not reset the flag: queries keep waiting for data that
    nobody will bring. *)
Theorem C88_waiting_outlives_the_listener_refuted :
  let p := @proc_run D64 false 100 [NewListener true; BeginDestroy 0; Step 0 5; EndDestroy 0] in
  p_slots p = [Gone] /\ p_waits p = true.
Proof. split; reflexivity. Qed.
Print Assumptions C88_waiting_outlives_the_listener_refuted.

(** After the clock jumped back, each listener clears the shared buffer at its own next message: what the other
    has stored since the jump is lost. *)
Theorem C88_second_listener_clears_new_data_refuted :
  let p := @proc_run D64 false 100
    [NewListener false; NewListener false; Arrive 0 "a" false [base20]; Arrive 1 "b" false [base20];
     Spin 0 50; Spin 0 50; Spin 0 50; Spin 1 50; Spin 1 50; Spin 1 50;
     Arrive 0 "a" false [base10]; Spin 0 11; Spin 0 11; Spin 0 11] in
  let p' := proc_step false (proc_step false p (Arrive 1 "b" true [laser0'])) (Spin 1 12) in
  (exists m, lookupTransform (p_core p) "odom" "base" 10 = Ok m) /\
  (exists e, lookupTransform (p_core p') "odom" "base" 10 = Throw ExtrapolationException e).
Proof. cbv zeta. split; [apply ok_by; vmr|apply throw_by; vmr]. Qed.
Print Assumptions C88_second_listener_clears_new_data_refuted.
