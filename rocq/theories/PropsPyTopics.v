(** * Property C72: the Python TransformListener under every schedule of its threads *)
From Coq Require Import ZArith Bool List String Lia Floats.SpecFloat.
From Verif Require Import RosTime Scalar LinearMath Cache BufferCore SpecCore Instances CoreSet ExampleBuffers SpecTopics PyTime PyTimeProofs PyCore SpecPy
  PyCoreProofs PyListener SpecPyTopics PyListenerProofs PropsPy.
Import ListNotations.
Open Scope string_scope.
Open Scope list_scope.
Open Scope Z_scope.

(** ** C72 *)
(** However the callbacks interleave, the buffer is the result of a sequence of buffer calls in
    which every message's transforms appear in order, each once, as far as its callback has got
    (all of them when it has finished), plus one clear() per backward step between consecutive
    clock readings, no matter which callbacks made them; and nothing else. *)
Theorem C72_buffer_is_a_merge_of_the_messages :
  forall (S : Scalar) (c0 : core S) now0 h l, acts (new_listener c0 now0) h = Some l ->
  exists log, py_run c0 (map snd log) = Some (pl_core l) /\
    (forall k calls, nth_error (delivered h) k = Some calls -> exists rest, calls = calls_of k log ++ rest /\ (settled l -> rest = [])) /\
    (forall k o, In (Some k, o) log -> In o (calls_of k log) /\ (k < List.length (delivered h))%nat) /\
    resets log = repeat PClear (backward_steps now0 (readings h)).
Proof.
  intros S c0 now0 h l H. destruct (progress_ok c0 now0 h l H) as (log & P1 & P2 & P3 & P4 & P5 & P6). exists log. split; [exact P1|]. split; [|split].
  - intros k calls E. destruct (nth_error (pl_running l) k) as [r|] eqn:Er.
    + destruct (P3 k r Er) as [Q _]. rewrite Q in E. injection E as <-. exists (left_of r). split; [reflexivity|].
      intros St. destruct (St r (nth_error_In _ _ Er)) as [_ T]. unfold left_of. rewrite T. reflexivity.
    + apply nth_error_None in Er. assert (nth_error (delivered h) k <> None) by congruence. apply nth_error_Some in H0. lia.
  - intros k o Hi. split; [|exact (P4 _ Hi)]. unfold calls_of. apply in_map_iff. exists (Some k, o). split; [reflexivity|]. apply filter_In. split; [exact Hi|]. cbn. apply Nat.eqb_refl.
  - rewrite <- P5. apply resets_clears. intros e He Hn. specialize (P4 e He). rewrite Hn in P4. exact P4.
Qed.
Print Assumptions C72_buffer_is_a_merge_of_the_messages.
(** Before 2038 no callback ever gets stuck: what it has to do next is possible whatever the
    others have done. *)
Theorem C72_callbacks_never_fail :
  forall (S : Scalar) (c0 : core S) now0 h l k r, py_buffer year_2038 c0 -> soon_messages h ->
  acts (new_listener c0 now0) h = Some l -> nth_error (pl_running l) k = Some r ->
  (r_checked r = false -> forall now, exists l', act l (Check k now) = Some l') /\
  (r_checked r = true -> r_todo r <> [] -> exists l', act l (SetNext k) = Some l') /\
  py_buffer year_2038 (pl_core l).
Proof.
  intros S c0 now0 h l k r B M H E. destruct (can_go_on c0 now0 h l k r B M H E) as [A C]. split; [exact A|]. split; [exact C|]. exact (listener_buffer c0 now0 h l B M H).
Qed.
Print Assumptions C72_callbacks_never_fail.
(** Messages that arrive one after the other: exactly the calls of the C++ listener (C52), with
    last_update starting at the construction of the listener. *)
Theorem C72_one_message_at_a_time :
  forall (S : Scalar) (c0 : core S) now0 h, py_buffer year_2038 c0 -> Forall (fun a => Forall (fun m => 0 <= tm_stamp m < year_2038) (a_msg a)) h ->
  exists l, acts (new_listener c0 now0) (one_by_one 0 h) = Some l /\ py_run c0 (py_calls now0 h) = Some (pl_core l) /\ pl_last l = last_clock now0 h.
Proof.
  intros S c0 now0 h B M. destruct (buffer_soon c0 B) as (R & _). apply reachable_wf in R as W.
  destruct (run_survives (py_calls now0 h) c0 W) as [c' E].
  { clear - M. revert now0. induction h as [|a h IH]; intros now0; [constructor|]. inversion M; subst. cbn [py_calls]. apply Forall_app. split; [destruct (a_now a <? now0); repeat constructor|].
    apply Forall_app. split; [|apply IH; assumption]. apply Forall_map. revert H1. apply Forall_impl. intros m Hm. unfold due. destruct (a_static a); exact Hm. }
  destruct (sequential h c0 now0 [] c' E) as (l & A1 & A2 & A3). exists l. rewrite A2. auto.
Qed.
Print Assumptions C72_one_message_at_a_time.
(** After a backward jump every time-varying sample in the buffer was still to be set when the
    jump was noticed: it is from a message delivered later, or from a callback that was under
    way. *)
Theorem C72_jump_forgets_what_was_set :
  forall (S : Scalar) (c0 : core S) now0 h1 k now h2 l1 l2 n mx kept x, py_buffer year_2038 c0 -> soon_messages (h1 ++ Check k now :: h2) ->
  acts (new_listener c0 now0) h1 = Some l1 -> now < pl_last l1 -> acts l1 (Check k now :: h2) = Some l2 ->
  hist (pl_core l2) n = Some (Dynamic mx kept) -> In x kept ->
  exists who st m t, source l1 h2 who st m /\ py_time (tm_stamp m) = Ok t /\ stripSlash (tm_child m) = n /\
    x = sample_of (strip_msg (mkTmsg t (tm_frame m) (tm_child m) (tm_trans m) (tm_rot m))).
Proof. intros S. exact jump_forgets. Qed.
Print Assumptions C72_jump_forgets_what_was_set.
(** Without backward steps nothing is ever cleared. *)
Theorem C72_no_jump_no_clear :
  forall (S : Scalar) (c0 : core S) now0 h l, acts (new_listener c0 now0) h = Some l ->
  (forall before a b after, now0 :: readings h = before ++ a :: b :: after -> a <= b) ->
  exists log, py_run c0 log = Some (pl_core l) /\ ~ In PClear log.
Proof.
  intros S c0 now0 h l H N. destruct (progress_ok c0 now0 h l H) as (log & P1 & P2 & P3 & P4 & P5 & P6). exists (map snd log). split; [exact P1|].
  assert (Z : forall last rs, (forall before a b after, last :: rs = before ++ a :: b :: after -> a <= b) -> backward_steps last rs = 0%nat).
  { clear. intros last rs. revert last. induction rs as [|t rs IH]; intros last N; [reflexivity|]. cbn [backward_steps].
    assert (L : last <= t) by (apply (N [] last t rs); reflexivity). destruct (Z.ltb_spec t last); [lia|]. apply IH. intros before a b after E. apply (N (last :: before) a b after). rewrite E. reflexivity. }
  rewrite (Z _ _ N) in P5. intros Hi. apply in_map_iff in Hi as ([[k|] o] & E & Hi); cbn [snd] in E; subst o.
  - pose proof (P4 _ Hi) as L. cbn [fst] in L. rewrite <- P2 in L. apply nth_error_Some in L. destruct (nth_error (pl_running l) k) as [r|] eqn:Er; [|contradiction].
    destruct (P3 k r Er) as [Q _]. assert (X : forall o, In o (calls_of k log) -> o <> PClear).
    { intros o Ho. assert (Hd : In (calls_of k log ++ left_of r) (delivered h)) by (apply nth_error_In in Q; exact Q).
      assert (In o (calls_of k log ++ left_of r)) by (apply in_or_app; auto). clear - Hd H0.
      induction h as [|[who st ms|j now|j] h IH]; cbn [delivered] in Hd; [destruct Hd| |exact (IH Hd)|exact (IH Hd)]. destruct Hd as [Hd|Hd]; [|exact (IH Hd)]. rewrite <- Hd in H0. apply in_map_iff in H0 as (m & <- & _). destruct st; discriminate. }
    apply (X PClear); [|reflexivity]. unfold calls_of. apply in_map_iff. exists (Some k, PClear). split; [reflexivity|]. apply filter_In. split; [exact Hi|]. cbn. apply Nat.eqb_refl.
  - assert (In PClear (resets log)) by (unfold resets; apply in_map_iff; exists (None, PClear); split; [reflexivity|]; apply filter_In; auto).
    destruct (resets log); [destruct H0|discriminate].
Qed.
Print Assumptions C72_no_jump_no_clear.

(** Two publishers; the bag of publisher A ends at 100 s, that of B starts at 1 s.  A's callback
    has passed check_for_reset when B's notices the jump and clears the buffer. *)
Definition sec : Z := 10 ^ 9.
Definition fresh : core D64 := init_core (10 * sec).
Definition race : list (action D64) :=
  [ Arrive "A" false [pm "map" "odom" (100 * sec) 1]; Check 0 (100 * sec);
    Arrive "B" false [pm "odom" "base" (1 * sec) 2]; Check 1 (1 * sec); SetNext 1;
    SetNext 0;
    Arrive "A" false [pm "map" "odom" (2 * sec) 3]; Check 2 (2 * sec); SetNext 2 ].
Definition after {A} (dflt : A) (h : list (action D64)) (q : plistener D64 -> A) : A :=
  match acts (new_listener fresh (90 * sec)) h with Some l => q l | None => dflt end.
Definition stamps_at (l : plistener D64) (n : string) : option (list Z) := option_map (fun c => map (fun x => st_stamp x) (samples c)) (hist (pl_core l) n).
Lemma fresh_ok : py_buffer year_2038 fresh.
Proof. exists (10 * sec), []. split; [unfold dur_bound, sec; lia|]. split; [constructor|reflexivity]. Qed.
Example C72_example :
  py_buffer year_2038 fresh /\ soon_messages race /\ after 0%nat race (fun l => List.length (pl_running l)) = 3%nat /\
  after false race (fun l => forallb (fun r => r_checked r && match r_todo r with [] => true | _ => false end) (pl_running l)) = true /\
  backward_steps (90 * sec) (readings race) = 1%nat /\
  after None race (fun l => stamps_at l "base") = Some [1 * sec] /\
  after None (firstn 4 race) (fun l => Some (map (fun r => List.length (r_todo r)) (pl_running l))) = Some [1; 1]%nat.
Proof. split; [exact fresh_ok|]. split; [repeat constructor; vm_compute; congruence|]. split; [vmr|]. split; [vmr|]. split; [vmr|]. split; vmr. Qed.
(** The stale transform is set after the clear; its stamp is ahead of the clock by more than the
    cache time, so the frame refuses every fresh transform from then on. *)
Theorem C72_buffer_is_fresh_after_a_jump_refuted :
  soon_messages race /\ pl_last (new_listener fresh (90 * sec)) = 90 * sec /\
  after None race (fun l => Some (pl_last l)) = Some (2 * sec) /\
  after None race (fun l => stamps_at l "odom") = Some [100 * sec].
Proof. split; [repeat constructor; vm_compute; congruence|]. split; [reflexivity|]. split; vmr. Qed.
Print Assumptions C72_buffer_is_fresh_after_a_jump_refuted.
