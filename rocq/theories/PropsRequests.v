(** * C30-C33: transformable requests *)
From Coq Require Import ZArith Bool List String Lia Permutation.
From Verif Require Import RosTime Scalar LinearMath Cache SpecCache BufferCore SpecCore Instances CoreInv CoreSet
  LookupBase LookupTheorems History ExampleBuffers Requests SpecRequests RequestProofs RequestHistory.
Import ListNotations.
Open Scope Z_scope.
Local Opaque MAX_GRAPH_DEPTH.

(** ** deciding the hypotheses on concrete histories *)
Definition rop_okb (o : req_op D64) : bool :=
  match o with
  | RSet m _ _ => valid_timeb (tm_stamp m)
  | RAddRequest cb _ _ t => (0 <=? cb) && (cb <? uint32) && valid_timeb t
  | RRemoveCallback cb => (0 <=? cb) && (cb <? uint32)
  | RCancel h => (0 <=? h) && (h <? uint64)
  | RClear | RAddCallback => true
  end.
Lemma rops_ok_by : forall ops, forallb rop_okb ops = true -> Forall req_op_ok ops.
Proof.
  intros ops H. apply Forall_forall. intros o Ho. rewrite forallb_forall in H. specialize (H o Ho).
  destruct o; cbn [rop_okb req_op_ok] in *; try exact I; unfold valid_timeb, valid_time in *;
  repeat match goal with X : _ && _ = true |- _ => apply andb_prop in X as [? ?] end; rewrite ?Z.leb_le, ?Z.ltb_lt in *; auto.
Qed.
Lemma rreach_by : forall ct ops, ((0 <=? ct) && (ct <? dur_bound) && (Z.of_nat (List.length ops) <? uint64 - 2)) = true ->
  forallb rop_okb ops = true -> req_reachable (fst (req_run (init_buf ct) ops)).
Proof.
  intros ct ops H H'. apply andb_prop in H as [H H2]. apply andb_prop in H as [H0 H1].
  rewrite Z.leb_le in H0. rewrite Z.ltb_lt in H1, H2. apply reach_run; [apply rr_init; auto|apply rops_ok_by; assumption|exact H2].
Qed.
Lemma times_by : forall b : buf D64, forallb (fun p => p_time p + c_cache_time (b_core b) <? time_bound) (pending b) = true -> times_in_range b.
Proof. intros b H p Hp. rewrite forallb_forall in H. apply Z.ltb_lt. auto. Qed.

Open Scope string_scope.
(** Cache time 100.  [arrival] makes requests 1 and 3 available and request 2 too old; request 4
    stays pending; request 5 went with callback 3; request 6 names a callback that is gone. *)
Definition wait_ops : list (req_op D64) :=
  [ RAddCallback; RAddCallback; RAddCallback;
    RAddRequest 1 "a" "b" 60; RAddRequest 1 "b" "a" 3; RAddRequest 2 "b" "a" 100;
    RAddRequest 1 "a" "z" 70; RAddRequest 3 "a" "b" 60; RRemoveCallback 3;
    RSet (msg "a" "b" 50 (v64 1 0 0) id64) "me" false;
    RAddRequest 3 "a" "b" 80 ].
Definition waiting : buf D64 := fst (req_run (init_buf 100) wait_ops).
Definition arrival : tmsg D64 := msg "a" "b" 140 (v64 2 0 0) id64.
Definition waiting' : buf D64 := fst (set_transform waiting arrival "me" false).
Lemma waiting_reachable : req_reachable waiting.
Proof. apply rreach_by; vm_compute; reflexivity. Qed.
Lemma waiting_times : times_in_range waiting.
Proof. apply times_by. vm_compute. reflexivity. Qed.

(** ** C30 *)
(** An accepted transform settles exactly the requests that are now due: they leave the pending
    list, and each whose callback is registered is notified exactly once, with its own handle and
    frame names; the others stay. *)
Theorem C30_accepted_transform_settles_due_requests :
  forall (S : Scalar) (b : buf S) m authority st s',
  req_reachable b -> times_in_range b -> valid_time (tm_stamp m) ->
  setTransform (b_core b) m authority st = (s', Ok true) ->
  exists b' evs, set_transform b m authority st = (b', Ok (true, evs)) /\
    b_core b' = s' /\ b_cbs b' = b_cbs b /\
    Permutation (pending b') (filter (not_due s') (pending b)) /\
    Permutation (map notice_of evs) (flat_map (owed s' (b_cbs b)) (pending b)).
Proof. intros S b m a st s' R. apply set_settles, reach_binv, R. Qed.
Print Assumptions C30_accepted_transform_settles_due_requests.

(** A transform that is not accepted notifies nobody and leaves the pending list alone. *)
Theorem C30_rejected_transform_notifies_nobody :
  forall (S : Scalar) (b : buf S) m authority st s' r b' out,
  req_reachable b -> valid_time (tm_stamp m) ->
  setTransform (b_core b) m authority st = (s', r) -> r <> Ok true ->
  set_transform b m authority st = (b', out) ->
  pending b' = pending b /\ b_cbs b' = b_cbs b /\ b_core b' = s' /\
  (forall v evs, out = Ok (v, evs) -> v = false /\ evs = []).
Proof. intros S b m a st s' r b' out R. apply set_rejected, reach_binv, R. Qed.
Print Assumptions C30_rejected_transform_notifies_nobody.

(** What a new request is told. *)
Theorem C30_add_request_answers :
  forall (S : Scalar) (b : buf S) cb tgt src t,
  req_reachable b -> valid_time t -> t + c_cache_time (b_core b) < time_bound ->
  let met := tgt = src \/ available (b_core b) tgt src t = true in
  let hopeless := expired (b_core b) (mkPreq 0 cb tgt src t) = true in
  (met -> addTransformableRequest b cb tgt src t = (b, Ok 0)) /\
  (~ met -> hopeless -> addTransformableRequest b cb tgt src t = (b, Ok (2 ^ 64 - 1))) /\
  (~ met -> ~ hopeless -> exists b' h, addTransformableRequest b cb tgt src t = (b', Ok h) /\ 0 < h < 2 ^ 64 - 1 /\
     b_core b' = b_core b /\ b_cbs b' = b_cbs b /\ pending b' = (pending b ++ [mkPreq h cb tgt src t])%list).
Proof.
  intros S b cb tgt src t R Ht Hr met hopeless. destruct (reach_binv b R) as [I Hc]. pose proof (bi_counter b I) as Hc0.
  pose proof (add_answers b cb tgt src t I ltac:(lia) Ht Hr) as H. cbv zeta in H. unfold met, hopeless.
  destruct (String.eqb_spec tgt src) as [E|E]; cbn [orb] in H.
  - split; [auto|]. split; intros N; exfalso; apply N; auto.
  - destruct (available (b_core b) tgt src t).
    + split; [auto|]. split; intros N; exfalso; apply N; auto.
    + split; [intros [X|X]; [contradiction|discriminate]|]. destruct (expired (b_core b) (mkPreq 0 cb tgt src t)).
      * split; [auto|]. intros _ N. exfalso. apply N. reflexivity.
      * split; [discriminate|]. intros _ _. destruct H as (b' & H1 & H2 & H3 & H4). exists b', (b_rq_counter b + 1).
        change (2 ^ 64) with uint64. repeat split; auto; lia.
Qed.
Print Assumptions C30_add_request_answers.

(** Being available is what canTransform says. *)
Theorem C30_available_is_canTransform :
  forall (S : Scalar) (s : core S) tgt src t,
  reachable s -> tgt <> src -> plain tgt -> plain src ->
  (available s tgt src t = true <-> canTransform s tgt src t None = Ok (true, None)).
Proof.
  intros S s tgt src t R N P1 P2. apply available_can; [apply reachable_wf, R|assumption| |]; unfold warnFrameId;
  [destruct P1 as [P P']|destruct P2 as [P P']]; rewrite P'; destruct tgt, src; cbn; congruence.
Qed.
Print Assumptions C30_available_is_canTransform.

(** Over a whole history no request is notified twice, and every notification is for a request
    made earlier, with that request's callback, handle and frame names, the callback having been
    registered earlier. *)
Theorem C30_notified_at_most_once :
  forall (S : Scalar) ct (ops : list (req_op S)) b log,
  0 <= ct < dur_bound -> Forall req_op_ok ops -> Z.of_nat (List.length ops) < 2 ^ 64 - 2 ->
  req_run (init_buf ct) ops = (b, log) ->
  NoDup (map ev_handle (events_of log)) /\
  forall before o a evs after e, log = (before ++ (o, a, evs) :: after)%list -> In e evs ->
    exists t, In (RAddRequest (ev_cb e) (ev_target e) (ev_source e) t, AHandle (Ok (ev_handle e)), []) before /\
              In (RAddCallback, ACallback (Some (ev_cb e)), []) before.
Proof.
  intros S ct ops b log Hct F Hl H. split.
  - destruct (run_fact ops (init_buf ct) b log (binv_init ct Hct) F) as (_ & _ & Nd & _); [cbn [b_rq_counter init_buf]; unfold uint64; lia|assumption|exact Nd].
  - intros l1 o a evs l2 e E He. destruct (caused ct ops b log l1 o a evs l2 e Hct F Hl H E He) as (p & [ev Ha] & (E1 & E2 & E3 & E4) & Hc).
    exists (p_time p). rewrite E1, E2, E3, E4. split; [|rewrite <- E1; exact Hc].
    apply in_split in Ha as (x & y & Ey). rewrite E in H. rewrite Ey in H. rewrite <- app_assoc in H. cbn [app] in H.
    destruct (log_split _ _ _ _ _ _ _ _ H) as (_ & _ & b1 & b2 & _ & _ & Hs & _). cbn [req_step] in Hs.
    destruct (addTransformableRequest b1 (p_cb p) (p_target p) (p_source p) (p_time p)) as [b3 r].
    assert (ev = []) by congruence. subst ev. rewrite Ey. apply in_app_iff. right. left. reflexivity.
Qed.
Print Assumptions C30_notified_at_most_once.

Definition show_e (e : event) := (ev_cb e, ev_handle e, ev_target e, ev_source e, ev_time_slot e, ev_result e).
Definition show_p (p : preq) := (p_handle p, p_cb p, p_target p, p_source p, p_time p).
Definition show_set (x : buf D64 * res (bool * list event)) :=
  match x with (b', Ok (v, evs)) => Some (v, map show_e evs, map show_p (pending b')) | _ => None end.
Definition ok_true (r : res bool) : bool := match r with Ok b => b | _ => false end.

Example C30_example :
  req_reachable waiting /\ times_in_range waiting /\ valid_time (tm_stamp arrival) /\
  ok_true (snd (setTransform (b_core waiting) arrival "me" false)) = true /\
  map show_p (pending waiting) = [(1, 1, "a", "b", 60); (2, 1, "b", "a", 3); (3, 2, "b", "a", 100); (4, 1, "a", "z", 70); (6, 3, "a", "b", 80)] /\
  show_set (set_transform waiting arrival "me" false) =
    Some (true, [(1, 1, "a", "b", 0%nat, TransformAvailable); (1, 2, "b", "a", 1%nat, TransformFailure); (2, 3, "b", "a", 1%nat, TransformAvailable)],
          [(4, 1, "a", "z", 70)]).
Proof.
  split; [exact waiting_reachable|]. split; [exact waiting_times|]. split; [split; vm_compute; congruence|].
  split; [vm_compute; reflexivity|]. split; vm_compute; reflexivity.
Qed.
Example C30_example_answers :
  snd (addTransformableRequest waiting' 1 "b" "a" 90) = Ok 0 /\
  snd (addTransformableRequest waiting' 1 "b" "a" 39) = Ok (2 ^ 64 - 1) /\
  snd (addTransformableRequest waiting' 1 "b" "a" 150) = Ok 7 /\
  snd (addTransformableRequest waiting' 1 "b" "q" 150) = Ok 7.
Proof. repeat split; vm_compute; reflexivity. Qed.
Definition stale_msg : tmsg D64 := msg "a" "b" 30 (v64 2 0 0) id64.
Example C30_example_rejected :
  show_set (set_transform waiting' stale_msg "me" false) = Some (false, [], [(4, 1, "a", "z", 70)]).
Proof. vm_compute. reflexivity. Qed.

(** The range hypothesis is needed.  A request so close to the end of ros::Time that adding the
    cache time overflows makes every later accepted setTransform throw, and a request that became
    due before the exception is dropped without notification. *)
Definition lost_ops : list (req_op D64) :=
  [ RAddCallback; RAddRequest 1 "a" "b" 60; RAddRequest 1 "c" "d" TIME_MAX;
    RSet (msg "c" "d" 50 (v64 1 0 0) id64) "me" false;
    RSet (msg "a" "b" 60 (v64 1 0 0) id64) "me" false ].
Definition show_x (x : entry (S := D64)) :=
  let '(_, a, evs) := x in
  (match a with AHandle (Ok h) => h | ACallback (Some h) => h | ABool (Ok true) => -1 | ABool (Ok false) => -2
   | ABool (Throw RuntimeError ETimeRange) => -3 | _ => -4 end, map show_e evs).
Theorem C30_time_range_refuted :
  let b := fst (req_run (init_buf (10 * 10 ^ 9)) lost_ops) in
  let log := snd (req_run (init_buf (10 * 10 ^ 9)) lost_ops) in
  Forall req_op_ok lost_ops /\
  map show_x log = [(1, []); (1, []); (2, []); (-3, []); (-3, [])] /\   (* both setTransform calls throw; nobody is notified *)
  map show_p (pending b) = [(2, 1, "c", "d", TIME_MAX)] /\              (* request 1 is gone *)
  available (b_core b) "a" "b" 60 = true /\ b_cbs b = [1].
Proof.
  intros b log. split; [apply rops_ok_by; vm_compute; reflexivity|]. split; [vm_compute; reflexivity|].
  split; [vm_compute; reflexivity|]. split; vm_compute; reflexivity.
Qed.
Print Assumptions C30_time_range_refuted.

(** ** C31 *)
(** Handle, callback and frame names are the request's own: C30.  The time reference is not: when
    the callbacks run it designates another request, or none. *)
Theorem C31_names_and_handle_are_the_requests_own :
  forall (S : Scalar) (b : buf S) m authority st b' evs,
  req_reachable b -> valid_time (tm_stamp m) -> set_transform b m authority st = (b', Ok (true, evs)) ->
  forall e, In e evs -> exists p, In p (pending b) /\ ev_handle e = p_handle p /\ ev_cb e = p_cb p /\
    ev_target e = p_target p /\ ev_source e = p_source p /\ In (ev_cb e) (b_cbs b) /\
    ~ In (ev_handle e) (map p_handle (pending b')).
Proof.
  intros S b m au st b' evs R Hm H e He. destruct (reach_binv b R) as [I Hc].
  assert (Hs : req_step b (RSet m au st) = (b', ABool (Ok true), evs)) by (cbn [req_step]; rewrite H; reflexivity).
  pose proof (step_fact b (RSet m au st) b' (ABool (Ok true)) evs I Hm ltac:(lia) Hs) as K.
  destruct (so_src _ _ _ _ _ K e He) as (p & Hp & (E1 & E2 & E3 & E4) & Hr). exists p. apply registered_In in Hr. repeat split; auto.
  intros Hin. apply in_map_iff in Hin as (q & Eq & Hq). exact (so_gone _ _ _ _ _ K e q He Hq Eq).
Qed.
Print Assumptions C31_names_and_handle_are_the_requests_own.

Theorem C31_time_is_never_the_requests_own_refuted :
  forall (S : Scalar) (b : buf S) m authority st b' evs,
  req_reachable b -> valid_time (tm_stamp m) -> set_transform b m authority st = (b', Ok (true, evs)) ->
  forall e, In e evs ->
    match nth_error (pending b') (ev_time_slot e) with
    | Some p => dl_time (deliver (b_reqs b') e) = Some (p_time p) /\ p_handle p <> ev_handle e
    | None => dl_time (deliver (b_reqs b') e) = None
    end.
Proof.
  intros S b m au st b' evs R Hm H e He.
  destruct (C31_names_and_handle_are_the_requests_own S b m au st b' evs R Hm H e He) as (_ & _ & _ & _ & _ & _ & _ & N).
  unfold deliver, dl_time, pending. rewrite nth_error_map.
  destruct (nth_error (b_reqs b') (ev_time_slot e)) as [r|] eqn:E; [|reflexivity]. cbn [option_map]. split; [reflexivity|].
  intros Eh. apply N. rewrite <- Eh. apply in_map. unfold pending. apply in_map. eapply nth_error_In; eassumption.
Qed.
Print Assumptions C31_time_is_never_the_requests_own_refuted.

(** Request 1 (time 60) is delivered with time 70, that of request 4, still pending. *)
Example C31_example :
  req_reachable waiting /\ valid_time (tm_stamp arrival) /\
  match set_transform waiting arrival "me" false with
  | (b', Ok (true, e :: _)) => ev_handle e = 1 /\ dl_time (deliver (b_reqs b') e) = Some 70
  | _ => False
  end.
Proof. split; [exact waiting_reachable|]. split; [split; vm_compute; congruence|]. vm_compute. split; reflexivity. Qed.

(** ** C32 *)
(** A cancelled request never fires (handles below 2^32). *)
Theorem C32_cancelled_never_fires :
  forall (S : Scalar) ct (ops : list (req_op S)) b before h after cb tgt src t,
  0 <= ct < dur_bound -> Forall req_op_ok ops -> Z.of_nat (List.length ops) < 2 ^ 64 - 2 ->
  req_run (init_buf ct) ops = (b, (before ++ (RCancel h, AVoid, []) :: after)%list) ->
  In (RAddRequest cb tgt src t, AHandle (Ok h), []) before -> 0 < h < 2 ^ 32 ->
  (forall e, In e (events_of after) -> ev_handle e <> h) /\ ~ In h (map p_handle (pending b)).
Proof.
  intros S ct ops b l1 h l2 cb tgt src t Hct F Hl H Hin Hh.
  destruct (log_split _ _ _ _ _ _ _ _ H) as (ops1 & ops2 & b1 & b2 & -> & H1 & H2 & H3).
  apply Forall_app in F as [F1 F2]. inversion F2 as [|? ? Ho F2']; subst. rewrite app_length in Hl. cbn [List.length] in Hl.
  destruct (run_fact ops1 (init_buf ct) b1 l1 (binv_init ct Hct) F1) as (I1 & Hc & _); [cbn [b_rq_counter init_buf]; unfold uint64; lia|assumption|].
  cbn [b_rq_counter init_buf] in Hc. change (2 ^ 64) with uint64 in Hl.
  assert (Hiss : h <= b_rq_counter b1).
  { apply in_split in Hin as (x & y & Ey). rewrite Ey in H1. destruct (log_split _ _ _ _ _ _ _ _ H1) as (o1 & o2 & c1 & c2 & Eo & G1 & G2 & G3).
    subst ops1. apply Forall_app in F1 as [F1a F1b]. inversion F1b as [|? ? Hoa F1c]; subst. rewrite app_length in Hl, Hc. cbn [List.length] in Hl, Hc.
    destruct (run_fact o1 (init_buf ct) c1 x (binv_init ct Hct) F1a) as (Ic & Hcc & _); [cbn [b_rq_counter init_buf]; lia|assumption|]. cbn [b_rq_counter init_buf] in Hcc.
    pose proof (step_fact c1 _ c2 _ _ Ic Hoa ltac:(lia) G2) as K.
    destruct (so_add _ _ _ _ _ K cb tgt src t h eq_refl eq_refl ltac:(unfold uint64; lia)) as (_ & Eh0 & Eh).
    destruct (run_fact o2 c2 b1 y (so_inv _ _ _ _ _ K) F1c) as (_ & Hcd & _); [lia|assumption|]. lia. }
  pose proof (step_fact b1 _ b2 _ _ I1 Ho ltac:(lia) H2) as K. cbn [req_step] in H2.
  assert (b2 = cancelTransformableRequest b1 h) by congruence. subst b2.
  pose proof (so_ctr _ _ _ _ _ K) as Kc.
  apply (stays_dead ops2 (cancelTransformableRequest b1 h) b l2 h (so_inv _ _ _ _ _ K) F2' ltac:(lia) H3 ltac:(lia)).
  apply cancel_removes. change uint32 with (2 ^ 32). lia.
Qed.
Print Assumptions C32_cancelled_never_fires.

(** Cancelling removes nothing else, and neither call invokes a callback. *)
Theorem C32_cancel_removes_only_that_request :
  forall (S : Scalar) (b : buf S) h, 0 <= h < 2 ^ 32 ->
  pending (cancelTransformableRequest b h) = filter (fun p => negb (p_handle p =? h)%Z) (pending b) /\
  b_cbs (cancelTransformableRequest b h) = b_cbs b /\ b_core (cancelTransformableRequest b h) = b_core b.
Proof.
  intros S b h Hh. split; [|split; reflexivity]. unfold pending, cancelTransformableRequest. cbn [b_core b_reqs].
  rewrite Z.mod_small by exact Hh. induction (b_reqs b) as [|r l IH]; [reflexivity|]. cbn [filter map]. cbn [view p_handle].
  destruct (rq_handle r =? h)%Z; cbn [negb map]; [exact IH|]. f_equal. exact IH.
Qed.
Print Assumptions C32_cancel_removes_only_that_request.

(** A removed callback is never invoked again, unless its handle is given out again. *)
Theorem C32_removed_callback_never_invoked :
  forall (S : Scalar) ct (ops : list (req_op S)) b before cb after,
  0 <= ct < dur_bound -> Forall req_op_ok ops -> Z.of_nat (List.length ops) < 2 ^ 64 - 2 ->
  req_run (init_buf ct) ops = (b, (before ++ (RRemoveCallback cb, AVoid, []) :: after)%list) ->
  ~ In (RAddCallback, ACallback (Some cb), []) after ->
  forall e, In e (events_of after) -> ev_cb e <> cb.
Proof.
  intros S ct ops b l1 cb l2 Hct F Hl H N.
  destruct (log_split _ _ _ _ _ _ _ _ H) as (ops1 & ops2 & b1 & b2 & -> & H1 & H2 & H3).
  apply Forall_app in F as [F1 F2]. inversion F2 as [|? ? Ho F2']; subst. rewrite app_length in Hl. cbn [List.length] in Hl. change (2 ^ 64) with uint64 in Hl.
  destruct (run_fact ops1 (init_buf ct) b1 l1 (binv_init ct Hct) F1) as (I1 & Hc & _); [cbn [b_rq_counter init_buf]; lia|assumption|].
  cbn [b_rq_counter init_buf] in Hc.
  pose proof (step_fact b1 _ b2 _ _ I1 Ho ltac:(lia) H2) as K. cbn [req_step] in H2.
  assert (b2 = removeTransformableCallback b1 cb) by congruence. subst b2. pose proof (so_ctr _ _ _ _ _ K) as Kc.
  apply (unregistered_run ops2 (removeTransformableCallback b1 cb) b l2 cb (so_inv _ _ _ _ _ K) F2' ltac:(lia) H3).
  - cbn. intros Hin. apply filter_In in Hin as [_ Hin]. rewrite Z.eqb_refl in Hin. discriminate.
  - intros evs Hin. apply N. apply in_split in Hin as (x & y & Ey). rewrite Ey in H3.
    destruct (log_split _ _ _ _ _ _ _ _ H3) as (_ & _ & c1 & c2 & _ & _ & Hs & _). cbn [req_step] in Hs.
    destruct (addTransformableCallback c1). assert (evs = []) by congruence. subst evs. rewrite Ey. apply in_app_iff. right. left. reflexivity.
Qed.
Print Assumptions C32_removed_callback_never_invoked.

(** Its pending requests go with it, and no others. *)
Theorem C32_remove_callback_drops_its_requests :
  forall (S : Scalar) (b : buf S) cb,
  pending (removeTransformableCallback b cb) = filter (fun p => negb (p_cb p =? cb)%Z) (pending b) /\
  b_cbs (removeTransformableCallback b cb) = filter (fun k => negb (k =? cb)%Z) (b_cbs b) /\
  b_core (removeTransformableCallback b cb) = b_core b.
Proof.
  intros S b cb. split; [|split; reflexivity]. unfold pending, removeTransformableCallback. cbn [b_core b_reqs].
  induction (b_reqs b) as [|r l IH]; [reflexivity|]. cbn [filter map]. cbn [view p_cb].
  destruct (rq_cb r =? cb)%Z; cbn [negb map]; [exact IH|]. f_equal. exact IH.
Qed.
Print Assumptions C32_remove_callback_drops_its_requests.

Definition cancel_ops : list (req_op D64) :=
  [ RAddCallback; RAddCallback; RAddRequest 1 "a" "b" 60; RAddRequest 1 "a" "b" 60; RAddRequest 2 "b" "a" 60;
    RCancel 1; RRemoveCallback 2; RSet (msg "a" "b" 60 (v64 1 0 0) id64) "me" false ].
Example C32_example :
  Forall req_op_ok cancel_ops /\
  map show_x (snd (req_run (init_buf 100) cancel_ops)) =
  [(1, []); (2, []); (1, []); (2, []); (3, []); (-4, []); (-4, []); (-1, [(1, 2, "a", "b", 0%nat, TransformAvailable)])].
Proof. split; [apply rops_ok_by; vm_compute; reflexivity|vm_compute; reflexivity]. Qed.

(** The limit on the handle is needed: cancelTransformableRequest compares with the handle cut to
    32 bits.  After 2^32+1 requests, cancelling the last one removes the first and the cancelled
    one fires. *)
Lemma many_adds : forall (tgt src : string) (t : time) (cb : Z), tgt <> src -> valid_time t ->
  forall n (b : buf D64), binv b -> b_rq_counter b + Z.of_nat n < uint64 - 1 ->
  t + c_cache_time (b_core b) < time_bound ->
  lookupFrameNumber (b_core b) tgt = 0%nat ->
  let b' := fst (req_run b (repeat (RAddRequest cb tgt src t) n)) in
  binv b' /\ b_core b' = b_core b /\ b_cbs b' = b_cbs b /\ b_rq_counter b' = b_rq_counter b + Z.of_nat n /\
  pending b' = (pending b ++ map (fun i => mkPreq (b_rq_counter b + 1 + Z.of_nat i) cb tgt src t) (seq 0 n))%list.
Proof.
  intros tgt src t cb Hts Ht. induction n as [|n IH]; intros b I Hc Hr Hu.
  - cbn. rewrite app_nil_r, Z.add_0_r. auto.
  - cbn [repeat req_run].
    pose proof (add_answers b cb tgt src t I ltac:(lia) Ht Hr) as A. cbv zeta in A.
    rewrite (proj2 (String.eqb_neq tgt src) Hts) in A. cbn [orb] in A.
    destruct (available (b_core b) tgt src t) eqn:Av; [apply available_known in Av; tauto|].
    destruct (expired (b_core b) (mkPreq 0 cb tgt src t)) eqn:Ex; [apply expired_known in Ex; cbn in Ex; tauto|].
    destruct A as (b1 & A1 & A2 & A3 & A4).
    destruct (binv_add b cb tgt src t b1 _ I ltac:(lia) Ht A1) as (I1 & _ & _ & _ & [[-> N]|(_ & A5 & _)]).
    { exfalso. apply N. exists (b_rq_counter b + 1). pose proof (bi_counter b I). split; [reflexivity|lia]. }
    cbn [req_step]. rewrite A1.
    destruct (IH b1 I1 ltac:(lia) ltac:(rewrite A2; exact Hr) ltac:(rewrite A2; exact Hu)) as (J1 & J2 & J3 & J4 & J5).
    destruct (req_run b1 (repeat (RAddRequest cb tgt src t) n)) as [b2 log]. cbn [fst] in *.
    split; [assumption|]. split; [congruence|]. split; [congruence|]. split; [lia|].
    rewrite J5, A4, A5, <- app_assoc. f_equal. cbn [seq map app]. f_equal; [f_equal; lia|].
    rewrite <- seq_shift, map_map. apply map_ext. intros i. f_equal. lia.
Qed.

Definition ab_msg : tmsg D64 := msg "a" "b" 60 (v64 1 0 0) id64.
Definition after_ab : core D64 := fst (setTransform (init_core 100) ab_msg "me" false).
Lemma ab_due : forall h, owed after_ab [1] (mkPreq h 1 "a" "b" 60) = [mkNotice 1 h "a" "b" TransformAvailable].
Proof. intros h. vm_compute. reflexivity. Qed.

Theorem C32_cancel_above_32_bits_refuted :
  exists (n : nat) (ops := (RAddCallback :: repeat (RAddRequest 1 "a" "b" 60) n ++ [RCancel (2 ^ 32 + 1); RSet ab_msg "me" false])%list)
    (b : buf D64) log evs,
  Z.of_nat n = 2 ^ 32 + 1 /\ Forall req_op_ok ops /\ Z.of_nat (List.length ops) < 2 ^ 64 - 2 /\
  req_run (init_buf 100) ops = (b, (log ++ [(RCancel (2 ^ 32 + 1), AVoid, []); (RSet ab_msg "me" false, ABool (Ok true), evs)])%list) /\
  In (2 ^ 32 + 1) (map ev_handle evs) /\ ~ In 1 (map ev_handle evs).
Proof.
  assert (exists n : nat, Z.of_nat n = 2 ^ 32 + 1) as [n Hn] by (exists (Z.to_nat (2 ^ 32 + 1)); apply Z2Nat.id; lia).
  exists n. intros ops.
  assert (I0 : binv (init_buf 100 : buf D64)) by (apply binv_init; unfold dur_bound; lia).
  destruct (req_step (init_buf 100) (@RAddCallback D64)) as [[b0 a0] e0] eqn:E0.
  assert (X0 : b0 = mkBuf (init_core 100) [1] 1 [] 0 /\ a0 = ACallback (Some 1) /\ e0 = []).
  { assert (Y : req_step (init_buf 100) (@RAddCallback D64) = (mkBuf (init_core 100) [1] 1 [] 0, ACallback (Some 1), @nil event)) by reflexivity.
    rewrite Y in E0. inversion E0. auto. }
  pose proof (step_fact _ (@RAddCallback D64) _ _ _ I0 Logic.I ltac:(cbn; unfold uint64; lia) E0) as K0.
  assert (Ib : binv b0) by apply K0. destruct X0 as (X1 & X2 & X3).
  destruct (many_adds "a" "b" 60 1 ltac:(discriminate) ltac:(split; vm_compute; congruence) n b0 Ib) as (I1 & C1 & C2 & C3 & C4).
  { rewrite X1. cbn [b_rq_counter]. unfold uint64. lia. }
  { rewrite X1. vm_compute. reflexivity. }
  { rewrite X1. reflexivity. }
  destruct (req_run b0 (repeat (RAddRequest 1 "a" "b" 60) n)) as [b1 l1] eqn:E1. cbn [fst] in *.
  rewrite X1 in C1, C2, C3, C4. cbn [b_core b_cbs b_rq_counter b_reqs pending map app] in C1, C2, C3, C4.
  set (b2 := cancelTransformableRequest b1 (2 ^ 32 + 1)).
  assert (M : (2 ^ 32 + 1) mod uint32 = 1) by reflexivity.
  assert (P2 : pending b2 = filter (fun p => negb (p_handle p =? 1)%Z) (pending b1)).
  { unfold b2, pending, cancelTransformableRequest. rewrite M. cbn [b_core b_reqs].
    induction (b_reqs b1) as [|r l IH]; [reflexivity|]. cbn [filter map]. cbn [view p_handle].
    destruct (rq_handle r =? 1)%Z; cbn [negb map]; [exact IH|]. f_equal. exact IH. }
  assert (K2 : step_ok b1 (RCancel (2 ^ 32 + 1)) b2 AVoid []).
  { apply step_fact; [assumption|cbn; unfold uint64; lia|rewrite C3; unfold uint64; lia|reflexivity]. }
  assert (Es : setTransform (b_core b2) ab_msg "me" false = (after_ab, Ok true)).
  { change (b_core b2) with (b_core b1). rewrite C1. unfold after_ab.
    assert (Y : ok_true (snd (setTransform (init_core 100) ab_msg "me" false)) = true) by (vm_compute; reflexivity).
    destruct (setTransform (init_core 100) ab_msg "me" false) as [s' [[|]| |]]; try discriminate. reflexivity. }
  destruct (set_settles b2 ab_msg "me" false after_ab (so_inv _ _ _ _ _ K2)) as (b3 & evs & H3 & _ & _ & _ & Pn).
  { intros p Hp. rewrite P2 in Hp. apply filter_In in Hp as [Hp _]. rewrite C4 in Hp. apply in_map_iff in Hp as (i & <- & _).
    change (b_core b2) with (b_core b1). rewrite C1. vm_compute. reflexivity. }
  { split; vm_compute; congruence. }
  { exact Es. }
  change (b_cbs b2) with (b_cbs b1) in Pn. rewrite C2 in Pn.
  assert (Hh : forall h, In h (map ev_handle evs) <-> In h (map p_handle (pending b2))).
  { intros h. assert (Eh : map ev_handle evs = map n_handle (map notice_of evs)) by (rewrite map_map; reflexivity). rewrite Eh.
    assert (Q : Permutation (map n_handle (map notice_of evs)) (map p_handle (pending b2))).
    { rewrite Pn. rewrite P2, C4. clear. generalize (seq 0 n). intros l. induction l as [|i l IH]; [reflexivity|].
      cbn [map filter]. destruct (negb (p_handle (mkPreq (0 + 1 + Z.of_nat i) 1 "a" "b" 60) =? 1)%Z); [|exact IH].
      cbn [flat_map map]. rewrite ab_due. cbn [app map n_handle p_handle]. constructor. exact IH. }
    split; apply Permutation_in; [exact Q|symmetry; exact Q]. }
  exists b3, ((RAddCallback, ACallback (Some 1), []) :: l1), evs.
  split; [assumption|]. split; [|split; [|split; [|split]]].
  - constructor; [exact Logic.I|]. apply Forall_app. split.
    + apply Forall_forall. intros o Ho. apply repeat_spec in Ho. subst o. cbn. unfold uint32, valid_time, time_bound. lia.
    + repeat constructor; cbn; unfold uint64; try lia.
  - subst ops. cbn [List.length]. rewrite app_length, repeat_length. cbn [List.length]. lia.
  - subst ops. cbn [req_run]. rewrite E0, X2, X3. rewrite req_run_app, E1. cbn [req_run].
    change (req_step b1 (RCancel (2 ^ 32 + 1))) with (b2, AVoid, @nil event). cbn [req_step]. rewrite H3. reflexivity.
  - apply Hh. rewrite P2. rewrite C4. apply in_map_iff. exists (mkPreq (2 ^ 32 + 1) 1 "a" "b" 60). split; [reflexivity|].
    apply filter_In. split; [|reflexivity]. apply in_map_iff. exists (Nat.pred n). split; [f_equal; lia|]. apply in_seq. lia.
  - intros Hin. apply Hh in Hin. rewrite P2 in Hin. apply in_map_iff in Hin as (p & Ep & Hp). apply filter_In in Hp as [_ Hp]. rewrite Ep in Hp. discriminate.
Qed.
Print Assumptions C32_cancel_above_32_bits_refuted.

(** ** C33 *)
Theorem C33_pending_handles_distinct :
  forall (S : Scalar) (b : buf S), req_reachable b ->
  NoDup (map p_handle (pending b)) /\ (forall p, In p (pending b) -> 0 < p_handle p < 2 ^ 64 - 1) /\
  NoDup (b_cbs b) /\ (forall h, In h (b_cbs b) -> 0 <= h < 2 ^ 32).
Proof.
  intros S b R. destruct (reach_binv b R) as [I Hc]. destruct I. repeat split; auto.
  - rewrite Forall_forall in bi_range. specialize (bi_range _ H). lia.
  - rewrite Forall_forall in bi_range. specialize (bi_range _ H). change (2 ^ 64) with uint64. lia.
  - rewrite Forall_forall in bi_cbs_range. apply bi_cbs_range. assumption.
  - rewrite Forall_forall in bi_cbs_range. apply bi_cbs_range. assumption.
Qed.
Print Assumptions C33_pending_handles_distinct.

(** Handles given out are strictly increasing over the history. *)
Theorem C33_handles_increase :
  forall (S : Scalar) ct (ops : list (req_op S)) b before middle after cb1 g1 s1 t1 h1 e1 cb2 g2 s2 t2 h2 e2,
  0 <= ct < dur_bound -> Forall req_op_ok ops -> Z.of_nat (List.length ops) < 2 ^ 64 - 2 ->
  req_run (init_buf ct) ops =
    (b, (before ++ (RAddRequest cb1 g1 s1 t1, AHandle (Ok h1), e1) :: middle ++ (RAddRequest cb2 g2 s2 t2, AHandle (Ok h2), e2) :: after)%list) ->
  0 < h1 < 2 ^ 64 - 1 -> 0 < h2 < 2 ^ 64 - 1 -> h1 < h2.
Proof.
  intros S ct ops b l1 l2 l3 cb1 g1 s1 t1 h1 e1 cb2 g2 s2 t2 h2 e2 Hct F Hl H R1 R2. change (2 ^ 64) with uint64 in *.
  destruct (log_split _ _ _ _ _ _ _ _ H) as (o1 & o2 & c1 & c2 & -> & G1 & G2 & G3).
  destruct (log_split _ _ _ _ _ _ _ _ G3) as (o3 & o4 & c3 & c4 & -> & G4 & G5 & G6).
  apply Forall_app in F as [F1 F2]. inversion F2 as [|? ? Ho F2']; subst. apply Forall_app in F2' as [F3 F4]. inversion F4 as [|? ? Ho' _]; subst.
  rewrite app_length in Hl. cbn [List.length] in Hl. rewrite app_length in Hl. cbn [List.length] in Hl.
  destruct (run_fact o1 (init_buf ct) c1 l1 (binv_init ct Hct) F1) as (I1 & K1 & _); [cbn [b_rq_counter init_buf]; lia|assumption|]. cbn [b_rq_counter init_buf] in K1.
  pose proof (step_fact c1 _ c2 _ _ I1 Ho ltac:(lia) G2) as J1.
  destruct (so_add _ _ _ _ _ J1 _ _ _ _ h1 eq_refl eq_refl ltac:(lia)) as (_ & A1 & A2).
  destruct (run_fact o3 c2 c3 l2 (so_inv _ _ _ _ _ J1) F3) as (I3 & K3 & _); [lia|assumption|].
  pose proof (step_fact c3 _ c4 _ _ I3 Ho' ltac:(lia) G5) as J2.
  destruct (so_add _ _ _ _ _ J2 _ _ _ _ h2 eq_refl eq_refl ltac:(lia)) as (_ & A3 & A4). lia.
Qed.
Print Assumptions C33_handles_increase.

(** Registering a callback yields a handle not in use, as long as not all 2^32 are. *)
Theorem C33_callback_handle_fresh :
  forall (S : Scalar) (b : buf S), req_reachable b -> Z.of_nat (List.length (b_cbs b)) < 2 ^ 32 ->
  exists b' h, addTransformableCallback b = (b', Some h) /\ ~ In h (b_cbs b) /\ 0 <= h < 2 ^ 32 /\ b_cbs b' = h :: b_cbs b /\
    pending b' = pending b /\ b_core b' = b_core b.
Proof.
  intros S b R Hl. pose proof (cb_counter_reach b R) as Hc. destruct (next_cb_some (b_cbs b) (Datatypes.S (List.length (b_cbs b))) (b_cb_counter b) Hc ltac:(lia) ltac:(change uint32 with (2 ^ 32); lia)) as [h Hh].
  pose proof (next_cb_fresh _ _ _ _ Hh) as [F1 F2]. unfold addTransformableCallback. rewrite Hh. eexists _, h. repeat split; auto; apply F2.
Qed.
Print Assumptions C33_callback_handle_fresh.

(** The bound on the length is needed: request number 2^64-1 gets handle 1 again. *)
Theorem C33_wrap_around_refuted :
  exists (n : nat) (ops := repeat (RAddRequest 1 "a" "b" 60) n) , Z.of_nat n = 2 ^ 64 - 1 /\ Forall (@req_op_ok D64) ops /\
  ~ NoDup (map p_handle (pending (fst (req_run (init_buf 100 : buf D64) ops)))).
Proof.
  assert (exists n : nat, Z.of_nat n = 2 ^ 64 - 2) as [n Hn] by (exists (Z.to_nat (2 ^ 64 - 2)); apply Z2Nat.id; lia).
  exists (n + 1)%nat. intros ops. split; [lia|]. split.
  { apply Forall_forall. intros o Ho. apply repeat_spec in Ho. subst o. cbn. unfold uint32, valid_time, time_bound. lia. }
  assert (I0 : binv (init_buf 100 : buf D64)) by (apply binv_init; unfold dur_bound; lia).
  destruct (many_adds "a" "b" 60 1 ltac:(discriminate) ltac:(split; vm_compute; congruence) n (init_buf 100) I0) as (I1 & C1 & C2 & C3 & C4).
  { cbn [b_rq_counter init_buf]. unfold uint64. lia. }
  { vm_compute. reflexivity. }
  { reflexivity. }
  subst ops. rewrite repeat_app, req_run_app.
  destruct (req_run (init_buf 100) (repeat (RAddRequest 1 "a" "b" 60) n)) as [b1 l1]. cbn [fst] in *.
  cbn [b_core b_cbs b_rq_counter b_reqs init_buf pending map app] in C1, C2, C3, C4.
  cbn [repeat req_run req_step]. unfold addTransformableRequest. rewrite C1.
  assert (A : match add_check (init_core 100 : core D64) "a" "b" 60 with Ok (Push i j) => (i, j) | _ => (1%nat, 1%nat) end = (0%nat, 0%nat)) by (vm_compute; reflexivity).
  destruct (add_check (init_core 100 : core D64) "a" "b" 60) as [[h|i j]| |]; try discriminate. clear A.
  unfold push_request. rewrite C3. replace ((0 + Z.of_nat n + 1) mod uint64) with (uint64 - 1) by (rewrite Hn; reflexivity).
  rewrite (proj2 (Z.eqb_eq (uint64 - 1) (uint64 - 1)) eq_refl), orb_true_r. cbn [fst].
  unfold pending. cbn [b_core b_reqs]. rewrite map_app. cbn [map]. fold (pending b1). rewrite map_app, C4. cbn [map view p_handle rq_handle].
  intros Nd. apply NoDup_remove_2 in Nd. rewrite app_nil_r in Nd. apply Nd. apply in_map_iff. exists (mkPreq 1 1 "a" "b" 60). split; [reflexivity|].
  apply in_map_iff. exists 0%nat. split; [reflexivity|]. apply in_seq. lia.
Qed.
Print Assumptions C33_wrap_around_refuted.

Example C33_example : NoDup (map p_handle (pending waiting)) /\ map p_handle (pending waiting) = [1; 2; 3; 4; 6] /\ b_cbs waiting = [2; 1].
Proof. split; [apply (C33_pending_handles_distinct _ _ waiting_reachable)|split; vm_compute; reflexivity]. Qed.
