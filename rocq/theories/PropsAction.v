(** * Property theorems: BufferServer (C49) and BufferClient (C50) *)
From Coq Require Import ZArith Bool List String Lia Floats.SpecFloat.
From Verif Require Import RosTime Scalar LinearMath Cache BufferCore SpecCore Instances CoreSet ExampleBuffers
  TfBuffer SpecWait WaitProofs TfAction SpecAction ActionProofs PropsLookup.
Import ListNotations.
Open Scope string_scope.
Open Scope list_scope.
Open Scope Z_scope.

(** ** C49 *)
(** At any moment of any run, every goal that came in is exactly one of: finished (with a result,
    or canceled), once; still waiting in the server; or abandoned by an exception in goalCB. *)
Theorem C49_each_goal_is_finished_waiting_or_abandoned :
  forall (S : Scalar) (ops : list (@server_op S)) sv log, NoDup (goal_ids ops) ->
  server_run empty_server ops = (sv, log) ->
  forall id, In id (goal_ids ops) ->
  times_accepted id log = 1%nat /\ (times_finished id log + waiting id sv + times_died id log = 1)%nat.
Proof. intros S. exact once. Qed.
Print Assumptions C49_each_goal_is_finished_waiting_or_abandoned.
Theorem C49_nothing_for_goals_that_never_came :
  forall (S : Scalar) (ops : list (@server_op S)) sv log, server_run empty_server ops = (sv, log) ->
  forall id, ~ In id (goal_ids ops) -> times_finished id log = 0%nat.
Proof. intros S. exact never_if_unknown. Qed.
Print Assumptions C49_nothing_for_goals_that_never_came.

(** In range, no step throws: so no goal is abandoned. *)
Theorem C49_no_goal_is_abandoned :
  forall (S : Scalar) (ops : list (@server_op S)), Forall op_in_range ops ->
  exists sv log, server_run empty_server ops = (sv, log) /\ Forall (fun e => snd e = Ok tt) log /\
    forall id, times_died id log = 0%nat.
Proof.
  intros S ops F. destruct (run_ok ops empty_server) as (sv & log & H & L & _); [split; constructor|exact F|].
  exists sv, log. split; [exact H|]. split; [exact L|]. intros id. apply no_deaths, L.
Qed.
Print Assumptions C49_no_goal_is_abandoned.

(** One timer tick answers exactly the waiting goals that are due - transform available or
    deadline past - each with what a lookup in the buffer gives, and keeps the others. *)
Theorem C49_tick_answers_exactly_the_due_goals :
  forall (S : Scalar) sv (sights : nat -> sight S) sv' evs, (forall k, good_sight (sights k)) ->
  checkTransforms sv sights = (sv', evs, Ok tt) ->
  s_starting sv' = s_starting sv /\
  (forall g e, In (g, e) (s_active sv') <-> exists k, nth_error (s_active sv) k = Some (g, e) /\ ~ due g e (sights k)) /\
  (forall ev, In ev evs -> exists k g e r, nth_error (s_active sv) k = Some (g, e) /\ due g e (sights k) /\
     ev = Succeeded (g_id g) r /\ answers r (lookup (goal_question g) (v_lookup (sights k)))) /\
  (forall k g e, nth_error (s_active sv) k = Some (g, e) -> due g e (sights k) ->
     exists r, In (Succeeded (g_id g) r) evs /\ answers r (lookup (goal_question g) (v_lookup (sights k)))).
Proof. intros S. exact tick_exact. Qed.
Print Assumptions C49_tick_answers_exactly_the_due_goals.

(** A new goal is answered at once iff the transform is available or its timeout is not positive
    any more; otherwise it is queued with arrival time plus timeout as its deadline. *)
Theorem C49_new_goal :
  forall (S : Scalar) sv g now0 (o : sight S) sv' evs, good_sight o ->
  goalCB_begin sv g now0 o = (sv', evs, Ok tt) ->
  s_active sv' = s_active sv /\ valid_time (now0 + g_timeout g) /\
  ((can (goal_question g) (v_can o) None = Ok (true, None) \/ now0 + g_timeout g <= v_now o) /\
     s_starting sv' = s_starting sv /\
     (exists r, evs = [Accepted (g_id g); Succeeded (g_id g) r] /\ answers r (lookup (goal_question g) (v_lookup o)))
   \/ can (goal_question g) (v_can o) None = Ok (false, None) /\ v_now o < now0 + g_timeout g /\
     s_starting sv' = s_starting sv ++ [(g, now0 + g_timeout g)] /\ evs = [Accepted (g_id g)]).
Proof. intros S. exact begin_exact. Qed.
Print Assumptions C49_new_goal.

(** In every run: the goals waiting carry arrival time plus timeout as their deadline, and every
    result reported is a lookup of the goal's own question in a buffer state the server saw. *)
Theorem C49_deadlines_and_results_are_genuine :
  forall (S : Scalar) (ops : list (@server_op S)) sv log, server_run empty_server ops = (sv, log) ->
  (forall g e, In (g, e) (s_active sv) \/ In (g, e) (s_starting sv) ->
     exists now0 o, In (SGoal g now0 o) ops /\ e = now0 + g_timeout g) /\
  (forall id r, In (Succeeded id r) (events_in log) ->
     exists g c o, g_id g = id /\ (exists now0 s0, In (SGoal g now0 s0) ops) /\ In o ops /\ looked_in o c /\
       answers r (lookup (goal_question g) c)).
Proof.
  intros S ops sv log H. destruct (run_came ops [] empty_server sv log H (Forall_nil _) (Forall_nil _)) as [[A B] R].
  split; [|exact R]. rewrite Forall_forall in A, B. intros g e [I|I]; [destruct (A _ I) as (n & o & X & Y)|destruct (B _ I) as (n & o & X & Y)]; eauto.
Qed.
Print Assumptions C49_deadlines_and_results_are_genuine.

(** The first tick that finds a deadline past ends the goal's waiting. *)
Theorem C49_no_goal_outlives_a_tick_after_its_deadline :
  forall (S : Scalar) sv (sights : nat -> sight S) sv' evs, (forall k, good_sight (sights k)) ->
  checkTransforms sv sights = (sv', evs, Ok tt) ->
  forall g e, In (g, e) (s_active sv) -> (forall k, e < v_now (sights k)) ->
  ~ In (g, e) (s_active sv') /\ exists r, In (Succeeded (g_id g) r) evs.
Proof.
  intros S sv sights sv' evs G H g e I L. destruct (tick_exact sv sights sv' evs G H) as (_ & A & _ & B). split.
  - intros I'. apply A in I' as (k & _ & D). apply D. right. apply L.
  - apply In_nth_error in I as [k I]. destruct (B k g e I) as (r & R & _); [right; apply L|eauto].
Qed.
Print Assumptions C49_no_goal_outlives_a_tick_after_its_deadline.

(** Before the deadline no error is reported, unless the buffer changed between the check and the
    lookup. *)
Theorem C49_no_error_before_the_deadline :
  forall (S : Scalar) sv (sights : nat -> sight S) sv' evs, (forall k, good_sight (sights k)) ->
  (forall k, v_can (sights k) = v_lookup (sights k)) ->
  (forall g e, In (g, e) (s_active sv) -> times_early (goal_question g)) ->
  checkTransforms sv sights = (sv', evs, Ok tt) ->
  forall id r, In (Succeeded id r) evs -> r_error r <> 0 ->
  exists k g e, nth_error (s_active sv) k = Some (g, e) /\ g_id g = id /\ e < v_now (sights k).
Proof.
  intros S sv sights sv' evs G U T H id r I E. destruct (tick_exact sv sights sv' evs G H) as (_ & _ & B & _).
  destruct (B _ I) as (k & g & e & r' & N & D & X & An). injection X as -> <-. exists k, g, e. split; [exact N|]. split; [reflexivity|].
  destruct (error_needs_reason g e (sights k) r (G k)) as [L|L]; auto; [eapply T, nth_error_In, N|]. destruct (L (U k)).
Qed.
Print Assumptions C49_no_error_before_the_deadline.

(** Canceling: a waiting goal is reported canceled and removed; for any other goal nothing happens. *)
Theorem C49_cancel :
  forall (S : Scalar) sv id,
  (forall x, In x (s_active sv) -> g_id (fst x) <> id) /\ cancelCB (S:=S) sv id = (sv, [], Ok tt) \/
  (exists g e rest, In (g, e) (s_active sv) /\ g_id g = id /\
     (forall y, In y (s_active sv) <-> y = (g, e) \/ In y rest) /\
     cancelCB (S:=S) sv id = (mkServer rest (s_starting sv), [Canceled id], Ok tt)).
Proof.
  intros S sv id. unfold cancelCB.
  assert (T : forall l, match take_goal id l with
     | Some ((g, e), rest) => In (g, e) l /\ g_id g = id /\ (forall y, In y l <-> y = (g, e) \/ In y rest)
     | None => forall x, In x l -> g_id (fst x) <> id end).
  { induction l as [|[g e] l IH]; cbn [take_goal]; [intros x []|]. destruct (Nat.eqb_spec (g_id g) id) as [E|E].
    - split; [left; reflexivity|]. split; [exact E|]. intros y. cbn. intuition congruence.
    - destruct (take_goal id l) as [[[g' e'] rest]|].
      + destruct IH as (I1 & I2 & I3). split; [right; exact I1|]. split; [exact I2|]. intros y. cbn. rewrite I3. tauto.
      + intros x [<-|I]; [exact E|apply IH, I]. }
  specialize (T (s_active sv)). destruct (take_goal id (s_active sv)) as [[[g e] rest]|].
  - right. destruct T as (T1 & T2 & T3). exists g, e, rest. auto.
  - left. auto.
Qed.
Print Assumptions C49_cancel.

Definition ask (id : nat) (u : question) (timeout : duration) : goal := client_goal id u timeout.
Definition seen (c : core D64) (now : time) : sight D64 := mkSight c now c.
Definition server_ops : list (@server_op D64) :=
  [ SGoal (ask 1 (Simple "base" "beacon" 15) 100) 1000 (seen robot 1000);      (* available: at once *)
    SGoal (ask 2 (Simple "base" "beacon" 50) 100) 1000 (seen robot 1000);      (* in the future: waits *)
    SGoal (ask 3 (Simple "base" "nowhere" 15) 500) 1010 (seen robot 1010);     (* unknown: waits *)
    SPush 3; SPush 2;
    STick (fun _ => seen robot 1100);                                          (* nothing is due *)
    SGoal (ask 4 (Advanced "base" 15 "y" 7 "map") 0) 1100 (seen robot 1100);   (* no timeout: error at once *)
    SGoal (ask 5 (Simple "y" "base" 0) 900) 1100 (seen robot 1100);
    SPush 5; SCancel 3;
    STick (fun _ => seen robot 1101) ].                                        (* 2 expires *)
Definition show_event (e : action_event D64) : nat * Z :=
  match e with Accepted i => (i, -1) | Succeeded i r => (i, r_error r) | Canceled i => (i, -2) end.
Lemma ops_in_range : Forall op_in_range server_ops.
Proof.
  assert (G : forall now, good_sight (seen robot now)).
  { intros now. unfold good_sight, seen. cbn [v_can v_lookup]. split; [exact robot_reachable|]. split; [exact robot_reachable|]. split; exact robot_early. }
  unfold server_ops. repeat (constructor; [cbn [op_in_range]; try exact I; try (intros; apply G); try (split; [apply G|split; [unfold times_early, ask, client_goal, goal_question, simple_goal, advanced_goal; cbn [g_advanced g_target_time g_source_time]; unfold dur_bound; lia|unfold ask, client_goal, simple_goal, advanced_goal; cbn [g_timeout]; unfold valid_time, time_bound; lia]])|]). constructor.
Qed.
Example C49_example :
  NoDup (goal_ids server_ops) /\ Forall op_in_range server_ops /\
  map show_event (events_in (snd (server_run empty_server server_ops))) =
    [(1%nat, -1); (1%nat, 0); (2%nat, -1); (3%nat, -1); (4%nat, -1); (4%nat, 2); (5%nat, -1); (3%nat, -2); (2%nat, 3)] /\
  map (fun x => (g_id (fst x), snd x)) (s_active (fst (server_run empty_server server_ops))) = [(5%nat, 2000)].
Proof.
  split. { replace (goal_ids server_ops) with [1; 2; 3; 4; 5]%nat by reflexivity. repeat constructor; cbn; intuition congruence. }
  split; [exact ops_in_range|]. split; vmr.
Qed.

(** std::runtime_error is not caught: a goal whose lookup exceeds rostime's range stays first in
    the list for ever and no goal behind it is ever answered. *)
Theorem C49_range_error_starves_all_others_refuted :
  forall (S : Scalar) sv g e rest (sights : nat -> sight S) what, s_active sv = (g, e) :: rest ->
  reachable (v_can (sights 0%nat)) -> due g e (sights 0%nat) ->
  lookup (goal_question g) (v_lookup (sights 0%nat)) = Throw RuntimeError what ->
  checkTransforms sv sights = (sv, [], Throw RuntimeError what).
Proof.
  intros S sv g e rest sights what A R D L. unfold checkTransforms. rewrite A. cbn [check_loop].
  destruct (goal_can_question g _ R) as (b & E & Q). rewrite E.
  replace (b || (e <? v_now (sights 0%nat))) with true.
  2:{ symmetry. apply orb_true_iff. destruct D as [D|D]; [left; congruence|right; apply Z.ltb_lt; exact D]. }
  rewrite goal_lookup_question, L. cbn [fill_result]. rewrite <- A. destruct sv. reflexivity.
Qed.
Print Assumptions C49_range_error_starves_all_others_refuted.
Example C49_starving_example :
  let bad := ask 1 (Simple "x" "y" (2 ^ 31 * 10 ^ 9 + 10)) 100 in
  let sv := mkServer [(bad, 1100); (ask 2 (Simple "p" "x" 0) 100, 1100)] [] in
  reachable far /\ due bad 1100 (seen far 5000) /\
  lookup (goal_question bad) far = Throw RuntimeError ETimeRange /\
  available (goal_question (ask 2 (Simple "p" "x" 0) 100)) (fun _ => mkInstant 5000 far true) 0.
Proof.
  cbv zeta. split; [exact far_reachable|]. split; [right; reflexivity|]. split; [vmr|unfold available; vmr].
Qed.

(** If arrival time plus timeout is not a ros::Time, the goal is accepted and never finished. *)
Theorem C49_timeout_overflow_loses_the_goal_refuted :
  forall (S : Scalar) (ops1 ops2 : list (@server_op S)) g now0 o sv log,
  ~ valid_time (now0 + g_timeout g) -> NoDup (goal_ids (ops1 ++ SGoal g now0 o :: ops2)) ->
  server_run empty_server (ops1 ++ SGoal g now0 o :: ops2) = (sv, log) ->
  times_accepted (g_id g) log = 1%nat /\ times_finished (g_id g) log = 0%nat /\ waiting (g_id g) sv = 0%nat.
Proof.
  intros S ops1 ops2 g now0 o sv log V N H.
  assert (I : In (g_id g) (goal_ids (ops1 ++ SGoal g now0 o :: ops2))).
  { unfold goal_ids. rewrite flat_map_app. apply in_or_app. right. left. reflexivity. }
  destruct (once _ _ _ N H _ I) as [A B]. split; [exact A|].
  assert (D : (1 <= times_died (g_id g) log)%nat); [|lia].
  clear -H V. revert sv log H. generalize (empty_server) as s0. induction ops1 as [|p ops1 IH]; intros s0 sv log H; cbn [app server_run] in H.
  - cbn [server_step] in H. unfold goalCB_begin in H.
    replace (time_add now0 (g_timeout g)) with (@None time) in H.
    2:{ unfold time_add, valid_timeb. destruct (Z.leb_spec 0 (now0 + g_timeout g)); [|reflexivity].
        destruct (Z.ltb_spec (now0 + g_timeout g) time_bound); [|reflexivity]. destruct V. split; assumption. }
    destruct (server_run s0 ops2) as [s2 l2]. injection H as <- <-. unfold times_died. cbn [filter died]. rewrite Nat.eqb_refl. cbn. lia.
  - destruct (server_step s0 p) as [[s1 ev] x]. destruct (server_run s1 _) as [s2 l2] eqn:R. injection H as <- <-.
    specialize (IH _ _ _ R). unfold times_died in *. cbn [filter]. destruct (died (g_id g) (p, ev, x)); cbn [List.length]; lia.
Qed.
Print Assumptions C49_timeout_overflow_loses_the_goal_refuted.
Example C49_overflow_example : (* a negative timeout while the clock is still near 0 *)
  ~ valid_time (5 + g_timeout (ask 1 (Simple "base" "beacon" 15) (-10))).
Proof. intros [H _]. cbn in H. lia. Qed.

(** A cancel request that overtakes the last statement of goalCB (multi-threaded spinner) is lost. *)
Theorem C49_early_cancel_is_lost_refuted :
  let g := ask 1 (Simple "base" "beacon" 50) 100 in
  let r := server_run empty_server [SGoal g 1000 (seen robot 1000); SCancel 1; SPush 1] in
  map show_event (events_in (snd r)) = [(1%nat, -1)] /\ waiting 1 (fst r) = 1%nat.
Proof. cbv zeta. split; vmr. Qed.
Print Assumptions C49_early_cancel_is_lost_refuted.

(** ** C50 *)
(** A remote lookup answered by the server gives exactly what the local lookup gives in a buffer
    state the server saw: the same transform, or the same exception class and text.  Anything
    else is a TimeoutException. *)
Theorem C50_remote_equals_local :
  forall (S : Scalar) (ops : list (@server_op S)) sv log id padding answer u timeout,
  NoDup (goal_ids ops) -> server_run empty_server ops = (sv, log) -> served ops log answer ->
  - dur_bound <= timeout + padding < dur_bound ->
  match answer (client_goal id u timeout) with
  | Success _ => exists o c, In o ops /\ looked_in o c /\ client_lookup id padding answer u timeout = lookup u c
  | _ => exists e, client_lookup id padding answer u timeout = Throw TimeoutException e
  end.
Proof. intros S. exact remote_local. Qed.
Print Assumptions C50_remote_equals_local.

(** The goal the client sends asks the client's question. *)
Theorem C50_goal_asks_the_question :
  forall id u timeout,
  goal_question (client_goal id u timeout) = u /\ g_timeout (client_goal id u timeout) = timeout /\ g_id (client_goal id u timeout) = id.
Proof. exact client_goal_question. Qed.
Print Assumptions C50_goal_asks_the_question.

(** canTransform is lookupTransform with the outcome as a boolean and the exception's text as the
    error string. *)
Theorem C50_can_iff_lookup :
  forall (S : Scalar) id padding (answer : goal -> reply S) u timeout errstr,
  (client_can id padding answer u timeout errstr = Ok (true, errstr) <-> exists m, client_lookup id padding answer u timeout = Ok m) /\
  (forall c e, c <> RuntimeError -> client_lookup id padding answer u timeout = Throw c e ->
     client_can id padding answer u timeout errstr = Ok (false, match errstr with Some _ => Some e | None => None end)) /\
  (forall e, client_lookup id padding answer u timeout = Throw RuntimeError e ->
     client_can id padding answer u timeout errstr = Throw RuntimeError e).
Proof.
  intros S id padding answer u timeout errstr. rewrite client_can_lookup.
  destruct (client_lookup id padding answer u timeout) as [m|c e|]; cbn [caught].
  - split; [split; eauto|]. split; intros; discriminate.
  - split; [|split].
    + split; [destruct c; discriminate|intros [m H]; discriminate].
    + intros c' e' N H. injection H as <- <-. destruct c; try reflexivity. contradiction.
    + intros e' H. injection H as -> <-. reflexivity.
  - split; [split; [discriminate|intros [m H]; discriminate]|]. split; intros; discriminate.
Qed.
Print Assumptions C50_can_iff_lookup.

(** The error codes of the wire format keep the exception classes apart. *)
Theorem C50_codes_round_trip :
  forall (S : Scalar) (x : res (tmsg S)) r, fill_result x = Ok r -> processResult r = x.
Proof. intros S x r H. apply processResult_answers, fill_answers, H. Qed.
Print Assumptions C50_codes_round_trip.

(** An answer function built from the run of C49_example. *)
Definition find_result (id : nat) (evs : list (action_event D64)) : reply D64 :=
  match find (fun e => match e with Succeeded i _ => Nat.eqb i id | _ => false end) evs with Some (Succeeded _ r) => Success r | _ => NotInTime end.
Definition goal_eqb (a b : goal) : bool :=
  Nat.eqb (g_id a) (g_id b) && String.eqb (g_target a) (g_target b) && String.eqb (g_source a) (g_source b) &&
  (g_source_time a =? g_source_time b) && (g_timeout a =? g_timeout b) && (g_target_time a =? g_target_time b) &&
  String.eqb (g_fixed a) (g_fixed b) && Bool.eqb (g_advanced a) (g_advanced b).
Definition from_log (ops : list (@server_op D64)) (log : list (@log_entry D64)) : goal -> reply D64 := fun g =>
  if existsb (fun o => match o with SGoal g' _ _ => goal_eqb g g' | _ => false end) ops
  then find_result (g_id g) (events_in log) else NotInTime.
Lemma from_log_served : forall ops log, served ops log (from_log ops log).
Proof.
  intros ops log g r H. unfold from_log in H. destruct (existsb _ ops) eqn:E; [|discriminate].
  apply existsb_exists in E as ([g' n o| | |] & I & Q); try discriminate.
  assert (g = g').
  { unfold goal_eqb in Q. repeat (apply andb_prop in Q as [Q ?]). destruct g, g'. cbn in *.
    repeat match goal with
    | H : Nat.eqb _ _ = true |- _ => apply Nat.eqb_eq in H
    | H : String.eqb _ _ = true |- _ => apply String.eqb_eq in H
    | H : (_ =? _) = true |- _ => apply Z.eqb_eq in H
    | H : Bool.eqb _ _ = true |- _ => apply eqb_prop in H end. congruence. }
  subst g'. split; [eauto|]. unfold find_result in H.
  destruct (find _ (events_in log)) as [ev|] eqn:F; [|discriminate].
  apply find_some in F as [F1 F2]. destruct ev as [|i r'|]; try discriminate. injection H as ->. apply Nat.eqb_eq in F2. subst i. exact F1.
Qed.
Definition from_run : goal -> reply D64 := from_log server_ops (snd (server_run empty_server server_ops)).
Definition show_lookup (r : res (tmsg D64)) : option exn_class * option string :=
  match r with Ok m => (None, Some (tm_child m)) | Throw c _ => (Some c, None) | UB => (None, None) end.
Example C50_example :
  served server_ops (snd (server_run empty_server server_ops)) from_run /\
  show_lookup (client_lookup 1 2000 from_run (Simple "base" "beacon" 15) 100) = (None, Some "beacon") /\
  show_lookup (client_lookup 2 2000 from_run (Simple "base" "beacon" 50) 100) = (Some ExtrapolationException, None) /\
  show_lookup (client_lookup 4 2000 from_run (Advanced "base" 15 "y" 7 "map") 0) = (Some ConnectivityException, None) /\
  show_lookup (client_lookup 5 2000 from_run (Simple "y" "base" 0) 900) = (Some TimeoutException, None).
Proof.
  split; [|split; [vmr|split; [vmr|split; vmr]]].
  apply from_log_served.
Qed.

(** A timeout whose sum with the padding is not a ros::Duration: std::runtime_error, even out of
    canTransform, after the goal has been sent. *)
Theorem C50_padding_overflow_refuted :
  forall (S : Scalar) id padding (answer : goal -> reply S) u timeout errstr, dur_bound <= timeout + padding ->
  client_can id padding answer u timeout errstr = Throw RuntimeError ETimeRange.
Proof.
  intros S id padding answer u timeout errstr V. rewrite client_can_lookup, client_lookup_goal.
  destruct (client_goal_question id u timeout) as (_ & T & _). fold (client_goal id u timeout). unfold processGoal. rewrite T.
  unfold dur_add, valid_durb. replace (timeout + padding <? dur_bound) with false by (symmetry; apply Z.ltb_ge; exact V).
  rewrite andb_false_r. reflexivity.
Qed.
Print Assumptions C50_padding_overflow_refuted.
Example C50_overflow_example : (* DURATION_MAX and the default padding of 2 s *)
  valid_dur (dur_bound - 1) /\ valid_dur (2 * 10 ^ 9) /\ dur_bound <= (dur_bound - 1) + 2 * 10 ^ 9.
Proof. unfold valid_dur, dur_bound. lia. Qed.
