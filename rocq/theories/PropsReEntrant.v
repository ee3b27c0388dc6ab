(** * C86: user code called from inside setTransform *)
From Coq Require Import ZArith Bool List String Lia Permutation.
From Verif Require Import RosTime Scalar LinearMath Cache SpecCache BufferCore SpecCore Instances ExampleBuffers
  Requests SpecRequests RequestProofs RequestHistory PropsRequests ReEntrant SpecReEntrant ReEntrantProofs.
Import ListNotations.
Open Scope Z_scope.
Open Scope list_scope.

(** ** C86.1  Whatever the callbacks and listeners do, and however deeply the calls nest, the buffer goes
    through an ordinary history of calls, each answered as that history says: the results about
    histories of calls (C30-C33) hold for programs with callbacks. *)
Theorem C86_nested_calls_are_a_history :
  forall (S : Scalar) (u : list (item S) -> who -> list (act S)) ct w,
  can_happen u ct w ->
  req_run (init_buf ct) (ops (w_log w)) = (w_buf w, calls (w_log w)) /\
  ((forall l x a, In a (u l x) -> act_ok a) -> Forall req_op_ok (ops (w_log w))).
Proof. intros S u ct w H. split; [apply (flattened u), H|intros P; exact (calls_ok u ct w P H)]. Qed.

(** ** C86.2  No callback is told about a request twice, whatever it does when it is told, and even if
    exceptions cut things short. *)
Theorem C86_notified_at_most_once :
  forall (S : Scalar) (u : list (item S) -> who -> list (act S)) ct w,
  0 <= ct < dur_bound -> (forall l x a, In a (u l x) -> act_ok a) -> can_happen u ct w ->
  Z.of_nat (List.length (ops (w_log w))) < 2 ^ 64 - 2 ->
  NoDup (map ev_handle (notified (w_log w))) /\
  forall e, In e (notified (w_log w)) -> exists t, In (RAddRequest (ev_cb e) (ev_target e) (ev_source e) t, AHandle (Ok (ev_handle e)), []) (calls (w_log w)).
Proof.
  intros S u ct w Hct P H Hn. destruct (C86_nested_calls_are_a_history S u ct w H) as (R & F).
  destruct (C30_notified_at_most_once S ct _ _ _ Hct (F P) Hn R) as (N & Who). destruct (notified_sub u ct w H) as (lost & Pm). split.
  - apply (Permutation_map ev_handle) in Pm. rewrite map_app in Pm. symmetry in Pm. apply (Permutation_NoDup Pm) in N. clear - N. induction (map ev_handle (notified (w_log w))) as [|x l IH]; [constructor|].
    inversion_clear N as [|? ? Nx N']. constructor; [intros C; apply Nx, in_app_iff; left; exact C|apply IH, N'].
  - intros e He. assert (Ie : In e (events_of (calls (w_log w)))) by (eapply Permutation_in; [exact Pm|apply in_app_iff; left; exact He]).
    apply in_flat_map in Ie as (((o & a) & evs) & Ix & Ie). apply in_split in Ix as (before & after & E). destruct (Who before o a evs after e E Ie) as (t & It & _). exists t. rewrite E. apply in_app_iff. left. exact It.
Qed.

(** ** C86.3  As long as nothing throws: when the outermost call has returned, everything owed has been
    delivered, each notification once. *)
Theorem C86_every_notification_is_made :
  forall (S : Scalar) (u : list (item S) -> who -> list (act S)) ct w,
  can_happen u ct w -> idle w -> no_exception (w_log w) ->
  Permutation (notified (w_log w)) (events_of (calls (w_log w))).
Proof. intros S u ct w H (K & U) NE. pose proof (notified_once u ct w H U NE) as P. rewrite K in P. cbn [undelivered flat_map] in P. rewrite app_nil_r in P. exact P. Qed.

(** ** C86.4  A listener connected throughout is told exactly once for each transform accepted meanwhile,
    those set by callbacks and listeners included; no listener is ever told more often, and none is told
    before it is connected or after it is disconnected. *)
Theorem C86_listener_told_once_per_transform :
  forall (S : Scalar) (u : list (item S) -> who -> list (act S)) ct w w' i l,
  can_happen u ct w -> idle w -> connected (w_log w) i ->
  can_follow u w w' -> idle w' -> w_log w' = w_log w ++ l -> no_exception l -> ~ In (Unlistened i) l ->
  times_told i l = times_accepted l.
Proof.
  intros S u ct w w' i l H Iw C F (K & _) E NE NU. pose proof (everyone_told u ct w w' i l H Iw (connected_listener u ct w i H C) F E NE NU) as G. rewrite K in G. change (waiting i (@nil (todo S))) with 0%nat in G. lia.
Qed.
Theorem C86_told_at_most_once_per_transform :
  forall (S : Scalar) (u : list (item S) -> who -> list (act S)) ct w,
  can_happen u ct w ->
  (forall i, (times_told i (w_log w) <= times_accepted (w_log w))%nat) /\
  forall l1 i l2, w_log w = l1 ++ Changed i :: l2 -> connected l1 i.
Proof. intros S u ct w H. split; [intros i; pose proof (told_at_most u ct w i H); lia|apply (told_while_connected u ct w H)]. Qed.

(** ** C86.5  The order: after an accepted transform its notifications, in their order and each finished
    (with everything its callback caused) before the next; then the listeners, likewise; then whatever
    comes after the call. *)
Theorem C86_order :
  forall (S : Scalar) (u : list (item S) -> who -> list (act S)) w w' l,
  idle w -> can_follow u w w' -> idle w' -> w_log w' = w_log w ++ l -> no_exception l -> stretch l.
Proof. intros S u w w' l. apply shape. Qed.

(** ** C86.6  A reference to a removed callback is only used if the callback was removed after the call
    that was to notify it began: never if no user code called by the buffer removes callbacks. *)
Theorem C86_dangling_only_after_removal :
  forall (S : Scalar) (u : list (item S) -> who -> list (act S)) ct w,
  can_happen u ct w -> w_ub w = true -> exists e, removed_since (w_log w) e.
Proof. intros S u ct w. apply dangling_only_after_removal. Qed.

Theorem C86_no_dangling_without_removal :
  forall (S : Scalar) (u : list (item S) -> who -> list (act S)) ct w,
  (forall l x a, In a (u l x) -> forall cb, a <> Call (RRemoveCallback cb)) ->
  can_happen u ct w -> w_ub w = false.
Proof. intros S u ct w P H. apply (safe_happen u ct w); [|exact H]. intros l x a Ha (cb & E). exact (P l x a Ha cb E). Qed.

(** ** concrete programs *)
Definition act_okb (a : act D64) : bool := match a with Call o => rop_okb o | _ => true end.
Fixpoint finish (n : nat) (u : list (item D64) -> who -> list (act D64)) (w : world D64) : world D64 :=
  match n with O => w | Datatypes.S n' => match step u w with Some w' => finish n' u w' | None => w end end.
Fixpoint play (u : list (item D64) -> who -> list (act D64)) (w : world D64) (prog : list (act D64)) : world D64 :=
  match prog with [] => w | a :: prog' => play u (finish 50 u (begin w a)) prog' end.
Definition idleb (w : world D64) : bool := match w_stack w with [] => negb (w_ub w) | _ => false end.
Fixpoint playb (u : list (item D64) -> who -> list (act D64)) (w : world D64) (prog : list (act D64)) : bool :=
  match prog with [] => true | a :: prog' => idleb w && act_okb a && playb u (finish 50 u (begin w a)) prog' end.
Lemma idle_by : forall w, idleb w = true -> idle w.
Proof. intros w H. unfold idleb in H. destruct (w_stack w) eqn:E; [|discriminate H]. split; [exact E|]. apply negb_true_iff, H. Qed.
Lemma finish_follows : forall n u w w1, can_follow u w w1 -> can_follow u w (finish n u w1).
Proof. induction n as [|n IH]; intros u w w1 H; [exact H|]. cbn [finish]. destruct (step u w1) as [w2|] eqn:E; [|exact H]. apply IH. eapply cf_step; eassumption. Qed.
Lemma play_follows : forall prog u w w1, can_follow u w w1 -> playb u w1 prog = true -> can_follow u w (play u w1 prog).
Proof.
  induction prog as [|a prog IH]; intros u w w1 H P; [exact H|]. cbn [play playb] in *. apply andb_prop in P as (P & P3). apply andb_prop in P as (P1 & P2). apply IH; [|exact P3]. apply finish_follows.
  destruct (idle_by _ P1) as (K & U). apply cf_begin; [exact H|exact K|exact U|]. destruct a as [o| | |]; try exact I. cbn [act_okb act_ok] in *. assert (F : Forall req_op_ok [o]) by (apply rops_ok_by; cbn [forallb]; rewrite P2; reflexivity). inversion F. assumption.
Qed.
Definition show (x : item D64) : Z * list Z :=
  match x with
  | Called o a evs => (if is_exception x then -1 else if took o a then 1 else 0, map ev_handle evs)
  | Notified e _ => (2, [ev_handle e])
  | Signalled ls => (3, map Z.of_nat ls)
  | Changed l => (4, [Z.of_nat l])
  | Listened l => (5, [Z.of_nat l])
  | Unlistened l => (6, [Z.of_nat l])
  | Raised => (7, [])
  end.
Open Scope string_scope.
Definition two_requests : list (act D64) :=
  [ Listen; Listen; Call RAddCallback; Call RAddCallback; Call (RAddRequest 1 "a" "b" 60); Call (RAddRequest 2 "a" "b" 60);
    Call (RSet (msg "a" "b" 50 (v64 1 0 0) id64) "me" false) ].
Definition arrival : act D64 := Call (RSet (msg "a" "b" 70 (v64 1 0 0) id64) "me" false).
Open Scope list_scope.

(** Callback 1 sets another transform and asks for one more; the first listener disconnects the second. *)
Definition nesting (l : list (item D64)) (x : who) : list (act D64) :=
  match x with
  | ByRequest e _ => if (ev_cb e =? 1)%Z then [Call (RSet (msg "b" "c" 70 (v64 1 0 0) id64) "cb" false); Call (RAddRequest 2 "a" "d" 60)] else []
  | ByChange i => if Nat.eqb i 0 then [Unlisten 1] else []
  end.
Definition nested : world D64 := play nesting (play nesting (init_world 100) two_requests) [arrival].
Lemma play_app : forall u p1 p2 w, play u w (p1 ++ p2) = play u (play u w p1) p2.
Proof. intros u p1. induction p1 as [|a p1 IH]; intros p2 w; [reflexivity|]. apply IH. Qed.
Example C86_nesting_runs : can_happen nesting 100 nested /\ idle nested.
Proof.
  assert (B : can_happen nesting 100 (play nesting (init_world 100) two_requests)) by (apply play_follows; [constructor|vmr]).
  split; [apply play_follows; [exact B|vmr]|apply idle_by; vmr].
Qed.
Example C86_nesting_log : map show (w_log nested) =
  [ (5, [0]); (5, [1]); (0, []); (0, []); (0, []); (0, []);
    (1, []); (3, [0; 1]); (4, [0]); (6, [1]);                (* the transform at 50: listener 0 disconnects listener 1, which is passed over *)
    (1, [1; 2]); (2, [1]);                                   (* the arrival: callback 1 is notified and *)
      (1, []); (3, [0]); (4, [0]); (6, [1]);                 (*   sets a transform, which is signalled, and *)
      (0, []);                                               (*   makes a request; *)
    (2, [2]); (3, [0]); (4, [0]); (6, [1]) ].                (* then callback 2, then the signal *)
Proof. vmr. Qed.
Lemma none_by : forall l : list (item D64), forallb (fun x => negb (is_exception x)) l = true -> no_exception l.
Proof. intros l H x Hx. rewrite forallb_forall in H. apply negb_true_iff, H, Hx. Qed.
Example C86_nesting_satisfies :
  no_exception (w_log nested) /\ List.length (notified (w_log nested)) = 2%nat /\ times_told 0 (w_log nested) = 3%nat /\ times_accepted (w_log nested) = 3%nat /\ times_told 1 (w_log nested) = 0%nat /\
  (forall l x a, In a (nesting l x) -> act_ok a) /\ (forall l x a, In a (nesting l x) -> forall cb, a <> Call (RRemoveCallback cb)).
Proof.
  split; [apply none_by; vmr|]. split; [vmr|]. split; [vmr|]. split; [vmr|]. split; [vmr|]. split.
  - intros l [e d|i] a Ha; unfold nesting in Ha.
    + destruct (ev_cb e =? 1)%Z; [|destruct Ha]. destruct Ha as [<-|[<-|[]]]; cbn [act_ok]; [assert (F : Forall req_op_ok [RSet (msg "b" "c" 70 (v64 1 0 0) id64) "cb" false]) by (apply rops_ok_by; vmr)|assert (F : Forall req_op_ok [@RAddRequest D64 2 "a" "d" 60]) by (apply rops_ok_by; vmr)]; inversion F; assumption.
    + destruct (Nat.eqb i 0); [|destruct Ha]. destruct Ha as [<-|[]]. exact I.
  - intros l [e d|i] a Ha cb; unfold nesting in Ha.
    + destruct (ev_cb e =? 1)%Z; [|destruct Ha]. destruct Ha as [<-|[<-|[]]]; discriminate.
    + destruct (Nat.eqb i 0); [|destruct Ha]. destruct Ha as [<-|[]]. discriminate.
Qed.

Example C86_listener_case : let w := play nesting (init_world 100) two_requests in
  can_happen nesting 100 w /\ idle w /\ connected (w_log w) 0 /\ can_follow nesting w nested /\ idle nested /\
  exists l, w_log nested = w_log w ++ l /\ no_exception l /\ ~ In (Unlistened 0) l /\ times_accepted l = 2%nat.
Proof.
  intros w. subst w. split; [apply play_follows; [constructor|vmr]|]. split; [apply idle_by; vmr|]. split.
  { exists [], (tl (w_log (play nesting (init_world 100) two_requests))). split; [vmr|]. intros C. apply (in_map show) in C.
    assert (E : existsb (fun x => ((fst x =? 6) && (hd 9 (snd x) =? 0))%Z) (map show (tl (w_log (play nesting (init_world 100) two_requests)))) = false) by vmr. apply not_true_iff_false in E. apply E, existsb_exists. exists (show (Unlistened 0)). split; [exact C|reflexivity]. }
  split; [apply play_follows; [constructor|vmr]|]. split; [apply idle_by; vmr|].
  exists (skipn 10 (w_log nested)). split; [vmr|]. split; [apply none_by; vmr|]. split; [|vmr].
  intros C. apply (in_map show) in C.
  assert (E : existsb (fun x => ((fst x =? 6) && (hd 9 (snd x) =? 0))%Z) (map show (skipn 10 (w_log nested))) = false) by vmr. apply not_true_iff_false in E. apply E, existsb_exists. exists (show (Unlistened 0)). split; [exact C|reflexivity].
Qed.

(** ** C86.7  Removing a callback from inside another one that is notified by the same call: the buffer
    then calls through a dangling reference. *)
Definition removing (l : list (item D64)) (x : who) : list (act D64) :=
  match x with ByRequest e _ => if (ev_cb e =? 1)%Z then [Call (RRemoveCallback 2)] else [] | ByChange _ => [] end.
Theorem C86_remove_inside_callback_refuted :
  exists w, can_happen removing 100 w /\ w_ub w = true /\ no_exception (w_log w) /\ forall l x a, In a (removing l x) -> act_ok a.
Proof.
  exists (play removing (play removing (init_world 100) two_requests) [arrival]).
  assert (B : can_happen removing 100 (play removing (init_world 100) two_requests)) by (apply play_follows; [constructor|vmr]).
  split; [apply play_follows; [exact B|vmr]|]. split; [vmr|]. split; [apply none_by; vmr|].
  intros l [e d|i] a Ha; unfold removing in Ha; [|destruct Ha]. destruct (ev_cb e =? 1)%Z; [|destruct Ha]. destruct Ha as [<-|[]]. cbn [act_ok req_op_ok]. unfold uint32. lia.
Qed.

(** ** C86.8  A callback that throws: the transform is stored, the other callbacks notified by the call
    are not called (their requests are gone) and no listener is told. *)
Definition throwing (l : list (item D64)) (x : who) : list (act D64) :=
  match x with ByRequest e _ => if (ev_cb e =? 1)%Z then [Raise] else [] | ByChange _ => [] end.
Theorem C86_exception_in_callback_refuted :
  exists w w', can_happen throwing 100 w /\ idle w /\ can_follow throwing w w' /\ idle w' /\
    connected (w_log w) 0 /\ ~ In (Unlistened 0) (w_log w') /\
    map p_handle (pending (w_buf w)) = [1; 2] /\ pending (w_buf w') = [] /\
    available (b_core (w_buf w')) "a" "b" 60 = true /\
    map show (w_log w') = map show (w_log w) ++ [(1, [1; 2]); (2, [1]); (7, [])].
Proof.
  exists (play throwing (init_world 100) two_requests), (play throwing (play throwing (init_world 100) two_requests) [arrival]).
  assert (B : can_happen throwing 100 (play throwing (init_world 100) two_requests)) by (apply play_follows; [constructor|vmr]).
  split; [exact B|]. split; [apply idle_by; vmr|]. split; [apply play_follows; [constructor|vmr]|]. split; [apply idle_by; vmr|]. split.
  { exists [], (tl (w_log (play throwing (init_world 100) two_requests))). split; [vmr|]. intros C. apply (in_map show) in C.
    assert (E : existsb (fun x => fst x =? 6)%Z (map show (tl (w_log (play throwing (init_world 100) two_requests)))) = false) by vmr. apply not_true_iff_false in E. apply E, existsb_exists. exists (show (Unlistened 0)). split; [exact C|reflexivity]. }
  split.
  { intros C. apply (in_map show) in C.
    assert (E : existsb (fun x => fst x =? 6)%Z (map show (w_log (play throwing (play throwing (init_world 100) two_requests) [arrival]))) = false) by vmr. apply not_true_iff_false in E. apply E, existsb_exists. exists (show (Unlistened 0)). split; [exact C|reflexivity]. }
  split; [vmr|]. split; [|split; [vmr|vmr]].
  assert (E : List.length (pending (w_buf (play throwing (play throwing (init_world 100) two_requests) [arrival]))) = 0%nat) by vmr. destruct (pending _); [reflexivity|discriminate E].
Qed.

(** ** C86.9  clear() and rejected transforms are not signalled. *)
Theorem C86_clear_not_signalled :
  forall (S : Scalar) (u : list (item S) -> who -> list (act S)) w o,
  idle w -> (forall b' a evs, req_step (w_buf w) o = (b', a, evs) -> took o a = false) ->
  exists w' a, step u (begin w (Call o)) = Some w' /\ idle w' /\ w_log w' = w_log w ++ [Called o a []].
Proof.
  intros S u w o (K & U) N. destruct (req_step (w_buf w) o) as [[b' a] evs] eqn:E. specialize (N _ _ _ eq_refl). pose proof (proj1 (call_cbs _ _ _ _ _ E) N) as ->.
  unfold step. cbn [begin w_stack w_ub w_buf]. change (took o a) with (accepted o a) in N. rewrite U, E, N. eexists _, a. split; [reflexivity|]. split; [|reflexivity]. split; [cbn [w_stack]; destruct (thrown a); reflexivity|reflexivity].
Qed.
