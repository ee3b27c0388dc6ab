(** * C46-C48, C57: tf2_ros::MessageFilter *)
From Coq Require Import ZArith Bool List String Lia Permutation.
From Verif Require Import RosTime Scalar LinearMath Cache SpecCache BufferCore SpecCore Instances CoreInv CoreSet
  LookupBase LookupTheorems History ExampleBuffers Requests SpecRequests RequestProofs RequestHistory PropsRequests
  MessageFilter SpecFilter FilterProofs FilterCalm.
Import ListNotations.
Open Scope list_scope.
Open Scope Z_scope.
Local Opaque MAX_GRAPH_DEPTH.

(** ** deciding [calm] on concrete histories *)
Definition no_msgs (f : filt D64) : bool := match f_msgs f with [] => true | _ => false end.
Definition calm_opb (T : duration) (f : filt D64) (o : mf_op D64) : bool :=
  match o with
  | MAdd _ stamp => (0 <=? stamp) && (stamp + T + c_cache_time (b_core (f_buf f)) <? time_bound)
  | MSetTargets l => no_msgs f && (Z.of_nat (List.length l) <? 2 ^ 16)
  | MSetTolerance d => no_msgs f && (0 <=? d) && (d <=? T)
  | MTransform m _ _ _ => valid_timeb (tm_stamp m)
  | MOther o => rop_okb o && match o with RAddRequest _ _ _ t => t + c_cache_time (b_core (f_buf f)) <? time_bound | _ => true end
  | MSetQueueSize _ | MClear | MSpin => true
  end.
Lemma rop_ok_by : forall o, rop_okb o = true -> req_op_ok o.
Proof. intros o H. pose proof (rops_ok_by [o]) as X. cbn in X. rewrite H in X. specialize (X eq_refl). inversion X. assumption. Qed.
Lemma calm_op_by : forall T f o, calm_opb T f o = true -> calm_op T f o.
Proof.
  intros T f o H. assert (M : no_msgs f = true -> f_msgs f = []) by (unfold no_msgs; destruct (f_msgs f); congruence).
  destruct o as [fr st|l|d|n| | |m a st read|o]; cbn [calm_op calm_opb] in *; try exact I.
  - apply andb_prop in H as [H1 H2]. rewrite Z.leb_le in H1. rewrite Z.ltb_lt in H2. auto.
  - apply andb_prop in H as [H1 H2]. rewrite Z.ltb_lt in H2. auto.
  - apply andb_prop in H as [H1 H2]. apply andb_prop in H1 as [H0 H1]. rewrite Z.leb_le in H1, H2. auto.
  - unfold valid_timeb, valid_time in *. apply andb_prop in H as [H1 H2]. rewrite Z.leb_le in H1. rewrite Z.ltb_lt in H2. auto.
  - apply andb_prop in H as [H1 H2]. split; [apply rop_ok_by; assumption|]. destruct o; auto. rewrite Z.ltb_lt in H2. assumption.
Qed.
Fixpoint calm_run (T : duration) (f : filt D64) (ops : list (mf_op D64)) : bool :=
  match ops with
  | [] => true
  | o :: ops' => calm_opb T f o && (b_rq_counter (f_buf (mf_step f o)) <? 2 ^ 32)
      && (Z.of_nat (List.length (b_cbs (f_buf (mf_step f o)))) <? 2 ^ 32) && calm_run T (mf_step f o) ops'
  end.
Lemma calm_by : forall ops T f, calm T f -> calm_run T f ops = true -> calm T (mf_run f ops).
Proof.
  induction ops as [|o ops IH]; intros T f C H; [exact C|]. cbn [calm_run] in H. apply andb_prop in H as [H H3]. apply andb_prop in H as [H H2]. apply andb_prop in H as [H0 H1].
  rewrite Z.ltb_lt in H1, H2. cbn [mf_run]. apply IH; [|assumption]. apply calm_step; auto. apply calm_op_by. assumption.
Qed.

Open Scope string_scope.
Open Scope list_scope.
Open Scope Z_scope.
Definition avail : nat -> transformable_result := fun _ => TransformAvailable.
Definition start (q : nat) (cbq : bool) : filt D64 :=
  match new_filter (init_buf 100) "/map" q cbq with Some f => f | None => mkFilt (init_buf 0) 0 [] 0 0 0 [] false [] [] [] [] end.
Lemma start_new : forall q cbq, new_filter (init_buf 100) "/map" q cbq = Some (start q cbq).
Proof. intros. reflexivity. Qed.
Lemma start_calm : forall T q cbq, 0 <= T -> calm T (start q cbq).
Proof.
  intros T q cbq H. apply (calm_new T (init_buf 100) "/map" q cbq); [assumption| | | | |apply start_new].
  - apply (rr_init 100). unfold dur_bound. lia.
  - intros p [].
  - cbn. lia.
  - cbn. lia.
Qed.
Lemma start_reach : forall q cbq ops, mf_reachable (mf_run (start q cbq) ops).
Proof. intros. exists (init_buf 100), "/map", q, cbq, (start q cbq), ops. split; [apply start_new|reflexivity]. Qed.
Definition tf (child : string) (t : time) : mf_op D64 := MTransform (msg "map" child t (v64 1 0 0) id64) "me" false avail.
Definition shown (l : list output) : list (nat * string * Z * outcome) := map (fun x => (o_seq x, o_frame x, o_stamp x, o_outcome x)) l.

(** ** C46 *)
(** Messages are identified by the position of their add() call. *)
Theorem C46_messages_are_numbered_by_add :
  forall (S : Scalar) (f : filt S) o, f_added (mf_step f o) = f_added f ++ match o with MAdd frame stamp => [(frame, stamp)] | _ => [] end.
Proof. intros. apply step_added. Qed.
Print Assumptions C46_messages_are_numbered_by_add.

(** Each added message is reported to the user at most once, ready or dropped, with the frame and
    stamp it was added with; while it is queued it has not been reported. *)
Theorem C46_each_message_is_reported_at_most_once :
  forall (S : Scalar) (f : filt S), mf_reachable f ->
  NoDup (map o_seq (f_delivered f ++ f_outbox f) ++ map mi_seq (f_msgs f)) /\
  (forall out, In out (f_delivered f ++ f_outbox f) -> nth_error (f_added f) (o_seq out) = Some (o_frame out, o_stamp out)) /\
  (forall i, In i (f_msgs f) -> nth_error (f_added f) (mi_seq i) = Some (mi_frame i, mi_stamp i)).
Proof.
  intros S f R. destruct (reach_numbered f R) as [N1 N2 N3 (gone & P) N5 N6]. split; [|split; [|exact N3]].
  - pose proof (Permutation_map o_seq P) as P'. rewrite app_assoc, map_app in P'.
    assert (N : NoDup ((map o_seq (f_delivered f ++ f_outbox f) ++ map mi_seq (f_msgs f)) ++ map o_seq gone)).
    { eapply Permutation_NoDup; [|exact N1]. rewrite <- P'. rewrite <- !app_assoc. apply Permutation_app_head, Permutation_app_comm. }
    apply RequestProofs.NoDup_app_l in N. exact N.
  - intros out H. apply N2. eapply Permutation_in; [exact P|]. rewrite app_assoc. apply in_app_iff. left. exact H.
Qed.
Print Assumptions C46_each_message_is_reported_at_most_once.

(** A message is handed over as ready only in a buffer state in which all the transforms it needs
    (every target frame, at its stamp and, with a tolerance, at stamp + tolerance) are available,
    whatever the callback reads through its dangling result argument. *)
Theorem C46_ready_only_when_transformable :
  forall (S : Scalar) (f : filt S) o new out, mf_reachable f -> new_verdicts f (mf_step f o) new ->
  In out new -> o_outcome out = Ready ->
  transformable_now (b_core (f_buf (mf_step f o))) (f_targets (mf_step f o)) (f_tol (mf_step f o)) (stripSlash (o_frame out)) (o_stamp out).
Proof.
  intros S f o new out R Hn Ho E. destruct (step_verdicts f o (reach_numbered f R)) as (new' & E' & F & T). unfold new_verdicts in Hn.
  rewrite Hn in E'. apply app_inv_head in E'. subst new'. destruct (T ltac:(intros X; subst; destruct Ho)) as [-> ->].
  rewrite Forall_forall in F. specialize (F out Ho). unfold justified in F. rewrite E in F. exact F.
Qed.
Print Assumptions C46_ready_only_when_transformable.

(** A message is refused for its frame id only if that is empty, and as too old only if one of
    the transforms it needs is missing and its time is more than the cache time before the latest
    common time of the two frames. *)
Theorem C46_refusals_are_justified :
  forall (S : Scalar) T (f : filt S) o new out, calm T f -> calm_op T f o -> mf_reachable f -> new_verdicts f (mf_step f o) new -> In out new ->
  (o_outcome out = Dropped EmptyFrameID -> stripSlash (o_frame out) = EmptyString) /\
  (o_outcome out = Dropped OutTheBack -> exists tgt t, In tgt (f_targets f) /\ needed_times (f_tol f) (o_stamp out) t /\
     tgt <> stripSlash (o_frame out) /\ available (b_core (f_buf f)) tgt (stripSlash (o_frame out)) t = false /\
     expired (b_core (f_buf f)) (mkPreq 0 0 tgt (stripSlash (o_frame out)) t) = true).
Proof.
  intros S T f o new out C Co R Hn Ho. pose proof (calm_quiet T f C) as Q. pose proof (reachable_wf _ (bi_core _ (q_inv T f Q))) as W.
  destruct (step_verdicts f o (reach_numbered f R)) as (new' & E' & F & _). unfold new_verdicts in Hn.
  rewrite Hn in E'. apply app_inv_head in E'. subst new'. rewrite Forall_forall in F. specialize (F out Ho). unfold justified in F.
  split; intros E; rewrite E in F; [exact F|]. destruct F as (tgt & t & F1 & F2 & F3 & F4 & _ & _ & F7).
  assert (A : exists fr st, o = MAdd fr st /\ out = mkOut (List.length (f_added f)) fr st (Dropped OutTheBack)).
  { destruct o as [fr st|l|d|n| | |m a st read|o]; cbn [mf_step] in Hn.
    - exists fr, st. split; [reflexivity|]. unfold mf_add, add_begin in Hn. destruct (f_targets (note_added f fr st)).
      { cbn in Hn. rewrite <- (app_nil_r (f_emitted f)) in Hn at 1. apply app_inv_head in Hn. subst new. destruct Ho. }
      destruct (String.eqb _ _). { cbn in Hn. apply app_inv_head in Hn. subst new. destruct Ho as [<-|[]]. discriminate. }
      destruct (add_requests _ _ _ _ _ _ _) as [b [[[k hs]|]|c e|]]; cbn [fst] in Hn.
      + match type of Hn with f_emitted (add_finish ?g ?i) = _ => destruct (finish_verdicts g i) as (nw & E1 & _ & E3) end. rewrite E1 in Hn. apply app_inv_head in Hn. subst nw. destruct (E3 out Ho); congruence.
      + cbn in Hn. apply app_inv_head in Hn. subst new. destruct Ho as [<-|[]]. reflexivity.
      + cbn in Hn. rewrite <- (app_nil_r (f_emitted f)) in Hn at 1. apply app_inv_head in Hn. subst new. destruct Ho.
      + cbn in Hn. rewrite <- (app_nil_r (f_emitted f)) in Hn at 1. apply app_inv_head in Hn. subst new. destruct Ho.
    - exfalso. cbn in Hn. rewrite <- (app_nil_r (f_emitted f)) in Hn at 1. apply app_inv_head in Hn. subst new. destruct Ho.
    - exfalso. cbn in Hn. rewrite <- (app_nil_r (f_emitted f)) in Hn at 1. apply app_inv_head in Hn. subst new. destruct Ho.
    - exfalso. cbn in Hn. rewrite <- (app_nil_r (f_emitted f)) in Hn at 1. apply app_inv_head in Hn. subst new. destruct Ho.
    - exfalso. unfold mf_clear in Hn. destruct (addTransformableCallback _). cbn in Hn. rewrite <- (app_nil_r (f_emitted f)) in Hn at 1. apply app_inv_head in Hn. subst new. destruct Ho.
    - exfalso. unfold mf_spin in Hn. destruct (f_outbox f); cbn in Hn; rewrite <- (app_nil_r (f_emitted f)) in Hn at 1; apply app_inv_head in Hn; subst new; destruct Ho.
    - exfalso. assert (K : forall evs (g : filt S) read nw, f_emitted (fst (fire g evs read)) = f_emitted g ++ nw -> forall x, In x nw -> o_outcome x = Ready \/ o_outcome x = Dropped Unknown).
      { clear. induction evs as [|e evs IH]; intros g read nw H x Hx.
        - cbn in H. rewrite <- (app_nil_r (f_emitted g)) in H at 1. apply app_inv_head in H. subst. destruct Hx.
        - cbn [fire] in H. destruct (ev_cb e =? f_cb g); [|eapply IH; eassumption].
          assert (L : exists n1, f_emitted (fst (mf_transformable g (ev_handle e) (read O))) = f_emitted g ++ n1 /\ forall y, In y n1 -> o_outcome y = Ready \/ o_outcome y = Dropped Unknown).
          { unfold mf_transformable. destruct (find_info (ev_handle e) (f_msgs g)) as [[[l1 i0] l2]|]; [|exists []; rewrite app_nil_r; split; [reflexivity|intros ? []]].
            destruct (Nat.ltb _ _); [exists []; rewrite app_nil_r; split; [reflexivity|intros ? []]|].
            destruct (match read O with TransformAvailable => _ | TransformFailure => _ end) as [[|]|c0 e0|]; cbn [fst].
            - eexists [_]. split; [reflexivity|]. intros y [<-|[]]. auto.
            - eexists [_]. split; [reflexivity|]. intros y [<-|[]]. auto.
            - exists []; rewrite app_nil_r; split; [reflexivity|intros ? []].
            - exists []; rewrite app_nil_r; split; [reflexivity|intros ? []]. }
          destruct L as (n1 & L1 & L2). destruct (mf_transformable g (ev_handle e) (read O)) as [g1 [u|c0 e0|]]; cbn [fst] in *.
          + destruct (fire_verdicts evs g1 (fun k => read (Datatypes.S k))) as (n2 & M1 & _). pose proof (IH g1 (fun k => read (Datatypes.S k)) n2 M1) as M2.
            rewrite M1, L1, <- app_assoc in H. apply app_inv_head in H. subst nw. apply in_app_iff in Hx as [Hx|Hx]; auto.
          + rewrite L1 in H. apply app_inv_head in H. subst. auto.
          + rewrite L1 in H. apply app_inv_head in H. subst. auto. }
      unfold mf_set_transform in Hn. destruct (set_transform (f_buf f) m a st) as [b [[v evs]|c e|]]; cbn [fst] in Hn;
        try (cbn in Hn; rewrite <- (app_nil_r (f_emitted f)) in Hn at 1; apply app_inv_head in Hn; subst new; destruct Ho; fail).
      specialize (K evs (with_buf f b) read new). destruct (fire (with_buf f b) evs read) as [f2 r]. cbn [fst] in K.
      replace (fst match r with Ok _ => (f2, Ok v) | Throw c e => (f2, Throw c e) | UB => (f2, UB) end) with f2 in Hn by (destruct r; reflexivity).
      destruct (K Hn out Ho); congruence.
    - exfalso. destruct (polite f o); cbn in Hn; rewrite <- (app_nil_r (f_emitted f)) in Hn at 1; apply app_inv_head in Hn; subst new; destruct Ho. }
  destruct A as (fr & st & -> & ->). cbn [o_frame o_stamp] in *. cbn [mf_step calm_op] in *.
  assert (Ec : b_core (f_buf (fst (mf_add f fr st))) = b_core (f_buf f)).
  { unfold mf_add, add_begin. destruct (f_targets (note_added f fr st)) as [|t0 ts] eqn:Et; [reflexivity|]. destruct (String.eqb _ _); [reflexivity|]. rewrite <- Et.
    match goal with |- context [add_requests ?b ?c ?s ?t ?d ?l ?acc] => pose proof (add_requests_core l b c s t d acc) as X; destruct (add_requests b c s t d l acc) as [b' [[[k hs]|]|c' e'|]] end; cbn [fst] in *; try exact X.
    unfold add_finish. destruct (Nat.eqb _ _); [exact X|]. destruct (_ && _)%bool; [|exact X]. destruct (f_msgs _); [exact X|]. cbn [with_msgs emit with_buf f_buf]. rewrite cancel_all_core. exact X. }
  rewrite Ec in *. pose proof (wf_ct _ W) as Wc. pose proof (q_tol T f Q) as Qt. destruct Co as [Co1 Co2].
  assert (Tt : 0 <= t /\ t <= st + T).
  { destruct F2 as [->|(_ & F2)]; [lia|]. unfold time_add in F2. destruct (valid_timeb (st + f_tol f)) eqn:V; [|discriminate]. inversion F2; subst. lia. }
  exists tgt, t. split; [assumption|]. split; [assumption|]. split; [assumption|]. split; [assumption|].
  pose proof (too_old_named (b_core (f_buf f)) (mkPreq 0 0 tgt (stripSlash fr) t) W) as X. cbn [p_time p_target p_source] in X. rewrite X in F7 by lia. congruence.
Qed.
Print Assumptions C46_refusals_are_justified.

Definition demo : list (mf_op D64) :=
  [MSetTolerance 10; MAdd "laser" 50; MAdd "/laser" 20; MAdd "" 1; tf "laser" 10; tf "laser" 30; tf "laser" 70; tf "laser" 300; MAdd "laser" 5; tf "laser" 270; MAdd "laser" 280].
(** Message 1 is ready once the data reach stamp + tolerance = 30, message 0 later; 2 has no
    frame; 3 is too old when it arrives; 4 is ready at once. *)
Example C46_example :
  let f := mf_run (start 5 false) demo in
  mf_reachable f /\ calm 10 f /\
  shown (f_delivered f) = [(2%nat, "", 1, Dropped EmptyFrameID); (1%nat, "/laser", 20, Ready); (0%nat, "laser", 50, Ready); (3%nat, "laser", 5, Dropped OutTheBack); (4%nat, "laser", 280, Ready)].
Proof.
  intros f. split; [apply start_reach|]. split; [apply calm_by; [apply start_calm; lia|vmr]|]. vmr.
Qed.

(** ** C47 *)
(** The queue never holds more messages than the largest size it was ever given. *)
Theorem C47_queue_stays_bounded :
  forall (S : Scalar) (b : buf S) target q cbq f ops Q,
  new_filter b target q cbq = Some f -> (0 < q <= Q)%nat -> Forall (sizes_within Q) ops ->
  (List.length (f_msgs (mf_run f ops)) <= Q)%nat.
Proof.
  intros S b target q cbq f ops Q H Hq F. apply run_bound; [| |assumption];
  unfold new_filter in H; destruct (addTransformableCallback b) as [b' [h|]]; inversion H; subst; cbn; [assumption|lia].
Qed.
Print Assumptions C47_queue_stays_bounded.

(** add() either reports the new message (and leaves the queue alone), or queues it at the end;
    if the queue was full, the oldest message, and no other, is reported dropped and leaves. *)
Theorem C47_full_queue_drops_exactly_the_oldest :
  forall (S : Scalar) (f : filt S) frame stamp,
  let f' := fst (mf_add f frame stamp) in
  (f_msgs f' = f_msgs f /\ exists new, new_verdicts f f' new /\ forall out, In out new -> o_seq out = List.length (f_added f)) \/
  (exists i, mi_seq i = List.length (f_added f) /\ mi_frame i = frame /\ mi_stamp i = stamp /\
     ((f_qsize f = 0%nat \/ (List.length (f_msgs f) < f_qsize f)%nat \/ f_msgs f = []) /\ f_msgs f' = f_msgs f ++ [i] /\ new_verdicts f f' [] \/
      exists oldest rest, (0 < f_qsize f <= List.length (f_msgs f))%nat /\ f_msgs f = oldest :: rest /\ f_msgs f' = rest ++ [i] /\
        new_verdicts f f' [mkOut (mi_seq oldest) (mi_frame oldest) (mi_stamp oldest) (Dropped Unknown)])).
Proof.
  intros S f fr st f'. unfold new_verdicts. destruct (add_effect f fr st) as [L|(i & E1 & E2 & E3 & [(D1 & D2 & D3)|D])]; [left; exact L| |];
  right; exists i; (split; [assumption|]; split; [assumption|]; split; [assumption|]).
  - left. rewrite app_nil_r. auto.
  - right. exact D.
Qed.
Print Assumptions C47_full_queue_drops_exactly_the_oldest.

(** A message that leaves the queue takes its pending requests with it: in calm histories every
    request in the buffer under a handle of the dropped message is gone. *)
Theorem C47_dropped_message_cancels_its_requests :
  forall (S : Scalar) T (f : filt S) frame stamp oldest rest,
  calm T f -> calm_op T f (MAdd frame stamp) -> b_rq_counter (f_buf (fst (mf_add f frame stamp))) < 2 ^ 32 ->
  f_msgs f = oldest :: rest -> new_verdicts f (fst (mf_add f frame stamp)) [mkOut (mi_seq oldest) (mi_frame oldest) (mi_stamp oldest) (Dropped Unknown)] ->
  forall p, In p (pending (f_buf (fst (mf_add f frame stamp)))) -> ~ In (p_handle p) (mi_handles oldest).
Proof.
  intros S T f fr st front rest C Co Hc Em Hn p Hp Hh. pose proof (calm_quiet T f C) as Q. unfold new_verdicts in Hn. unfold mf_add, add_begin in *.
  change (f_targets (note_added f fr st)) with (f_targets f) in *. change (f_tol (note_added f fr st)) with (f_tol f) in *.
  change (f_buf (note_added f fr st)) with (f_buf f) in *. change (f_cb (note_added f fr st)) with (f_cb f) in *.
  assert (Nil : forall x : list output, f_emitted f = f_emitted f ++ x -> x = []) by (intros x X; rewrite <- (app_nil_r (f_emitted f)) in X at 1; apply app_inv_head in X; auto).
  revert Hc Hn Hp. destruct (f_targets f) as [|t0 ts] eqn:Et; [intros _ Hn _; apply Nil in Hn; discriminate|]. rewrite <- Et. intros Hc Hn Hp.
  unfold mf_stripSlash in *. destruct (String.eqb (stripSlash fr) ""); [cbn in Hn; apply app_inv_head in Hn; discriminate|].
  pose proof (q_ctr T f Q) as Qc. pose proof (q_targets T f Q) as Qt. pose proof (q_tol T f Q) as Qtol. destruct Co as [Co1 Co2].
  destruct (add_requests_calm (f_targets f) (f_buf f) (f_cb f) (stripSlash fr) st (f_tol f) (0%nat, [])) as (b & r & news & E & I & C1 & C2 & C3 & C4 & P & F & R);
    [apply (q_inv T f Q)|apply (q_cb_range T f Q)|unfold uint64, p2_32 in *; lia|assumption|lia|lia|].
  rewrite E in *. destruct R as [->|(n & -> & Rn)]; [cbn in Hn; apply app_inv_head in Hn; discriminate|]. cbn [fst snd] in *.
  match type of Hn with f_emitted (add_finish ?g0 ?i0) = _ => set (g := g0) in *; set (i := i0) in * end. unfold add_finish in *.
  destruct (Nat.eqb _ _); [cbn in Hn; apply app_inv_head in Hn; discriminate|].
  destruct (_ && _)%bool; [|cbn in Hn; apply Nil in Hn; discriminate]. change (f_msgs g) with (f_msgs f) in *. rewrite Em in *.
  cbn [with_msgs emit with_buf f_buf] in Hp, Hc. change (f_buf g) with b in *.
  assert (Hb : b_rq_counter b < 2 ^ 32).
  { clear - Hc. revert b Hc. induction (mi_handles front) as [|h hs IH]; intros b Hc; [exact Hc|]. cbn in Hc. apply IH in Hc. exact Hc. }
  destruct (cancel_all (mi_handles front) b I Hb) as (_ & _ & _ & _ & _ & J6).
  { intros h Hx. pose proof (q_handles T f Q front h) as X. rewrite Em in X. specialize (X (or_introl eq_refl) Hx). lia. }
  apply J6 in Hp as [_ Hp]. contradiction.
Qed.
Print Assumptions C47_dropped_message_cancels_its_requests.

(** setQueueSize does not shorten a queue, and neither does the next add: with three messages
    waiting, size 1 still leaves three. *)
Theorem C47_shrinking_refuted :
  let f := mf_run (start 3 false) [MAdd "a" 1; MAdd "b" 2; MAdd "c" 3; MSetQueueSize 1; MAdd "d" 4] in
  mf_reachable f /\ f_qsize f = 1%nat /\ map mi_seq (f_msgs f) = [1%nat; 2%nat; 3%nat].
Proof. intros f. split; [apply start_reach|]. split; vmr. Qed.
Print Assumptions C47_shrinking_refuted.

Example C47_example :
  let f := mf_run (start 2 false) [MAdd "a" 1; MAdd "b" 2] in let f' := fst (mf_add f "c" 3) in
  calm 0 f /\ calm_op 0 f (MAdd "c" 3) /\ map mi_seq (f_msgs f') = [1%nat; 2%nat] /\ shown (f_emitted f') = [(0%nat, "a", 1, Dropped Unknown)] /\
  map p_handle (pending (f_buf f)) = [1; 2] /\ map p_handle (pending (f_buf f')) = [2; 3].
Proof.
  intros f f'. split; [apply calm_by; [apply start_calm; lia|vmr]|]. split; [apply calm_op_by; vmr|]. repeat split; vmr.
Qed.

(** ** C48 *)
(** In a calm history every queued message has a pending request in the buffer, under a handle it
    knows and with the filter's registered callback, for one of the transforms it needs. *)
Theorem C48_queued_messages_have_a_pending_request :
  forall (S : Scalar) T (f : filt S) i, calm T f -> In i (f_msgs f) ->
  registered (b_cbs (f_buf f)) (f_cb f) = true /\
  exists p, In p (pending (f_buf f)) /\ In (p_handle p) (mi_handles i) /\ p_cb p = f_cb f /\ In (p_target p) (f_targets f) /\
    p_source p = stripSlash (mi_frame i) /\ p_target p <> p_source p /\ needed_times (f_tol f) (mi_stamp i) (p_time p).
Proof.
  intros S T f i C Hi. pose proof (calm_quiet T f C) as Q. split; [apply registered_In, (q_cb T f Q)|].
  destruct (waits_on T f i Q Hi) as (p & H1 & H2 & H3 & H4 & H5 & H6 & H7). exists p. auto 10.
Qed.
Print Assumptions C48_queued_messages_have_a_pending_request.

(** After an accepted transform no message whose transforms are all available is still queued:
    each one left is missing a transform, which is not hopelessly old either.  (Whatever the
    callbacks read as result.)  No exception leaves setTransform through the filter. *)
Theorem C48_nothing_transformable_stays_queued :
  forall (S : Scalar) T (f : filt S) m authority st read,
  calm T f -> calm_op T f (MTransform m authority st read) ->
  snd (mf_set_transform f m authority st read) = snd (setTransform (b_core (f_buf f)) m authority st) /\
  (snd (setTransform (b_core (f_buf f)) m authority st) = Ok true ->
   let f' := fst (mf_set_transform f m authority st read) in
   forall i, In i (f_msgs f') -> exists tgt t, In tgt (f_targets f') /\ needed_times (f_tol f') (mi_stamp i) t /\ tgt <> stripSlash (mi_frame i) /\
     available (b_core (f_buf f')) tgt (stripSlash (mi_frame i)) t = false /\
     expired (b_core (f_buf f')) (mkPreq 0 0 tgt (stripSlash (mi_frame i)) t) = false).
Proof.
  intros S T f m a st read C Co. pose proof (calm_quiet T f C) as Q. destruct (transform_quiet T f m a st read Q Co) as (Q' & _ & E & _ & A). split; [exact E|].
  intros Hok f' i Hi. destruct (A Hok) as (D & _). fold f' in Q', D.
  destruct (waits_on T f' i Q' Hi) as (p & H1 & H2 & H3 & H4 & H5 & H6 & H7). specialize (D p H1). exists (p_target p), (p_time p). rewrite <- H5.
  split; [assumption|]. split; [assumption|]. split; [assumption|]. unfold due in D.
  change (expired (b_core (f_buf f')) (mkPreq 0 0 (p_target p) (p_source p) (p_time p))) with (expired (b_core (f_buf f')) p).
  destruct (expired (b_core (f_buf f')) p); [discriminate|]. destruct (available (b_core (f_buf f')) (p_target p) (p_source p) (p_time p)); [discriminate|]. auto.
Qed.
Print Assumptions C48_nothing_transformable_stays_queued.

(** If moreover each callback reads the result decided for its request, a queued message all of
    whose transforms are now available, and none past the cache time, is handed over as ready by
    this very call. *)
Theorem C48_transformable_messages_become_ready :
  forall (S : Scalar) T (f : filt S) m authority st read i,
  calm T f -> calm_op T f (MTransform m authority st read) -> accepted f m authority st read ->
  let f' := fst (mf_set_transform f m authority st read) in
  In i (f_msgs f) -> transformable_now (b_core (f_buf f')) (f_targets f) (f_tol f) (stripSlash (mi_frame i)) (mi_stamp i) ->
  warnFrameId (stripSlash (mi_frame i)) = false -> (forall tgt, In tgt (f_targets f) -> warnFrameId tgt = false) ->
  (forall tgt t, In tgt (f_targets f) -> needed_times (f_tol f) (mi_stamp i) t -> expired (b_core (f_buf f')) (mkPreq 0 0 tgt (stripSlash (mi_frame i)) t) = false) ->
  In (mkOut (mi_seq i) (mi_frame i) (mi_stamp i) Ready) (f_emitted f') /\ ~ In (mi_seq i) (map mi_seq (f_msgs f')).
Proof.
  intros S T f m a st read i C Co [Hok Fa] f' Hi Tn Ws Wt Ne. pose proof (calm_quiet T f C) as Q.
  pose proof (q_nodup T f Q) as _. destruct (transform_quiet T f m a st read Q Co) as (Q' & _ & E & Ec & A). destruct (A Hok) as (D & evs & Ev & B). fold f' in Q', Ec, D, B.
  assert (Same : f_targets f' = f_targets f /\ f_tol f' = f_tol f).
  { unfold f', mf_set_transform. destruct (set_transform (f_buf f) m a st) as [b [[v es]|c e|]]; try (split; reflexivity).
    destruct (fire_verdicts es (with_buf f b) read) as (_ & _ & _ & _ & X1 & X2 & _). destruct (fire (with_buf f b) es read) as [f2 [u|c e|]]; auto. }
  destruct Same as [Et El]. pose proof (reachable_wf _ (bi_core _ (q_inv T f' Q'))) as W'.
  assert (Can : asks f' i = Ok true).
  { unfold asks. rewrite Et, El. assert (G : forall l, (forall t, In t l -> In t (f_targets f)) -> still_can (b_core (f_buf f')) l (stripSlash (mi_frame i)) (mi_stamp i) (f_tol f) = Ok true).
    { assert (One : forall tgt t, In tgt (f_targets f) -> (tgt = stripSlash (mi_frame i) \/ available (b_core (f_buf f')) tgt (stripSlash (mi_frame i)) t = true) ->
        canTransform (b_core (f_buf f')) tgt (stripSlash (mi_frame i)) t None = Ok (true, None)).
      { intros tgt t Ht X. destruct (string_dec tgt (stripSlash (mi_frame i))) as [E0|E0]; [rewrite E0; unfold canTransform; rewrite String.eqb_refl; reflexivity|].
        apply available_can; [assumption|assumption|apply Wt; assumption|assumption|]. destruct X; [contradiction|assumption]. }
      induction l as [|tgt l IH]; intros Hl; [reflexivity|]. cbn [still_can]. destruct (Tn tgt (Hl tgt (or_introl eq_refl))) as [T1 T2].
      rewrite (One tgt (mi_stamp i) (Hl tgt (or_introl eq_refl)) T1). cbn [bind]. destruct (Z.eqb_spec (f_tol f) 0) as [Z0|Z0]; [apply IH; intros t Ht; apply Hl; right; exact Ht|].
      destruct (T2 Z0) as (t & -> & T3). cbn [lift_time bind]. rewrite (One tgt t (Hl tgt (or_introl eq_refl)) T3). cbn [bind]. apply IH. intros t' Ht; apply Hl; right; exact Ht. }
    apply G. auto. }
  assert (Nm : numbered f').
  { apply (step_numbered f (MTransform m a st read)). clear - C. induction C as [b target q cbq f _ _ _ _ _ E|f o _ IH _ _ _]; [eapply new_numbered; eassumption|apply step_numbered; assumption]. }
  destruct (B i Hi) as [(j & Hj & (S1 & S2 & S3 & S4))|(k & e & v & p & K1 & K2 & K3 & K4 & K5 & K6)].
  - exfalso. destruct (waits_on T f' j Q' Hj) as (p & H1 & H2 & H3 & H4 & H5 & H6 & H7). specialize (D p H1). rewrite <- S2 in H5. rewrite <- S3 in H6. rewrite Et in H4. rewrite El in H6.
    unfold due in D. change (expired (b_core (f_buf f')) p) with (expired (b_core (f_buf f')) (mkPreq 0 0 (p_target p) (p_source p) (p_time p))) in D. rewrite H5 in D, H7.
    rewrite (Ne (p_target p) (p_time p) H4 H6) in D. destruct (Tn (p_target p) H4) as [T1 T2].
    assert (X : available (b_core (f_buf f')) (p_target p) (stripSlash (mi_frame i)) (p_time p) = true); [|rewrite X in D; discriminate].
    destruct H6 as [->|(Hz & Ht)]; [destruct T1; [contradiction|assumption]|]. destruct (T2 Hz) as (t & Ht' & T3). rewrite Ht in Ht'. inversion Ht'; subst t. destruct T3; [contradiction|assumption].
  - assert (Rv : v = Ready).
    { apply K6. split; [|exact Can]. rewrite (Fa true evs k e Ev K1). destruct (q_mine T f Q i p Hi K2 K3) as (M1 & M2 & M3 & M4 & M5).
      unfold due in K4. change (expired (b_core (f_buf f')) p) with (expired (b_core (f_buf f')) (mkPreq 0 0 (p_target p) (p_source p) (p_time p))) in K4. rewrite M3 in K4.
      rewrite (Ne (p_target p) (p_time p) M2 M4) in K4. destruct (available _ _ _ _); [congruence|discriminate]. }
    subst v. split; [exact K5|]. intros X. pose proof (nb_nodup f' Nm) as N. apply (NoDup_app_disj _ _ (mi_seq i) N); [|exact X]. apply in_map_iff. eexists. split; [|exact K5]. reflexivity.
Qed.
Print Assumptions C48_transformable_messages_become_ready.

(** add() itself raises no exception in a calm history. *)
Theorem C48_add_does_not_throw :
  forall (S : Scalar) T (f : filt S) frame stamp, calm T f -> calm_op T f (MAdd frame stamp) ->
  b_rq_counter (f_buf (fst (mf_add f frame stamp))) < 2 ^ 32 -> snd (mf_add f frame stamp) = Ok tt.
Proof. intros S T f fr st C [C1 C2] Hc. destruct (add_quiet T f fr st (calm_quiet T f C) C1 C2 Hc) as [_ [[] E]]. exact E. Qed.
Print Assumptions C48_add_does_not_throw.

Example C48_example :
  let f := mf_run (start 5 false) [MSetTolerance 10; MAdd "laser" 50; MAdd "laser" 90; tf "laser" 10] in
  let f' := mf_step f (tf "laser" 70) in
  calm 10 f /\ calm_op 10 f (tf "laser" 70) /\ map mi_seq (f_msgs f) = [0%nat; 1%nat] /\ map mi_seq (f_msgs f') = [1%nat] /\ shown (f_emitted f') = [(0%nat, "laser", 50, Ready)] /\
  map p_time (pending (f_buf f)) = [50; 60; 90; 100] /\ map p_time (pending (f_buf f')) = [100; 90].
Proof.
  intros f f'. split; [apply calm_by; [apply start_calm; lia|vmr]|]. split; [apply calm_op_by; vmr|]. repeat split; vmr.
Qed.

(** the hypotheses of C48_transformable_messages_become_ready on the same case *)
Definition true_by (r : res bool) : bool := match r with Ok b => b | _ => false end.
Lemma true_by_ok : forall r, true_by r = true -> r = Ok true.
Proof. intros [[|]| |] H; try discriminate. reflexivity. Qed.
Definition all_available (r : res (bool * list event)) : bool :=
  match r with Ok (_, evs) => forallb (fun e => match ev_result e with TransformAvailable => true | _ => false end) evs | _ => true end.
Lemma accepted_by : forall (f : filt D64) m a st, true_by (snd (setTransform (b_core (f_buf f)) m a st)) = true ->
  all_available (snd (set_transform (f_buf f) m a st)) = true -> accepted f m a st avail.
Proof.
  intros f m a st H1 H2. split; [apply true_by_ok; assumption|]. intros v evs k e E He. rewrite E in H2. cbn in H2. rewrite forallb_forall in H2.
  specialize (H2 e (nth_error_In _ _ He)). unfold avail. destruct (ev_result e); [reflexivity|discriminate].
Qed.
Example C48_example_hypotheses :
  let f := mf_run (start 5 false) [MSetTolerance 10; MAdd "laser" 50; MAdd "laser" 90; tf "laser" 10] in
  let m := msg "map" "laser" 70 (v64 1 0 0) id64 in
  let f' := fst (mf_set_transform f m "me" false avail) in
  accepted f m "me" false avail /\
  exists i, In i (f_msgs f) /\ mi_frame i = "laser" /\ mi_stamp i = 50 /\ transformable_now (b_core (f_buf f')) (f_targets f) (f_tol f) (stripSlash (mi_frame i)) (mi_stamp i) /\
    forall tgt t, In tgt (f_targets f) -> needed_times (f_tol f) (mi_stamp i) t -> warnFrameId tgt = false /\ expired (b_core (f_buf f')) (mkPreq 0 0 tgt (stripSlash (mi_frame i)) t) = false.
Proof.
  intros f m f'. split; [apply accepted_by; vmr|].
  exists (mkInfo 0 "laser" 50 [1; 2] 0). split.
  { assert (E : f_msgs f = [mkInfo 0 "laser" 50 [1; 2] 0; mkInfo 1 "laser" 90 [3; 4] 0]) by vmr. rewrite E. left. reflexivity. }
  split; [reflexivity|]. split; [reflexivity|].
  assert (E1 : f_targets f = ["map"]) by vmr. assert (E2 : f_tol f = 10) by vmr. rewrite E1, E2. clear E1 E2. cbn [mi_frame mi_stamp]. split.
  - apply still_can_served. apply true_by_ok. vmr.
  - intros tgt t [<-|[]] Ht. split; [reflexivity|]. destruct Ht as [->|[_ Ht]]; [vmr|]. assert (t = 60) by (assert (X : time_add 50 10 = Some 60) by vmr; congruence). subst t. vmr.
Qed.

(** Outside calm histories messages are stranded: after setTargetFrames({map, laser}) one answer
    more is expected than was requested, and the queued message never gets its verdict although
    canTransform says yes for all its transforms; nothing is pending any more. *)
Definition all_known (f : filt D64) (i : minfo) : bool :=
  match still_can (b_core (f_buf f)) (f_targets f) (stripSlash (mi_frame i)) (mi_stamp i) (f_tol f) with Ok b => b | _ => false end.
Theorem C48_reconfiguration_strands_messages_refuted :
  let f := mf_run (start 5 false) [MAdd "laser" 50; MSetTargets ["map"; "laser"]; tf "laser" 10; tf "laser" 70] in
  mf_reachable f /\ map mi_seq (f_msgs f) = [0%nat] /\ List.length (pending (f_buf f)) = 0%nat /\ forallb (all_known f) (f_msgs f) = true.
Proof. intros f. split; [apply start_reach|]. repeat split; vmr. Qed.
Print Assumptions C48_reconfiguration_strands_messages_refuted.

(** A callback that reads "failure" through its dangling reference drops a message all of whose
    transforms are available. *)
Theorem C48_dangling_result_drops_messages_refuted :
  let f := mf_run (start 5 false) [MAdd "laser" 50; tf "laser" 10] in
  let f' := mf_step f (MTransform (msg "map" "laser" 70 (v64 1 0 0) id64) "me" false (fun _ => TransformFailure)) in
  calm 0 f /\ shown (f_emitted f') = [(0%nat, "laser", 50, Dropped Unknown)] /\ forallb (all_known f') (f_msgs f) = true.
Proof. intros f f'. split; [apply calm_by; [apply start_calm; lia|vmr]|]. split; vmr. Qed.
Print Assumptions C48_dangling_result_drops_messages_refuted.

(** add() and setTransform in two threads: the transform arrives after add() made its request and
    before it put the message in the queue; the notification finds no message, and the message
    waits for ever. *)
Theorem C48_lost_wakeup_refuted :
  let f := mf_step (start 5 false) (tf "laser" 10) in
  let '(f1, a) := add_begin f "laser" 50 in
  let f2 := mf_step f1 (tf "laser" 70) in
  match a with
  | AddOver _ => False
  | AddInfo i => let f3 := add_finish f2 i in
      map mi_seq (f_msgs f3) = [0%nat] /\ List.length (pending (f_buf f3)) = 0%nat /\ forallb (all_known f3) (f_msgs f3) = true
  end.
Proof. vm_compute. repeat split. Qed.
Print Assumptions C48_lost_wakeup_refuted.

(** Without the range condition add() throws, after having stored a request nobody owns. *)
Theorem C48_stamp_out_of_range_throws_refuted :
  let f := mf_run (start 5 false) [MSetTolerance 10] in
  let r := mf_add f "laser" (time_bound - 1) in
  match snd r with Throw RuntimeError _ => True | _ => False end /\ map mi_seq (f_msgs (fst r)) = [] /\ map p_time (pending (f_buf (fst r))) = [time_bound - 1].
Proof. vm_compute. repeat split. Qed.
Print Assumptions C48_stamp_out_of_range_throws_refuted.

(** A message refused as too old leaves the requests made for it before the refusal in the buffer
    (for the target frames listed earlier); they name no message. *)
Theorem C48_refused_message_leaks_requests_refuted :
  let f := mf_run (start 5 false) [MSetTargets ["odom"; "map"]; tf "laser" 300] in
  let f' := mf_step f (MAdd "laser" 5) in
  calm 0 f /\ shown (f_emitted f') = [(0%nat, "laser", 5, Dropped OutTheBack)] /\ map mi_seq (f_msgs f') = [] /\
  map (fun p => (p_cb p, p_target p, p_source p, p_time p)) (pending (f_buf f')) = [(f_cb f', "odom", "laser", 5)].
Proof. intros f f'. split; [apply calm_by; [apply start_calm; lia|vmr]|]. repeat split; vmr. Qed.
Print Assumptions C48_refused_message_leaks_requests_refuted.

(** ** C57 *)
(** After clear() nothing added before it is ever reported any more, and the buffer holds none of
    the filter's former requests. *)
Theorem C57_clear_forgets_earlier_messages :
  forall (S : Scalar) (f : filt S) ops, mf_reachable f ->
  (exists more, f_delivered (mf_run (mf_clear f) ops) = f_delivered f ++ more /\ forall out, In out more -> (List.length (f_added f) <= o_seq out)%nat) /\
  f_msgs (mf_clear f) = [] /\ f_outbox (mf_clear f) = [].
Proof.
  intros S f ops R. pose proof (reach_numbered f R) as N. split; [apply (sc_del _ _ _ (run_since ops _ _ _ (clear_since f N)))|].
  unfold mf_clear. destruct (addTransformableCallback _). cbn. split; [reflexivity|]. destruct (f_cbq f) eqn:E; [reflexivity|]. apply (nb_box f N E).
Qed.
Print Assumptions C57_clear_forgets_earlier_messages.

Theorem C57_clear_withdraws_the_requests :
  forall (S : Scalar) (f : filt S) p, In p (pending (f_buf (mf_clear f))) -> p_cb p <> f_cb f /\ In p (pending (f_buf f)).
Proof.
  intros S f p Hp. unfold mf_clear in Hp. unfold addTransformableCallback in Hp.
  assert (X : In p (pending (removeTransformableCallback (f_buf f) (f_cb f)))) by (destruct (next_cb_handle _ _ _); exact Hp).
  unfold pending in X. cbn [removeTransformableCallback b_core b_reqs] in X. apply in_map_iff in X as (r & <- & Hr). apply filter_In in Hr as [Hr E].
  split; [|apply in_map; exact Hr]. cbn. intros Y. rewrite Y, Z.eqb_refl in E. discriminate.
Qed.
Print Assumptions C57_clear_withdraws_the_requests.

Theorem C57_clear_keeps_the_filter_working :
  forall (S : Scalar) T (f : filt S), calm T f -> registered (b_cbs (f_buf (mf_clear f))) (f_cb (mf_clear f)) = true /\
  f_targets (mf_clear f) = f_targets f /\ f_tol (mf_clear f) = f_tol f /\ f_qsize (mf_clear f) = f_qsize f.
Proof.
  intros S T f C. pose proof (calm_quiet T f C) as Q.
  assert (Hl : Z.of_nat (List.length (b_cbs (f_buf (mf_clear f)))) < p2_32 + 1).
  { pose proof (q_len T f Q). pose proof (filter_len (fun k => negb (k =? f_cb f)) (b_cbs (f_buf f))). unfold mf_clear, addTransformableCallback.
    destruct (next_cb_handle _ _ _); cbn [f_buf b_cbs removeTransformableCallback List.length]; lia. }
  split; [|unfold mf_clear; destruct (addTransformableCallback _); auto].
  unfold mf_clear, addTransformableCallback. set (b1 := removeTransformableCallback (f_buf f) (f_cb f)).
  destruct (next_cb_some (b_cbs b1) (Datatypes.S (List.length (b_cbs b1))) (b_cb_counter b1)) as [h ->]; [apply (q_cbc T f Q)|lia| |].
  - pose proof (q_len T f Q). pose proof (filter_len (fun k => negb (k =? f_cb f)) (b_cbs (f_buf f))). cbn [b1 removeTransformableCallback b_cbs]. unfold uint32, p2_32 in *. lia.
  - cbn. rewrite Z.eqb_refl. reflexivity.
Qed.
Print Assumptions C57_clear_keeps_the_filter_working.

(** with a callback queue: one verdict delivered, one still queued at clear() and withdrawn *)
Example C57_example :
  let f := mf_run (start 5 true) [MAdd "laser" 50; MAdd "" 1; MAdd "" 2; MAdd "laser" 60; MSpin] in
  let f' := mf_run (mf_clear f) [tf "laser" 10; tf "laser" 70; MSpin; MAdd "laser" 65; MSpin] in
  calm 0 f /\ mf_reachable f /\ List.length (f_added f) = 4%nat /\
  shown (f_delivered f) = [(1%nat, "", 1, Dropped EmptyFrameID)] /\ shown (f_outbox f) = [(2%nat, "", 2, Dropped EmptyFrameID)] /\ map mi_seq (f_msgs f) = [0%nat; 3%nat] /\
  shown (f_delivered f') = [(1%nat, "", 1, Dropped EmptyFrameID); (4%nat, "laser", 65, Ready)].
Proof.
  intros f f'. split; [apply calm_by; [apply start_calm; lia|vmr]|]. split; [apply start_reach|]. repeat split; vmr.
Qed.
