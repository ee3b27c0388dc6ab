(** * Proofs about transformable requests *)
From Coq Require Import ZArith Bool List String Lia Permutation.
From Verif Require Import RosTime Scalar LinearMath Cache SpecCache CacheProofs CacheQueries
  BufferCore SpecCore CoreInv Naturality CoreSet WalkSpec LctSpec Bridge WalkMain Sim Forget LookupBase LookupTheorems
  History CoreTheorems NoRange Requests SpecRequests.
Import ListNotations.
Open Scope Z_scope.
Local Opaque MAX_GRAPH_DEPTH.

Section P.
Context {S : Scalar}.
Notation core := (core S).
Notation buf := (buf S).
Implicit Types (s : core) (b : buf) (r : request) (p : preq) (t : time) (tgt src : string).

(** ** names stay *)
Lemma step_rev : forall s o, wf s -> op_ok o -> exists suf, c_rev (step s o) = c_rev s ++ suf.
Proof.
  intros s o W H. destruct o as [m a st|]; [|exists []; rewrite app_nil_r; reflexivity]. cbn [step].
  destruct (setTransform_error (strip_msg m)) eqn:Eb; [rewrite setTransform_rejects by assumption; exists []; rewrite app_nil_r; reflexivity|].
  destruct (setTransform_effect s m a st W (op_ok_stamp _ _ _ H) Eb) as (s' & ci & pi & Es & _ & _ & _ & _ & (x & Hx) & _).
  rewrite Es. eauto.
Qed.

Definition id_ok s (i : nat) : Prop := i = 0%nat \/ live s i.
Definition req_ok s r : Prop := id_ok s (rq_target r) /\ id_ok s (rq_source r).

Lemma live_step : forall s o i, wf s -> op_ok o -> live s i -> live (step s o) i /\ name_of (step s o) i = name_of s i.
Proof.
  intros s o i W H [L1 L2]. destruct (step_rev s o W H) as [suf E]. split.
  - split; [assumption|]. rewrite E, app_length. lia.
  - apply (name_of_ext s (step s o) i suf E L2).
Qed.
Lemma id_ok_step : forall s o i, wf s -> op_ok o -> id_ok s i -> id_ok (step s o) i.
Proof. intros s o i W H [->|L]; [left; reflexivity|right; apply live_step; assumption]. Qed.
Lemma req_ok_step : forall s o r, wf s -> op_ok o -> req_ok s r -> req_ok (step s o) r.
Proof. intros s o r W H [H1 H2]. split; apply id_ok_step; assumption. Qed.
Lemma view_step : forall s o r, wf s -> op_ok o -> req_ok s r -> view (step s o) r = view s r.
Proof.
  intros s o r W H [H1 H2]. unfold view.
  assert (G : forall i, id_ok s i -> i <> 0%nat -> name_of (step s o) i = name_of s i) by (intros i [->|L] Hz; [congruence|apply live_step; assumption]).
  f_equal; [destruct (Nat.eqb_spec (rq_target r) 0) as [E|E]; [reflexivity|apply G; assumption]
           |destruct (Nat.eqb_spec (rq_source r) 0) as [E|E]; [reflexivity|apply G; assumption]].
Qed.
Lemma lfn_id_ok : forall s n, wf s -> id_ok s (lookupFrameNumber s n).
Proof.
  intros s n W. destruct (known_dec s n) as [K|K].
  - destruct (known_live s n W K) as (i & L & _ & -> & _). right. assumption.
  - left. apply lookupFrameNumber_unknown; assumption.
Qed.
Lemma lfn_name : forall s n, wf s -> lookupFrameNumber s n <> 0%nat -> name_of s (lookupFrameNumber s n) = n.
Proof.
  intros s n W H. destruct (known_dec s n) as [K|K].
  - destruct (known_live s n W K) as (i & L & N & -> & _). assumption.
  - rewrite (lookupFrameNumber_unknown s n W K) in H. congruence.
Qed.

Lemma resolve_ok : forall s r, wf s -> req_ok s r -> req_ok s (resolve s r).
Proof.
  intros s r W [H1 H2]. split; cbn.
  - destruct (Nat.eqb (rq_target r) 0); [apply lfn_id_ok|]; assumption.
  - destruct (Nat.eqb (rq_source r) 0); [apply lfn_id_ok|]; assumption.
Qed.
Lemma resolve_ids : forall s r, wf s -> req_ok s r ->
  rq_target (resolve s r) = lookupFrameNumber s (p_target (view s r)) /\ rq_source (resolve s r) = lookupFrameNumber s (p_source (view s r)).
Proof.
  intros s r W [H1 H2]. cbn. split.
  - destruct (Nat.eqb_spec (rq_target r) 0) as [E|E]; [reflexivity|]. destruct H1 as [H1|H1]; [congruence|]. symmetry. apply lookup_live; assumption.
  - destruct (Nat.eqb_spec (rq_source r) 0) as [E|E]; [reflexivity|]. destruct H2 as [H2|H2]; [congruence|]. symmetry. apply lookup_live; assumption.
Qed.
Lemma resolve_view : forall s r, wf s -> req_ok s r -> view s (resolve s r) = view s r.
Proof.
  intros s r W H. unfold view. cbn. f_equal.
  - destruct (Nat.eqb_spec (rq_target r) 0) as [E|E]; cbn.
    + destruct (Nat.eqb_spec (lookupFrameNumber s (rq_target_string r)) 0) as [E'|E']; [reflexivity|]. apply lfn_name; assumption.
    + rewrite (proj2 (Nat.eqb_neq _ _) E). reflexivity.
  - destruct (Nat.eqb_spec (rq_source r) 0) as [E|E]; cbn.
    + destruct (Nat.eqb_spec (lookupFrameNumber s (rq_source_string r)) 0) as [E'|E']; [reflexivity|]. apply lfn_name; assumption.
    + rewrite (proj2 (Nat.eqb_neq _ _) E). reflexivity.
Qed.

(** ** the decision *)
Lemma lct_total : forall s i j, wf s -> id_ok s i -> id_ok s j -> exists code ot, getLatestCommonTime s i j None = Ok (code, ot, None).
Proof.
  intros s i j W Hi Hj.
  destruct Hi as [->|Li]; [unfold getLatestCommonTime; rewrite orb_true_r; eauto|].
  destruct Hj as [->|Lj]; [unfold getLatestCommonTime; cbn; eauto|].
  destruct (Nat.eq_dec j i) as [->|Ne].
  { unfold getLatestCommonTime. destruct (Nat.eqb i 0 || Nat.eqb i 0); [eauto|]. rewrite Nat.eqb_refl. eauto. }
  destruct (lct_outcome_ok s i j None W Lj Li Ne) as [ds dt q H1 H2 H3 H4 H5 H6|ds m dt m' err' H1 H2 H3 H4 H5 ->|k ds m err' H1 H2 H3 [str ->]]; eauto.
Qed.
Lemma can_internal_total : forall s i j t, wf s -> id_ok s i -> id_ok s j -> exists v, canTransformInternal s i j t = Ok v.
Proof.
  intros s i j t W Hi Hj. unfold canTransformInternal, canTransformNoLock.
  destruct Hi as [->|Li]; [cbn; destruct (Nat.eqb j 0); cbn; eauto|].
  destruct Hj as [->|Lj]; [rewrite orb_true_r; destruct (Nat.eqb i 0); cbn; eauto|].
  rewrite (proj2 (Nat.eqb_neq _ _) (proj1 Li)), (proj2 (Nat.eqb_neq _ _) (proj1 Lj)). cbn [orb].
  destruct (Nat.eqb i j); [cbn; eauto|].
  rewrite (walk_forget s t i j taccum0 None W).
  destruct (twalk_cases s t i j None W Li Lj) as [[H _]|(code & a & e & ch & -> & _ & He)]; [congruence|].
  cbn. destruct code; cbn; eauto.
Qed.
Lemma too_old_named : forall s p, wf s -> 0 <= p_time p -> p_time p + c_cache_time s < time_bound ->
  too_old s (lookupFrameNumber s (p_target p)) (lookupFrameNumber s (p_source p)) (p_time p) = Ok (expired s p).
Proof.
  intros s p W H0 Hr. unfold too_old, expired, latest_common_time.
  destruct (lct_total s (lookupFrameNumber s (p_target p)) (lookupFrameNumber s (p_source p)) W (lfn_id_ok _ _ W) (lfn_id_ok _ _ W)) as (code & ot & ->).
  cbn [bind]. destruct ot as [l|]; [|reflexivity]. destruct (l =? 0); [reflexivity|]. cbn [negb andb].
  unfold time_add, valid_timeb. pose proof (wf_ct s W). rewrite (proj2 (Z.leb_le _ _)) by lia. rewrite (proj2 (Z.ltb_lt _ _)) by assumption. reflexivity.
Qed.
Lemma decide_named : forall s r, wf s -> req_ok s r -> 0 <= rq_time r -> rq_time r + c_cache_time s < time_bound ->
  decide s (resolve s r) = Ok (due s (view s r)).
Proof.
  intros s r W H H0 Hr. unfold decide. destruct (resolve_ids s r W H) as [-> ->].
  change (rq_time (resolve s r)) with (p_time (view s r)). rewrite too_old_named by assumption. cbn [bind].
  unfold due. destruct (expired s (view s r)); [reflexivity|]. unfold available.
  destruct (can_internal_total s (lookupFrameNumber s (p_target (view s r))) (lookupFrameNumber s (p_source (view s r))) (p_time (view s r)) W (lfn_id_ok _ _ W) (lfn_id_ok _ _ W)) as [v ->].
  reflexivity.
Qed.
Lemma available_known : forall s tgt src t, available s tgt src t = true -> lookupFrameNumber s tgt <> 0%nat /\ lookupFrameNumber s src <> 0%nat.
Proof.
  intros s tgt src t H. unfold available, canTransformInternal, canTransformNoLock in H.
  destruct (Nat.eqb_spec (lookupFrameNumber s tgt) 0) as [E|E]; destruct (Nat.eqb_spec (lookupFrameNumber s src) 0) as [E'|E']; cbn in H; try discriminate. auto.
Qed.
Lemma due_known : forall s p x, wf s -> due s p = Some x -> lookupFrameNumber s (p_target p) <> 0%nat /\ lookupFrameNumber s (p_source p) <> 0%nat.
Proof.
  intros s p x W H. unfold due in H. destruct (expired s p) eqn:E.
  - unfold expired, latest_common_time in E. unfold getLatestCommonTime in E.
    destruct (Nat.eqb_spec (lookupFrameNumber s (p_source p)) 0) as [E1|E1]; [discriminate|].
    destruct (Nat.eqb_spec (lookupFrameNumber s (p_target p)) 0) as [E2|E2]; [discriminate|]. auto.
  - destruct (available s (p_target p) (p_source p) (p_time p)) eqn:E2; [|discriminate]. eapply available_known; eassumption.
Qed.
Lemma make_event_named : forall s cbs r k x, wf s -> req_ok s r -> due s (view s r) = Some x ->
  exists es, make_event s cbs (resolve s r) k x = Ok es /\ map notice_of es = owed s cbs (view s r) /\
    Forall (fun e => ev_time_slot e = k) es.
Proof.
  intros s cbs r k x W H Hd. destruct (due_known s _ _ W Hd) as [K1 K2]. unfold make_event, owed. rewrite Hd.
  destruct (resolve_ids s r W H) as [E1 E2]. rewrite E1, E2. cbn [rq_cb resolve p_cb view].
  destruct (registered cbs (rq_cb r)); [|exists []; repeat split; constructor].
  destruct (lfn_id_ok s (p_target (view s r)) W) as [Z|L1]; [congruence|]. destruct (lfn_id_ok s (p_source (view s r)) W) as [Z|L2]; [congruence|].
  rewrite !frame_string by (assumption || apply L1 || apply L2). rewrite !lfn_name by assumption. cbn [bind].
  eexists. split; [reflexivity|]. split; [reflexivity|]. repeat constructor.
Qed.

(** ** the loop *)
Lemma swap_remove_perm : forall l, Permutation (swap_remove l) l.
Proof.
  intros l. unfold swap_remove. destruct (rev l) as [|x l'] eqn:E.
  - apply (f_equal (@rev _)) in E. rewrite rev_involutive in E. subst. constructor.
  - apply (f_equal (@rev _)) in E. rewrite rev_involutive in E. subst. cbn. rewrite removelast_last. apply Permutation_cons_append.
Qed.
Definition time_ok s r : Prop := 0 <= rq_time r /\ rq_time r + c_cache_time s < time_bound.

Lemma test_loop_spec : forall n s cbs kept rest evs, wf s -> n = List.length rest ->
  Forall (req_ok s) (kept ++ rest) -> Forall (time_ok s) rest ->
  exists final es, test_loop n s cbs kept rest evs = (final, Ok (evs ++ es)) /\
    Forall (req_ok s) final /\
    Permutation (map (view s) final) (map (view s) kept ++ filter (not_due s) (map (view s) rest)) /\
    Permutation (map notice_of es) (flat_map (owed s cbs) (map (view s) rest)).
Proof.
  induction n as [|n IH]; intros s cbs kept rest evs W Hn Hok Ht.
  - destruct rest; [|discriminate]. exists (kept ++ []), []. cbn. rewrite !app_nil_r in *. repeat split; auto.
  - destruct rest as [|r0 rest']; [discriminate|]. cbn in Hn. injection Hn as Hn.
    apply Forall_app in Hok as [Hk Hr]. inversion Hr as [|? ? Hr0 Hr']; subst. inversion Ht as [|? ? [Ht0 Ht1] Ht']; subst.
    cbn [test_loop]. rewrite (decide_named s r0 W Hr0 Ht0 Ht1). destruct (due s (view s r0)) as [x|] eqn:Ed.
    + destruct (make_event_named s cbs r0 (List.length kept) x W Hr0 Ed) as (es0 & -> & En & _).
      pose proof (swap_remove_perm rest') as P.
      assert (Pv : Permutation (map (view s) (swap_remove rest')) (map (view s) rest')) by (apply Permutation_map; assumption).
      destruct (IH s cbs kept (swap_remove rest') (evs ++ es0) W) as (final & es & E & F1 & F2 & F3).
      * symmetry. apply Permutation_length. assumption.
      * apply Forall_app. split; [assumption|]. eapply Permutation_Forall; [symmetry; exact P|assumption].
      * eapply Permutation_Forall; [symmetry; exact P|assumption].
      * exists final, (es0 ++ es). rewrite app_assoc. split; [exact E|]. split; [assumption|]. split.
        -- cbn [map filter]. unfold not_due at 1. rewrite Ed. rewrite F2. apply Permutation_app_head.
           clear - Pv. induction Pv; cbn; try reflexivity.
           ++ destruct (not_due s x); [constructor|]; assumption.
           ++ destruct (not_due s x), (not_due s y); try reflexivity. constructor.
           ++ etransitivity; eassumption.
        -- cbn [map flat_map]. rewrite map_app, En. apply Permutation_app_head. rewrite F3. apply Permutation_flat_map. exact Pv.
    + destruct (IH s cbs (kept ++ [resolve s r0]) rest' evs W) as (final & es & E & F1 & F2 & F3); [reflexivity| |assumption|].
      * rewrite <- app_assoc. apply Forall_app. split; [assumption|]. constructor; [apply resolve_ok; assumption|assumption].
      * exists final, es. split; [exact E|]. split; [assumption|]. split.
        -- rewrite F2, map_app. cbn [map]. rewrite (resolve_view s r0 W Hr0). cbn [map filter].
           unfold not_due at 2. rewrite Ed. rewrite <- app_assoc. reflexivity.
        -- cbn [map flat_map]. unfold owed at 1. rewrite Ed. exact F3.
Qed.

(** ** the loop without range assumption: nothing is invented, nothing is duplicated *)
Definition from_request (p : preq) (e : event) : Prop :=
  ev_cb e = p_cb p /\ ev_handle e = p_handle p /\ ev_target e = p_target p /\ ev_source e = p_source p.

Lemma decide_known : forall s r x, decide s r = Ok (Some x) -> rq_target r <> 0%nat /\ rq_source r <> 0%nat.
Proof.
  intros s r x H. unfold decide, too_old, canTransformInternal, canTransformNoLock, getLatestCommonTime in H.
  destruct (Nat.eqb_spec (rq_source r) 0) as [E1|E1].
  { exfalso. cbn [orb bind] in H. cbn in H. rewrite orb_true_r in H. destruct (Nat.eqb (rq_target r) 0); cbn in H; discriminate. }
  destruct (Nat.eqb_spec (rq_target r) 0) as [E2|E2].
  { exfalso. cbn in H. discriminate. }
  auto.
Qed.
Lemma make_event_from : forall s cbs r k x, wf s -> req_ok s r -> decide s (resolve s r) = Ok (Some x) ->
  exists es, make_event s cbs (resolve s r) k x = Ok es /\ (es = [] \/ exists e, es = [e] /\ from_request (view s r) e) /\
    Forall (fun e => registered cbs (ev_cb e) = true /\ ev_time_slot e = k) es.
Proof.
  intros s cbs r k x W H Hd. destruct (decide_known _ _ _ Hd) as [K1 K2].
  destruct (resolve_ids s r W H) as [E1 E2]. rewrite E1 in K1. rewrite E2 in K2. unfold make_event. rewrite E1, E2. cbn [rq_cb resolve].
  destruct (registered cbs (rq_cb r)) eqn:Er; [|exists []; repeat split; auto; constructor].
  destruct (lfn_id_ok s (p_target (view s r)) W) as [Z|L1]; [congruence|]. destruct (lfn_id_ok s (p_source (view s r)) W) as [Z|L2]; [congruence|].
  rewrite !frame_string by (assumption || apply L1 || apply L2). rewrite !lfn_name by assumption. cbn [bind].
  eexists. split; [reflexivity|]. split; [right; eexists; split; [reflexivity|]; repeat split|]. repeat constructor. exact Er.
Qed.

Lemma test_loop_sub : forall n s cbs kept rest evs final res, wf s -> Forall (req_ok s) (kept ++ rest) ->
  test_loop n s cbs kept rest evs = (final, res) ->
  Forall (req_ok s) final /\ exists removed, Permutation (map (view s) final ++ removed) (map (view s) (kept ++ rest)) /\
    forall out, res = Ok out -> exists es srcs others, out = evs ++ es /\ Permutation (srcs ++ others) removed /\
      Forall2 from_request srcs es /\ Forall (fun e => registered cbs (ev_cb e) = true) es.
Proof.
  induction n as [|n IH]; intros s cbs kept rest evs final res W Hok H.
  - cbn in H. inversion H; subst. split; [assumption|]. exists []. rewrite app_nil_r. split; [reflexivity|].
    intros out E. inversion E; subst. exists [], [], []. rewrite app_nil_r. repeat split; constructor.
  - destruct rest as [|r0 rest'].
    { cbn in H. inversion H; subst. split; [assumption|]. exists []. rewrite !app_nil_r. split; [reflexivity|].
      intros out E. inversion E; subst. exists [], [], []. rewrite app_nil_r. repeat split; constructor. }
    apply Forall_app in Hok as [Hk Hr]. inversion Hr as [|? ? Hr0 Hr']; subst.
    assert (Keep : Forall (req_ok s) (kept ++ resolve s r0 :: rest')).
    { apply Forall_app. split; [assumption|]. constructor; [apply resolve_ok; assumption|assumption]. }
    assert (Vk : map (view s) (kept ++ resolve s r0 :: rest') = map (view s) (kept ++ r0 :: rest')).
    { rewrite !map_app. cbn [map]. rewrite resolve_view by assumption. reflexivity. }
    cbn [test_loop] in H. destruct (decide s (resolve s r0)) as [[x|]|c e|] eqn:Ed.
    + destruct (make_event_from s cbs r0 (List.length kept) x W Hr0 Ed) as (es0 & Em & Hes & Hreg). rewrite Em in H.
      pose proof (swap_remove_perm rest') as P.
      apply IH in H; [|assumption|].
      2:{ apply Forall_app. split; [assumption|]. eapply Permutation_Forall; [symmetry; exact P|assumption]. }
      destruct H as (F & removed & Pm & Ho). split; [assumption|]. exists (view s r0 :: removed). split.
      { rewrite <- Permutation_middle, Pm, !map_app. cbn [map]. rewrite <- Permutation_middle. constructor.
        apply Permutation_app_head. apply Permutation_map. assumption. }
      intros out E. destruct (Ho out E) as (es & srcs & others & -> & Ps & F2 & Fr). destruct Hes as [->|(e0 & -> & He0)].
      * exists es, srcs, (view s r0 :: others). rewrite app_nil_r. split; [reflexivity|]. split; [|auto].
        rewrite <- Permutation_middle. constructor. assumption.
      * exists (e0 :: es), (view s r0 :: srcs), others. rewrite <- app_assoc. split; [reflexivity|]. split; [|split].
        -- cbn. constructor. assumption.
        -- constructor; assumption.
        -- inversion Hreg; subst. constructor; [tauto|assumption].
    + apply IH in H; [|assumption|rewrite <- app_assoc; exact Keep].
      rewrite <- app_assoc in H. cbn [app] in H. rewrite Vk in H. exact H.
    + inversion H; subst. split; [exact Keep|]. exists []. rewrite app_nil_r, Vk. split; [reflexivity|]. discriminate.
    + inversion H; subst. split; [exact Keep|]. exists []. rewrite app_nil_r, Vk. split; [reflexivity|]. discriminate.
Qed.

(** ** invariant *)
Record binv b : Prop := {
  bi_core : reachable (b_core b);
  bi_ok : Forall (req_ok (b_core b)) (b_reqs b);
  bi_time : Forall (fun p => valid_time (p_time p)) (pending b);
  bi_nodup : NoDup (map p_handle (pending b));
  bi_range : Forall (fun p => 1 <= p_handle p <= b_rq_counter b) (pending b);
  bi_counter : 0 <= b_rq_counter b;
  bi_cbs : NoDup (b_cbs b);
  bi_cbs_range : Forall (fun h => 0 <= h < uint32) (b_cbs b)
}.

Lemma binv_init : forall ct, 0 <= ct < dur_bound -> binv (init_buf ct).
Proof.
  intros ct H. constructor; cbn; try constructor; try lia.
  exists ct, []. split; [assumption|]. split; [constructor|reflexivity].
Qed.

(** changing the core as a call does *)
Lemma pending_core : forall b o, wf (b_core b) -> op_ok o -> Forall (req_ok (b_core b)) (b_reqs b) ->
  pending (with_core b (step (b_core b) o)) = pending b.
Proof.
  intros b o W H F. unfold pending. cbn. apply map_ext_in. intros r Hr. rewrite Forall_forall in F. apply view_step; auto.
Qed.
Lemma binv_core : forall b o, binv b -> op_ok o -> binv (with_core b (step (b_core b) o)).
Proof.
  intros b o I H. pose proof (reachable_wf _ (bi_core b I)) as W.
  pose proof (pending_core b o W H (bi_ok b I)) as P. destruct I.
  constructor; rewrite ?P; cbn; try assumption.
  - apply reachable_step; assumption.
  - eapply Forall_impl; [|exact bi_ok0]. intros r Hr. apply req_ok_step; assumption.
Qed.

Lemma perm_handles : forall (l l' : list preq), Permutation l l' -> Permutation (map p_handle l) (map p_handle l').
Proof. intros. apply Permutation_map. assumption. Qed.

Lemma NoDup_app_l : forall {A} (l l' : list A), NoDup (l ++ l') -> NoDup l.
Proof.
  induction l as [|x l IH]; intros l' H; [constructor|]. inversion H; subst. constructor.
  - intros Hin. apply H2. apply in_app_iff. auto.
  - eapply IH; eassumption.
Qed.
Lemma binv_sub : forall b reqs, binv b -> Forall (req_ok (b_core b)) reqs ->
  (exists removed, Permutation (map (view (b_core b)) reqs ++ removed) (pending b)) ->
  binv {| b_core := b_core b; b_cbs := b_cbs b; b_cb_counter := b_cb_counter b; b_reqs := reqs; b_rq_counter := b_rq_counter b |}.
Proof.
  intros b reqs I F (removed & P). destruct I. unfold pending in *.
  constructor; cbn; try assumption.
  - eapply Permutation_Forall in bi_time0; [|symmetry; exact P]. apply Forall_app in bi_time0. apply bi_time0.
  - eapply (Permutation_NoDup (perm_handles _ _ (Permutation_sym P))) in bi_nodup0. rewrite map_app in bi_nodup0.
    apply NoDup_app_l in bi_nodup0. assumption.
  - eapply Permutation_Forall in bi_range0; [|symmetry; exact P]. apply Forall_app in bi_range0. apply bi_range0.
Qed.

Lemma filter_sub : forall {A} (f : A -> bool) l, exists removed, Permutation (filter f l ++ removed) l.
Proof.
  intros A f l. exists (filter (fun x => negb (f x)) l). induction l as [|x l IH]; [constructor|]. cbn.
  destruct (f x); cbn; [constructor; assumption|]. rewrite <- Permutation_middle. constructor. assumption.
Qed.
Lemma filter_reqs_sub : forall s (f : request -> bool) l, exists removed, Permutation (map (view s) (filter f l) ++ removed) (map (view s) l).
Proof.
  intros s f l. destruct (filter_sub f l) as [rm P]. exists (map (view s) rm). rewrite <- map_app. apply Permutation_map. assumption.
Qed.

Lemma registered_In : forall cbs h, registered cbs h = true <-> In h cbs.
Proof.
  intros cbs h. unfold registered. rewrite existsb_exists. split; [intros (x & Hx & E); apply Z.eqb_eq in E; congruence|].
  intros H. exists h. split; [assumption|apply Z.eqb_refl].
Qed.
Lemma next_cb_fresh : forall fuel cbs ctr h, next_cb_handle fuel cbs ctr = Some h -> ~ In h cbs /\ 0 <= h < uint32.
Proof.
  induction fuel as [|f IH]; intros cbs ctr h H; [discriminate|]. cbn [next_cb_handle] in H.
  destruct (registered cbs ((ctr + 1) mod uint32)) eqn:E; [apply IH in H; assumption|]. inversion H; subst. split.
  - intros Hin. apply registered_In in Hin. congruence.
  - apply Z.mod_pos_bound. reflexivity.
Qed.

(** add_check never throws for pushes etc.; what a push stores *)
Lemma add_check_push : forall s tgt src t i j, add_check s tgt src t = Ok (Push i j) ->
  i = lookupFrameNumber s tgt /\ j = lookupFrameNumber s src /\ tgt <> src /\ available s tgt src t = false.
Proof.
  intros s tgt src t i j H. unfold add_check in H. destruct (String.eqb_spec tgt src) as [E|E]; [discriminate|].
  unfold available. destruct (canTransformInternal s (lookupFrameNumber s tgt) (lookupFrameNumber s src) t) as [[|]| |]; cbn in H; try discriminate.
  destruct (if Nat.eqb (lookupFrameNumber s tgt) 0 || Nat.eqb (lookupFrameNumber s src) 0 then Ok false else _) as [[|]| |]; cbn in H; try discriminate.
  inversion H; subst. auto.
Qed.
Lemma push_pending : forall b cb tgt src t, binv b -> b_rq_counter b + 1 < uint64 - 1 ->
  let '(b', h) := push_request b cb (lookupFrameNumber (b_core b) tgt) (lookupFrameNumber (b_core b) src) tgt src t in
  h = b_rq_counter b + 1 /\ b_rq_counter b' = h /\ b_core b' = b_core b /\ b_cbs b' = b_cbs b /\
  pending b' = pending b ++ [mkPreq h cb tgt src t] /\ Forall (req_ok (b_core b)) (b_reqs b').
Proof.
  intros b cb tgt src t I H. pose proof (reachable_wf _ (bi_core b I)) as W. pose proof (bi_counter b I) as Hc. unfold push_request.
  rewrite Z.mod_small by (unfold uint64 in *; lia).
  rewrite (proj2 (Z.eqb_neq (b_rq_counter b + 1) 0)) by lia. rewrite (proj2 (Z.eqb_neq (b_rq_counter b + 1) (uint64 - 1))) by lia. cbn [orb].
  cbn [b_rq_counter b_core b_cbs b_reqs]. repeat split.
  - unfold pending. cbn. rewrite map_app. cbn. f_equal. unfold view. cbn. f_equal. f_equal.
    + destruct (Nat.eqb_spec (lookupFrameNumber (b_core b) tgt) 0) as [E|E]; [reflexivity|]. apply lfn_name; assumption.
    + destruct (Nat.eqb_spec (lookupFrameNumber (b_core b) src) 0) as [E|E]; [reflexivity|]. apply lfn_name; assumption.
  - apply Forall_app. split; [apply I|]. constructor; [|constructor]. split; cbn; apply lfn_id_ok; assumption.
Qed.
Lemma binv_add : forall b cb tgt src t b' (r : res Z), binv b -> b_rq_counter b + 1 < uint64 - 1 -> valid_time t ->
  addTransformableRequest b cb tgt src t = (b', r) ->
  binv b' /\ b_rq_counter b' <= b_rq_counter b + 1 /\ b_core b' = b_core b /\ b_cbs b' = b_cbs b /\
  ((b' = b /\ ~ (exists h, r = Ok h /\ 1 <= h < uint64 - 1)) \/ (r = Ok (b_rq_counter b + 1) /\ b_rq_counter b' = b_rq_counter b + 1 /\ pending b' = pending b ++ [mkPreq (b_rq_counter b + 1) cb tgt src t])).
Proof.
  intros b cb tgt src t b' r I Hc Ht H. unfold addTransformableRequest in H.
  destruct (add_check (b_core b) tgt src t) as [[h|i j]|c e|] eqn:Ea.
  - assert (b' = b) by congruence; subst b'. split; [assumption|]. split; [lia|]. split; [reflexivity|]. split; [reflexivity|]. left. split; [reflexivity|].
    intros (h' & E & Hh). assert (h' = h) by congruence. subst h'.
    unfold add_check in Ea. destruct (String.eqb tgt src); [assert (h = ALREADY_TRANSFORMABLE) by congruence; unfold ALREADY_TRANSFORMABLE in *; lia|].
    destruct (canTransformInternal _ _ _ _) as [[|]| |]; cbn [bind] in Ea; try discriminate; [assert (h = ALREADY_TRANSFORMABLE) by congruence; unfold ALREADY_TRANSFORMABLE in *; lia|].
    destruct (if Nat.eqb (lookupFrameNumber (b_core b) tgt) 0 || Nat.eqb (lookupFrameNumber (b_core b) src) 0 then Ok false else _) as [[|]| |]; cbn [bind] in Ea; try discriminate.
    assert (h = NEVER_TRANSFORMABLE) by congruence. unfold NEVER_TRANSFORMABLE in *. lia.
  - apply add_check_push in Ea as (-> & -> & _ & _).
    pose proof (push_pending b cb tgt src t I Hc) as P. destruct (push_request _ _ _ _ _ _ _) as [b1 h] eqn:Ep. inversion H; subst.
    destruct P as (-> & Hctr & Ecore & Ecbs & Ep' & Fo). split.
    + destruct I. constructor; rewrite ?Ecore, ?Ep', ?Hctr, ?Ecbs; try assumption.
      * apply Forall_app. split; [assumption|]. repeat constructor; apply Ht.
      * rewrite map_app. cbn. eapply Permutation_NoDup; [apply Permutation_cons_append|]. constructor; [|assumption].
        intros Hin. apply in_map_iff in Hin as (p & Eh & Hp). rewrite Forall_forall in bi_range0. specialize (bi_range0 p Hp). lia.
      * apply Forall_app. split; [|repeat constructor; cbn; lia]. eapply Forall_impl; [|exact bi_range0]. cbn. lia.
      * lia.
    + split; [lia|]. split; [assumption|]. split; [assumption|]. right. auto.
  - assert (b' = b) by congruence; subst b'. split; [assumption|]. split; [lia|]. split; [reflexivity|]. split; [reflexivity|]. left. split; [reflexivity|]. intros (h & E & _). congruence.
  - assert (b' = b) by congruence; subst b'. split; [assumption|]. split; [lia|]. split; [reflexivity|]. split; [reflexivity|]. left. split; [reflexivity|]. intros (h & E & _). congruence.
Qed.
End P.
