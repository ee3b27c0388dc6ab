(** * Proofs about the message filter: verdicts *)
From Coq Require Import ZArith Bool List String Lia Permutation.
From Verif Require Import RosTime Scalar LinearMath Cache SpecCache BufferCore SpecCore Requests SpecRequests RequestProofs RequestHistory
  MessageFilter SpecFilter.
Import ListNotations.
Open Scope list_scope.
Open Scope Z_scope.
Local Opaque MAX_GRAPH_DEPTH.

Section P.
Context {S : Scalar}.
Notation filt := (filt S).
Implicit Types (f : filt) (i : minfo) (out : output) (o : mf_op S) (b : buf S).

(** ** numbering *)
Record numbered f : Prop := {
  nb_nodup : NoDup (map o_seq (f_emitted f) ++ map mi_seq (f_msgs f));
  nb_out : forall out, In out (f_emitted f) -> nth_error (f_added f) (o_seq out) = Some (o_frame out, o_stamp out);
  nb_msg : forall i, In i (f_msgs f) -> nth_error (f_added f) (mi_seq i) = Some (mi_frame i, mi_stamp i);
  nb_sub : exists gone, Permutation (f_delivered f ++ f_outbox f ++ gone) (f_emitted f);
  nb_exp : f_expected f = expected_count (f_targets f) (f_tol f);
  nb_box : f_cbq f = false -> f_outbox f = []
}.

Lemma nth_lt : forall {A} (l : list A) n x, nth_error l n = Some x -> (n < List.length l)%nat.
Proof. intros A l n x H. apply nth_error_Some. congruence. Qed.
Lemma nth_app_old : forall {A} (l : list A) n x y, nth_error l n = Some x -> nth_error (l ++ [y]) n = Some x.
Proof. intros A l n x y H. rewrite nth_error_app1; [assumption|]. eapply nth_lt; eassumption. Qed.
Lemma nth_app_new : forall {A} (l : list A) y, nth_error (l ++ [y]) (List.length l) = Some y.
Proof. intros A l y. rewrite nth_error_app2, Nat.sub_diag by lia. reflexivity. Qed.

Lemma emit_sub : forall f out, (exists gone, Permutation (f_delivered f ++ f_outbox f ++ gone) (f_emitted f)) ->
  exists gone, Permutation (f_delivered (emit f out) ++ f_outbox (emit f out) ++ gone) (f_emitted (emit f out)).
Proof.
  intros f out (gone & P). exists gone. cbn. destruct (f_cbq f).
  - rewrite <- app_assoc. rewrite <- P. rewrite <- !app_assoc. rewrite !(app_assoc _ (f_outbox f)).
    etransitivity; [apply Permutation_app_head, (Permutation_app_comm [out] gone)|]. rewrite !app_assoc. reflexivity.
  - rewrite <- P. rewrite <- !app_assoc. apply Permutation_app_head. cbn. rewrite app_assoc. apply Permutation_cons_append.
Qed.

(** a queued message leaves with a verdict *)
Lemma leave : forall f l1 i l2 out, numbered f -> f_msgs f = l1 ++ i :: l2 -> o_seq out = mi_seq i -> o_frame out = mi_frame i -> o_stamp out = mi_stamp i ->
  numbered (with_msgs (emit f out) (l1 ++ l2)).
Proof.
  intros f l1 i l2 out [N1 N2 N3 N4 N5 N6] E E1 E2 E3. constructor; cbn [with_msgs emit f_emitted f_msgs f_added f_targets f_tol f_expected f_cbq].
  - rewrite E in N1. eapply Permutation_NoDup; [|exact N1]. rewrite !map_app. cbn [map]. rewrite E1, <- app_assoc. apply Permutation_app_head.
    cbn. symmetry. apply Permutation_middle.
  - intros o' H. apply in_app_iff in H as [H|[<-|[]]]; [auto|]. rewrite E1, E2, E3. apply N3. rewrite E. apply in_elt.
  - intros j H. apply N3. rewrite E. rewrite in_app_iff in *. cbn. tauto.
  - apply (emit_sub f out). assumption.
  - assumption.
  - cbn. intros H. rewrite H. auto.
Qed.
Lemma bumped : forall f l1 i l2, numbered f -> f_msgs f = l1 ++ i :: l2 -> numbered (with_msgs f (l1 ++ bump i :: l2)).
Proof.
  intros f l1 i l2 [N1 N2 N3 N4 N5 N6] E. constructor; cbn; try assumption.
  - rewrite E in N1. rewrite !map_app in *. exact N1.
  - intros j H. rewrite in_app_iff in H. cbn in H. rewrite E in N3. destruct H as [H|[<-|H]]; [apply N3; rewrite in_app_iff; auto| |apply N3; rewrite in_app_iff; cbn; auto].
    apply (N3 i). apply in_elt.
Qed.
Lemma with_buf_numbered : forall f b, numbered f -> numbered (with_buf f b).
Proof. intros f b [N1 N2 N3 N4 N5 N6]. constructor; assumption. Qed.
Lemma note_numbered : forall f fr st, numbered f -> numbered (note_added f fr st) /\
  ~ In (List.length (f_added f)) (map o_seq (f_emitted f) ++ map mi_seq (f_msgs f)).
Proof.
  intros f fr st [N1 N2 N3 N4 N5 N6]. split.
  - constructor; cbn; try assumption; intros x H; apply nth_app_old; auto.
  - intros H. apply in_app_iff in H as [H|H]; apply in_map_iff in H as (x & E & Hx); [apply N2, nth_lt in Hx|apply N3, nth_lt in Hx]; lia.
Qed.
(** a message gets its verdict at once *)
Lemma immediate : forall f out, numbered f -> ~ In (o_seq out) (map o_seq (f_emitted f) ++ map mi_seq (f_msgs f)) ->
  nth_error (f_added f) (o_seq out) = Some (o_frame out, o_stamp out) -> numbered (emit f out).
Proof.
  intros f out [N1 N2 N3 N4 N5 N6] Hf Hn. constructor; cbn [emit f_emitted f_msgs f_added f_targets f_tol f_expected f_cbq].
  - rewrite map_app, <- app_assoc. cbn. eapply Permutation_NoDup; [apply Permutation_middle|]. constructor; assumption.
  - intros o' H. apply in_app_iff in H as [H|[<-|[]]]; auto.
  - assumption.
  - apply emit_sub. assumption.
  - assumption.
  - cbn. intros H. rewrite H. auto.
Qed.
Lemma queued : forall f i, numbered f -> ~ In (mi_seq i) (map o_seq (f_emitted f) ++ map mi_seq (f_msgs f)) ->
  nth_error (f_added f) (mi_seq i) = Some (mi_frame i, mi_stamp i) -> numbered (with_msgs f (f_msgs f ++ [i])).
Proof.
  intros f i [N1 N2 N3 N4 N5 N6] Hf Hn. constructor; cbn; try assumption.
  - rewrite map_app, app_assoc. cbn. eapply Permutation_NoDup; [apply Permutation_cons_append|]. constructor; assumption.
  - intros j H. apply in_app_iff in H as [H|[<-|[]]]; auto.
Qed.

Lemma finish_numbered : forall f i, numbered f -> ~ In (mi_seq i) (map o_seq (f_emitted f) ++ map mi_seq (f_msgs f)) ->
  nth_error (f_added f) (mi_seq i) = Some (mi_frame i, mi_stamp i) -> numbered (add_finish f i).
Proof.
  intros f i N Hf Hn. unfold add_finish. destruct (Nat.eqb (mi_success i) (f_expected f)); [apply immediate; assumption|].
  destruct (negb (Nat.eqb (f_qsize f) 0) && Nat.ltb (f_qsize f) (List.length (f_msgs f) + 1))%bool; [|apply queued; assumption].
  destruct (f_msgs f) as [|front rest] eqn:E; [apply queued; rewrite ?E; assumption|].
  set (b := fold_left _ _ _). apply queued.
  - apply (leave (with_buf f b) [] front rest); [apply with_buf_numbered; assumption|exact E|reflexivity|reflexivity|reflexivity].
  - cbn. rewrite map_app, <- app_assoc. cbn. cbn in Hf. exact Hf.
  - exact Hn.
Qed.
Lemma add_numbered : forall f fr st, numbered f -> numbered (fst (mf_add f fr st)).
Proof.
  intros f fr st N. unfold mf_add, add_begin. destruct (note_numbered f fr st N) as [N' Hf].
  set (g := note_added f fr st) in *. assert (Hn : nth_error (f_added g) (List.length (f_added f)) = Some (fr, st)) by apply nth_app_new.
  destruct (f_targets g); [exact N'|]. destruct (String.eqb (mf_stripSlash fr) ""); [apply immediate; assumption|].
  destruct (add_requests _ _ _ _ _ _ _) as [b [[[n hs]|]|c e|]]; cbn [fst].
  - apply finish_numbered; [apply with_buf_numbered; assumption|exact Hf|exact Hn].
  - apply immediate; [apply with_buf_numbered; assumption|exact Hf|exact Hn].
  - apply with_buf_numbered; assumption.
  - apply with_buf_numbered; assumption.
Qed.
Lemma find_info_split : forall h l l1 i l2, find_info h l = Some (l1, i, l2) -> l = l1 ++ i :: l2 /\ In h (mi_handles i) /\ (forall j, In j l1 -> ~ In h (mi_handles j)).
Proof.
  induction l as [|j l IH]; intros l1 i l2 H; [discriminate|]. cbn in H. destruct (existsb (Z.eqb h) (mi_handles j)) eqn:E.
  - inversion H; subst. split; [reflexivity|]. apply existsb_exists in E as (x & Hx & Ex). apply Z.eqb_eq in Ex. subst. split; [assumption|intros ? []].
  - destruct (find_info h l) as [[[a c] d]|] eqn:F; [|discriminate]. inversion H; subst. destruct (IH a i l2 eq_refl) as (-> & H1 & H2).
    split; [reflexivity|]. split; [assumption|]. intros k [<-|Hk]; [|auto]. intros Hin.
    assert (X : existsb (Z.eqb h) (mi_handles j) = true) by (apply existsb_exists; exists h; split; [assumption|apply Z.eqb_refl]). congruence.
Qed.
Lemma find_info_none : forall h l, find_info h l = None -> forall j, In j l -> ~ In h (mi_handles j).
Proof.
  induction l as [|k l IH]; intros H j Hj; [destruct Hj|]. cbn in H. destruct (existsb (Z.eqb h) (mi_handles k)) eqn:E; [discriminate|].
  destruct (find_info h l) as [[[a c] d]|]; [discriminate|]. destruct Hj as [<-|Hj]; [|auto]. intros Hin.
  assert (X : existsb (Z.eqb h) (mi_handles k) = true) by (apply existsb_exists; exists h; split; [assumption|apply Z.eqb_refl]). congruence.
Qed.
Lemma transformable_numbered : forall f h r, numbered f -> numbered (fst (mf_transformable f h r)).
Proof.
  intros f h r N. unfold mf_transformable. destruct (find_info h (f_msgs f)) as [[[l1 i0] l2]|] eqn:E; [|exact N].
  apply find_info_split in E as (E & _ & _). pose proof (bumped f l1 i0 l2 N E) as N1.
  destruct (Nat.ltb _ _); [exact N1|]. destruct (match r with TransformAvailable => _ | TransformFailure => _ end) as [[|]|c e|]; cbn [fst]; try exact N1.
  - eapply (leave (with_msgs f (l1 ++ bump i0 :: l2)) l1 (bump i0) l2); auto.
  - eapply (leave (with_msgs f (l1 ++ bump i0 :: l2)) l1 (bump i0) l2); auto.
Qed.
Lemma fire_numbered : forall evs f read, numbered f -> numbered (fst (fire f evs read)).
Proof.
  induction evs as [|e evs IH]; intros f read N; [exact N|]. cbn [fire]. destruct (ev_cb e =? f_cb f); [|apply IH; assumption].
  pose proof (transformable_numbered f (ev_handle e) (read O) N) as N1. destruct (mf_transformable f (ev_handle e) (read O)) as [f1 [u|c x|]]; cbn [fst] in *; auto.
Qed.
Lemma step_numbered : forall f o, numbered f -> numbered (mf_step f o).
Proof.
  intros f o N. destruct o as [fr st|l|d|n| | |m a st read|o]; cbn [mf_step].
  - apply add_numbered. assumption.
  - destruct N. constructor; try assumption. reflexivity.
  - destruct N. constructor; try assumption. reflexivity.
  - destruct N. constructor; assumption.
  - unfold mf_clear. destruct (addTransformableCallback _) as [b h]. destruct N as [N1 N2 N3 (gone & P) N5 N6]. constructor; cbn; try assumption.
    + rewrite app_nil_r. eapply RequestProofs.NoDup_app_l; eassumption.
    + intros i [].
    + destruct (f_cbq f); [exists (f_outbox f ++ gone); exact P|exists gone; exact P].
    + intros H. rewrite H. auto.
  - unfold mf_spin. destruct (f_outbox f) as [|x rest] eqn:E; [exact N|]. destruct N as [N1 N2 N3 (gone & P) N5 N6]. constructor; cbn; try assumption.
    + exists gone. rewrite E in P. rewrite <- app_assoc. exact P.
    + intros H. apply N6 in H. congruence.
  - unfold mf_set_transform. destruct (set_transform (f_buf f) m a st) as [b [[v evs]|c e|]]; cbn [fst]; try (apply with_buf_numbered; assumption).
    pose proof (fire_numbered evs (with_buf f b) read (with_buf_numbered f b N)) as N1. destruct (fire (with_buf f b) evs read) as [f2 [u|c e|]]; exact N1.
  - destruct (polite f o); [apply with_buf_numbered|]; assumption.
Qed.
Lemma new_numbered : forall b target q cbq f, new_filter b target q cbq = Some f -> numbered f.
Proof.
  intros b target q cbq f H. unfold new_filter in H. destruct (addTransformableCallback b) as [b' [h|]]; inversion H; subst. constructor; cbn; try constructor; try contradiction; auto.
  exists []. constructor.
Qed.
Lemma run_numbered : forall ops f, numbered f -> numbered (mf_run f ops).
Proof. induction ops as [|o ops IH]; intros f N; [exact N|]. cbn. apply IH, step_numbered, N. Qed.
Lemma reach_numbered : forall f, mf_reachable f -> numbered f.
Proof. intros f (b & tg & q & cbq & f0 & ops & H & ->). apply run_numbered. eapply new_numbered; eassumption. Qed.

(** ** the core under the calls of the filter *)
Lemma add_request_core : forall b cb tgt src t, b_core (fst (addTransformableRequest b cb tgt src t)) = b_core b.
Proof. intros. unfold addTransformableRequest. destruct (add_check _ _ _ _) as [[h|x y]| |]; reflexivity. Qed.
Lemma add_requests_core : forall targets b cb src st tol acc, b_core (fst (add_requests b cb src st tol targets acc)) = b_core b.
Proof.
  induction targets as [|tgt rest IH]; intros b cb src st tol acc; [reflexivity|]. cbn [add_requests].
  pose proof (add_request_core b cb tgt src st) as E1. destruct (addTransformableRequest b cb tgt src st) as [b1 [h| |]]; cbn [fst] in *; try exact E1.
  destruct (note_answer h acc) as [acc1|]; [|exact E1]. destruct (tol =? 0); [rewrite IH; exact E1|].
  destruct (time_add st tol) as [t2|]; [|exact E1].
  pose proof (add_request_core b1 cb tgt src t2) as E2. destruct (addTransformableRequest b1 cb tgt src t2) as [b2 [h2| |]]; cbn [fst] in *; try congruence.
  destruct (note_answer h2 acc1) as [acc2|]; [rewrite IH; congruence|cbn; congruence].
Qed.
Lemma cancel_all_core : forall hs b, b_core (fold_left cancelTransformableRequest hs b) = b_core b.
Proof. induction hs as [|h hs IH]; intros b; [reflexivity|]. cbn. rewrite IH. reflexivity. Qed.

(** ** answers *)
Definition served (s : core S) (tgt src : string) (t : time) : Prop := tgt = src \/ available s tgt src t = true.
Lemma push_handle_nz : forall b cb x y tgt src t, let h := snd (push_request b cb x y tgt src t) in h <> 0 /\ h <> NEVER_TRANSFORMABLE.
Proof.
  intros b cb x y tgt src t. unfold push_request. cbn [snd]. cbn zeta. unfold NEVER_TRANSFORMABLE.
  destruct (Z.eqb_spec ((b_rq_counter b + 1) mod uint64) 0) as [E|E]; cbn [orb]; [split; unfold uint64; lia|].
  destruct (Z.eqb_spec ((b_rq_counter b + 1) mod uint64) (uint64 - 1)) as [E'|E']; [split; unfold uint64; lia|]. split; assumption.
Qed.
Lemma answer_zero : forall b cb tgt src t, snd (addTransformableRequest b cb tgt src t) = Ok 0 -> served (b_core b) tgt src t.
Proof.
  intros b cb tgt src t H. unfold addTransformableRequest in H. destruct (add_check (b_core b) tgt src t) as [[h|x y]|c e|] eqn:E; try discriminate.
  - unfold add_check in E. destruct (String.eqb_spec tgt src) as [->|N]; [left; reflexivity|]. right. unfold available.
    destruct (canTransformInternal (b_core b) (lookupFrameNumber (b_core b) tgt) (lookupFrameNumber (b_core b) src) t) as [[|]| |]; cbn [bind] in E; try discriminate; [reflexivity|].
    destruct (if Nat.eqb (lookupFrameNumber (b_core b) tgt) 0 || Nat.eqb (lookupFrameNumber (b_core b) src) 0 then Ok false else _)%bool as [[|]| |]; cbn [bind] in E; try discriminate.
    cbn [snd] in H. assert (h = NEVER_TRANSFORMABLE) by congruence. assert (h = 0) by congruence. unfold NEVER_TRANSFORMABLE, uint64 in *. lia.
  - pose proof (push_handle_nz b cb x y tgt src t) as P. destruct (push_request b cb x y tgt src t) as [b' h]. cbn in *. destruct P. congruence.
Qed.
Lemma answer_never : forall b cb tgt src t, snd (addTransformableRequest b cb tgt src t) = Ok NEVER_TRANSFORMABLE ->
  tgt <> src /\ available (b_core b) tgt src t = false /\
  (lookupFrameNumber (b_core b) tgt <> 0%nat /\ lookupFrameNumber (b_core b) src <> 0%nat /\ too_old (b_core b) (lookupFrameNumber (b_core b) tgt) (lookupFrameNumber (b_core b) src) t = Ok true).
Proof.
  intros b cb tgt src t H. unfold addTransformableRequest in H. destruct (add_check (b_core b) tgt src t) as [[h|x y]|c e|] eqn:E; try discriminate.
  - unfold add_check in E. destruct (String.eqb_spec tgt src) as [->|N]; [exfalso; cbn in H; unfold ALREADY_TRANSFORMABLE, NEVER_TRANSFORMABLE, uint64 in *; assert (h = 2 ^ 64 - 1) by congruence; assert (h = 0) by congruence; lia|].
    split; [assumption|]. unfold available.
    destruct (canTransformInternal (b_core b) (lookupFrameNumber (b_core b) tgt) (lookupFrameNumber (b_core b) src) t) as [[|]| |]; cbn [bind] in E; try discriminate;
      [exfalso; cbn in H; unfold ALREADY_TRANSFORMABLE, NEVER_TRANSFORMABLE, uint64 in *; assert (h = 2 ^ 64 - 1) by congruence; assert (h = 0) by congruence; lia|].
    split; [reflexivity|].
    destruct (Nat.eqb_spec (lookupFrameNumber (b_core b) tgt) 0) as [E1|E1]; cbn [orb] in E; [cbn in E; discriminate|].
    destruct (Nat.eqb_spec (lookupFrameNumber (b_core b) src) 0) as [E2|E2]; [cbn in E; discriminate|].
    destruct (too_old _ _ _ _) as [[|]| |]; cbn [bind] in E; try discriminate. auto.
  - pose proof (push_handle_nz b cb x y tgt src t) as P. destruct (push_request b cb x y tgt src t) as [b' h]. cbn in *. destruct P. congruence.
Qed.

Definition per_target (tol : duration) : nat := if tol =? 0 then 1%nat else 2%nat.
Lemma add_requests_all : forall targets b cb src st tol acc n hs,
  snd (add_requests b cb src st tol targets acc) = Ok (Some (n, hs)) ->
  (n + List.length hs = fst acc + List.length (snd acc) + List.length targets * per_target tol)%nat /\
  (List.length hs >= List.length (snd acc))%nat /\
  (List.length hs = List.length (snd acc) -> forall tgt, In tgt targets -> served (b_core b) tgt src st /\ (tol <> 0 -> exists t, time_add st tol = Some t /\ served (b_core b) tgt src t)).
Proof.
  induction targets as [|tgt rest IH]; intros b cb src st tol acc n hs H.
  - cbn in H. inversion H; subst. split; [cbn; lia|]. split; [cbn; lia|]. intros _ ? [].
  - cbn [add_requests] in H. pose proof (add_request_core b cb tgt src st) as C1. pose proof (answer_zero b cb tgt src st) as Z1.
    destruct (addTransformableRequest b cb tgt src st) as [b1 [h| |]]; cbn [fst snd] in *; try discriminate.
    destruct (note_answer h acc) as [acc1|] eqn:A1; [|discriminate].
    assert (R1 : (fst acc1 + List.length (snd acc1) = fst acc + List.length (snd acc) + 1)%nat /\ (List.length (snd acc1) >= List.length (snd acc))%nat /\
      (List.length (snd acc1) = List.length (snd acc) -> h = 0)).
    { unfold note_answer in A1. destruct (h =? NEVER_TRANSFORMABLE); [discriminate|]. destruct (Z.eqb_spec h 0) as [E|E]; inversion A1; subst; cbn; rewrite ?app_length; cbn; repeat split; try lia. }
    destruct R1 as (R1 & R2 & R3). unfold per_target in *. destruct (Z.eqb_spec tol 0) as [T|T].
    + apply IH in H as (H1 & H2 & H3). rewrite C1 in H3. rewrite (proj2 (Z.eqb_eq tol 0) T) in H1. cbn [List.length]. split; [lia|]. split; [lia|]. intros L t [<-|Ht]; [|apply H3; [lia|assumption]].
      split; [apply Z1; rewrite (R3 ltac:(lia)); reflexivity|]. intros X. congruence.
    + destruct (time_add st tol) as [t2|] eqn:Et; [|discriminate].
      pose proof (add_request_core b1 cb tgt src t2) as C2. pose proof (answer_zero b1 cb tgt src t2) as Z2.
      destruct (addTransformableRequest b1 cb tgt src t2) as [b2 [h2| |]]; cbn [fst snd] in *; try discriminate.
      destruct (note_answer h2 acc1) as [acc2|] eqn:A2; [|discriminate].
      assert (R4 : (fst acc2 + List.length (snd acc2) = fst acc1 + List.length (snd acc1) + 1)%nat /\ (List.length (snd acc2) >= List.length (snd acc1))%nat /\
        (List.length (snd acc2) = List.length (snd acc1) -> h2 = 0)).
      { unfold note_answer in A2. destruct (h2 =? NEVER_TRANSFORMABLE); [discriminate|]. destruct (Z.eqb_spec h2 0) as [E|E]; inversion A2; subst; cbn; rewrite ?app_length; cbn; repeat split; try lia. }
      destruct R4 as (R4 & R5 & R6). apply IH in H as (H1 & H2 & H3). rewrite C2, C1 in H3. rewrite (proj2 (Z.eqb_neq tol 0) T) in H1. cbn [List.length]. split; [lia|]. split; [lia|].
      rewrite Et in H3. intros L t [<-|Ht]; [|apply H3; [lia|assumption]]. split; [apply Z1; rewrite (R3 ltac:(lia)); reflexivity|]. intros _. exists t2. split; [reflexivity|].
      rewrite <- C1. apply Z2. rewrite (R6 ltac:(lia)). reflexivity.
Qed.
Lemma can_served : forall (s : core S) tgt src t e, canTransform s tgt src t None = Ok (true, e) -> served s tgt src t.
Proof.
  intros s tgt src t e H. unfold canTransform in H. destruct (String.eqb_spec tgt src) as [->|N]; [left; reflexivity|].
  destruct (warnFrameId tgt); [discriminate|]. destruct (warnFrameId src); [discriminate|].
  destruct (Nat.eqb (lookupFrameNumber s tgt) 0 || Nat.eqb (lookupFrameNumber s src) 0)%bool; [discriminate|].
  right. unfold available, canTransformInternal. rewrite H. reflexivity.
Qed.
Lemma still_can_served : forall targets (s : core S) src st tol, still_can s targets src st tol = Ok true ->
  transformable_now s targets tol src st.
Proof.
  induction targets as [|tgt rest IH]; intros s src st tol H t Ht; [destruct Ht|]. cbn [still_can] in H.
  destruct (canTransform s tgt src st None) as [[[|] e]| |] eqn:E1; cbn [bind] in H; try discriminate. apply can_served in E1.
  destruct (Z.eqb_spec tol 0) as [T|T].
  - destruct Ht as [<-|Ht]; [|exact (IH s src st tol H t Ht)]. split; [exact E1|congruence].
  - destruct (time_add st tol) as [t2|] eqn:Et; cbn [lift_time bind] in H; [|discriminate].
    destruct (canTransform s tgt src t2 None) as [[[|] e2]| |] eqn:E2; cbn [bind] in H; try discriminate. apply can_served in E2.
    destruct Ht as [<-|Ht]; [|rewrite <- Et; exact (IH s src st tol H t Ht)]. split; [exact E1|]. intros _. exists t2. auto.
Qed.

(** ** verdicts of one step *)
Definition justified (s : core S) (targets : list string) (tol : duration) out : Prop :=
  match o_outcome out with
  | Ready => transformable_now s targets tol (stripSlash (o_frame out)) (o_stamp out)
  | Dropped EmptyFrameID => stripSlash (o_frame out) = EmptyString
  | Dropped OutTheBack => exists tgt t, In tgt targets /\ needed_times tol (o_stamp out) t /\ tgt <> stripSlash (o_frame out) /\
      available s tgt (stripSlash (o_frame out)) t = false /\ lookupFrameNumber s tgt <> 0%nat /\ lookupFrameNumber s (stripSlash (o_frame out)) <> 0%nat /\
      too_old s (lookupFrameNumber s tgt) (lookupFrameNumber s (stripSlash (o_frame out))) t = Ok true
  | Dropped Unknown => True
  end.
Lemma add_requests_never : forall targets b cb src st tol acc,
  snd (add_requests b cb src st tol targets acc) = Ok None ->
  exists tgt t, In tgt targets /\ needed_times tol st t /\ tgt <> src /\ available (b_core b) tgt src t = false /\
    lookupFrameNumber (b_core b) tgt <> 0%nat /\ lookupFrameNumber (b_core b) src <> 0%nat /\
    too_old (b_core b) (lookupFrameNumber (b_core b) tgt) (lookupFrameNumber (b_core b) src) t = Ok true.
Proof.
  induction targets as [|tgt rest IH]; intros b cb src st tol acc H; [discriminate|]. cbn [add_requests] in H.
  pose proof (add_request_core b cb tgt src st) as C1. pose proof (answer_never b cb tgt src st) as Z1.
  destruct (addTransformableRequest b cb tgt src st) as [b1 [h| |]]; cbn [fst snd] in *; try discriminate.
  assert (Na : forall h acc, note_answer h acc = None -> h = NEVER_TRANSFORMABLE).
  { intros h0 a0 A. unfold note_answer in A. destruct (Z.eqb_spec h0 NEVER_TRANSFORMABLE); [assumption|]. destruct (h0 =? 0); discriminate. }
  destruct (note_answer h acc) as [acc1|] eqn:A1.
  - destruct (Z.eqb_spec tol 0) as [T|T].
    + destruct (IH _ _ _ _ _ _ H) as (g & t & Hg & R). rewrite C1 in R. exists g, t. split; [right; assumption|exact R].
    + destruct (time_add st tol) as [t2|] eqn:Et; [|discriminate].
      pose proof (add_request_core b1 cb tgt src t2) as C2. pose proof (answer_never b1 cb tgt src t2) as Z2.
      destruct (addTransformableRequest b1 cb tgt src t2) as [b2 [h2| |]]; cbn [fst snd] in *; try discriminate.
      destruct (note_answer h2 acc1) as [acc2|] eqn:A2.
      * destruct (IH _ _ _ _ _ _ H) as (g & t & Hg & R). rewrite C2, C1 in R. exists g, t. split; [right; assumption|exact R].
      * apply Na in A2. subst h2. specialize (Z2 eq_refl). rewrite C1 in Z2. exists tgt, t2. split; [left; reflexivity|]. split; [right; auto|]. tauto.
  - apply Na in A1. subst h. specialize (Z1 eq_refl). exists tgt, st. split; [left; reflexivity|]. split; [left; reflexivity|]. tauto.
Qed.
Lemma transformable_verdicts : forall f h r, exists new, f_emitted (fst (mf_transformable f h r)) = f_emitted f ++ new /\
  Forall (justified (b_core (f_buf f)) (f_targets f) (f_tol f)) new /\
  f_buf (fst (mf_transformable f h r)) = f_buf f /\ f_targets (fst (mf_transformable f h r)) = f_targets f /\ f_tol (fst (mf_transformable f h r)) = f_tol f /\
  f_cb (fst (mf_transformable f h r)) = f_cb f /\ f_expected (fst (mf_transformable f h r)) = f_expected f.
Proof.
  intros f h r. unfold mf_transformable. destruct (find_info h (f_msgs f)) as [[[l1 i0] l2]|]; [|exists []; rewrite app_nil_r; repeat split; constructor].
  destruct (Nat.ltb _ _); [exists []; rewrite app_nil_r; repeat split; constructor|].
  destruct (match r with TransformAvailable => _ | TransformFailure => _ end) as [[|]|c e|] eqn:E; cbn [fst].
  - exists [verdict (bump i0) Ready]. split; [reflexivity|]. split; [|auto]. constructor; [|constructor]. unfold justified. cbn. destruct r; [|discriminate]. apply still_can_served in E. exact E.
  - exists [verdict (bump i0) (Dropped Unknown)]. repeat split. repeat constructor.
  - exists []. rewrite app_nil_r. repeat split; constructor.
  - exists []. rewrite app_nil_r. repeat split; constructor.
Qed.
Lemma fire_verdicts : forall evs f read, exists new, f_emitted (fst (fire f evs read)) = f_emitted f ++ new /\
  Forall (justified (b_core (f_buf f)) (f_targets f) (f_tol f)) new /\
  f_buf (fst (fire f evs read)) = f_buf f /\ f_targets (fst (fire f evs read)) = f_targets f /\ f_tol (fst (fire f evs read)) = f_tol f /\
  f_cb (fst (fire f evs read)) = f_cb f /\ f_expected (fst (fire f evs read)) = f_expected f.
Proof.
  induction evs as [|e evs IH]; intros f read; [exists []; cbn; rewrite app_nil_r; repeat split; constructor|]. cbn [fire].
  destruct (ev_cb e =? f_cb f); [|apply IH].
  destruct (transformable_verdicts f (ev_handle e) (read O)) as (new & E1 & E2 & E3 & E4 & E5 & E6 & E7).
  destruct (mf_transformable f (ev_handle e) (read O)) as [f1 [u|c x|]]; cbn [fst] in *.
  - destruct (IH f1 (fun k => read (Datatypes.S k))) as (new' & I1 & I2 & I3 & I4 & I5 & I6 & I7). exists (new ++ new'). rewrite I1, E1, app_assoc. split; [reflexivity|].
    rewrite E3, E4, E5 in I2. split; [apply Forall_app; split; assumption|]. split; [congruence|]. split; [congruence|]. split; [congruence|]. split; congruence.
  - exists new. auto 10.
  - exists new. auto 10.
Qed.
Lemma finish_verdicts : forall f i, exists new, f_emitted (add_finish f i) = f_emitted f ++ new /\
  (forall out, In out new -> o_outcome out = Ready -> out = verdict i Ready /\ mi_success i = f_expected f) /\
  (forall out, In out new -> o_outcome out = Ready \/ o_outcome out = Dropped Unknown).
Proof.
  intros f i. unfold add_finish. destruct (Nat.eqb_spec (mi_success i) (f_expected f)) as [E|E].
  - exists [verdict i Ready]. split; [reflexivity|]. split; intros out [<-|[]]; auto.
  - destruct (negb (Nat.eqb (f_qsize f) 0) && Nat.ltb (f_qsize f) (List.length (f_msgs f) + 1))%bool.
    + destruct (f_msgs f) as [|front rest].
      * exists []. rewrite app_nil_r. split; [reflexivity|]. split; intros out [].
      * exists [verdict front (Dropped Unknown)]. split; [reflexivity|]. split; intros out [<-|[]]; auto. discriminate.
    + exists []. rewrite app_nil_r. split; [reflexivity|]. split; intros out [].
Qed.
Lemma step_verdicts : forall f o, numbered f -> exists new, f_emitted (mf_step f o) = f_emitted f ++ new /\
  Forall (justified (b_core (f_buf (mf_step f o))) (f_targets f) (f_tol f)) new /\
  (new <> [] -> f_targets (mf_step f o) = f_targets f /\ f_tol (mf_step f o) = f_tol f).
Proof.
  intros f o Nf. assert (Q : forall f', f_emitted f' = f_emitted f -> exists new, f_emitted f' = f_emitted f ++ new /\
    Forall (justified (b_core (f_buf f')) (f_targets f) (f_tol f)) new /\ (new <> [] -> f_targets f' = f_targets f /\ f_tol f' = f_tol f)).
  { intros f' E. exists []. rewrite app_nil_r. split; [assumption|]. split; [constructor|congruence]. }
  destruct o as [fr st|l|d|n| | |m a st read|o]; cbn [mf_step]; try (apply Q; reflexivity).
  - unfold mf_add, add_begin. set (g := note_added f fr st). change (f_targets g) with (f_targets f). change (f_tol g) with (f_tol f). change (f_buf g) with (f_buf f). change (f_cb g) with (f_cb f).
    destruct (f_targets f) as [|t0 ts] eqn:Et; [apply Q; reflexivity|]. rewrite <- Et in *.
    unfold mf_stripSlash. destruct (String.eqb_spec (stripSlash fr) "") as [E|E].
    { eexists [_]. split; [reflexivity|]. split; [|intros _; split; reflexivity]. repeat constructor. exact E. }
    pose proof (add_requests_core (f_targets f) (f_buf f) (f_cb f) (stripSlash fr) st (f_tol f) (0%nat, [])) as C.
    pose proof (add_requests_all (f_targets f) (f_buf f) (f_cb f) (stripSlash fr) st (f_tol f) (0%nat, [])) as A.
    pose proof (add_requests_never (f_targets f) (f_buf f) (f_cb f) (stripSlash fr) st (f_tol f) (0%nat, [])) as N.
    destruct (add_requests (f_buf f) (f_cb f) (stripSlash fr) st (f_tol f) (f_targets f) (0%nat, [])) as [b [[[n hs]|]|c e|]]; cbn [fst snd] in *; try (apply Q; reflexivity).
    + destruct (A n hs eq_refl) as (A1 & _ & A3). cbn [fst snd List.length] in A1, A3.
      destruct (finish_verdicts (with_buf g b) (mkInfo (List.length (f_added f)) fr st hs n)) as (new & E1 & E2 & E3).
      exists new. split; [exact E1|].
      assert (K : b_core (f_buf (add_finish (with_buf g b) (mkInfo (List.length (f_added f)) fr st hs n))) = b_core (f_buf f) /\
        f_targets (add_finish (with_buf g b) (mkInfo (List.length (f_added f)) fr st hs n)) = f_targets f /\ f_tol (add_finish (with_buf g b) (mkInfo (List.length (f_added f)) fr st hs n)) = f_tol f).
      { unfold add_finish. destruct (Nat.eqb _ _); [cbn; auto|]. destruct (_ && _)%bool; [|cbn; auto].
        destruct (f_msgs (with_buf g b)); cbn [f_buf with_msgs emit with_buf f_targets f_tol]; rewrite ?cancel_all_core; auto. }
      destruct K as (K1 & K2 & K3). split; [|auto]. rewrite K1. apply Forall_forall. intros out Ho. unfold justified. destruct (E3 out Ho) as [R|R]; rewrite R; [|exact Logic.I].
      destruct (E2 out Ho R) as [-> Hs]. cbn. cbn in Hs. change (f_expected (with_buf g b)) with (f_expected f) in Hs. rewrite (nb_exp f Nf) in Hs.
      intros tgt Ht. apply (A3); [|assumption]. unfold expected_count in Hs. unfold per_target in A1. destruct (f_tol f =? 0); lia.
    + eexists [_]. split; [reflexivity|]. split; [|intros _; split; reflexivity]. constructor; [|constructor]. unfold justified. cbn [o_outcome verdict o_frame mi_frame o_stamp mi_stamp emit f_buf with_buf]. rewrite C. apply N. reflexivity.
  - unfold mf_clear. destruct (addTransformableCallback _). apply Q. reflexivity.
  - unfold mf_spin. destruct (f_outbox f); apply Q; reflexivity.
  - unfold mf_set_transform. destruct (set_transform (f_buf f) m a st) as [b [[v evs]|c e|]]; cbn [fst]; try (apply Q; reflexivity).
    destruct (fire_verdicts evs (with_buf f b) read) as (new & E1 & E2 & E3 & E4 & E5 & _).
    destruct (fire (with_buf f b) evs read) as [f2 r]. cbn [fst] in *.
    replace (fst match r with Ok _ => (f2, Ok v) | Throw c e => (f2, Throw c e) | UB => (f2, UB) end) with f2 by (destruct r; reflexivity).
    exists new. split; [exact E1|]. rewrite E3. split; [exact E2|]. auto.
  - destruct (polite f o); apply Q; reflexivity.
Qed.

(** ** queue length *)
Lemma transformable_length : forall f h r, (List.length (f_msgs (fst (mf_transformable f h r))) <= List.length (f_msgs f))%nat.
Proof.
  intros f h r. unfold mf_transformable. destruct (find_info h (f_msgs f)) as [[[l1 i0] l2]|] eqn:E; [|cbn; lia].
  apply find_info_split in E as (E & _ & _). rewrite E. destruct (Nat.ltb _ _); [cbn; rewrite !app_length; cbn; lia|].
  destruct (match r with TransformAvailable => _ | TransformFailure => _ end) as [[|]|c e|]; cbn; rewrite !app_length; cbn; lia.
Qed.
Lemma fire_length : forall evs f read, (List.length (f_msgs (fst (fire f evs read))) <= List.length (f_msgs f))%nat.
Proof.
  induction evs as [|e evs IH]; intros f read; [cbn; lia|]. cbn [fire]. destruct (ev_cb e =? f_cb f); [|apply IH].
  pose proof (transformable_length f (ev_handle e) (read O)) as L. destruct (mf_transformable f (ev_handle e) (read O)) as [f1 [u|c x|]]; cbn [fst] in *; try lia.
  specialize (IH f1 (fun k => read (Datatypes.S k))). lia.
Qed.
Lemma finish_length : forall f i Q, (0 < f_qsize f <= Q)%nat -> (List.length (f_msgs f) <= Q)%nat -> (List.length (f_msgs (add_finish f i)) <= Q)%nat.
Proof.
  intros f i Q Hq Hl. unfold add_finish. destruct (Nat.eqb _ _); [exact Hl|].
  rewrite (proj2 (Nat.eqb_neq (f_qsize f) 0)) by lia. cbn [negb andb].
  destruct (Nat.ltb_spec (f_qsize f) (List.length (f_msgs f) + 1)) as [L|L].
  - destruct (f_msgs f) as [|front rest]; cbn in *; [lia|]. rewrite app_length. cbn. lia.
  - cbn. rewrite app_length. cbn. lia.
Qed.
Lemma fire_qsize : forall evs f read, f_qsize (fst (fire f evs read)) = f_qsize f.
Proof.
  induction evs as [|e evs IH]; intros f read; [reflexivity|]. cbn [fire]. destruct (ev_cb e =? f_cb f); [|apply IH].
  assert (Eq : f_qsize (fst (mf_transformable f (ev_handle e) (read O))) = f_qsize f).
  { unfold mf_transformable. destruct (find_info (ev_handle e) (f_msgs f)) as [[[l1 i0] l2]|]; [|reflexivity]. destruct (Nat.ltb _ _); [reflexivity|].
    destruct (match read O with TransformAvailable => _ | TransformFailure => _ end) as [[|]|c x|]; reflexivity. }
  destruct (mf_transformable f (ev_handle e) (read O)) as [f1 [u|c x|]]; cbn [fst] in *; try exact Eq. rewrite IH. exact Eq.
Qed.
Lemma step_bound : forall f o Q, (0 < f_qsize f <= Q)%nat -> (List.length (f_msgs f) <= Q)%nat -> sizes_within Q o ->
  (0 < f_qsize (mf_step f o) <= Q)%nat /\ (List.length (f_msgs (mf_step f o)) <= Q)%nat.
Proof.
  intros f o Q Hq Hl Ho. destruct o as [fr st|l|d|n| | |m a st read|o]; cbn [mf_step]; try (split; assumption).
  - unfold mf_add, add_begin. set (g := note_added f fr st). destruct (f_targets g); [split; assumption|].
    destruct (String.eqb _ _); [split; assumption|]. destruct (add_requests _ _ _ _ _ _ _) as [b [[[k hs]|]|c e|]]; cbn [fst]; try (split; assumption).
    split; [|apply finish_length; assumption]. unfold add_finish. destruct (Nat.eqb _ _); [assumption|]. destruct (_ && _)%bool; [|assumption]. destruct (f_msgs (with_buf g b)); assumption.
  - unfold mf_clear. destruct (addTransformableCallback _). split; [assumption|]. cbn. lia.
  - unfold mf_spin. destruct (f_outbox f); split; assumption.
  - unfold mf_set_transform. destruct (set_transform (f_buf f) m a st) as [b [[v evs]|c e|]]; cbn [fst]; try (split; assumption).
    pose proof (fire_length evs (with_buf f b) read) as L. pose proof (fire_qsize evs (with_buf f b) read) as E.
    destruct (fire (with_buf f b) evs read) as [f2 r]. cbn [fst] in *. cbn in L, E.
    replace (fst match r with Ok _ => (f2, Ok v) | Throw c e => (f2, Throw c e) | UB => (f2, UB) end) with f2 by (destruct r; reflexivity).
    rewrite E. split; [assumption|lia].
  - destruct (polite f o); split; assumption.
Qed.
Lemma run_bound : forall ops f Q, (0 < f_qsize f <= Q)%nat -> (List.length (f_msgs f) <= Q)%nat -> Forall (sizes_within Q) ops ->
  (List.length (f_msgs (mf_run f ops)) <= Q)%nat.
Proof.
  induction ops as [|o ops IH]; intros f Q Hq Hl F; [exact Hl|]. inversion F; subst. destruct (step_bound f o Q Hq Hl H1) as [A B]. cbn. apply IH; assumption.
Qed.

(** ** what add() does *)
Lemma transformable_added : forall f h r, f_added (fst (mf_transformable f h r)) = f_added f.
Proof.
  intros f h r. unfold mf_transformable. destruct (find_info h (f_msgs f)) as [[[l1 i0] l2]|]; [|reflexivity]. destruct (Nat.ltb _ _); [reflexivity|].
  destruct (match r with TransformAvailable => _ | TransformFailure => _ end) as [[|]|c e|]; reflexivity.
Qed.
Lemma fire_added : forall evs f read, f_added (fst (fire f evs read)) = f_added f.
Proof.
  induction evs as [|e evs IH]; intros f read; [reflexivity|]. cbn [fire]. destruct (ev_cb e =? f_cb f); [|apply IH].
  pose proof (transformable_added f (ev_handle e) (read O)) as E. destruct (mf_transformable f (ev_handle e) (read O)) as [f1 [u|c x|]]; cbn [fst] in *; try exact E. rewrite IH. exact E.
Qed.
Lemma finish_added : forall f i, f_added (add_finish f i) = f_added f.
Proof.
  intros f i. unfold add_finish. destruct (Nat.eqb _ _); [reflexivity|]. destruct (_ && _)%bool; [|reflexivity]. destruct (f_msgs f); reflexivity.
Qed.
Lemma step_added : forall f o, f_added (mf_step f o) = f_added f ++ added_by o.
Proof.
  intros f o. destruct o as [fr st|l|d|n| | |m a st read|o]; cbn [mf_step added_by]; rewrite ?app_nil_r; try reflexivity.
  - unfold mf_add, add_begin. destruct (f_targets (note_added f fr st)); [reflexivity|]. destruct (String.eqb _ _); [reflexivity|].
    destruct (add_requests _ _ _ _ _ _ _) as [b [[[k hs]|]|c e|]]; cbn [fst]; try reflexivity. rewrite finish_added. reflexivity.
  - unfold mf_clear. destruct (addTransformableCallback _). reflexivity.
  - unfold mf_spin. destruct (f_outbox f); reflexivity.
  - unfold mf_set_transform. destruct (set_transform (f_buf f) m a st) as [b [[v evs]|c e|]]; cbn [fst]; try reflexivity.
    pose proof (fire_added evs (with_buf f b) read) as E. destruct (fire (with_buf f b) evs read) as [f2 [u|c e|]]; exact E.
  - destruct (polite f o); reflexivity.
Qed.
Lemma add_effect : forall f fr st,
  let f' := fst (mf_add f fr st) in
  (f_msgs f' = f_msgs f /\ exists new, f_emitted f' = f_emitted f ++ new /\ forall out, In out new -> o_seq out = List.length (f_added f)) \/
  (exists i, mi_seq i = List.length (f_added f) /\ mi_frame i = fr /\ mi_stamp i = st /\
     ((f_qsize f = 0%nat \/ (List.length (f_msgs f) < f_qsize f)%nat \/ f_msgs f = []) /\ f_msgs f' = f_msgs f ++ [i] /\ f_emitted f' = f_emitted f \/
      exists front rest, (0 < f_qsize f <= List.length (f_msgs f))%nat /\ f_msgs f = front :: rest /\ f_msgs f' = rest ++ [i] /\ f_emitted f' = f_emitted f ++ [verdict front (Dropped Unknown)])).
Proof.
  intros f fr st. unfold mf_add, add_begin.
  assert (Q : forall g : filt, f_msgs g = f_msgs f -> f_emitted g = f_emitted f -> f_msgs g = f_msgs f /\ exists new, f_emitted g = f_emitted f ++ new /\ forall out, In out new -> o_seq out = List.length (f_added f)).
  { intros g E1 E2. split; [exact E1|]. exists []. rewrite app_nil_r. split; [exact E2|]. intros ? []. }
  destruct (f_targets (note_added f fr st)); [left; apply Q; reflexivity|].
  destruct (String.eqb _ _). { left. split; [reflexivity|]. eexists [_]. split; [reflexivity|]. intros out [<-|[]]. reflexivity. }
  destruct (add_requests _ _ _ _ _ _ _) as [b [[[k hs]|]|c e|]]; cbn [fst].
  - set (i := {| mi_seq := _ |}). set (g := with_buf (note_added f fr st) b). unfold add_finish.
    destruct (Nat.eqb _ _). { left. split; [reflexivity|]. eexists [_]. split; [reflexivity|]. intros out [<-|[]]. reflexivity. }
    right. exists i. split; [reflexivity|]. split; [reflexivity|]. split; [reflexivity|]. change (f_qsize g) with (f_qsize f). change (f_msgs g) with (f_msgs f).
    destruct (Nat.eqb_spec (f_qsize f) 0) as [E0|E0]; cbn [negb andb]; [left; split; [auto|]; split; reflexivity|].
    destruct (Nat.ltb_spec (f_qsize f) (List.length (f_msgs f) + 1)) as [L|L].
    + destruct (f_msgs f) as [|front rest] eqn:Em; [left; split; [auto|]; split; [cbn; rewrite Em; reflexivity|reflexivity]|]. right. exists front, rest. split; [lia|]. split; [reflexivity|]. split; reflexivity.
    + left. split; [right; left; lia|]. split; reflexivity.
  - left. split; [reflexivity|]. eexists [_]. split; [reflexivity|]. intros out [<-|[]]. reflexivity.
  - left. apply Q; reflexivity.
  - left. apply Q; reflexivity.
Qed.

(** ** clear *)
Record since (n : nat) (d : list output) f : Prop := {
  sc_del : exists more, f_delivered f = d ++ more /\ forall out, In out more -> (n <= o_seq out)%nat;
  sc_box : forall out, In out (f_outbox f) -> (n <= o_seq out)%nat;
  sc_msg : forall i, In i (f_msgs f) -> (n <= mi_seq i)%nat;
  sc_add : (n <= List.length (f_added f))%nat
}.
Lemma emit_since : forall n d f out, since n d f -> (n <= o_seq out)%nat -> since n d (emit f out).
Proof.
  intros n d f out [(more & E & H1) H2 H3 H4] Ho. constructor; cbn [emit f_delivered f_outbox f_msgs f_added]; try assumption.
  - destruct (f_cbq f); [eauto|]. exists (more ++ [out]). rewrite E, app_assoc. split; [reflexivity|]. intros x Hx. apply in_app_iff in Hx as [Hx|[<-|[]]]; auto.
  - destruct (f_cbq f); [|assumption]. intros x Hx. apply in_app_iff in Hx as [Hx|[<-|[]]]; auto.
Qed.
Lemma msgs_since : forall n d f l, since n d f -> (forall i, In i l -> (n <= mi_seq i)%nat) -> since n d (with_msgs f l).
Proof. intros n d f l [H1 H2 H3 H4] H. constructor; assumption. Qed.
Lemma buf_since : forall n d f b, since n d f -> since n d (with_buf f b).
Proof. intros n d f b [H1 H2 H3 H4]. constructor; assumption. Qed.
Lemma transformable_since : forall n d f h r, since n d f -> since n d (fst (mf_transformable f h r)).
Proof.
  intros n d f h r H. unfold mf_transformable. destruct (find_info h (f_msgs f)) as [[[l1 i0] l2]|] eqn:E; [|exact H]. apply find_info_split in E as (E & _ & _).
  pose proof (sc_msg n d f H) as M. rewrite E in M.
  assert (B : since n d (with_msgs f (l1 ++ bump i0 :: l2))).
  { apply msgs_since; [assumption|]. intros j Hj. apply in_app_iff in Hj as [Hj|[<-|Hj]]; [apply M, in_app_iff; auto|apply (M i0), in_elt|apply M, in_app_iff; cbn; auto]. }
  destruct (Nat.ltb _ _); [exact B|].
  assert (R : forall v, since n d (with_msgs (emit (with_msgs f (l1 ++ bump i0 :: l2)) (verdict (bump i0) v)) (l1 ++ l2))).
  { intros v. apply msgs_since; [apply emit_since; [exact B|]; apply (M i0), in_elt|]. intros j Hj. apply M. rewrite in_app_iff in *. cbn. tauto. }
  destruct (match r with TransformAvailable => _ | TransformFailure => _ end) as [[|]|c e|]; cbn [fst]; try exact B; apply R.
Qed.
Lemma fire_since : forall n d evs f read, since n d f -> since n d (fst (fire f evs read)).
Proof.
  induction evs as [|e evs IH]; intros f read H; [exact H|]. cbn [fire]. destruct (ev_cb e =? f_cb f); [|apply IH; assumption].
  pose proof (transformable_since n d f (ev_handle e) (read O) H) as N1. destruct (mf_transformable f (ev_handle e) (read O)) as [f1 [u|c x|]]; cbn [fst] in *; auto.
Qed.
Lemma step_since : forall n d f o, since n d f -> since n d (mf_step f o).
Proof.
  intros n d f o H. destruct o as [fr st|l|dd|k| | |m a st read|o]; cbn [mf_step].
  - unfold mf_add, add_begin. set (g := note_added f fr st).
    assert (G : since n d g) by (destruct H; constructor; try assumption; cbn; rewrite app_length; lia). pose proof (sc_add n d f H) as L.
    destruct (f_targets g); [exact G|]. destruct (String.eqb _ _); [apply emit_since; assumption|].
    destruct (add_requests _ _ _ _ _ _ _) as [b [[[q hs]|]|c e|]]; cbn [fst]; try (apply buf_since; exact G).
    + set (i := {| mi_seq := _ |}). pose proof (buf_since n d g b G) as G'. unfold add_finish. destruct (Nat.eqb _ _); [apply emit_since; assumption|].
      destruct (_ && _)%bool.
      * destruct (f_msgs (with_buf g b)) as [|front rest] eqn:Em.
        -- apply msgs_since; [exact G'|]. intros j Hj. rewrite Em in Hj. destruct Hj as [<-|[]]. exact L.
        -- pose proof (sc_msg n d _ G') as M. rewrite Em in M. apply msgs_since.
           ++ apply msgs_since; [apply emit_since; [apply buf_since; exact G'|apply (M front); left; reflexivity]|]. intros j Hj. apply M. right. exact Hj.
           ++ intros j Hj. cbn [with_msgs f_msgs] in Hj. apply in_app_iff in Hj as [Hj|[<-|[]]]; [apply M; right; exact Hj|exact L].
      * apply msgs_since; [exact G'|]. intros j Hj. apply in_app_iff in Hj as [Hj|[<-|[]]]; [apply (sc_msg n d _ G'); exact Hj|exact L].
    + apply emit_since; [apply buf_since; exact G|exact L].
  - destruct H; constructor; assumption.
  - destruct H; constructor; assumption.
  - destruct H; constructor; assumption.
  - unfold mf_clear. destruct (addTransformableCallback _). destruct H; constructor; cbn; try assumption; [|intros ? []]. destruct (f_cbq f); [intros ? []|assumption].
  - unfold mf_spin. destruct (f_outbox f) as [|x rest] eqn:E; [exact H|]. destruct H as [(more & Ed & H1) H2 H3 H4]. rewrite E in H2. constructor; cbn; try assumption.
    + exists (more ++ [x]). rewrite Ed, app_assoc. split; [reflexivity|]. intros y Hy. apply in_app_iff in Hy as [Hy|[<-|[]]]; [auto|]. apply H2. left. reflexivity.
    + intros y Hy. apply H2. right. exact Hy.
  - unfold mf_set_transform. destruct (set_transform (f_buf f) m a st) as [b [[v evs]|c e|]]; cbn [fst]; try (apply buf_since; assumption).
    pose proof (fire_since n d evs (with_buf f b) read (buf_since n d f b H)) as N1. destruct (fire (with_buf f b) evs read) as [f2 [u|c e|]]; exact N1.
  - destruct (polite f o); [apply buf_since|]; assumption.
Qed.
Lemma run_since : forall ops n d f, since n d f -> since n d (mf_run f ops).
Proof. induction ops as [|o ops IH]; intros n d f H; [exact H|]. cbn. apply IH, step_since, H. Qed.
Lemma clear_since : forall f, numbered f -> since (List.length (f_added f)) (f_delivered f) (mf_clear f).
Proof.
  intros f N. unfold mf_clear. destruct (addTransformableCallback _). constructor; cbn; try lia.
  - exists []. rewrite app_nil_r. split; [reflexivity|intros ? []].
  - destruct (f_cbq f) eqn:E; [intros ? []|]. rewrite (nb_box f N E). intros ? [].
Qed.
End P.
