(** * Theorems about whole histories of calls on a buffer *)
From Coq Require Import ZArith Bool List String Ascii Lia Arith Permutation.
From Verif Require Import RosTime Scalar LinearMath Cache SpecCache CacheProofs CacheQueries CacheTheorems
  BufferCore SpecCore CoreInv Naturality CoreSet WalkSpec LctSpec Bridge WalkMain Sim Forget LookupBase LookupTheorems LookupTree History Answers.
Import ListNotations.
Open Scope Z_scope.
Local Opaque MAX_GRAPH_DEPTH.

Section P.
Context {S : Scalar}.
Notation core := (core S).
Implicit Types (s : core) (m : tmsg S) (t : time) (tgt src n : string) (ops : list (core_op S)).
Notation lfn := lookupFrameNumber.

Lemma hist_inv : forall s n c, wf s -> hist s n = Some c -> exists i c0, live s i /\ name_of s i = n /\
  getFrame s i = Some c0 /\ c = map_cache (name_of s) c0.
Proof.
  intros s n c W H. unfold hist in H. destruct (assoc n (c_ids s)) as [[|i]|] eqn:E; try discriminate.
  destruct (getFrame s (Datatypes.S i)) as [c0|] eqn:G; [|discriminate]. inversion H; subst.
  destruct (live_assoc s n _ W E) as [L N]; [discriminate|]. eauto 10.
Qed.

Lemma nf_map : forall {A B} (f : A -> B) (l : list (storage S A)), newest_first l -> newest_first (map (map_storage f) l).
Proof.
  intros A B f l H. induction l as [|x l IH]; [constructor|]. apply nf_inv in H as [H1 H2]. apply nf_cons; [auto|].
  intros y Hy. apply in_map_iff in Hy as (z & <- & Hz). cbn. auto.
Qed.

Lemma hist_ok : forall s n c, wf s -> hist s n = Some c ->
  cache_ok c /\ known s n /\ match c with Dynamic max _ => max = c_cache_time s | Static _ => True end /\
  forall x, In x (samples c) -> st_child x = n /\ (st_frame x = NO_PARENT \/ known s (st_frame x)).
Proof.
  intros s n c W H. destruct (hist_inv s n c W H) as (i & c0 & L & N & G & ->).
  destruct (wf_cache s W _ _ G) as (H1 & H2 & H3).
  split; [|split; [rewrite <- N; apply live_known; assumption|split; [destruct c0; assumption|]]].
  - destruct c0 as [max l|[x|]]; cbn in *; [|eauto|destruct H1; discriminate].
    destruct H1 as (Hm & N1 & N2 & N3). split; [assumption|]. split; [apply nf_map; assumption|]. split.
    + intros x y Hx Hy. apply in_map_iff in Hx as (x' & <- & Hx). apply in_map_iff in Hy as (y' & <- & Hy). cbn. auto.
    + intros x Hx. apply in_map_iff in Hx as (x' & <- & Hx). cbn. auto.
  - intros x Hx. rewrite samples_map in Hx. apply in_map_iff in Hx as (x' & <- & Hx). cbn.
    destruct (H3 x' Hx) as [F C]. split; [congruence|].
    destruct (Nat.eq_dec (st_frame x') 0) as [E|E]; [left; rewrite E; apply name_of_0; assumption|].
    right. apply live_known; [assumption|]. split; assumption.
Qed.

(** The parent of a link is a registered frame. *)
Lemma link_parent : forall s t n d, wf s -> link s t n = Some d -> known s (st_frame d) /\ st_child d = n /\ known s n.
Proof.
  intros s t n d W H. destruct (known_dec s n) as [K|K]; [|rewrite link_unknown in H by assumption; discriminate].
  destruct (known_live s n W K) as (i & L & N & _). subst n. rewrite (link_lnk s t i W L) in H.
  destruct (lnk s t i) as [d0|] eqn:E; [|discriminate]. inversion H; subst. cbn.
  split; [apply live_known; [assumption|eapply lnk_live; eassumption]|]. split; [|assumption].
  f_equal. eapply lnk_props; eassumption.
Qed.
Lemma known_closed : forall s t, wf s -> closed s (known s) t.
Proof. intros s t W n d _ H. apply (link_parent s t n d W H). Qed.

(** ** same knowledge, same answers (C25) *)
Theorem same_knowledge : forall s s' tgt src t, reachable s -> reachable s' ->
  (forall n, hist s n = hist s' n) -> (forall n, known s n <-> known s' n) ->
  (tgt = src -> t = 0 -> known s tgt) ->
  same_answer (lookupTransform s tgt src t) (lookupTransform s' tgt src t) /\
  canTransform s tgt src t None = canTransform s' tgt src t None /\
  latest_common_time s tgt src = latest_common_time s' tgt src.
Proof.
  intros s s' tgt src t R R' H K Hs. apply reachable_wf in R as W. apply reachable_wf in R' as W'.
  assert (Cl : forall u, closed s (fun _ => True) u) by (intros u n d _ _; exact I).
  split; [|split].
  - apply (agree_lookup s s' W W' (fun _ => True)); auto. split; auto.
  - apply (agree_can s s' W W' (fun _ => True)); auto. split; auto.
  - apply (agree_latest s s' W W' (fun _ => True)); auto.
Qed.

Lemma exists_mentions_about : forall n ops, Exists (mentions n) ops <-> exists k, Exists (mentions n) (filter (about k) ops).
Proof.
  intros n ops. split.
  - intros H. apply Exists_exists in H as (o & Ho & Hm). destruct o as [m a st|]; [|destruct Hm].
    exists (stripSlash (tm_child m)). apply Exists_exists. exists (OSet m a st). split; [|assumption].
    apply filter_In. split; [assumption|]. cbn. apply String.eqb_refl.
  - intros [k H]. apply Exists_exists in H as (o & Ho & Hm). apply filter_In in Ho as [Ho _].
    apply Exists_exists. eauto.
Qed.

Lemma same_per_frame : forall ct ops ops', 0 <= ct < dur_bound -> Forall op_ok ops -> Forall op_ok ops' ->
  (forall n, filter (about n) ops = filter (about n) ops') ->
  (forall n, hist (run (init_core ct) ops) n = hist (run (init_core ct) ops') n) /\
  (forall n, known (run (init_core ct) ops) n <-> known (run (init_core ct) ops') n).
Proof.
  intros ct ops ops' Hct F F' H. split; intros n.
  - destruct (string_dec n NO_PARENT) as [->|Hn].
    + rewrite !hist_NO_PARENT; [reflexivity|apply wf_run; [apply wf_init; assumption|assumption]..].
    + rewrite !hist_run by assumption. rewrite frame_fold_filter, (frame_fold_filter ct n ops'), H. reflexivity.
  - rewrite !known_run by assumption. rewrite !exists_mentions_about.
    split; intros [H1 [k H2]]; (split; [assumption|]); exists k; [rewrite <- H|rewrite H]; assumption.
Qed.

Theorem interleaving_invisible : forall ct ops ops' tgt src t, 0 <= ct < dur_bound ->
  Forall op_ok ops -> Forall op_ok ops' ->
  (forall n, filter (about n) ops = filter (about n) ops') ->
  let s := run (init_core ct) ops in let s' := run (init_core ct) ops' in
  (tgt = src -> t = 0 -> known s tgt) ->
  same_answer (lookupTransform s tgt src t) (lookupTransform s' tgt src t) /\
  canTransform s tgt src t None = canTransform s' tgt src t None /\
  latest_common_time s tgt src = latest_common_time s' tgt src.
Proof.
  intros ct ops ops' tgt src t Hct F F' H s s' Hs. destruct (same_per_frame ct ops ops' Hct F F' H) as [H1 H2].
  apply same_knowledge; auto; [exists ct, ops|exists ct, ops']; auto.
Qed.

(** ** any order of delivery, time-varying frames with distinct stamps *)
Lemma fold_offers : forall ct n ops c, (forall o, In o ops -> is_dynamic_set o) ->
  fold_left (frame_step ct n) ops (Some c) = Some (offer_all c (offers n ops)).
Proof.
  intros ct n. induction ops as [|o ops IH]; intros c H; [reflexivity|].
  assert (Ho : is_dynamic_set o) by (apply H; cbn; auto). destruct o as [m a st|]; [|destruct Ho]. cbn in Ho. subst st.
  cbn [fold_left frame_step offers flat_map]. 
  destruct (bad_message (strip_msg m)) eqn:E; [cbn; apply IH; intros; apply H; cbn; auto|].
  destruct (String.eqb (tm_child (strip_msg m)) n) eqn:En; cbn [negb andb app]; (rewrite IH; [|intros; apply H; cbn; auto]).
  - unfold offer_all. cbn [fold_left]. reflexivity.
  - reflexivity.
Qed.
Lemma fold_offers_none : forall ct n ops, (forall o, In o ops -> is_dynamic_set o) ->
  fold_left (frame_step ct n) ops None = match offers n ops with [] => None | xs => Some (offer_all (Dynamic ct []) xs) end.
Proof.
  intros ct n. induction ops as [|o ops IH]; intros H; [reflexivity|].
  assert (Ho : is_dynamic_set o) by (apply H; cbn; auto). destruct o as [m a st|]; [|destruct Ho]. cbn in Ho. subst st.
  cbn [fold_left frame_step offers flat_map].
  destruct (bad_message (strip_msg m)) eqn:E; [cbn; apply IH; intros; apply H; cbn; auto|].
  destruct (String.eqb (tm_child (strip_msg m)) n) eqn:En; cbn [negb andb app].
  - rewrite fold_offers by (intros; apply H; cbn; auto). reflexivity.
  - apply IH; intros; apply H; cbn; auto.
Qed.

Lemma offers_perm : forall n ops ops', Permutation ops ops' -> Permutation (offers n ops) (offers n ops').
Proof. intros n ops ops' H. unfold offers. apply Permutation_flat_map. assumption. Qed.

Theorem delivery_order_invisible : forall ct ops ops' tgt src t, 0 <= ct < dur_bound ->
  Permutation ops ops' ->
  (forall o, In o ops -> is_dynamic_set o) ->
  (forall n, stamps_ok ct (offers n ops) /\ NoDup (map (fun x => st_stamp x) (offers n ops))) ->
  Forall op_ok ops ->
  let s := run (init_core ct) ops in let s' := run (init_core ct) ops' in
  (tgt = src -> t = 0 -> known s tgt) ->
  same_answer (lookupTransform s tgt src t) (lookupTransform s' tgt src t) /\
  canTransform s tgt src t None = canTransform s' tgt src t None /\
  latest_common_time s tgt src = latest_common_time s' tgt src.
Proof.
  intros ct ops ops' tgt src t Hct Pm Hd Hst F s s' Hs.
  assert (F' : Forall op_ok ops') by (eapply Permutation_Forall; eassumption).
  assert (Hd' : forall o, In o ops' -> is_dynamic_set o) by (intros o Ho; apply Hd; eapply Permutation_in; [apply Permutation_sym|]; eassumption).
  apply same_knowledge; [exists ct, ops; auto|exists ct, ops'; auto| | |assumption].
  - intros n. destruct (string_dec n NO_PARENT) as [->|Hn].
    { unfold s, s'. rewrite !hist_NO_PARENT; [reflexivity|apply wf_run; [apply wf_init; assumption|assumption]..]. }
    unfold s, s'. rewrite !hist_run by assumption. rewrite !fold_offers_none by assumption.
    pose proof (offers_perm n ops ops' Pm) as P1. destruct (Hst n) as [S1 N1].
    pose proof (permuted_delivery ct (offers n ops) (offers n ops') (proj1 Hct) S1 N1 P1) as E.
    destruct (offers n ops) as [|x xs] eqn:E1; destruct (offers n ops') as [|y ys] eqn:E2; try reflexivity.
    + apply Permutation_nil in P1. discriminate.
    + apply Permutation_sym, Permutation_nil in P1. discriminate.
    + rewrite E. reflexivity.
  - intros n. unfold s, s'. rewrite !known_run by assumption.
    split; intros [H1 H2]; (split; [assumption|]); apply Exists_exists in H2 as (o & Ho & Hm); apply Exists_exists; exists o;
      (split; [|assumption]); eapply Permutation_in; try eassumption. apply Permutation_sym. assumption.
Qed.

(** ** rejected messages (C10, C11) *)
Lemma set_rejected_hist : forall s m a st s', wf s -> 0 <= tm_stamp m -> setTransform s m a st = (s', Ok false) ->
  wf s' /\ (forall n, hist s' n = hist s n) /\ (forall n, known s n -> known s' n).
Proof.
  intros s m a st s' W Hst H. destruct (setTransform_error (strip_msg m)) eqn:E.
  { rewrite setTransform_rejects in H by assumption. inversion H; subst. auto. }
  destruct (setTransform_effect s m a st W Hst E) as (s1 & ci & pi & E1 & W1 & _).
  pose proof E1 as E1'. rewrite H in E1'. assert (Es : s1 = s') by congruence; subst s1. clear E1'. split; [assumption|].
  destruct (hist_setTransform s m a st W Hst E) as [H1 H2']. rewrite H in H1, H2'. cbn [fst snd] in H1, H2'. split.
  - intros n. rewrite H2'. destruct (String.eqb n (tm_child (strip_msg m))) eqn:En; [|reflexivity].
    apply String.eqb_eq in En. subst n. destruct (String.eqb (tm_child (strip_msg m)) NO_PARENT) eqn:Ep.
    { apply String.eqb_eq in Ep. rewrite Ep, hist_NO_PARENT by assumption. reflexivity. }
    apply String.eqb_neq in Ep. specialize (H1 Ep).
    destruct (hist s (tm_child (strip_msg m))) as [c|] eqn:Eh.
    + destruct (hist_ok s _ c W Eh) as (Hok & _ & _ & _). destruct c as [mx l|o]; [|discriminate].
      cbn in Hok. destruct Hok as (Hm & N & _ & Nn).
      match goal with |- context [insertData _ ?x] => set (x0 := x) in * end.
      assert (Nx : stamps_nonneg (x0 :: l)) by (intros y [<-|Hy]; [exact Hst|auto]).
      destruct (valid_timeb (st_stamp x0 + mx)) eqn:Ev.
      * unfold valid_timeb in Ev. apply andb_prop in Ev as [V1 V2]. apply Z.leb_le in V1. apply Z.ltb_lt in V2.
        destruct (insert_cases mx l x0 (proj1 Hm) N Nx (conj V1 V2)) as [(y & _ & _ & Ei)|[(_ & _ & Ei)|(_ & _ & l' & Ei & _)]];
          rewrite Ei in *; cbn in *; try reflexivity. discriminate.
      * assert (Hv : ~ valid_time (st_stamp x0 + mx)).
        { intros [V1 V2]. unfold valid_timeb in Ev. rewrite (proj2 (Z.leb_le _ _) V1), (proj2 (Z.ltb_lt _ _) V2) in Ev. discriminate. }
        rewrite insert_overflow in H1 by (lia || assumption). discriminate.
    + exfalso. destruct st; [discriminate|]. unfold insertData in H1. cbn in H1.
      destruct (time_add _ _) as [e|]; [|discriminate].
      destruct (e <? tm_stamp m); discriminate.
  - intros n K. pose proof (known_step s n (OClear)) as _.
    destruct K as [K1 K2]. split; [|assumption]. unfold frameExists in *.
    destruct (setTransform_effect s m a st W Hst E) as (s1 & ci' & pi' & E2 & _ & _ & _ & _ & (suf & Suf) & _).
    rewrite H in E2. inversion E2; subst s1. destruct (assoc n (c_ids s)) as [j|] eqn:Ea; [|discriminate].
    apply (wf_ids s W) in Ea. assert (X : nth_error (c_rev s') j = Some n) by (rewrite Suf, nth_error_app1; [assumption|apply nth_error_lt in Ea; assumption]).
    apply (wf_ids s' W1) in X. rewrite X. reflexivity.
Qed.

Theorem rejected_no_effect : forall s m a st s' tgt src t, reachable s -> valid_time (tm_stamp m) ->
  setTransform s m a st = (s', Ok false) -> known s tgt -> known s src ->
  same_answer (lookupTransform s tgt src t) (lookupTransform s' tgt src t) /\
  canTransform s tgt src t None = canTransform s' tgt src t None /\
  latest_common_time s tgt src = latest_common_time s' tgt src.
Proof.
  intros s m a st s' tgt src t R [V _] H K1 K2. apply reachable_wf in R as W.
  destruct (set_rejected_hist s m a st s' W V H) as (W' & Hh & Hk).
  assert (Kn : forall n, known s n -> (known s n <-> known s' n)) by (intros n K; split; auto).
  assert (Cl : forall u, closed s (known s) u) by (intros; apply known_closed; assumption).
  split; [|split].
  - apply (agree_lookup s s' W W' (known s)); auto. split; auto.
  - apply (agree_can s s' W W' (known s)); auto. split; auto.
  - apply (agree_latest s s' W W' (known s)); auto.
Qed.

(** Exact verdict of setTransform. *)
Theorem set_verdict : forall s m a st, reachable s -> valid_time (tm_stamp m) -> valid_time (tm_stamp m + c_cache_time s) ->
  stripSlash (tm_child m) <> NO_PARENT ->
  (snd (setTransform s m a st) = Ok true <->
   bad_message (strip_msg m) = false /\
   match hist s (stripSlash (tm_child m)) with
   | Some (Dynamic _ l) => forall y, In y l -> st_stamp y <= tm_stamp m + c_cache_time s /\ st_stamp y <> tm_stamp m
   | _ => True
   end) /\
  (snd (setTransform s m a st) = Ok true \/ snd (setTransform s m a st) = Ok false).
Proof.
  intros s m a st R [V1 V2] V Hn. apply reachable_wf in R as W.
  destruct (setTransform_error (strip_msg m)) eqn:E.
  { rewrite setTransform_rejects by assumption. cbn. unfold bad_message. rewrite E. split; [split; [discriminate|intros [? _]; discriminate]|auto]. }
  destruct (hist_setTransform s m a st W V1 E) as [H1 _]. rewrite (H1 Hn). clear H1. unfold bad_message. rewrite E.
  change (stripSlash (tm_child m)) with (tm_child (strip_msg m)).
  match goal with |- context [insertData _ ?x] => set (x0 := x) in * end.
  destruct (hist s (tm_child (strip_msg m))) as [c|] eqn:Eh.
  - destruct (hist_ok s _ c W Eh) as (Hok & _ & Hmx & _). destruct c as [mx l|o].
    + cbn in Hok. destruct Hok as (Hm & N & _ & Nn). rewrite <- Hmx in V. rewrite <- Hmx.
      assert (Nx : stamps_nonneg (x0 :: l)) by (intros y [<-|Hy]; [exact V1|auto]).
      destruct (insert_cases mx l x0 (proj1 Hm) N Nx V) as [(y & Hy & Lt & Ei)|[(A & (y & Hy & Ey) & Ei)|(A & B & l' & Ei & _)]];
        rewrite Ei; cbn [snd ins_outcome].
      * split; [|auto]. split; [discriminate|]. intros [_ H]. destruct (H y Hy) as [H1 _]. cbn in Lt. lia.
      * split; [|auto]. split; [discriminate|]. intros [_ H]. destruct (H y Hy) as [_ H1]. cbn in Ey. congruence.
      * split; [|auto]. split; [|reflexivity]. intros _. split; [reflexivity|]. intros y Hy. split; [apply (A y Hy)|apply (B y Hy)].
    + cbn. split; [tauto|auto].
  - destruct st; [cbn; split; [tauto|auto]|].
    assert (Nx : stamps_nonneg [x0]) by (intros y [<-|[]]; exact V1).
    destruct (wf_ct s W) as [C1 C2].
    destruct (insert_cases (c_cache_time s) [] x0 C1) as [(y & [] & _)|[(_ & (y & [] & _) & _)|(_ & _ & l' & Ei & _)]];
      [constructor|assumption|exact V|].
    rewrite Ei. cbn. split; [tauto|auto].
Qed.

(** ** kinds (C08, C09) *)
Lemma insert_kind : forall (c : cache S string) x, same_kind c (fst (insertData c x)).
Proof.
  intros [mx l|o] x; [|exact I].
  assert (G : forall l0, same_kind (Dynamic mx l) (fst (match insert_sorted l0 x with
      | None => (Dynamic mx l0, @Ok ins_result (Rejected ERepeatedData))
      | Some l' => let '(l'', thrown) := pruneList l' mx in
                   (Dynamic mx l'', if thrown then Throw RuntimeError ETimeRange else Ok Inserted) end))).
  { intros l0. destruct (insert_sorted l0 x) as [l'|]; [|reflexivity]. destruct (pruneList l' mx); reflexivity. }
  unfold insertData. destruct l as [|f l]; [apply G|].
  destruct (time_add (st_stamp x) mx) as [e|]; [|reflexivity]. destruct (e <? st_stamp f); [reflexivity|]. apply G.
Qed.

Theorem kind_fixed : forall s ops n c, reachable s -> Forall op_ok ops -> hist s n = Some c ->
  exists c', hist (run s ops) n = Some c' /\ same_kind c c'.
Proof.
  intros s ops n c R F H. apply reachable_wf in R as W.
  assert (Hn : n <> NO_PARENT) by (intros ->; rewrite hist_NO_PARENT in H by assumption; discriminate).
  rewrite hist_run_from by assumption. rewrite H. clear H R. revert c.
  induction ops as [|o ops IH]; intros c; [exists c; split; [reflexivity|destruct c; cbn; auto]|].
  inversion F; subst. cbn [fold_left].
  assert (G : exists c1, frame_step (c_cache_time s) n (Some c) o = Some c1 /\ same_kind c c1).
  { destruct o as [m a st|]; cbn.
    - destruct (bad_message (strip_msg m)); [exists c; split; [reflexivity|destruct c; cbn; auto]|].
      destruct (String.eqb _ _); [|exists c; split; [reflexivity|destruct c; cbn; auto]].
      eexists. split; [reflexivity|]. apply insert_kind.
    - exists (clearList c). split; [reflexivity|]. destruct c; cbn; auto. }
  destruct G as (c1 & -> & K1). destruct (IH H2 c1) as (c2 & E & K2). exists c2. split; [assumption|].
  destruct c, c1, c2; cbn in *; try contradiction; congruence || auto.
Qed.

Theorem static_last_wins : forall s m a st post n t, reachable s -> op_ok (OSet m a st) -> Forall op_ok post ->
  n = stripSlash (tm_child m) -> n <> NO_PARENT -> bad_message (strip_msg m) = false ->
  (hist s n = None /\ st = true) \/ (exists x, hist s n = Some (Static x)) ->
  not_set_again n post ->
  sample_at (run s (OSet m a st :: post)) t n =
    Some {| st_rot := tm_rot m; st_trans := tm_trans m; st_stamp := t; st_frame := stripSlash (tm_frame m); st_child := n |}.
Proof.
  intros s m a st post n t R Ho F En Hn Hb Hk Hp. apply reachable_wf in R as W.
  assert (E : hist (run s (OSet m a st :: post)) n = Some (Static (Some (sample_of (strip_msg m))))).
  { rewrite hist_run_from by auto. cbn [fold_left].
    assert (E0 : frame_step (c_cache_time s) n (hist s n) (OSet m a st) = Some (Static (Some (sample_of (strip_msg m))))).
    { unfold frame_step. rewrite Hb. cbn [tm_child strip_msg]. rewrite <- En, String.eqb_refl.
      destruct Hk as [[-> ->]|[x ->]]; reflexivity. }
    rewrite E0. clear - Hp. induction Hp as [|o post Ho Hp IH]; [reflexivity|]. cbn [fold_left].
    assert (E : frame_step (c_cache_time s) n (Some (Static (Some (sample_of (strip_msg m))))) o = Some (Static (Some (sample_of (strip_msg m))))).
    { destruct o as [m1 a1 st1|]; [|reflexivity]. cbn in Ho |- *. destruct (bad_message (strip_msg m1)); [reflexivity|].
      destruct Ho as [Ho|Ho]; [discriminate|]. rewrite (proj2 (String.eqb_neq _ _) Ho). reflexivity. }
    rewrite E. exact IH. }
  unfold sample_at. rewrite E. cbn. rewrite En. reflexivity.
Qed.

(** ** clear (C27) *)
Theorem clear_dynamic : forall s n mx l t, reachable s -> hist s n = Some (Dynamic mx l) -> sample_at (clear s) t n = None.
Proof.
  intros s n mx l t R H. apply reachable_wf in R as W. unfold sample_at. rewrite hist_clear, H by assumption. reflexivity.
Qed.
Theorem clear_static : forall s n x t, reachable s -> hist s n = Some (Static x) ->
  hist (clear s) n = hist s n /\ sample_at (clear s) t n = sample_at s t n.
Proof.
  intros s n x t R H. apply reachable_wf in R as W. unfold sample_at. rewrite hist_clear, H by assumption. auto.
Qed.
Theorem clear_names : forall s n, known (clear s) n <-> known s n.
Proof. intros s n. unfold known, frameExists. cbn. tauto. Qed.
Theorem clear_then_set : forall s m a st n mx l, reachable s -> valid_time (tm_stamp m) -> valid_time (tm_stamp m + c_cache_time s) ->
  bad_message (strip_msg m) = false -> n = stripSlash (tm_child m) -> hist s n = Some (Dynamic mx l) ->
  snd (setTransform (clear s) m a st) = Ok true /\
  hist (step (clear s) (OSet m a st)) n = Some (Dynamic (c_cache_time s) [sample_of (strip_msg m)]).
Proof.
  intros s m a st n mx l R V Vc Hb En H. apply reachable_wf in R as W.
  assert (Hn : n <> NO_PARENT) by (intros X; rewrite X, hist_NO_PARENT in H by assumption; discriminate).
  destruct (hist_ok s n _ W H) as (_ & _ & Hmx & _). subst mx.
  assert (Ins : insertData (Dynamic (c_cache_time s) []) (sample_of (strip_msg m)) = (Dynamic (c_cache_time s) [sample_of (strip_msg m)], Ok Inserted)).
  { unfold insertData. cbn. rewrite time_add_ok by exact Vc. destruct (Z.ltb_spec (tm_stamp m + c_cache_time s) (tm_stamp m)) as [L|L]; [|reflexivity].
    destruct (wf_ct s W). lia. }
  assert (Hc : hist (clear s) n = Some (Dynamic (c_cache_time s) [])) by (rewrite hist_clear, H by assumption; reflexivity).
  split.
  - destruct (hist_setTransform (clear s) m a st (wf_clear s W) (proj1 V) Hb) as [H1 _].
    change (tm_child (strip_msg m)) with (stripSlash (tm_child m)) in H1. rewrite <- En in H1. rewrite (H1 Hn), Hc.
    fold (sample_of (strip_msg m)). rewrite En. change (stripSlash (tm_child m)) with (tm_child (strip_msg m)). 
    fold (sample_of (strip_msg m)). rewrite Ins. reflexivity.
  - rewrite hist_step; [|apply wf_clear; assumption|exact V|assumption]. unfold frame_step. rewrite Hb, Hc.
    cbn [tm_child strip_msg]. rewrite <- En, String.eqb_refl. fold (strip_msg m). rewrite Ins. reflexivity.
Qed.

(** ** other frames (C26) *)
Theorem set_other_frames : forall s m a st n, reachable s -> valid_time (tm_stamp m) -> n <> stripSlash (tm_child m) ->
  hist (step s (OSet m a st)) n = hist s n.
Proof.
  intros s m a st n R V Hn. apply reachable_wf in R as W. cbn [step].
  destruct (setTransform_error (strip_msg m)) eqn:E; [rewrite setTransform_rejects by assumption; reflexivity|].
  destruct (hist_setTransform s m a st W (proj1 V) E) as [_ H]. rewrite H.
  change (tm_child (strip_msg m)) with (stripSlash (tm_child m)). rewrite (proj2 (String.eqb_neq _ _) Hn). reflexivity.
Qed.

Lemma known_grows : forall s o n, wf s -> op_ok o -> known s n -> known (step s o) n.
Proof. intros s o n W Ho K. apply known_step; auto. Qed.

Theorem set_unrelated_frames : forall s m a st tgt src t, reachable s -> valid_time (tm_stamp m) -> t <> 0 ->
  known s tgt -> known s src ->
  (forall ds, ~ climbs s t src ds (stripSlash (tm_child m))) -> (forall ds, ~ climbs s t tgt ds (stripSlash (tm_child m))) ->
  let s' := step s (OSet m a st) in
  same_answer (lookupTransform s tgt src t) (lookupTransform s' tgt src t) /\
  canTransform s tgt src t None = canTransform s' tgt src t None.
Proof.
  intros s m a st tgt src t R V Ht K1 K2 N1 N2 s'. apply reachable_wf in R as W.
  assert (W' : wf s') by (apply wf_step; [assumption|exact V]).
  set (P := fun n => known s n /\ ((exists ds, climbs s t src ds n) \/ (exists ds, climbs s t tgt ds n))).
  assert (Hh : forall n, P n -> hist s n = hist s' n).
  { intros n [_ Hn]. symmetry. apply set_other_frames; auto. intros ->. destruct Hn as [[ds H]|[ds H]]; [apply (N1 ds H)|apply (N2 ds H)]. }
  assert (Hk : forall n, P n -> (known s n <-> known s' n)).
  { intros n [K _]. split; [|auto]. intros _. apply known_grows; [assumption|exact V|assumption]. }
  assert (Cl : closed s P t).
  { intros n d [_ Hn] Hl. split; [apply (link_parent s t n d W Hl)|].
    destruct Hn as [[ds H]|[ds H]]; [left|right]; exists (ds ++ [d]); eapply climbs_app; try eassumption; econstructor; [eassumption|constructor|eassumption|constructor]. }
  assert (P1 : P tgt) by (split; [assumption|right; exists []; constructor]).
  assert (P2 : P src) by (split; [assumption|left; exists []; constructor]).
  split.
  - apply (agree_lookup s s' W W' P); auto. split; [assumption|congruence].
  - apply (agree_can s s' W W' P); auto. split; [assumption|congruence].
Qed.

(** ** ids (C12) *)
Theorem ids_stable : forall s ops n, reachable s -> Forall op_ok ops -> known s n ->
  known (run s ops) n /\ lfn (run s ops) n = lfn s n.
Proof.
  intros s ops n R F K. apply reachable_wf in R as W.
  assert (K' : known (run s ops) n) by (apply known_run_from; auto). split; [assumption|].
  assert (G : forall ops s, wf s -> Forall op_ok ops -> exists suf, c_rev (run s ops) = c_rev s ++ suf).
  { clear. induction ops as [|o ops IH]; intros s W F; [exists []; rewrite app_nil_r; reflexivity|]. inversion F; subst.
    change (run s (o :: ops)) with (run (step s o) ops). destruct (IH (step s o)) as [suf E]; [apply wf_step; assumption|assumption|].
    rewrite E. assert (G1 : exists x, c_rev (step s o) = c_rev s ++ x).
    { destruct o as [m a st|]; [|exists []; rewrite app_nil_r; reflexivity]. cbn [step].
      destruct (setTransform_error (strip_msg m)) eqn:Eb; [rewrite setTransform_rejects by assumption; exists []; rewrite app_nil_r; reflexivity|].
      destruct (setTransform_effect s m a st W (op_ok_stamp _ _ _ H1) Eb) as (s' & ci & pi & Es & _ & _ & _ & _ & (x & Hx) & _).
      rewrite Es. eauto. }
    destruct G1 as [x ->]. exists (x ++ suf). rewrite app_assoc. reflexivity. }
  destruct (G ops s W F) as [suf E]. destruct K as [K _]. unfold frameExists in K.
  destruct (assoc n (c_ids s)) as [i|] eqn:Ea; [|discriminate]. unfold lookupFrameNumber. rewrite Ea.
  apply (wf_ids s W) in Ea.
  assert (X : nth_error (c_rev (run s ops)) i = Some n) by (rewrite E, nth_error_app1; [assumption|apply nth_error_lt in Ea; assumption]).
  apply (wf_ids _ (wf_run ops s W F)) in X. rewrite X. reflexivity.
Qed.

Theorem ids_bijective : forall s, reachable s ->
  (forall n n', known s n -> known s n' -> lfn s n = lfn s n' -> n = n') /\
  (forall n, known s n -> lookupFrameString s (lfn s n) = Ok n /\ lfn s n <> 0%nat) /\
  (forall i n, lookupFrameString s i = Ok n -> i <> 0%nat -> known s n /\ lfn s n = i) /\
  NoDup (getFrameStrings s) /\ (forall n, In n (getFrameStrings s) <-> known s n).
Proof.
  intros s R. apply reachable_wf in R as W.
  assert (B : forall n, known s n -> lookupFrameString s (lfn s n) = Ok n /\ lfn s n <> 0%nat).
  { intros n K. destruct (known_live s n W K) as (i & L & N & -> & _). rewrite frame_string by (assumption || apply L).
    split; [congruence|apply L]. }
  assert (C : forall i n, lookupFrameString s i = Ok n -> i <> 0%nat -> known s n /\ lfn s n = i).
  { intros i n H Hz. unfold lookupFrameString in H. destruct (nth_error (c_rev s) i) as [n'|] eqn:E; inversion H; subst.
    assert (L : live s i) by (split; [assumption|apply nth_error_lt in E; assumption]).
    assert (N : name_of s i = n) by (apply name_of_nth; assumption). rewrite <- N.
    split; [apply live_known; assumption|apply lookup_live; assumption]. }
  split; [|split; [assumption|split; [assumption|]]].
  - intros n n' K K' E. destruct (B n K) as [H _]. destruct (B n' K') as [H' _]. rewrite E in H. congruence.
  - assert (Nd : NoDup (c_rev s)).
    { apply NoDup_nth_error. intros i j Hi E. destruct (nth_error (c_rev s) i) as [n|] eqn:Ei.
      - symmetry in E. apply (wf_ids s W) in Ei. apply (wf_ids s W) in E. congruence.
      - apply nth_error_None in Ei. lia. }
    unfold getFrameStrings. pose proof (wf_root s W) as Rt. destruct (c_rev s) as [|r0 rs] eqn:Er; [discriminate|].
    cbn in Rt. inversion Rt; subst r0. cbn [tl]. inversion Nd; subst. split; [assumption|]. intros n. split.
    + intros Hin. apply In_nth_error in Hin as [k Hk]. assert (X : nth_error (c_rev s) (Datatypes.S k) = Some n) by (rewrite Er; exact Hk).
      destruct (C (Datatypes.S k) n) as [K _]; [unfold lookupFrameString; rewrite X; reflexivity|discriminate|assumption].
    + intros K. destruct (known_live s n W K) as (i & [Hz Hl] & N & _). apply name_of_lt in Hl. rewrite N, Er in Hl.
      destruct i as [|i]; [congruence|]. cbn in Hl. eapply nth_error_In; eassumption.
Qed.

(** ** leading slashes (C28) *)
Lemma strip_once : forall n, startsWithSlash n = false -> stripSlash (String "/" n) = n /\ stripSlash n = n.
Proof. intros n H. unfold stripSlash. rewrite H. auto. Qed.

Theorem slash_same_effect : forall s m m' a st,
  tm_stamp m = tm_stamp m' -> tm_trans m = tm_trans m' -> tm_rot m = tm_rot m' ->
  stripSlash (tm_child m) = stripSlash (tm_child m') -> stripSlash (tm_frame m) = stripSlash (tm_frame m') ->
  setTransform s m a st = setTransform s m' a st.
Proof.
  intros s m m' a st H1 H2 H3 H4 H5. unfold setTransform. replace (strip_msg m') with (strip_msg m); [reflexivity|].
  unfold strip_msg. congruence.
Qed.

Theorem accepted_is_known : forall s m a st, reachable s -> valid_time (tm_stamp m) -> snd (setTransform s m a st) = Ok true ->
  stripSlash (tm_child m) <> NO_PARENT ->
  known (step s (OSet m a st)) (stripSlash (tm_child m)) /\
  (startsWithSlash (stripSlash (tm_child m)) = false -> plain (stripSlash (tm_child m))).
Proof.
  intros s m a st R V H Hn. apply reachable_wf in R as W.
  destruct (setTransform_error (strip_msg m)) eqn:E; [rewrite setTransform_rejects in H by assumption; discriminate|]. split.
  - apply known_step; [assumption|exact V|]. right. split; [assumption|]. cbn. unfold bad_message. auto.
  - intros Hs. split; [|assumption]. unfold setTransform_error in E. intros X.
    change (tm_child (strip_msg m)) with (stripSlash (tm_child m)) in E. rewrite X in E. cbn in E.
    rewrite orb_true_r in E. discriminate.
Qed.

(** ** self lookups (C15) *)
Theorem lookup_self : forall s f t, reachable s ->
  exists m, lookupTransform s f f t = Ok m /\ tm_frame m = f /\ tm_child m = f /\ tm_rot m = qidentity /\ tm_trans m = vzero /\
    (t <> 0 -> tm_stamp m = t) /\
    (t = 0 -> known s f -> tm_stamp m = match hist s f with Some (Dynamic _ (x :: _)) => st_stamp x | _ => 0 end).
Proof.
  intros s f t R. apply reachable_wf in R as W. unfold lookupTransform. rewrite String.eqb_refl. eexists. split; [reflexivity|]. cbn.
  do 4 (split; [reflexivity|]). split; [intros H; rewrite (proj2 (Z.eqb_neq _ _) H); reflexivity|].
  intros -> K. rewrite Z.eqb_refl. destruct (known_live s f W K) as (i & L & N & -> & _). subst f.
  destruct (getFrame s i) as [c|] eqn:E.
  - rewrite (hist_frame s i c W (proj1 L) E). destruct c as [mx [|x l]|[x|]]; reflexivity.
  - rewrite (hist_frame_none s i W (proj1 L) (proj2 L) E). reflexivity.
Qed.
End P.
