(** * Proofs for C81: what a frame yields at a past time, before and after more data *)
From Coq Require Import ZArith Bool List String Lia Arith Reals.
From Verif Require Import RosTime Scalar LinearMath Cache SpecCache CacheProofs CacheQueries CacheTheorems
  BufferCore SpecCore CoreInv Naturality CoreSet Bridge History CoreTheorems Instances RealSlerp CacheReal SpecReal SpecPast PastProofs.
Import ListNotations.
Open Scope Z_scope.

(** ** over the reals a stored stamp yields the stored sample *)
Lemma reads_stored : forall (F : Type) (feqb : F -> F -> bool) max (l : list (storage RS F)) x,
  cache_ok (Dynamic max l) -> In x l -> 0 < st_stamp x -> reads feqb max l (st_stamp x) = Some x.
Proof.
  intros F feqb max l x [Hm (N & W & P)] Hx H0. unfold reads. cbn [getData].
  destruct l as [|f l]; [destruct Hx|]. pose proof (nf_head_max _ _ _ N Hx) as M1. pose proof (nf_last_min _ _ _ N Hx) as M2.
  destruct (Z.eq_dec (st_stamp x) (st_stamp f)) as [E|E].
  { rewrite find_newest by (auto; lia). cbn. f_equal. apply (nf_unique_stamp (f :: l)); cbn; auto. }
  destruct (Z.eq_dec (st_stamp x) (st_stamp (last l f))) as [E2|E2].
  { rewrite find_oldest by (auto; lia). cbn. f_equal. apply (nf_unique_stamp (f :: l)); auto using last_in. }
  destruct (direct_newer (f :: l) x N Hx) as [D|(n & Hn & L & G)]; [specialize (D f (or_introl eq_refl)); lia|].
  rewrite find_neighbours with (older := x) (newer := n); auto; try lia.
  2:{ intros _. exists (last l f). split; [apply last_in|lia]. }
  cbn. destruct (feqb (st_frame x) (st_frame n)); [|reflexivity].
  rewrite interpolate_lt with (max := max); [|assumption|lia|apply W; assumption].
  cbn. rewrite Z.sub_diag. unfold Rdiv. rewrite !Rmult_0_l, slerp_0, vinterp_0. destruct x; reflexivity.
Qed.

Lemma kept_read_real : forall (F : Type) (feqb : F -> F -> bool) max t (l0 xs l : list (storage RS F)),
  0 <= max < dur_bound -> 0 < t -> cache_inv max l0 -> grown max t l0 xs l -> covers l0 t ->
  (reads feqb max l t = reads feqb max l0 t \/ reads feqb max l t = None) /\
  ((exists x, In x l0 /\ st_stamp x <= t /\ forall y, In y xs -> st_stamp y <= st_stamp x + max) -> reads feqb max l t = reads feqb max l0 t).
Proof.
  intros F feqb max t l0 xs l Hm Ht I0 G C.
  destruct (in_dec Z.eq_dec t (map (@st_stamp RS F) l0)) as [H|H].
  2:{ apply kept_read; try assumption. intros x Hx E. apply H. rewrite <- E. apply in_map. assumption. }
  apply in_map_iff in H as (x & E & Hx).
  assert (K : In x l -> reads feqb max l t = reads feqb max l0 t).
  { intros Hxl. rewrite <- E. assert (O0 : cache_ok (Dynamic max l0)) by (split; assumption). assert (O1 : cache_ok (Dynamic max l)) by (split; [assumption|apply G]).
    rewrite (reads_stored F feqb max l x O1 Hxl), (reads_stored F feqb max l0 x O0 Hx) by lia. reflexivity. }
  assert (Mx : forall y, In y l0 -> st_stamp y <= t -> st_stamp y <= st_stamp x) by (intros; lia).
  split.
  - destruct (in_dec Z.eq_dec (st_stamp x) (map (@st_stamp RS F) l)) as [H|H].
    + left. apply K. apply in_map_iff in H as (y & Ey & Hy). destruct G as (_ & G2 & _). destruct (G2 y Hy) as [Hy0|(_ & _ & Hy0)].
      * rewrite <- (nf_unique_stamp l0 y x); auto. apply I0.
      * specialize (Hy0 x Hx). lia.
    + right. eapply gone; try eassumption; [lia|]. intros Hxl. apply H. apply in_map. assumption.
  - intros (y & Hy & Ly & Hb). apply K. destruct G as (_ & _ & _ & G4). apply G4; [assumption|].
    intros z Hz. specialize (Hb z Hz). specialize (Mx y Hy Ly). lia.
Qed.

Section P.
Context {S : Scalar}.
Notation core := (core S).
Implicit Types (s : core) (n : string) (t : time) (ops : list (core_op S)).

Lemma later_ok : forall s t ops, 0 <= t -> later_traffic s t ops -> Forall op_ok ops.
Proof.
  intros s t ops Ht H. eapply Forall_impl; [|exact H]. intros [m a st|] Ho; [|exact I]. cbn in *. destruct Ho as (_ & B & _).
  unfold valid_time. unfold dur_bound in B. unfold time_bound. lia.
Qed.
Lemma later_dynamic : forall s t ops, later_traffic s t ops -> forall o, In o ops -> is_dynamic_set o.
Proof.
  intros s t ops H o Ho. unfold later_traffic in H. rewrite Forall_forall in H. specialize (H o Ho).
  destruct o as [m a st|]; cbn in *; [apply H|contradiction].
Qed.
Lemma later_offers : forall s t n ops x, later_traffic s t ops -> In x (offers n ops) ->
  exists m a st, In (OSet m a st) ops /\ stripSlash (tm_child m) = n /\ st_stamp x = tm_stamp m /\
    t < st_stamp x < dur_bound /\ newer_than_all m (hist s n).
Proof.
  intros s t n ops x H Hx. unfold offers in Hx. apply in_flat_map in Hx as ([m a st|] & Ho & Hx); [|destruct Hx].
  unfold later_traffic in H. rewrite Forall_forall in H. specialize (H _ Ho). cbn in H. destruct H as (_ & B & Nw).
  destruct (negb (bad_message (strip_msg m)) && String.eqb (tm_child (strip_msg m)) n) eqn:E; [|destruct Hx].
  apply andb_prop in E as [_ E]. apply String.eqb_eq in E. cbn in E. subst n. destruct Hx as [<-|[]].
  exists m, a, st. cbn. auto 10.
Qed.

Lemma later_hist : forall s t ops n, reachable s -> 0 < t -> later_traffic s t ops -> n <> NO_PARENT ->
  (forall o, hist s n = Some (Static o) -> hist (run s ops) n = Some (Static o)) /\
  (forall max l0, hist s n = Some (Dynamic max l0) -> 0 <= max < dur_bound /\ cache_inv max l0 /\ max = c_cache_time s /\
     exists l, hist (run s ops) n = Some (Dynamic max l) /\ grown max t l0 (offers n ops) l) /\
  (hist s n = None -> hist (run s ops) n = None \/
     (0 <= c_cache_time s < dur_bound /\ exists l, hist (run s ops) n = Some (Dynamic (c_cache_time s) l) /\ grown (c_cache_time s) t [] (offers n ops) l)).
Proof.
  intros s t ops n R Ht H Hn. apply reachable_wf in R as W.
  rewrite hist_run_from; [|assumption|eapply later_ok; [|eassumption]; lia|assumption].
  assert (Ho : forall x, In x (offers n ops) -> 0 <= st_stamp x /\ t < st_stamp x /\
     match hist s n with None => True | Some (Static _) => False | Some (Dynamic _ l) => forall z, In z l -> st_stamp z < st_stamp x end).
  { intros x Hx. destruct (later_offers s t n ops x H Hx) as (m & a & st & _ & _ & E & B & Nw). split; [lia|]. split; [lia|].
    unfold newer_than_all in Nw. rewrite E. exact Nw. }
  split; [|split].
  - intros o E. rewrite E in *. rewrite fold_offers by (eapply later_dynamic; eassumption).
    destruct (offers n ops) as [|x xs]; [reflexivity|]. destruct (Ho x) as (_ & _ & []). cbn. auto.
  - intros max l0 E. rewrite E in *. destruct (hist_ok s n _ W E) as ((Hm & I) & _ & Ec & _).
    split; [assumption|]. split; [assumption|]. split; [assumption|].
    rewrite fold_offers by (eapply later_dynamic; eassumption).
    destruct (grown_all max t l0 (offers n ops)) as (l & El & G); [lia|assumption|exact Ho|]. exists l. rewrite El. auto.
  - intros E. rewrite E in *. rewrite fold_offers_none by (eapply later_dynamic; eassumption).
    destruct (offers n ops) as [|x xs] eqn:Eo; [auto|]. right. rewrite <- Eo in *. destruct (wf_ct s W) as [C1 C2]. split; [auto|].
    destruct (grown_all (c_cache_time s) t [] (offers n ops)) as (l & El & G); [lia| | |].
    + split; [constructor|]. split; [intros ? ? []|intros ? []].
    + intros y Hy. destruct (Ho y Hy) as (A & B & _). split; [assumption|]. split; [assumption|intros ? []].
    + exists l. rewrite El. auto.
Qed.

Lemma sample_reads : forall s t n max l, hist s n = Some (Dynamic max l) -> sample_at s t n = reads String.eqb max l t.
Proof. intros s t n max l E. unfold sample_at, reads. rewrite E. reflexivity. Qed.

(** A frame with nothing at [t] has nothing afterwards, unless its data was late. *)
Theorem nothing_stays : forall s t ops n, reachable s -> 0 < t -> later_traffic s t ops ->
  sample_at s t n = None -> sample_at (run s ops) t n = None \/ behind t (hist s n).
Proof.
  intros s t ops n R Ht H E. apply reachable_wf in R as W.
  assert (W' : wf (run s ops)) by (apply reachable_wf, reachable_run; [assumption|eapply later_ok; [|eassumption]; lia]).
  destruct (string_dec n NO_PARENT) as [->|Hn]; [left; unfold sample_at; rewrite hist_NO_PARENT by assumption; reflexivity|].
  destruct (later_hist s t ops n R Ht H Hn) as (H1 & H2 & H3).
  destruct (hist s n) as [[max l0|o]|] eqn:Eh.
  - destruct (H2 _ _ eq_refl) as (Hm & I & _ & l & El & G). rewrite (sample_reads _ _ _ _ _ El). rewrite (sample_reads _ _ _ _ _ Eh) in E.
    destruct (covers_dec l0 t (proj1 I)) as [C|C].
    { destruct (reads_covered String.eqb max l0 t) as [d D]; [split; assumption|assumption|]. congruence. }
    destruct l0 as [|f l0]; [left; apply (uncovered_stays String.eqb max t [] (offers n ops)); auto|].
    destruct (Z_le_gt_dec t (st_stamp f)) as [L|L].
    + left. apply (uncovered_stays String.eqb max t (f :: l0) (offers n ops)); auto. right. exists f. cbn. auto.
    + right. exists max, (f :: l0). split; [reflexivity|]. split; [discriminate|].
      intros x Hx. pose proof (nf_head_max _ _ _ (proj1 I) Hx). lia.
  - left. unfold sample_at in *. rewrite (H1 _ eq_refl). rewrite Eh in E. exact E.
  - left. destruct (H3 eq_refl) as [E2|(Hm & l & El & G)]; [unfold sample_at; rewrite E2; reflexivity|].
    rewrite (sample_reads _ _ _ _ _ El). apply (uncovered_stays String.eqb (c_cache_time s) t [] (offers n ops)); auto; try (intros [C _]; congruence).
    split; [constructor|]. split; [intros ? ? []|intros ? []].
Qed.

(** A frame with a sample at [t]: the same sample afterwards, or none. *)
Definition exact_at s t : Prop :=
  forall n max l0 xs l, hist s n = Some (Dynamic max l0) -> 0 <= max < dur_bound -> cache_inv max l0 -> grown max t l0 xs l -> covers l0 t ->
    (reads String.eqb max l t = reads String.eqb max l0 t \/ reads String.eqb max l t = None) /\
    ((exists x, In x l0 /\ st_stamp x <= t /\ forall y, In y xs -> st_stamp y <= st_stamp x + max) ->
      reads String.eqb max l t = reads String.eqb max l0 t).

Lemma exact_between : forall s t, 0 < t -> between_samples s t -> exact_at s t.
Proof.
  intros s t Ht B n max l0 xs l E Hm I G C. apply kept_read; try assumption. intros x Hx. apply (B n max l0 x E Hx).
Qed.

Theorem sample_stays : forall s t ops n d, reachable s -> 0 < t -> exact_at s t -> later_traffic s t ops ->
  sample_at s t n = Some d ->
  (sample_at (run s ops) t n = Some d \/ sample_at (run s ops) t n = None) /\
  ((forall m a st, In (OSet m a st) ops -> stripSlash (tm_child m) = n -> in_window t (tm_stamp m) (hist s n)) ->
   sample_at (run s ops) t n = Some d).
Proof.
  intros s t ops n d R Ht X H E. apply reachable_wf in R as W.
  destruct (string_dec n NO_PARENT) as [->|Hn]; [unfold sample_at in E; rewrite hist_NO_PARENT in E by assumption; discriminate|].
  destruct (later_hist s t ops n R Ht H Hn) as (H1 & H2 & H3).
  destruct (hist s n) as [[max l0|o]|] eqn:Eh.
  - destruct (H2 _ _ eq_refl) as (Hm & I & _ & l & El & G). rewrite (sample_reads _ _ _ _ _ El). rewrite (sample_reads _ _ _ _ _ Eh) in E.
    destruct (covers_dec l0 t (proj1 I)) as [C|C].
    2:{ rewrite reads_uncovered in E; [discriminate|split; assumption|assumption]. }
    destruct (X n max l0 (offers n ops) l Eh Hm I G C) as [X1 X2]. rewrite E in X1, X2. split; [exact X1|].
    intros Hw. apply X2. apply covers_some in C; [|lia]. destruct C as (lo & hi & Hlo & _ & B).
    destruct (newest_upto l0 t) as (o & Ho & Lo & Mo); [exists lo; split; [assumption|lia]|]. exists o. split; [assumption|]. split; [assumption|].
    intros y Hy. destruct (later_offers s t n ops y H Hy) as (m & a & st & Hin & Hc & Ey & _ & _).
    destruct (Hw m a st Hin Hc) as (x & Hx & Lx & Bx); [exists lo; split; [assumption|lia]|]. specialize (Mo x Hx Lx). lia.
  - assert (E' : sample_at (run s ops) t n = Some d) by (unfold sample_at in *; rewrite Eh in E; rewrite (H1 _ eq_refl); exact E). auto.
  - unfold sample_at in E. rewrite Eh in E. discriminate.
Qed.

Lemma early_later : forall s t ops, reachable s -> early s -> 0 < t -> later_traffic s t ops -> early (run s ops).
Proof.
  intros s t ops R He Ht H n c x Hc Hx.
  assert (W' : wf (run s ops)) by (apply reachable_wf, reachable_run; [assumption|eapply later_ok; [|eassumption]; lia]).
  destruct (string_dec n NO_PARENT) as [->|Hn]; [rewrite hist_NO_PARENT in Hc by assumption; discriminate|].
  destruct (later_hist s t ops n R Ht H Hn) as (H1 & H2 & H3).
  destruct (hist s n) as [[max l0|o]|] eqn:Eh.
  - destruct (H2 _ _ eq_refl) as (_ & _ & _ & l & El & (_ & G & _)). rewrite El in Hc. injection Hc as <-.
    destruct (G x Hx) as [Hx0|(Ho & _)]; [apply (He n _ x Eh Hx0)|].
    destruct (later_offers s t n ops x H Ho) as (m & a & st & _ & _ & _ & B & _). lia.
  - rewrite (H1 _ eq_refl) in Hc. injection Hc as <-. apply (He n _ x Eh Hx).
  - destruct (H3 eq_refl) as [E|(_ & l & El & (_ & G & _))]; [congruence|]. rewrite El in Hc. injection Hc as <-.
    destruct (G x Hx) as [[]|(Ho & _)]. destruct (later_offers s t n ops x H Ho) as (m & a & st & _ & _ & _ & B & _). lia.
Qed.

Lemma known_later : forall s t ops n, reachable s -> 0 <= t -> later_traffic s t ops -> known s n -> known (run s ops) n.
Proof.
  intros s t ops n R Ht H K. apply known_run_from; [apply reachable_wf; assumption|eapply later_ok; eassumption|auto].
Qed.

Lemma link_sample : forall s s' t n, sample_at s t n = sample_at s' t n -> link s t n = link s' t n.
Proof. intros s s' t n E. unfold link. rewrite E. reflexivity. Qed.

(** Nothing late, nothing pushed out: the same links. *)
Lemma links_same : forall s t ops, reachable s -> 0 < t -> exact_at s t -> later_traffic s t ops ->
  none_behind s t ops -> none_expires s t ops -> forall n, link s t n = link (run s ops) t n.
Proof.
  intros s t ops R Ht X H Nb Ne n. apply link_sample.
  destruct (sample_at s t n) as [d|] eqn:E.
  - symmetry. apply (proj2 (sample_stays s t ops n d R Ht X H E)). intros m a st Hin Hc. rewrite <- Hc. apply (Ne m a st Hin).
  - destruct (nothing_stays s t ops n R Ht H E) as [->|B]; [reflexivity|].
    destruct (string_dec n NO_PARENT) as [->|Hn].
    { unfold sample_at. rewrite hist_NO_PARENT; [reflexivity|]. apply reachable_wf, reachable_run; [assumption|eapply later_ok; [|eassumption]; lia]. }
    destruct (offers n ops) as [|x xs] eqn:Eo.
    + destruct B as (max & l0 & Eh & _). destruct (later_hist s t ops n R Ht H Hn) as (_ & H2 & _).
      assert (Eh' : hist (run s ops) n = hist s n).
      { rewrite hist_run_from; [|apply reachable_wf; assumption|eapply later_ok; [|eassumption]; lia|assumption].
        rewrite Eh, fold_offers by (eapply later_dynamic; eassumption). rewrite Eo. reflexivity. }
      rewrite <- E. unfold sample_at. rewrite Eh'. reflexivity.
    + exfalso. destruct (later_offers s t n ops x H) as (m & a & st & Hin & Hc & _); [rewrite Eo; cbn; auto|].
      apply (Nb m a st Hin). rewrite Hc. exact B.
Qed.

(** Nothing late: no link appears.  Nothing pushed out: no link vanishes. *)
Lemma links_shrink : forall s t ops, reachable s -> 0 < t -> exact_at s t -> later_traffic s t ops ->
  none_behind s t ops -> forall n d, link (run s ops) t n = Some d -> link s t n = Some d.
Proof.
  intros s t ops R Ht X H Nb n d Hd.
  assert (Hs : exists e, sample_at (run s ops) t n = Some e).
  { unfold link in Hd. destruct (sample_at (run s ops) t n); [eauto|discriminate]. }
  destruct Hs as [e He]. destruct (sample_at s t n) as [f|] eqn:E.
  - destruct (proj1 (sample_stays s t ops n f R Ht X H E)) as [E'|E']; [|congruence].
    rewrite <- Hd. apply link_sample. congruence.
  - exfalso. destruct (nothing_stays s t ops n R Ht H E) as [E'|B]; [congruence|].
    assert (Hn : n <> NO_PARENT).
    { intros ->. unfold sample_at in He. rewrite hist_NO_PARENT in He; [discriminate|]. apply reachable_wf, reachable_run; [assumption|eapply later_ok; [|eassumption]; lia]. }
    destruct (offers n ops) as [|x xs] eqn:Eo.
    + destruct B as (max & l0 & Eh & _).
      assert (Eh' : hist (run s ops) n = hist s n).
      { rewrite hist_run_from; [|apply reachable_wf; assumption|eapply later_ok; [|eassumption]; lia|assumption].
        rewrite Eh, fold_offers by (eapply later_dynamic; eassumption). rewrite Eo. reflexivity. }
      unfold sample_at in E, He. rewrite Eh' in He. congruence.
    + destruct (later_offers s t n ops x H) as (m & a & st & Hin & Hc & _); [rewrite Eo; cbn; auto|].
      apply (Nb m a st Hin). rewrite Hc. exact B.
Qed.
Lemma links_grow : forall s t ops, reachable s -> 0 < t -> exact_at s t -> later_traffic s t ops ->
  none_expires s t ops -> forall n d, link s t n = Some d -> link (run s ops) t n = Some d.
Proof.
  intros s t ops R Ht X H Ne n d Hd.
  assert (Hs : exists e, sample_at s t n = Some e).
  { unfold link in Hd. destruct (sample_at s t n); [eauto|discriminate]. }
  destruct Hs as [e E]. rewrite <- Hd. apply link_sample. rewrite E.
  apply (proj2 (sample_stays s t ops n e R Ht X H E)). intros m a st Hin Hc. rewrite <- Hc. apply (Ne m a st Hin).
Qed.
End P.

Lemma exact_real : forall (s : core RS) t, 0 < t -> exact_at s t.
Proof. intros s t Ht n max l0 xs l E Hm I G C. apply kept_read_real; assumption. Qed.
