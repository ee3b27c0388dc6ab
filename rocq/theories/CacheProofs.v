(** * Lemmas about per-frame histories *)
From Coq Require Import ZArith Bool List Lia Sorting.Sorted Sorting.Permutation.
From Verif Require Import RosTime Scalar LinearMath Cache SpecCache.
Import ListNotations.
Open Scope Z_scope.

Section P.
Context {S : Scalar} {F : Type} (feqb : F -> F -> bool).
Notation storage := (storage S F).
Notation cache := (cache S F).
Implicit Types (l r : list storage) (x y z : storage) (t : time) (max : duration) (err : errp).

(** ** time arithmetic *)
Lemma time_add_ok : forall t max, valid_time (t + max) -> time_add t max = Some (t + max).
Proof.
  intros t max [H1 H2]. unfold time_add, valid_timeb.
  rewrite (proj2 (Z.leb_le _ _) H1), (proj2 (Z.ltb_lt _ _) H2). reflexivity.
Qed.
Lemma time_add_inv : forall t max e, time_add t max = Some e -> e = t + max /\ valid_time (t + max).
Proof.
  intros t max e. unfold time_add, valid_timeb.
  destruct (0 <=? t + max) eqn:H1; [|discriminate].
  destruct (t + max <? time_bound) eqn:H2; [|discriminate].
  intros H. inversion H; subst. split; [reflexivity|].
  split; [apply Z.leb_le | apply Z.ltb_lt]; assumption.
Qed.
Lemma time_sub_ok : forall a b, valid_dur (a - b) -> time_sub a b = Some (a - b).
Proof.
  intros a b [H1 H2]. unfold time_sub, valid_durb.
  rewrite (proj2 (Z.leb_le _ _) H1), (proj2 (Z.ltb_lt _ _) H2). reflexivity.
Qed.

(** ** sorted lists *)
Lemma nf_inv : forall x l, newest_first (x :: l) ->
  newest_first l /\ forall y, In y l -> st_stamp y < st_stamp x.
Proof.
  intros x l H. inversion H; subst. split; [assumption|].
  rewrite Forall_forall in *. assumption.
Qed.
Lemma nf_cons : forall x l, newest_first l -> (forall y, In y l -> st_stamp y < st_stamp x) ->
  newest_first (x :: l).
Proof. intros. constructor; [assumption|]. rewrite Forall_forall. assumption. Qed.

Lemma nf_unique_stamp : forall l x y, newest_first l -> In x l -> In y l ->
  st_stamp x = st_stamp y -> x = y.
Proof.
  induction l as [|a l IH]; intros x y H Hx Hy E; [destruct Hx|].
  apply nf_inv in H as [Hl Ha]. destruct Hx as [<-|Hx], Hy as [<-|Hy]; auto.
  - specialize (Ha _ Hy). lia.
  - specialize (Ha _ Hx). lia.
Qed.

Lemma nf_app : forall l1 l2, newest_first (l1 ++ l2) ->
  newest_first l1 /\ newest_first l2 /\
  forall x y, In x l1 -> In y l2 -> st_stamp y < st_stamp x.
Proof.
  induction l1 as [|a l1 IH]; intros l2 H; cbn [app] in *.
  - split; [constructor|]. split; [assumption|]. intros x y [].
  - apply nf_inv in H as [H Ha]. apply IH in H as (H1 & H2 & H3).
    split; [|split; [assumption|]].
    + apply nf_cons; [assumption|]. intros y Hy. apply Ha, in_or_app. auto.
    + intros x y [<-|Hx] Hy; [apply Ha, in_or_app; auto | apply H3; assumption].
Qed.

Lemma nf_app_intro : forall l1 l2, newest_first l1 -> newest_first l2 ->
  (forall x y, In x l1 -> In y l2 -> st_stamp y < st_stamp x) -> newest_first (l1 ++ l2).
Proof.
  induction l1 as [|a l1 IH]; intros l2 H1 H2 H3; cbn [app]; [assumption|].
  apply nf_inv in H1 as [H1 Ha]. apply nf_cons.
  - apply IH; auto. intros; apply H3; cbn; auto.
  - intros y Hy. apply in_app_or in Hy as [Hy|Hy]; [auto|apply H3; cbn; auto].
Qed.

(** Two sorted lists with the same elements are equal. *)
Lemma nf_ext : forall l1 l2, newest_first l1 -> newest_first l2 ->
  (forall x, In x l1 <-> In x l2) -> l1 = l2.
Proof.
  induction l1 as [|a l1 IH]; intros l2 H1 H2 E.
  - destruct l2 as [|b l2]; [reflexivity|]. destruct (proj2 (E b) (or_introl eq_refl)).
  - destruct l2 as [|b l2]; [destruct (proj1 (E a) (or_introl eq_refl))|].
    apply nf_inv in H1 as [H1 Ha]. apply nf_inv in H2 as [H2 Hb].
    assert (a = b) as <-.
    { destruct (proj1 (E a) (or_introl eq_refl)) as [->|Hin]; [reflexivity|].
      destruct (proj2 (E b) (or_introl eq_refl)) as [->|Hin2]; [reflexivity|].
      specialize (Hb _ Hin). specialize (Ha _ Hin2). lia. }
    f_equal. apply IH; auto. intros x. split; intros Hx.
    + destruct (proj1 (E x) (or_intror Hx)) as [->|]; auto. specialize (Ha _ Hx). lia.
    + destruct (proj2 (E x) (or_intror Hx)) as [->|]; auto. specialize (Hb _ Hx). lia.
Qed.

Lemma last_in : forall (l : list storage) x, In (last l x) (x :: l).
Proof.
  induction l as [|a l IH]; intros x; [cbn; auto|].
  destruct l as [|b l]; [cbn; auto|].
  change (last (a :: b :: l) x) with (last (b :: l) x).
  destruct (IH x) as [H|H]; [left; exact H | right; right; exact H].
Qed.
Lemma last_in_tail : forall (l : list storage) x, l <> [] -> In (last l x) l.
Proof.
  induction l as [|a l IH]; intros x H; [congruence|].
  destruct l as [|b l]; [cbn; auto|].
  right. apply (IH x). discriminate.
Qed.
Lemma nf_last_min : forall l x y, newest_first (x :: l) -> In y (x :: l) ->
  st_stamp (last l x) <= st_stamp y.
Proof.
  induction l as [|a l IH]; intros x y H Hy.
  - destruct Hy as [<-|[]]. cbn. lia.
  - apply nf_inv in H as [H Ha].
    assert (E : last (a :: l) x = last l a).
    { clear. revert a x. induction l as [|b l IH]; intros a x; [reflexivity|].
      change (last (a :: b :: l) x) with (last (b :: l) x).
      rewrite (IH b x), (IH b a). reflexivity. }
    rewrite E. destruct Hy as [<-|Hy].
    + specialize (IH a a H (or_introl eq_refl)).
      specialize (Ha a (or_introl eq_refl)). lia.
    + apply IH; assumption.
Qed.
Lemma nf_head_max : forall l x y, newest_first (x :: l) -> In y (x :: l) ->
  st_stamp y <= st_stamp x.
Proof.
  intros l x y H [<-|Hy]; [lia|]. apply nf_inv in H as [_ H]. specialize (H _ Hy). lia.
Qed.

(** ** insertion *)
Lemma insert_sorted_none : forall l x,
  newest_first l -> insert_sorted l x = None -> exists y, In y l /\ st_stamp y = st_stamp x.
Proof.
  induction l as [|a l IH]; intros x H E; [discriminate|]. cbn in E.
  destruct (st_stamp a <=? st_stamp x) eqn:E1.
  - destruct (st_stamp a =? st_stamp x) eqn:E2; [|discriminate].
    apply Z.eqb_eq in E2. exists a. cbn; auto.
  - destruct (insert_sorted l x) eqn:E2; [discriminate|].
    apply nf_inv in H as [H _]. apply IH in E2 as (y & Hy & Ey); [|assumption].
    exists y. cbn; auto.
Qed.
Lemma insert_sorted_some : forall l x l',
  newest_first l -> insert_sorted l x = Some l' ->
  newest_first l' /\ (forall y, In y l' <-> y = x \/ In y l) /\
  (forall y, In y l -> st_stamp y <> st_stamp x).
Proof.
  induction l as [|a l IH]; intros x l' H E.
  - cbn in E. inversion E; subst. split; [|split].
    + apply nf_cons; [constructor|]. intros y [].
    + intros y; cbn; intuition.
    + intros y [].
  - cbn in E. destruct (st_stamp a <=? st_stamp x) eqn:E1.
    + apply Z.leb_le in E1.
      destruct (st_stamp a =? st_stamp x) eqn:E2; [discriminate|]. apply Z.eqb_neq in E2.
      inversion E; subst. split; [|split].
      * apply nf_cons; [assumption|]. intros y Hy.
        pose proof (nf_head_max _ _ _ H Hy). lia.
      * intros y; cbn; intuition.
      * intros y Hy. pose proof (nf_head_max _ _ _ H Hy). lia.
    + apply Z.leb_gt in E1.
      destruct (insert_sorted l x) as [l2|] eqn:E2; [|discriminate].
      inversion E; subst. apply nf_inv in H as [H Ha].
      apply IH in E2 as (N & M & D); [|assumption]. split; [|split].
      * apply nf_cons; [assumption|]. intros y Hy. apply M in Hy as [->|Hy]; [lia|auto].
      * intros y; cbn. rewrite M. intuition.
      * intros y [<-|Hy]; [lia|auto].
Qed.
Lemma insert_sorted_none_iff : forall l x, newest_first l ->
  (insert_sorted l x = None <-> exists y, In y l /\ st_stamp y = st_stamp x).
Proof.
  intros l x H. split; [apply insert_sorted_none; assumption|].
  intros (y & Hy & E). destruct (insert_sorted l x) eqn:E2; [|reflexivity].
  apply insert_sorted_some in E2 as (_ & _ & D); [|assumption]. destruct (D _ Hy E).
Qed.

(** ** pruning *)
Lemma filter_all : forall (p : storage -> bool) l, (forall x, In x l -> p x = true) -> filter p l = l.
Proof.
  induction l as [|a l IH]; intros H; [reflexivity|]. cbn.
  rewrite (H a (or_introl eq_refl)). f_equal. apply IH. intros; apply H; cbn; auto.
Qed.
Lemma filter_rev : forall (p : storage -> bool) l, filter p (rev l) = rev (filter p l).
Proof.
  induction l as [|a l IH]; [reflexivity|]. cbn. rewrite filter_app, IH. cbn.
  destruct (p a); cbn; [reflexivity|apply app_nil_r].
Qed.
Lemma nf_filter : forall (p : storage -> bool) l, newest_first l -> newest_first (filter p l).
Proof.
  induction l as [|a l IH]; intros H; [assumption|]. apply nf_inv in H as [H Ha]. cbn.
  destruct (p a); [|auto]. apply nf_cons; [auto|].
  intros y Hy. apply filter_In in Hy as [Hy _]. auto.
Qed.

Definition keep_pred (latest : time) (max : duration) (y : storage) : bool :=
  latest <=? st_stamp y + max.

Lemma prune_rev_spec : forall r latest max,
  (forall x y r1 r2, r = r1 ++ x :: r2 -> In y r2 -> st_stamp x < st_stamp y) ->
  (forall x, In x r -> 0 <= st_stamp x + max) ->
  (exists x, In x r /\ valid_time (st_stamp x + max) /\ latest <= st_stamp x + max) ->
  prune_rev r latest max = (filter (keep_pred latest max) r, false).
Proof.
  induction r as [|b r IH]; intros latest max Hs Hp (x & Hx & Hv & Hk); [destruct Hx|]. cbn.
  assert (Hb : st_stamp b <= st_stamp x).
  { destruct Hx as [->|Hx]; [lia|]. pose proof (Hs b x [] r eq_refl Hx). lia. }
  rewrite time_add_ok.
  2:{ split; [apply Hp; cbn; auto|]. destruct Hv. lia. }
  unfold keep_pred at 1.
  destruct (st_stamp b + max <? latest) eqn:E.
  - apply Z.ltb_lt in E. rewrite (proj2 (Z.leb_gt latest (st_stamp b + max)) E).
    apply IH.
    + intros u y r1 r2 -> Hy. apply (Hs u y (b :: r1) r2); auto.
    + intros; apply Hp; cbn; auto.
    + exists x. destruct Hx as [->|Hx]; [lia|]. auto.
  - apply Z.ltb_ge in E. rewrite (proj2 (Z.leb_le latest (st_stamp b + max)) E).
    rewrite filter_all; [reflexivity|]. intros u Hu. unfold keep_pred.
    apply Z.leb_le. pose proof (Hs b u [] r eq_refl Hu). lia.
Qed.

Lemma rev_sorted_up : forall l, newest_first l ->
  forall x y r1 r2, rev l = r1 ++ x :: r2 -> In y r2 -> st_stamp x < st_stamp y.
Proof.
  intros l H x y r1 r2 E Hy.
  assert (El : l = rev r2 ++ x :: rev r1).
  { rewrite <- (rev_involutive l), E, rev_app_distr. cbn. rewrite <- app_assoc. reflexivity. }
  rewrite El in H. apply nf_app in H as (_ & _ & H). apply H; [|cbn; auto].
  apply in_rev in Hy. rewrite <- in_rev in *. assumption.
Qed.

Lemma pruneList_spec : forall f l max,
  newest_first (f :: l) -> (forall x, In x (f :: l) -> 0 <= st_stamp x + max) ->
  (exists x, In x (f :: l) /\ valid_time (st_stamp x + max) /\ st_stamp f <= st_stamp x + max) ->
  pruneList (f :: l) max = (filter (keep_pred (st_stamp f) max) (f :: l), false).
Proof.
  intros f l max H Hp (x & Hx & Hv & Hk). unfold pruneList.
  rewrite prune_rev_spec.
  - rewrite filter_rev, rev_involutive. reflexivity.
  - apply rev_sorted_up. assumption.
  - intros u Hu. apply Hp. apply in_rev. assumption.
  - exists x. split; [apply in_rev in Hx; exact Hx|auto].
Qed.

(** Whatever happens (even when an addition throws) pruning only removes a suffix. *)
Lemma prune_rev_suffix : forall r latest max, exists r1, r = r1 ++ fst (prune_rev r latest max).
Proof.
  induction r as [|b r IH]; intros latest max; [exists []; reflexivity|]. cbn.
  destruct (time_add (st_stamp b) max) as [e|]; [|exists []; reflexivity].
  destruct (e <? latest); [|exists []; reflexivity].
  destruct (IH latest max) as [r1 H]. exists (b :: r1). cbn. f_equal. exact H.
Qed.
Lemma pruneList_prefix : forall l max, exists l2, l = fst (pruneList l max) ++ l2.
Proof.
  intros [|f l] max; [exists []; reflexivity|]. unfold pruneList.
  destruct (prune_rev_suffix (rev (f :: l)) (st_stamp f) max) as [r1 H].
  destruct (prune_rev (rev (f :: l)) (st_stamp f) max) as [r th]. cbn [fst] in *.
  exists (rev r1). rewrite <- rev_app_distr, <- H, rev_involutive. reflexivity.
Qed.

(** ** one insertion *)
Definition dyn_list (c : cache) : list storage := match c with Dynamic _ l => l | Static _ => [] end.

Lemma insert_nf : forall max l x, newest_first l ->
  exists l', fst (insertData (Dynamic max l) x) = Dynamic max l' /\ newest_first l'.
Proof.
  intros max l x H. unfold insertData.
  assert (G : exists l', fst (match insert_sorted l x with
        | None => (Dynamic max l, Ok (Rejected ERepeatedData))
        | Some l' => let '(l'', thrown) := pruneList l' max in
            (Dynamic max l'', if thrown then Throw RuntimeError ETimeRange else Ok Inserted)
        end) = Dynamic max l' /\ newest_first l').
  { destruct (insert_sorted l x) as [l1|] eqn:E; [|exists l; auto].
    apply insert_sorted_some in E as (N & _ & _); [|assumption].
    pose proof (pruneList_prefix l1 max) as [l2 Hp].
    destruct (pruneList l1 max) as [l3 th]. cbn in *. exists l3. split; [reflexivity|].
    rewrite Hp in N. apply nf_app in N as (N & _). exact N. }
  destruct l as [|f l0]; [exact G|].
  destruct (time_add (st_stamp x) max) as [e|]; [|eexists; split; [reflexivity|assumption]].
  destruct (e <? st_stamp f); [eexists; split; [reflexivity|assumption]|exact G].
Qed.

Lemma stamps_ok_in : forall max l x, stamps_ok max l -> In x l ->
  valid_time (st_stamp x) /\ valid_time (st_stamp x + max).
Proof. intros max l x H Hx. unfold stamps_ok in H. rewrite Forall_forall in H. auto. Qed.

Definition stamps_nonneg (l : list storage) : Prop := forall x, In x l -> 0 <= st_stamp x.

(** The exact effect of offering one sample whose stamp + max is representable. *)
Lemma insert_cases : forall max l x,
  0 <= max -> newest_first l -> stamps_nonneg (x :: l) -> valid_time (st_stamp x + max) ->
  (exists y, In y l /\ st_stamp x + max < st_stamp y /\
     insertData (Dynamic max l) x = (Dynamic max l, Ok (Rejected EOldData)))
  \/ ((forall y, In y l -> st_stamp y <= st_stamp x + max) /\
      (exists y, In y l /\ st_stamp y = st_stamp x) /\
      insertData (Dynamic max l) x = (Dynamic max l, Ok (Rejected ERepeatedData)))
  \/ ((forall y, In y l -> st_stamp y <= st_stamp x + max) /\
      (forall y, In y l -> st_stamp y <> st_stamp x) /\
      exists l', insertData (Dynamic max l) x = (Dynamic max l', Ok Inserted) /\
        newest_first l' /\
        forall y, In y l' <-> ((y = x \/ In y l) /\
                               forall z, z = x \/ In z l -> st_stamp z <= st_stamp y + max)).
Proof.
  intros max l x Hm H Hp Hv.
  assert (Hins : (forall y, In y l -> st_stamp y <= st_stamp x + max) ->
      (exists y, In y l /\ st_stamp y = st_stamp x) /\ insert_sorted l x = None \/
      (forall y, In y l -> st_stamp y <> st_stamp x) /\
      exists l1 l', insert_sorted l x = Some l1 /\ pruneList l1 max = (l', false) /\
        newest_first l' /\
        forall y, In y l' <-> ((y = x \/ In y l) /\
                               forall z, z = x \/ In z l -> st_stamp z <= st_stamp y + max)).
  { intros W. destruct (insert_sorted l x) as [l1|] eqn:E.
    - right. apply insert_sorted_some in E as (N & M & D); [|assumption].
      split; [assumption|]. destruct l1 as [|f l1].
      { destruct (proj2 (M x) (or_introl eq_refl)). }
      exists (f :: l1). eexists. split; [reflexivity|]. split.
      + apply pruneList_spec; [assumption| |].
        * intros y Hy.
          assert (Hy' : In y (x :: l)) by (apply M in Hy as [->|Hy]; cbn; auto).
          specialize (Hp _ Hy'). lia.
        * exists x. split; [apply M; auto|]. split; [assumption|].
          destruct (proj1 (M f) (or_introl eq_refl)) as [->|Hf]; [lia|auto].
      + split; [apply nf_filter; assumption|].
        intros y. rewrite filter_In, M. unfold keep_pred. rewrite Z.leb_le.
        assert (Hf : forall z, z = x \/ In z l -> st_stamp z <= st_stamp f).
        { intros z Hz. apply M in Hz. apply (nf_head_max _ _ _ N Hz). }
        split; intros [Ha Hb]; (split; [assumption|]).
        * intros z Hz. specialize (Hf _ Hz). lia.
        * apply Hb. apply M. left; reflexivity.
    - left. split; [|reflexivity]. apply insert_sorted_none; assumption. }
  destruct l as [|f l0].
  - right; right. destruct Hins as [[(y & [] & _) _] | (D & l1 & l' & E1 & E2 & E3)]; [intros y []|].
    split; [intros y []|]. split; [assumption|]. exists l'. split; [|assumption].
    unfold insertData. rewrite E1, E2. reflexivity.
  - unfold insertData at 1 2 3.
    rewrite (time_add_ok (st_stamp x) max Hv).
    destruct (st_stamp x + max <? st_stamp f) eqn:E.
    + apply Z.ltb_lt in E. left. exists f. cbn; auto.
    + apply Z.ltb_ge in E. right.
      assert (W : forall y, In y (f :: l0) -> st_stamp y <= st_stamp x + max).
      { intros y Hy. pose proof (nf_head_max _ _ _ H Hy). lia. }
      destruct (Hins W) as [[Hr E1] | (D & l1 & l' & E1 & E2 & E3)].
      * left. split; [assumption|]. split; [assumption|]. rewrite E1. reflexivity.
      * right. split; [assumption|]. split; [assumption|]. exists l'. rewrite E1, E2.
        split; [reflexivity|assumption].
Qed.

(** ... and of one whose stamp + max is not: std::runtime_error, with the sample already
    stored if the history was empty. *)
Lemma insert_overflow : forall max l x,
  0 <= max -> ~ valid_time (st_stamp x + max) ->
  insertData (Dynamic max l) x =
    (Dynamic max (match l with [] => [x] | _ => l end), Throw RuntimeError ETimeRange).
Proof.
  intros max l x Hm Hv.
  assert (E : time_add (st_stamp x) max = None).
  { destruct (time_add (st_stamp x) max) eqn:E; [|reflexivity].
    apply time_add_inv in E. tauto. }
  destruct l as [|f l]; unfold insertData; cbn; rewrite E; reflexivity.
Qed.

(** The invariant of every history, with no bound on stamps except that they are times. *)
Definition cache_inv (max : duration) (l : list storage) : Prop :=
  newest_first l /\ within_window max l /\ stamps_nonneg l.

Lemma insert_inv : forall max l x, 0 <= max -> 0 <= st_stamp x -> cache_inv max l ->
  exists l', fst (insertData (Dynamic max l) x) = Dynamic max l' /\ cache_inv max l' /\
             forall y, In y l' -> y = x \/ In y l.
Proof.
  intros max l x Hm Hx (N & W & P).
  destruct (valid_timeb (st_stamp x + max)) eqn:Ev.
  - unfold valid_timeb in Ev. apply andb_prop in Ev as [E1 E2].
    apply Z.leb_le in E1. apply Z.ltb_lt in E2.
    assert (P' : stamps_nonneg (x :: l)) by (intros y [<-|Hy]; auto).
    destruct (insert_cases max l x Hm N P' (conj E1 E2)) as [(y & Hy & Lt & ->) | [(_ & _ & ->) | (W' & D & l' & -> & N' & M)]]; cbn [fst].
    + exists l. repeat split; auto.
    + exists l. repeat split; auto.
    + exists l'. split; [reflexivity|]. split; [split; [assumption|split]|].
      * intros u v Hu Hv. apply M in Hu as [_ Hu]. apply M in Hv as [Hv _]. auto.
      * intros y Hy. apply M in Hy as [[->|Hy] _]; auto.
      * intros y Hy. apply M in Hy as [Hy _]. exact Hy.
  - assert (Hv : ~ valid_time (st_stamp x + max)).
    { intros [H1 H2]. unfold valid_timeb in Ev.
      rewrite (proj2 (Z.leb_le _ _) H1), (proj2 (Z.ltb_lt _ _) H2) in Ev. discriminate. }
    rewrite insert_overflow by assumption. cbn [fst]. destruct l as [|f l].
    + exists [x]. split; [reflexivity|]. split; [split; [|split]|].
      * apply nf_cons; [constructor|intros y []].
      * intros u v [<-|[]] [<-|[]]. lia.
      * intros y [<-|[]]. assumption.
      * intros y [<-|[]]. auto.
    + exists (f :: l). repeat split; auto.
Qed.

Lemma run_cache_inv : forall max ops, 0 <= max ->
  (forall x, In (Offer x) ops -> 0 <= st_stamp x) ->
  exists l, run_cache (Dynamic max []) ops = Dynamic max l /\ cache_inv max l.
Proof.
  intros max ops Hm. induction ops as [|o ops IH] using rev_ind; intros Hops.
  - exists []. split; [reflexivity|]. split; [constructor|]. split; [intros x y []|intros x []].
  - destruct IH as (l & E & I). { intros x Hx. apply Hops, in_or_app; auto. }
    unfold run_cache in *. rewrite fold_left_app, E. cbn [fold_left].
    destruct o as [x|].
    + destruct (insert_inv max l x Hm) as (l' & E' & I' & _); auto.
      { apply Hops, in_or_app; cbn; auto. }
      exists l'. auto.
    + exists []. split; [reflexivity|]. split; [constructor|]. split; [intros x y []|intros x []].
Qed.

(** ** whole histories *)
Lemma offer_all_app : forall (c : cache) xs ys,
  offer_all c (xs ++ ys) = offer_all (offer_all c xs) ys.
Proof. intros. unfold offer_all. apply fold_left_app. Qed.

Lemma stamps_ok_app : forall max l1 l2,
  stamps_ok max (l1 ++ l2) <-> stamps_ok max l1 /\ stamps_ok max l2.
Proof. intros. unfold stamps_ok. apply Forall_app. Qed.

Lemma retained_in : forall max xs x, retained max xs x -> In x xs.
Proof. intros max xs x [(b & a & -> & _) _]. apply in_or_app. cbn; auto. Qed.

(** Some offered sample is newest; it (or an earlier one with its stamp) is retained. *)
Lemma exists_newest : forall xs : list storage, xs <> [] ->
  exists m, In m xs /\ forall y, In y xs -> st_stamp y <= st_stamp m.
Proof.
  induction xs as [|a xs IH]; intros H; [congruence|].
  destruct xs as [|b xs].
  - exists a. split; [cbn; auto|]. intros y [<-|[]]. lia.
  - destruct IH as (m & Hm & Hmax); [discriminate|].
    destruct (Z_le_gt_dec (st_stamp m) (st_stamp a)).
    + exists a. split; [cbn; auto|]. intros y [<-|Hy]; [lia|]. specialize (Hmax _ Hy). lia.
    + exists m. split; [cbn; auto|]. intros y [<-|Hy]; [lia|auto].
Qed.
Lemma first_with_stamp : forall (xs : list storage) m, In m xs ->
  exists b x a, xs = b ++ x :: a /\ st_stamp x = st_stamp m /\
    forall y, In y b -> st_stamp y <> st_stamp m.
Proof.
  induction xs as [|a xs IH]; intros m Hm; [destruct Hm|].
  destruct (Z.eq_dec (st_stamp a) (st_stamp m)) as [E|E].
  - exists [], a, xs. split; [reflexivity|]. split; [assumption|]. intros y [].
  - destruct Hm as [->|Hm]; [congruence|].
    destruct (IH m Hm) as (b & x & a' & -> & E2 & D).
    exists (a :: b), x, a'. split; [reflexivity|]. split; [assumption|].
    intros y [<-|Hy]; auto.
Qed.

Definition first_in (xs : list storage) (z : storage) : Prop :=
  exists b a, xs = b ++ z :: a /\ forall y, In y b -> st_stamp y <> st_stamp z.

Lemma first_snoc : forall xs x z,
  first_in (xs ++ [x]) z <-> first_in xs z \/ (z = x /\ forall y, In y xs -> st_stamp y <> st_stamp x).
Proof.
  intros xs x z. split.
  - intros (b & a & E & D). destruct a as [|w a _] using rev_ind.
    + apply app_inj_tail in E as [-> ->]. right. auto.
    + left. change (z :: a ++ [w]) with ((z :: a) ++ [w]) in E. rewrite app_assoc in E.
      apply app_inj_tail in E as [-> _]. exists b, a. auto.
  - intros [(b & a & -> & D) | [-> D]].
    + exists b, (a ++ [x]). split; [rewrite <- app_assoc; reflexivity|assumption].
    + exists xs, []. auto.
Qed.

Lemma offer_all_retained : forall max xs,
  0 <= max -> stamps_ok max xs ->
  exists l, offer_all (Dynamic max []) xs = Dynamic max l /\ newest_first l /\
            forall x, In x l <-> retained max xs x.
Proof.
  intros max xs Hm. induction xs as [|x xs IH] using rev_ind; intros Hv.
  - exists []. split; [reflexivity|]. split; [constructor|].
    intros x. split; [intros []|]. intros H. apply retained_in in H. destruct H.
  - apply stamps_ok_app in Hv as [Hv Hx].
    destruct (IH Hv) as (l & E & N & R). rewrite offer_all_app, E. cbn [offer_all fold_left].
    assert (Hxv : valid_time (st_stamp x) /\ valid_time (st_stamp x + max))
      by (inversion Hx; assumption).
    assert (Hl : stamps_nonneg (x :: l)).
    { intros y [<-|Hy]; [apply Hxv|]. unfold stamps_ok in Hv. rewrite Forall_forall in Hv.
      apply R, retained_in in Hy. apply (Hv _ Hy). }
    assert (Hbound : forall z, In z xs -> exists w, In w l /\ st_stamp z <= st_stamp w).
    { intros z Hz. destruct (exists_newest xs) as (m & Hmi & Hmax).
      { intros ->. destruct Hz. }
      destruct (first_with_stamp xs m Hmi) as (b & w & a & Exs & Ew & D).
      exists w. split; [|rewrite Ew; auto]. apply R. split.
      - exists b, a. split; [assumption|]. rewrite Ew. exact D.
      - intros y Hy. specialize (Hmax _ Hy). lia. }
    assert (Rs : forall z, retained max (xs ++ [x]) z <->
       (first_in xs z \/ (z = x /\ forall y, In y xs -> st_stamp y <> st_stamp x)) /\
       (forall y, In y xs -> st_stamp y <= st_stamp z + max) /\ st_stamp x <= st_stamp z + max).
    { intros z. unfold retained. change (exists before after, xs ++ [x] = before ++ z :: after /\
        forall y, In y before -> st_stamp y <> st_stamp z) with (first_in (xs ++ [x]) z).
      rewrite first_snoc. split; intros [Ha Hb]; (split; [assumption|]).
      - split; [intros y Hy|]; apply Hb, in_or_app; cbn; auto.
      - intros y Hy. destruct Hb. apply in_app_or in Hy as [Hy|[<-|[]]]; auto. }
    assert (R' : forall z, In z l <-> first_in xs z /\
       (forall y, In y xs -> st_stamp y <= st_stamp z + max)) by (intros z; apply R).
    destruct (insert_cases max l x Hm N Hl (proj2 Hxv)) as [(y & Hy & Lt & ->) | [(W & (y & Hy & Ey) & ->) | (W & D & l' & -> & N' & M)]]; cbn [fst].
    + exists l. split; [reflexivity|]. split; [assumption|]. intros z. rewrite Rs, R'.
      assert (Hyx : In y xs) by (apply R, retained_in in Hy; exact Hy). split.
      * intros [Hf B]. split; [auto|]. split; [assumption|]. specialize (B _ Hyx). lia.
      * intros [[Hf|[-> _]] [B _]]; [auto|]. specialize (B _ Hyx). lia.
    + exists l. split; [reflexivity|]. split; [assumption|]. intros z. rewrite Rs, R'.
      assert (Hyx : In y xs) by (apply R, retained_in in Hy; exact Hy). split.
      * intros [Hf B]. split; [auto|]. split; [assumption|]. rewrite <- Ey. auto.
      * intros [[Hf|[-> D]] [B _]]; [auto|]. destruct (D _ Hyx Ey).
    + exists l'. split; [reflexivity|]. split; [assumption|]. intros z. rewrite M, Rs, R'.
      assert (Dx : forall w, In w xs -> st_stamp w <> st_stamp x).
      { intros w Hw Ew.
        destruct (first_with_stamp xs w Hw) as (b & v & a & Exs & Ev & Db).
        assert (Hvl : In v l).
        { apply R'. split; [exists b, a; split; [assumption|rewrite Ev; exact Db]|].
          intros u Hu. destruct (Hbound _ Hu) as (k & Hk & Lk). specialize (W _ Hk). lia. }
        apply (D _ Hvl). lia. }
      split.
      * intros [[->|[Hf B]] B2].
        -- split; [right; auto|]. split; [|apply B2; auto].
           intros u Hu. destruct (Hbound _ Hu) as (k & Hk & Lk). specialize (W _ Hk). lia.
        -- split; [auto|]. split; [assumption|apply B2; auto].
      * intros [[Hf|[-> _]] [B B2]].
        -- split; [auto|]. intros k [->|Hk]; [assumption|].
           apply B. apply R, retained_in in Hk. exact Hk.
        -- split; [auto|]. intros k [->|Hk]; [lia|]. apply W; assumption.
Qed.
End P.
