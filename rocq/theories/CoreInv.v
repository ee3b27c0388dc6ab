(** * Invariants of reachable buffers *)
From Coq Require Import ZArith Bool List String Lia Arith.
From Verif Require Import RosTime Scalar LinearMath Cache SpecCache CacheProofs CacheQueries
  BufferCore SpecCore.
Import ListNotations.
Open Scope Z_scope.

Section P.
Context {S : Scalar}.
Notation storage := (storage S nat).
Notation cache := (cache S nat).
Notation core := (core S).
Implicit Types (s : core) (c : cache) (x : storage) (n : string) (i : nat).


Definition cache_wf (s : core) (i : nat) (c : cache) : Prop :=
  cache_ok c /\
  match c with Dynamic max _ => max = c_cache_time s | Static _ => True end /\
  forall x, In x (samples c) -> (st_frame x < List.length (c_rev s))%nat /\ st_child x = i.

Record wf (s : core) : Prop := {
  wf_len : List.length (c_frames s) = List.length (c_rev s);
  wf_root : nth_error (c_rev s) 0 = Some NO_PARENT;
  wf_ids : forall n i, assoc n (c_ids s) = Some i <-> nth_error (c_rev s) i = Some n;
  wf_ct : 0 <= c_cache_time s < dur_bound;
  wf_cache : forall i c, getFrame s i = Some c -> cache_wf s i c
}.

(** ** vectors *)
Lemma list_set_length : forall {A} (l : list A) (i : nat) (x : A), List.length (list_set l i x) = List.length l.
Proof. induction l as [|a l IH]; intros [|i] x; cbn; auto. Qed.
Lemma list_set_same : forall {A} (l : list A) (i : nat) (x : A), (i < List.length l)%nat ->
  nth_error (list_set l i x) i = Some x.
Proof. induction l as [|a l IH]; intros [|i] x H; cbn in *; try lia; auto. apply IH. lia. Qed.
Lemma list_set_other : forall {A} (l : list A) (i j : nat) (x : A), i <> j ->
  nth_error (list_set l i x) j = nth_error l j.
Proof.
  induction l as [|a l IH]; intros [|i] [|j] x H; cbn; auto; try congruence.
Qed.
Lemma nth_error_app_last : forall {A} (l : list A) (x : A), nth_error (l ++ [x]) (List.length l) = Some x.
Proof. intros. rewrite nth_error_app2 by lia. rewrite Nat.sub_diag. reflexivity. Qed.
Lemma nth_error_lt : forall {A} (l : list A) (i : nat) (x : A), nth_error l i = Some x -> (i < List.length l)%nat.
Proof. intros. apply nth_error_Some. congruence. Qed.

Lemma nth_error_snoc : forall {A} (l : list A) (x : A) i (y : A),
  nth_error (l ++ [x]) i = Some y <-> nth_error l i = Some y \/ (i = List.length l /\ y = x).
Proof.
  intros A l x i y. destruct (lt_eq_lt_dec i (List.length l)) as [[H| ->]|H].
  - rewrite nth_error_app1 by assumption. split; [auto|]. intros [E|[E _]]; [assumption|lia].
  - rewrite nth_error_app_last. rewrite (proj2 (nth_error_None l (List.length l))) by lia.
    split; intros E; [inversion E; auto|]. destruct E as [E|[_ ->]]; [discriminate|reflexivity].
  - rewrite (proj2 (nth_error_None (l ++ [x]) i)) by (rewrite app_length; cbn; lia).
    rewrite (proj2 (nth_error_None l i)) by lia. split; [discriminate|]. intros [E|[E _]]; [discriminate|lia].
Qed.

Lemma getFrame_lt : forall s i c, getFrame s i = Some c -> (i < List.length (c_frames s))%nat.
Proof.
  intros s i c. unfold getFrame. destruct (nth_error (c_frames s) i) eqn:E; [|discriminate].
  intros _. apply nth_error_lt in E. assumption.
Qed.

Lemma getFrame_setFrame_same : forall s i c, (i < List.length (c_frames s))%nat ->
  getFrame (setFrame s i c) i = Some c.
Proof. intros s i c H. unfold getFrame, setFrame. cbn. rewrite list_set_same by assumption. reflexivity. Qed.
Lemma getFrame_setFrame_other : forall s i j c, i <> j ->
  getFrame (setFrame s i c) j = getFrame s j.
Proof. intros s i j c H. unfold getFrame, setFrame. cbn. rewrite list_set_other by assumption. reflexivity. Qed.

(** ** registering a name *)
Lemma assoc_cons : forall n m i l, assoc n ((m, i) :: l) = if String.eqb n m then Some i else assoc n l.
Proof. reflexivity. Qed.

Lemma wf_id_lt : forall s n i, wf s -> assoc n (c_ids s) = Some i -> (i < List.length (c_frames s))%nat.
Proof.
  intros s n i W H. apply (wf_ids s W) in H. apply nth_error_lt in H. rewrite (wf_len s W). assumption.
Qed.

Lemma insert_name_spec : forall s n s' i, wf s -> lookupOrInsertFrameNumber s n = (s', i) ->
  wf s' /\ nth_error (c_rev s') i = Some n /\ (i < List.length (c_frames s'))%nat /\
  (forall j, getFrame s' j = getFrame s j) /\
  c_cache_time s' = c_cache_time s /\ c_auth s' = c_auth s /\
  (exists suffix, c_rev s' = c_rev s ++ suffix /\ (suffix = [] \/ (suffix = [n] /\ assoc n (c_ids s) = None))) /\
  (forall m, assoc m (c_ids s') = if String.eqb m n then Some i else assoc m (c_ids s)).
Proof.
  intros s n s' i W E. unfold lookupOrInsertFrameNumber in E.
  destruct (assoc n (c_ids s)) as [j|] eqn:Ea; inversion E; subst; clear E.
  - split; [assumption|]. split; [apply (wf_ids _ W); assumption|].
    split; [apply (wf_id_lt s' n); assumption|]. split; [reflexivity|]. split; [reflexivity|].
    split; [reflexivity|]. split; [exists []; rewrite app_nil_r; auto|].
    intros m. destruct (String.eqb m n) eqn:En; [|reflexivity].
    apply String.eqb_eq in En. subst. assumption.
  - assert (G : forall j, getFrame {| c_frames := c_frames s ++ [None]; c_ids := (n, List.length (c_frames s)) :: c_ids s;
        c_rev := c_rev s ++ [n]; c_auth := c_auth s; c_cache_time := c_cache_time s |} j = getFrame s j).
    { intros j. unfold getFrame. cbn. destruct (lt_eq_lt_dec j (List.length (c_frames s))) as [[H| ->]|H].
      - rewrite nth_error_app1 by assumption. reflexivity.
      - rewrite nth_error_app_last. rewrite (proj2 (nth_error_None (c_frames s) _)) by lia. reflexivity.
      - rewrite (proj2 (nth_error_None (c_frames s ++ [None]) j)) by (rewrite app_length; cbn; lia).
        rewrite (proj2 (nth_error_None (c_frames s) j)) by lia. reflexivity. }
    split; [|split; [|split; [|split; [exact G|split; [reflexivity|split; [reflexivity|split]]]]]].
    + constructor; cbn [c_frames c_rev c_ids c_cache_time].
      * rewrite !app_length, (wf_len s W). reflexivity.
      * rewrite nth_error_app1; [apply (wf_root s W)|].
        pose proof (nth_error_lt _ _ _ (wf_root s W)). assumption.
      * intros m j. rewrite assoc_cons, nth_error_snoc.
        destruct (String.eqb m n) eqn:En.
        -- apply String.eqb_eq in En. subst m. rewrite (wf_len s W). split.
           ++ intros H. inversion H. auto.
           ++ intros [H|[-> _]]; [|reflexivity]. apply (wf_ids s W) in H. congruence.
        -- apply String.eqb_neq in En. rewrite (wf_ids s W). split; [auto|].
           intros [H|[_ H]]; [assumption|congruence].
      * apply (wf_ct s W).
      * intros j c Hc. rewrite G in Hc. apply (wf_cache s W) in Hc as (H1 & H2 & H3).
        split; [assumption|]. split; [assumption|]. cbn [c_rev]. intros x Hx.
        rewrite app_length. destruct (H3 x Hx). split; [lia|assumption].
    + cbn. rewrite (wf_len s W). apply nth_error_app_last.
    + cbn. rewrite app_length. cbn. lia.
    + exists [n]. cbn. auto.
    + intros m. reflexivity.
Qed.

(** ** one insertion into a cache *)
Lemma insert_cache_ok : forall c x, cache_ok c \/ c = Static None -> 0 <= st_stamp x ->
  cache_ok (fst (insertData c x)) /\
  (forall y, In y (samples (fst (insertData c x))) -> y = x \/ In y (samples c)) /\
  same_kind c (fst (insertData c x)).
Proof.
  intros [max l|o] x Hc Hx.
  - destruct Hc as [[Hm I]|H]; [|discriminate].
    destruct (insert_inv max l x) as (l' & -> & I' & Hin); [lia|assumption|assumption|].
    cbn. auto.
  - cbn. split; [eauto|]. split; [|trivial]. intros y [<-|[]]. auto.
Qed.

Lemma insert_static : forall o x, insertData (Static o) x = (Static (Some x), @Ok ins_result Inserted).
Proof. reflexivity. Qed.

(** insertData never has undefined behaviour. *)
Lemma insert_no_ub : forall c x, snd (insertData c x) <> UB.
Proof.
  intros [max l|o] x; [|discriminate]. unfold insertData. cbn.
  assert (G : forall l0, snd (match insert_sorted l0 x with
      | Some l' => let '(l'', thrown) := pruneList l' max in
                   (Dynamic max l'', if thrown then Throw RuntimeError ETimeRange else Ok Inserted)
      | None => (Dynamic max l0, Ok (Rejected ERepeatedData)) end) <> UB).
  { intros l0. destruct (insert_sorted l0 x); [|discriminate].
    destruct (pruneList l1 max) as [l'' []]; discriminate. }
  destruct l as [|f l]; [apply G|].
  destruct (time_add (st_stamp x) max) as [e|]; [|discriminate].
  destruct (e <? st_stamp f); [discriminate|]. apply G.
Qed.

Lemma wf_setFrame : forall s i c, wf s -> cache_wf s i c -> wf (setFrame s i c).
Proof.
  intros s i c W Hc. constructor; cbn [setFrame c_frames c_rev c_ids c_cache_time].
  - rewrite list_set_length. apply (wf_len s W).
  - apply (wf_root s W).
  - apply (wf_ids s W).
  - apply (wf_ct s W).
  - intros j c' Hj. destruct (Nat.eq_dec i j) as [->|D].
    + assert (L : (j < List.length (c_frames s))%nat).
      { apply getFrame_lt in Hj. cbn in Hj. rewrite list_set_length in Hj. assumption. }
      change (getFrame (setFrame s j c) j = Some c') in Hj.
      rewrite getFrame_setFrame_same in Hj by assumption. inversion Hj; subst. exact Hc.
    + change (getFrame (setFrame s i c) j = Some c') in Hj.
      rewrite getFrame_setFrame_other in Hj by assumption. apply (wf_cache s W) in Hj. exact Hj.
Qed.

Lemma wf_setAuthority : forall s i a, wf s -> wf (setAuthority s i a).
Proof. intros s i a [H1 H2 H3 H4 H5]. constructor; assumption. Qed.

Lemma wf_init : forall ct, 0 <= ct < dur_bound -> wf (init_core ct).
Proof.
  intros ct H. constructor; cbn; auto.
  - intros n i. destruct (String.eqb n NO_PARENT) eqn:E.
    + apply String.eqb_eq in E. subst. split.
      * intros H1. inversion H1. reflexivity.
      * destruct i as [|[|i]]; cbn; [auto|discriminate|discriminate].
    + apply String.eqb_neq in E. split; [discriminate|].
      destruct i as [|[|i]]; cbn; [congruence|discriminate|discriminate].
  - intros [|[|i]] c; cbn; discriminate.
Qed.

Lemma getFrame_clear : forall s i,
  getFrame (clear s) i = if Nat.eqb i 0 then getFrame s 0 else option_map clearList (getFrame s i).
Proof.
  intros s i. unfold getFrame, clear. cbn. destruct (c_frames s) as [|f0 fs].
  - destruct i; reflexivity.
  - destruct i as [|i]; [reflexivity|]. cbn. rewrite nth_error_map.
    destruct (nth_error fs i) as [[c|]|]; reflexivity.
Qed.

Lemma wf_clear : forall s, wf s -> wf (clear s).
Proof.
  intros s W. constructor; cbn.
  - rewrite <- (wf_len s W). destruct (c_frames s); cbn; [reflexivity|]. rewrite map_length. reflexivity.
  - apply (wf_root s W).
  - apply (wf_ids s W).
  - apply (wf_ct s W).
  - intros i c Hc. rewrite getFrame_clear in Hc. destruct (Nat.eqb i 0) eqn:E.
    + apply Nat.eqb_eq in E. subst. apply (wf_cache s W) in Hc. exact Hc.
    + destruct (getFrame s i) as [c0|] eqn:E0; [|discriminate]. inversion Hc; subst; clear Hc.
      apply (wf_cache s W) in E0 as (H1 & H2 & H3).
      destruct c0 as [max l|o]; cbn.
      * split; [|split; [assumption|intros x []]]. split; [apply H1|].
        split; [constructor|]. split; [intros x y []|intros x []].
      * split; [exact H1|]. split; [trivial|exact H3].
Qed.
End P.
