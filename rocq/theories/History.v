(** * What a whole history of calls leaves for each frame name *)
From Coq Require Import ZArith Bool List String Lia Arith.
From Verif Require Import RosTime Scalar LinearMath Cache SpecCache CacheProofs CacheQueries CacheTheorems
  BufferCore SpecCore CoreInv Naturality CoreSet Bridge.
Import ListNotations.
Open Scope Z_scope.

Section P.
Context {S : Scalar}.
Notation core := (core S).
Notation ncache := (cache S string).
Implicit Types (s : core) (m : tmsg S) (n : string) (ops : list (core_op S)).

Lemma step_set : forall s m a st, step s (OSet m a st) = fst (setTransform s m a st).
Proof. reflexivity. Qed.

Lemma op_ok_stamp : forall m a st, op_ok (OSet m a st) -> 0 <= tm_stamp m.
Proof. intros m a st [H _]. exact H. Qed.

Lemma run_ct : forall ops s, Forall op_ok ops -> wf s -> c_cache_time (run s ops) = c_cache_time s.
Proof.
  induction ops as [|o ops IH]; intros s Hf W; [reflexivity|]. inversion Hf; subst. cbn [run fold_left].
  change (fold_left step ops (step s o)) with (run (step s o) ops). rewrite IH; [|assumption|apply wf_step; assumption].
  destruct o as [m a st|]; [|reflexivity]. cbn [step].
  destruct (setTransform_error (strip_msg m)) eqn:E; [rewrite setTransform_rejects by assumption; reflexivity|].
  destruct (setTransform_effect s m a st W (op_ok_stamp _ _ _ H1) E) as (s' & ci & pi & H & _ & _ & _ & _ & _ & _ & _ & Ct).
  rewrite H. exact Ct.
Qed.

Lemma hist_step : forall s n o, wf s -> op_ok o -> n <> NO_PARENT ->
  hist (step s o) n = frame_step (c_cache_time s) n (hist s n) o.
Proof.
  intros s n o W Ho Hn. destruct o as [m a st|]; cbn [step frame_step].
  - destruct (bad_message (strip_msg m)) eqn:E; unfold bad_message in E.
    + rewrite setTransform_rejects by assumption. reflexivity.
    + destruct (hist_setTransform s m a st W (op_ok_stamp _ _ _ Ho) E) as [_ H]. rewrite H.
      rewrite String.eqb_sym. destruct (String.eqb (tm_child (strip_msg m)) n) eqn:En; [|reflexivity].
      apply String.eqb_eq in En. subst n. rewrite (proj2 (String.eqb_neq _ _) Hn). reflexivity.
  - apply hist_clear. assumption.
Qed.

Lemma hist_run_from : forall ops s n, wf s -> Forall op_ok ops -> n <> NO_PARENT ->
  hist (run s ops) n = fold_left (frame_step (c_cache_time s) n) ops (hist s n).
Proof.
  induction ops as [|o ops IH]; intros s n W Hf Hn; [reflexivity|]. inversion Hf; subst.
  change (run s (o :: ops)) with (run (step s o) ops). rewrite IH; auto; [|apply wf_step; assumption].
  cbn [fold_left]. rewrite hist_step by assumption. f_equal.
  pose proof (run_ct [o] s (Forall_cons _ H1 (Forall_nil _)) W) as E. cbn in E. rewrite E. reflexivity.
Qed.

Lemma hist_NO_PARENT : forall s, wf s -> hist s NO_PARENT = None.
Proof.
  intros s W. unfold hist. rewrite (proj2 (assoc_NO_PARENT s NO_PARENT W) eq_refl). reflexivity.
Qed.

Lemma frame_fold_filter : forall ct n ops h,
  fold_left (frame_step ct n) ops h = fold_left (frame_step ct n) (filter (about n) ops) h.
Proof.
  intros ct n. induction ops as [|o ops IH]; intros h; [reflexivity|]. cbn [fold_left filter].
  destruct (about n o) eqn:E; [cbn [fold_left]; apply IH|]. rewrite <- IH. f_equal.
  destruct o as [m a st|]; [|discriminate]. cbn in *. destruct (bad_message (strip_msg m)); [reflexivity|].
  cbn in E. change (tm_child (strip_msg m)) with (stripSlash (tm_child m)). rewrite E. reflexivity.
Qed.

(** ** names *)
Lemma known_step : forall s n o, wf s -> op_ok o ->
  (known s n \/ (n <> NO_PARENT /\ mentions n o) <-> known (step s o) n).
Proof.
  intros s n o W Ho. destruct o as [m a st|]; cbn [step mentions].
  2:{ unfold known, frameExists. cbn. tauto. }
  destruct (bad_message (strip_msg m)) eqn:E; unfold bad_message in E.
  - rewrite setTransform_rejects by assumption. cbn. split; [intros [H|(_ & H & _)]; [assumption|discriminate]|auto].
  - destruct (setTransform_effect s m a st W (op_ok_stamp _ _ _ Ho) E) as (s' & ci & pi & H & W' & Ac & Ap & Ao & (suf & Suf) & _).
    rewrite H. cbn [fst]. unfold known, frameExists. cbn [tm_child tm_frame strip_msg] in *.
    split.
    + intros [[H1 H2]|(H2 & _ & [<-|<-])].
      * split; [|assumption]. destruct (assoc n (c_ids s)) as [j|] eqn:Ea; [|discriminate].
        apply (wf_ids s W) in Ea.
        assert (X : nth_error (c_rev s') j = Some n) by (rewrite Suf, nth_error_app1; [assumption|apply nth_error_lt in Ea; assumption]).
        apply (wf_ids s' W') in X. rewrite X. reflexivity.
      * cbn in Ac. rewrite Ac. auto.
      * cbn in Ap. rewrite Ap. auto.
    + intros [H1 H2]. destruct (string_dec n (stripSlash (tm_child m))) as [->|N1]; [right; auto|].
      destruct (string_dec n (stripSlash (tm_frame m))) as [->|N2]; [right; auto|].
      left. rewrite Ao in H1 by assumption. auto.
Qed.

Lemma known_init : forall ct n, ~ @known S (init_core ct) n.
Proof.
  intros ct n [H1 H2]. unfold frameExists in H1. cbn in H1. destruct (String.eqb n NO_PARENT) eqn:E; [|discriminate].
  apply String.eqb_eq in E. congruence.
Qed.

Lemma known_run_from : forall ops s n, wf s -> Forall op_ok ops ->
  (known (run s ops) n <-> known s n \/ (n <> NO_PARENT /\ Exists (mentions n) ops)).
Proof.
  induction ops as [|o ops IH]; intros s n W Hf.
  - cbn. split; [auto|]. intros [H|[_ H]]; [assumption|inversion H].
  - inversion Hf; subst. change (run s (o :: ops)) with (run (step s o) ops).
    rewrite IH by (auto using wf_step). rewrite <- known_step by assumption. rewrite Exists_cons. tauto.
Qed.

Theorem known_run : forall ct ops n, 0 <= ct < dur_bound -> Forall op_ok ops ->
  (known (run (init_core ct) ops) n <-> n <> NO_PARENT /\ Exists (mentions n) ops).
Proof.
  intros ct ops n Hct Hf. rewrite known_run_from; [|apply wf_init; assumption|assumption].
  split; [intros [H|H]; [destruct (known_init _ _ H)|assumption]|auto].
Qed.

Theorem hist_run : forall ct ops n, 0 <= ct < dur_bound -> Forall op_ok ops -> n <> NO_PARENT ->
  hist (run (init_core ct) ops) n = fold_left (frame_step ct n) ops None.
Proof.
  intros ct ops n Hct Hf Hn. rewrite hist_run_from by (auto using wf_init). f_equal.
  unfold hist. cbn. rewrite (proj2 (String.eqb_neq _ _) Hn). reflexivity.
Qed.
End P.
