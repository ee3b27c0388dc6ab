(** * The message test of setTransform, spelled out *)
From Coq Require Import ZArith Bool List String Lia Reals Lra Floats.SpecFloat.
From Verif Require Import RosTime Scalar LinearMath Cache SpecCache BufferCore SpecCore Instances
  CoreInv CoreSet History CoreTheorems.
Import ListNotations.
Open Scope Z_scope.

Section M.
Context {S : Scalar}.
Implicit Types (s : core S).

Lemma is_empty_iff : forall n, is_empty n = true <-> n = EmptyString.
Proof. destruct n; cbn; split; congruence. Qed.

Lemma malformed_iff : forall m : tmsg S, bad_message (strip_msg m) = true <-> malformed m.
Proof.
  intros [st fr ch [a b c] [x y z w]]. unfold bad_message, setTransform_error, malformed, has_nan, quat_valid, strip_msg, sone.
  cbn [tm_child tm_frame tm_trans tm_rot tm_stamp vx vy vz qx qy qz qw].
  rewrite !orb_true_iff, String.eqb_eq, !is_empty_iff, !Exists_cons, Exists_nil, negb_true_iff. tauto.
Qed.
Lemma not_malformed : forall m : tmsg S, bad_message (strip_msg m) = false <-> ~ malformed m.
Proof. intros m. rewrite <- malformed_iff. destruct (bad_message (strip_msg m)); split; congruence. Qed.

Lemma malformed_rejected : forall s m a st, malformed m -> setTransform s m a st = (s, Ok false).
Proof. intros s m a st H. apply malformed_iff in H. unfold setTransform. unfold bad_message in H. rewrite H. reflexivity. Qed.

Lemma first_decides : forall s m a st n, reachable s -> valid_time (tm_stamp m) -> n = stripSlash (tm_child m) -> n <> NO_PARENT ->
  ~ malformed m -> hist s n = None ->
  exists c, hist (step s (OSet m a st)) n = Some c /\
    (if st then exists x, c = Static x else exists l, c = Dynamic (c_cache_time s) l).
Proof.
  intros s m a st n R V N NP M H. apply not_malformed in M. subst n.
  rewrite hist_step by (try assumption; apply reachable_wf; assumption). rewrite H. cbn [frame_step]. rewrite M.
  cbn [strip_msg tm_child]. rewrite String.eqb_refl. eexists. split; [reflexivity|].
  destruct st.
  - cbn. eauto.
  - pose proof (insert_kind (Dynamic (c_cache_time s) []) (sample_of (strip_msg m))) as K.
    destruct (fst (insertData _ _)); cbn in K; [subst; eauto|contradiction].
Qed.
End M.

Lemma malformed_real : forall (m : tmsg RS) x y z w, tm_rot m = @Q4 RS x y z w ->
  stripSlash (tm_child m) <> stripSlash (tm_frame m) -> stripSlash (tm_child m) <> EmptyString -> stripSlash (tm_frame m) <> EmptyString ->
  (malformed m <-> (1 / 100 <= Rabs (w * w + x * x + y * y + z * z - 1))%R).
Proof.
  intros m x y z w E H1 H2 H3. unfold malformed. rewrite E. cbn.
  unfold Rltb. replace (1 / 1)%R with 1%R by lra.
  destruct (Rlt_dec _ _) as [L|L]; split; intros H.
  - destruct H as [H|[H|[H|[H|H]]]]; try contradiction; [|discriminate]. 
    repeat match goal with H : Exists _ _ |- _ => inversion H; subst; clear H end; try discriminate.
  - lra.
  - lra.
  - right. right. right. right. reflexivity.
Qed.

Lemma nan_rejected : forall lm (s : core (F64 lm)) (m : tmsg (F64 lm)) a st,
  In (S754_nan : F64 lm) [vx (tm_trans m); vy (tm_trans m); vz (tm_trans m);
               qx (tm_rot m); qy (tm_rot m); qz (tm_rot m); qw (tm_rot m)] ->
  setTransform s m a st = (s, Ok false).
Proof.
  intros lm s m a st H. apply malformed_rejected. unfold malformed. do 3 right. left.
  apply Exists_exists. exists S754_nan. split; [exact H|reflexivity].
Qed.
