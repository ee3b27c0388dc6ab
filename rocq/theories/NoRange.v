(** * Before 2038 no call throws rostime's std::runtime_error (C29) *)
From Coq Require Import ZArith Bool List String Lia Arith.
From Verif Require Import RosTime Scalar LinearMath Cache SpecCache CacheProofs CacheQueries BufferCore SpecCore
  CoreInv Naturality CoreSet WalkSpec LctSpec Bridge WalkMain Sim Forget LookupBase LookupTheorems.
Import ListNotations.
Open Scope Z_scope.
Local Opaque MAX_GRAPH_DEPTH.

Section P.
Context {S : Scalar}.
Implicit Types (s : core S).

Lemma set_no_throw : forall s m a st cl e, wf s -> valid_time (tm_stamp m) -> valid_time (tm_stamp m + c_cache_time s) ->
  snd (setTransform s m a st) <> Throw cl e.
Proof.
  intros s m a st cl e W [V1 V2] V. destruct (setTransform_error (strip_msg m)) eqn:E.
  { rewrite setTransform_rejects by assumption. discriminate. }
  destruct (setTransform_effect s m a st W V1 E) as (s' & ci & pi & E1 & _). cbv zeta in E1. rewrite E1. cbn [snd].
  destruct (wf_ct s W) as [C1 C2].
  set (x0 := mk_storage (strip_msg m) pi ci).
  assert (G : forall l, newest_first l -> stamps_nonneg l -> snd (insertData (Dynamic (c_cache_time s) l) x0) <> Throw cl e).
  { intros l N Nn. assert (Nx : stamps_nonneg (x0 :: l)) by (intros y [<-|Hy]; [exact V1|auto]).
    destruct (insert_cases (c_cache_time s) l x0 C1 N Nx V) as [(y & Hy & Lt & Ei)|[(A & (y & Hy & Ey) & Ei)|(A & B & l' & Ei & _)]];
      rewrite Ei; discriminate. }
  assert (Q : snd (insertData (match getFrame s ci with Some c => c | None => new_cache s st end) x0) <> Throw cl e).
  { destruct (getFrame s ci) as [c|] eqn:Ec.
    - destruct (wf_cache s W _ _ Ec) as (Hok & Hm & _). destruct c as [mx l|o]; [|discriminate].
      cbn in Hm. subst mx. destruct Hok as [_ (N & _ & Nn)]. apply G; assumption.
    - destruct st; [discriminate|]. apply G; [constructor|intros y []]. }
  intros H. apply Q. revert H. destruct (snd (insertData _ _)) as [[]| |]; cbn; congruence.
Qed.

Lemma fixed_no_range : forall s tgt t1 src t2 fix_ e, reachable s -> early s -> 0 <= t1 < dur_bound -> 0 <= t2 < dur_bound ->
  lookupTransformFixed s tgt t1 src t2 fix_ <> Throw RuntimeError e.
Proof.
  intros s tgt t1 src t2 fix_ e R He H1 H2. unfold lookupTransformFixed.
  assert (V : forall arg n, exists o, validateFrameId s arg n = o /\ forall e, o <> Throw RuntimeError e).
  { intros arg n. eexists. split; [reflexivity|]. intros x. unfold validateFrameId.
    destruct (is_empty n); [discriminate|]. destruct (startsWithSlash n); [discriminate|].
    destruct (Nat.eqb _ 0); discriminate. }
  destruct (V "lookupTransform argument target_frame"%string tgt) as (o1 & -> & N1). destruct o1 as [i1|c1 x1|]; cbn [bind]; [|intros H; inversion H; subst; eapply N1; reflexivity|discriminate].
  destruct (V "lookupTransform argument source_frame"%string src) as (o2 & -> & N2). destruct o2 as [i2|c2 x2|]; cbn [bind]; [|intros H; inversion H; subst; eapply N2; reflexivity|discriminate].
  destruct (V "lookupTransform argument fixed_frame"%string fix_) as (o3 & -> & N3). destruct o3 as [i3|c3 x3|]; cbn [bind]; [|intros H; inversion H; subst; eapply N3; reflexivity|discriminate].
  pose proof (lookup_no_range s fix_ src t2 R He H2) as L1. destruct (lookupTransform s fix_ src t2) as [m1|c1 x1|]; cbn [bind]; [|intros H; inversion H; subst; eapply L1; reflexivity|discriminate].
  pose proof (lookup_no_range s tgt fix_ t1 R He H1) as L2. destruct (lookupTransform s tgt fix_ t1) as [m2|c2 x2|]; cbn [bind]; [discriminate|intros H; inversion H; subst; eapply L2; reflexivity|discriminate].
Qed.

Lemma can_string_no_range : forall s tgt src t e, reachable s -> early s -> 0 <= t < dur_bound ->
  canTransform s tgt src t (Some EEmpty) <> Throw RuntimeError e.
Proof.
  intros s tgt src t e R He Ht. apply reachable_wf in R as W. destruct (string_dec tgt src) as [->|Ne].
  { unfold canTransform. rewrite String.eqb_refl. discriminate. }
  destruct (warnFrameId tgt) eqn:P1; [unfold canTransform; rewrite (proj2 (String.eqb_neq _ _) Ne), P1; discriminate|].
  destruct (warnFrameId src) eqn:P2; [unfold canTransform; rewrite (proj2 (String.eqb_neq _ _) Ne), P1, P2; discriminate|].
  destruct (known_dec s tgt) as [K1|K1].
  2:{ unfold canTransform. rewrite (proj2 (String.eqb_neq _ _) Ne), P1, P2, (lookupFrameNumber_unknown s tgt W K1). discriminate. }
  destruct (known_dec s src) as [K2|K2].
  2:{ unfold canTransform. rewrite (proj2 (String.eqb_neq _ _) Ne), P1, P2, (lookupFrameNumber_unknown s src W K2), orb_true_r. discriminate. }
  rewrite can_walk; auto; try (apply plain_warn; assumption).
  destruct (known_live s tgt W K1) as (i & Li & _ & -> & _). destruct (known_live s src W K2) as (j & Lj & _ & -> & _).
  pose proof (twalk_no_range s t i j (Some EEmpty) W He Ht Li Lj) as N.
  destruct (twalk_cases s t i j (Some EEmpty) W Li Lj) as [[_ H]|(code & a & x & ch & E & Hc & _)]; [contradiction|].
  rewrite E. cbn. destruct code; discriminate.
Qed.

Lemma lct_no_throw : forall s tgt src cl e, wf s -> latest_common_time s tgt src <> Throw cl e.
Proof.
  intros s tgt src cl e W. unfold latest_common_time.
  destruct (known_dec s tgt) as [K1|K1].
  2:{ unfold getLatestCommonTime. rewrite (lookupFrameNumber_unknown s tgt W K1), orb_true_r. discriminate. }
  destruct (known_dec s src) as [K2|K2].
  2:{ unfold getLatestCommonTime. rewrite (lookupFrameNumber_unknown s src W K2). discriminate. }
  destruct (known_live s tgt W K1) as (i & Li & _ & -> & _). destruct (known_live s src W K2) as (j & Lj & _ & -> & _).
  destruct (Nat.eq_dec j i) as [->|Ne].
  { unfold getLatestCommonTime. destruct (Nat.eqb i 0 || Nat.eqb i 0); [discriminate|]. rewrite Nat.eqb_refl. discriminate. }
  destruct (lct_outcome_ok s i j None W Lj Li Ne); discriminate.
Qed.

Theorem no_runtime_error : forall s, reachable s -> early s ->
  (forall m a st cl e, valid_time (tm_stamp m) -> valid_time (tm_stamp m + c_cache_time s) ->
     snd (setTransform s m a st) <> Throw cl e) /\
  (forall tgt src t e, 0 <= t < dur_bound -> lookupTransform s tgt src t <> Throw RuntimeError e) /\
  (forall tgt t1 src t2 fix_ e, 0 <= t1 < dur_bound -> 0 <= t2 < dur_bound ->
     lookupTransformFixed s tgt t1 src t2 fix_ <> Throw RuntimeError e) /\
  (forall tgt src t e, 0 <= t < dur_bound -> canTransform s tgt src t (Some EEmpty) <> Throw RuntimeError e) /\
  (forall tgt src t cl e, canTransform s tgt src t None <> Throw cl e) /\
  (forall tgt src cl e, latest_common_time s tgt src <> Throw cl e).
Proof.
  intros s R He. apply reachable_wf in R as W.
  split; [intros; apply set_no_throw; assumption|].
  split; [intros tgt src t e Ht; apply lookup_no_range; assumption|].
  split; [intros; apply fixed_no_range; assumption|].
  split; [intros; apply can_string_no_range; assumption|].
  split; [intros tgt src t cl e; destruct (can_total s tgt src t W) as [b ->]; discriminate|].
  intros; apply lct_no_throw; assumption.
Qed.
End P.
