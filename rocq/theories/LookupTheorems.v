(** * Theorems about lookupTransform, canTransform and getLatestCommonTime (any arithmetic) *)
From Coq Require Import ZArith Bool List String Lia Arith.
From Verif Require Import RosTime Scalar LinearMath Cache SpecCache CacheProofs CacheQueries
  BufferCore SpecCore CoreInv Naturality CoreSet WalkSpec LctSpec Bridge WalkMain Sim Forget LookupBase.
Import ListNotations.
Open Scope Z_scope.
Local Opaque MAX_GRAPH_DEPTH.

Section P.
Context {S : Scalar}.
Notation storage := (storage S nat).
Notation nstorage := (Cache.storage S string).
Notation core := (core S).
Notation taccum := (@taccum S).
Implicit Types (s : core) (i : nat) (t : time) (tgt src : string).

Notation twalk := (@walkToTopParent S taccum ta_gather ta_accum ta_finalize).
Notation twalk_at := (@walk_at S taccum ta_gather ta_accum ta_finalize).
Notation lfn := lookupFrameNumber.

(** ** the shape of a lookup *)
Lemma lookup_shape : forall s tgt src t, wf s ->
  (tgt = src /\ lookupTransform s tgt src t =
     Ok {| tm_stamp := if t =? 0 then match getFrame s (lfn s tgt) with Some c => getLatestTimestamp c | None => t end else t;
           tm_frame := tgt; tm_child := src; tm_trans := vzero; tm_rot := qidentity |}) \/
  (tgt <> src /\ ~ plain tgt /\ exists e, lookupTransform s tgt src t = Throw InvalidArgumentException e) \/
  (tgt <> src /\ plain tgt /\ ~ known s tgt /\ exists e, lookupTransform s tgt src t = Throw LookupException e) \/
  (tgt <> src /\ plain tgt /\ known s tgt /\ ~ plain src /\ exists e, lookupTransform s tgt src t = Throw InvalidArgumentException e) \/
  (tgt <> src /\ plain tgt /\ known s tgt /\ plain src /\ ~ known s src /\ exists e, lookupTransform s tgt src t = Throw LookupException e) \/
  (tgt <> src /\ plain tgt /\ known s tgt /\ plain src /\ known s src /\
   lookupTransform s tgt src t = finish tgt src (twalk s t (lfn s tgt) (lfn s src) taccum0 (Some EEmpty))).
Proof.
  intros s tgt src t W. destruct (string_dec tgt src) as [->|Ne].
  { left. split; [reflexivity|]. unfold lookupTransform. rewrite String.eqb_refl. reflexivity. }
  right. assert (Eq : lookupTransform s tgt src t =
    (target <- validateFrameId s "lookupTransform argument target_frame" tgt ;;
     source <- validateFrameId s "lookupTransform argument source_frame" src ;;
     finish tgt src (twalk s t target source taccum0 (Some EEmpty)))).
  { unfold lookupTransform. rewrite (proj2 (String.eqb_neq _ _) Ne). reflexivity. }
  destruct (plain_dec tgt) as [P1|P1].
  2:{ left. split; [assumption|]. split; [assumption|]. rewrite Eq. destruct (validate_not_plain s "lookupTransform argument target_frame" tgt P1) as [e ->]. cbn. eauto. }
  destruct (known_dec s tgt) as [K1|K1].
  2:{ right; left. split; [assumption|]. split; [assumption|]. split; [assumption|]. rewrite Eq, validate_unknown by assumption. cbn. eauto. }
  destruct (plain_dec src) as [P2|P2].
  2:{ right; right; left. rewrite Eq, validate_known by assumption. destruct (validate_not_plain s "lookupTransform argument source_frame" src P2) as [e ->]. cbn. eauto 10. }
  destruct (known_dec s src) as [K2|K2].
  2:{ right; right; right; left. rewrite Eq, validate_known, validate_unknown by assumption. cbn. eauto 10. }
  right; right; right; right. rewrite Eq, !validate_known by assumption. cbn. auto 10.
Qed.

Lemma lookup_ok_inv : forall s tgt src t m, wf s -> tgt <> src -> lookupTransform s tgt src t = Ok m ->
  plain tgt /\ known s tgt /\ plain src /\ known s src /\
  exists a e ch, twalk s t (lfn s tgt) (lfn s src) taccum0 (Some EEmpty) = Ok (NO_ERROR, a, e, ch) /\
    m = {| tm_stamp := ta_time a; tm_frame := tgt; tm_child := src; tm_trans := ta_rv a; tm_rot := ta_rq a |}.
Proof.
  intros s tgt src t m W Ne H.
  destruct (lookup_shape s tgt src t W) as [(E & _)|[(_ & _ & e & E)|[(_ & _ & _ & e & E)|[(_ & _ & _ & _ & e & E)|[(_ & _ & _ & _ & _ & e & E)|(_ & P1 & K1 & P2 & K2 & E)]]]]];
    [congruence|congruence|congruence|congruence|congruence|].
  rewrite E in H. do 4 (split; [assumption|]). unfold finish in H.
  destruct (twalk s t (lfn s tgt) (lfn s src) taccum0 (Some EEmpty)) as [[[[code a] e] ch]| |]; cbn in H; try discriminate.
  destruct code; cbn in H; try discriminate. exists a, e, ch. split; [reflexivity|]. congruence.
Qed.

(** ** canTransform against lookupTransform *)
Lemma can_total : forall s tgt src t, wf s -> exists b, canTransform s tgt src t None = Ok (b, None).
Proof.
  intros s tgt src t W. destruct (string_dec tgt src) as [->|Ne].
  { exists true. unfold canTransform. rewrite String.eqb_refl. reflexivity. }
  destruct (warnFrameId tgt) eqn:P1; [exists false; unfold canTransform; rewrite (proj2 (String.eqb_neq _ _) Ne), P1; reflexivity|].
  destruct (warnFrameId src) eqn:P2; [exists false; unfold canTransform; rewrite (proj2 (String.eqb_neq _ _) Ne), P1, P2; reflexivity|].
  destruct (known_dec s tgt) as [K1|K1].
  - destruct (known_dec s src) as [K2|K2].
    + rewrite can_walk; auto; try (apply plain_warn; assumption).
      destruct (known_live s tgt W K1) as (i & Li & _ & -> & _). destruct (known_live s src W K2) as (j & Lj & _ & -> & _).
      destruct (twalk_cases s t i j None W Li Lj) as [[H _]|(code & a & e & ch & -> & _ & He)]; [congruence|].
      cbn. rewrite (proj1 He eq_refl). eauto.
    + exists false. unfold canTransform. rewrite (proj2 (String.eqb_neq _ _) Ne), P1, P2, (lookupFrameNumber_unknown s src W K2).
      rewrite orb_true_r. unfold missing_err. cbn. destruct (Nat.eqb (lfn s tgt) 0); reflexivity.
  - exists false. unfold canTransform. rewrite (proj2 (String.eqb_neq _ _) Ne), P1, P2, (lookupFrameNumber_unknown s tgt W K1).
    cbn [Nat.eqb orb]. unfold missing_err. cbn. destruct (Nat.eqb (lfn s src) 0); reflexivity.
Qed.

Lemma can_true_inv : forall s tgt src t err e, wf s -> tgt <> src -> canTransform s tgt src t err = Ok (true, e) ->
  plain tgt /\ plain src /\ known s tgt /\ known s src /\
  exists a ch, twalk s t (lfn s tgt) (lfn s src) taccum0 err = Ok (NO_ERROR, a, e, ch).
Proof.
  intros s tgt src t err e W Ne H.
  destruct (warnFrameId tgt) eqn:P1; [unfold canTransform in H; rewrite (proj2 (String.eqb_neq _ _) Ne), P1 in H; discriminate|].
  destruct (warnFrameId src) eqn:P2; [unfold canTransform in H; rewrite (proj2 (String.eqb_neq _ _) Ne), P1, P2 in H; discriminate|].
  destruct (known_dec s tgt) as [K1|K1].
  2:{ unfold canTransform in H. rewrite (proj2 (String.eqb_neq _ _) Ne), P1, P2, (lookupFrameNumber_unknown s tgt W K1) in H. discriminate. }
  destruct (known_dec s src) as [K2|K2].
  2:{ unfold canTransform in H. rewrite (proj2 (String.eqb_neq _ _) Ne), P1, P2, (lookupFrameNumber_unknown s src W K2), orb_true_r in H. discriminate. }
  apply plain_warn in P1. apply plain_warn in P2. rewrite can_walk in H by assumption.
  do 4 (split; [assumption|]).
  destruct (twalk s t (lfn s tgt) (lfn s src) taccum0 err) as [[[[code a] e1] ch]| |]; cbn in H; try discriminate.
  destruct code; inversion H; subst. eauto.
Qed.

Theorem can_lookup_string : forall s tgt src t, reachable s ->
  (exists e, canTransform s tgt src t (Some EEmpty) = Ok (true, e)) <-> (exists m, lookupTransform s tgt src t = Ok m).
Proof.
  intros s tgt src t R. apply reachable_wf in R as W. destruct (string_dec tgt src) as [->|Ne].
  { split; intros _.
    - unfold lookupTransform. rewrite String.eqb_refl. eauto.
    - unfold canTransform. rewrite String.eqb_refl. eauto. }
  split.
  - intros [e H]. apply can_true_inv in H as (P1 & P2 & K1 & K2 & a & ch & E); [|assumption|assumption].
    rewrite lookup_walk by assumption. unfold finish. rewrite E. cbn. eauto.
  - intros [m H]. apply lookup_ok_inv in H as (P1 & K1 & P2 & K2 & a & e & ch & E & _); [|assumption|assumption].
    exists e. rewrite can_walk by assumption. rewrite E. reflexivity.
Qed.

Theorem lookup_can : forall s tgt src t m, reachable s -> lookupTransform s tgt src t = Ok m ->
  canTransform s tgt src t None = Ok (true, None).
Proof.
  intros s tgt src t m R H. apply reachable_wf in R as W. destruct (string_dec tgt src) as [->|Ne].
  { unfold canTransform. rewrite String.eqb_refl. reflexivity. }
  apply lookup_ok_inv in H as (P1 & K1 & P2 & K2 & a & e & ch & E & _); [|assumption|assumption].
  rewrite can_walk by assumption.
  destruct (known_live s tgt W K1) as (i & Li & _ & Ei & _). destruct (known_live s src W K2) as (j & Lj & _ & Ej & _).
  rewrite Ei, Ej in *. pose proof (twalk_silent s t i j EEmpty W Li Lj) as H. rewrite E in H. cbn in H.
  destruct H as ([[[code a'] e'] ch'] & E' & H1 & _). cbn in H1. subst code.
  destruct (twalk_cases s t i j None W Li Lj) as [[? _]|(code & a2 & e2 & ch2 & E2 & _ & He)]; [congruence|].
  rewrite E'. cbn. f_equal. f_equal. rewrite E' in E2. inversion E2; subst. apply He. reflexivity.
Qed.

Theorem can_lookup_or_range : forall s tgt src t, reachable s -> canTransform s tgt src t None = Ok (true, None) ->
  (exists m, lookupTransform s tgt src t = Ok m) \/ lookupTransform s tgt src t = Throw RuntimeError ETimeRange.
Proof.
  intros s tgt src t R H. apply reachable_wf in R as W. destruct (string_dec tgt src) as [->|Ne].
  { left. unfold lookupTransform. rewrite String.eqb_refl. eauto. }
  apply can_true_inv in H as (P1 & P2 & K1 & K2 & a & ch & E); [|assumption|assumption].
  rewrite lookup_walk by assumption.
  destruct (known_live s tgt W K1) as (i & Li & _ & Ei & _). destruct (known_live s src W K2) as (j & Lj & _ & Ej & _).
  rewrite Ei, Ej in *. pose proof (twalk_silent s t i j EEmpty W Li Lj) as H. rewrite E in H.
  destruct (twalk s t i j taccum0 (Some EEmpty)) as [[[[code' a'] e'] ch']| cl e'|]; cbn in H |- *.
  - destruct H as (p & E2 & Hc & _). injection E2 as <-. cbn in Hc. rewrite Hc. left. eauto.
  - destruct H as [(_ & -> & ->)|H]; [auto|discriminate].
  - discriminate.
Qed.

Lemma lookup_no_range : forall s tgt src t, reachable s -> early s -> 0 <= t < dur_bound ->
  forall e, lookupTransform s tgt src t <> Throw RuntimeError e.
Proof.
  intros s tgt src t R He Ht e. apply reachable_wf in R as W.
  destruct (lookup_shape s tgt src t W) as [(E & ->)|[(_ & _ & x & ->)|[(_ & _ & _ & x & ->)|[(_ & _ & _ & _ & x & ->)|[(_ & _ & _ & _ & _ & x & ->)|(_ & P1 & K1 & P2 & K2 & ->)]]]]];
    try discriminate.
  destruct (known_live s tgt W K1) as (i & Li & _ & -> & _). destruct (known_live s src W K2) as (j & Lj & _ & -> & _).
  pose proof (twalk_no_range s t i j (Some EEmpty) W He Ht Li Lj) as N.
  destruct (twalk_cases s t i j (Some EEmpty) W Li Lj) as [[_ H]|(code & a & x & ch & E & Hc & _)]; [contradiction|].
  rewrite E. cbn. destruct Hc as [->|[->|[->| ->]]]; discriminate.
Qed.

Theorem can_iff_lookup : forall s tgt src t, reachable s -> early s -> 0 <= t < dur_bound ->
  (canTransform s tgt src t None = Ok (true, None) <-> exists m, lookupTransform s tgt src t = Ok m).
Proof.
  intros s tgt src t R He Ht. split.
  - intros H. destruct (can_lookup_or_range s tgt src t R H) as [|H1]; [assumption|].
    destruct (lookup_no_range s tgt src t R He Ht _ H1).
  - intros [m H]. eapply lookup_can; eassumption.
Qed.

(** ** through a fixed frame *)
Lemma canNoLock : forall s tgt src t err, wf s -> plain tgt -> plain src -> known s tgt -> known s src ->
  canTransformNoLock s (lfn s tgt) (lfn s src) t err = canTransform s tgt src t err.
Proof.
  intros s tgt src t err W P1 P2 K1 K2. unfold canTransform.
  rewrite (proj2 (plain_warn _) P1), (proj2 (plain_warn _) P2).
  destruct (known_live s tgt W K1) as (i & Li & Ni & -> & _). destruct (known_live s src W K2) as (j & Lj & Nj & -> & _).
  rewrite (proj2 (Nat.eqb_neq _ _) (proj1 Li)), (proj2 (Nat.eqb_neq _ _) (proj1 Lj)). cbn [orb].
  destruct (String.eqb tgt src) eqn:E; [|reflexivity].
  apply String.eqb_eq in E. assert (i = j) by (apply (live_inj s); congruence). subst j.
  unfold canTransformNoLock. rewrite (proj2 (Nat.eqb_neq _ _) (proj1 Li)), Nat.eqb_refl. reflexivity.
Qed.

Theorem can_iff_lookup_fixed : forall s tgt t1 src t2 fix_, reachable s -> early s -> 0 <= t1 < dur_bound -> 0 <= t2 < dur_bound ->
  (canTransformFixed s tgt t1 src t2 fix_ None = Ok (true, None) <-> exists m, lookupTransformFixed s tgt t1 src t2 fix_ = Ok m).
Proof.
  intros s tgt t1 src t2 fix_ R He Ht1 Ht2. apply reachable_wf in R as W.
  unfold canTransformFixed, lookupTransformFixed.
  destruct (plain_dec tgt) as [P1|P1].
  2:{ destruct (validate_not_plain s "lookupTransform argument target_frame" tgt P1) as [e ->].
      destruct (warnFrameId tgt) eqn:E; [|apply plain_warn in E; contradiction].
      split; [discriminate|intros [m H]; discriminate]. }
  destruct (plain_dec src) as [P2|P2].
  2:{ destruct (validate_not_plain s "lookupTransform argument source_frame" src P2) as [e ->].
      rewrite (proj2 (plain_warn _) P1). destruct (warnFrameId src) eqn:E; [|apply plain_warn in E; contradiction].
      split; [discriminate|]. intros [m H]. destruct (validateFrameId s "lookupTransform argument target_frame" tgt); discriminate. }
  destruct (plain_dec fix_) as [P3|P3].
  2:{ destruct (validate_not_plain s "lookupTransform argument fixed_frame" fix_ P3) as [e ->].
      rewrite (proj2 (plain_warn _) P1), (proj2 (plain_warn _) P2). destruct (warnFrameId fix_) eqn:E; [|apply plain_warn in E; contradiction].
      split; [discriminate|]. intros [m H]. destruct (validateFrameId s "lookupTransform argument target_frame" tgt); try discriminate.
      cbn in H. destruct (validateFrameId s "lookupTransform argument source_frame" src); discriminate. }
  rewrite (proj2 (plain_warn _) P1), (proj2 (plain_warn _) P2), (proj2 (plain_warn _) P3).
  destruct (known_dec s tgt) as [K1|K1].
  2:{ rewrite (validate_unknown s _ tgt) by assumption. rewrite (lookupFrameNumber_unknown s tgt W K1). cbn.
      split; [discriminate|intros [m H]; discriminate]. }
  destruct (known_dec s src) as [K2|K2].
  2:{ rewrite (validate_known s _ tgt), (validate_unknown s _ src) by assumption. rewrite (lookupFrameNumber_unknown s src W K2).
      cbn [Nat.eqb bind]. rewrite orb_true_r. cbn. split; [discriminate|intros [m H]; discriminate]. }
  destruct (known_dec s fix_) as [K3|K3].
  2:{ rewrite (validate_known s _ tgt), (validate_known s _ src), (validate_unknown s _ fix_) by assumption.
      rewrite (lookupFrameNumber_unknown s fix_ W K3).
      cbn [Nat.eqb bind]. rewrite orb_true_r. cbn. split; [discriminate|intros [m H]; discriminate]. }
  rewrite !validate_known by assumption. cbn [bind].
  pose proof (canNoLock s tgt fix_ t1 None W P1 P3 K1 K3) as N1. pose proof (canNoLock s fix_ src t2 None W P3 P2 K3 K2) as N2.
  destruct (lookupFrameNumber_known s tgt W K1) as (i & Ei & Hi & _). destruct (lookupFrameNumber_known s src W K2) as (j & Ej & Hj & _).
  destruct (lookupFrameNumber_known s fix_ W K3) as (k & Ek & Hk & _). rewrite Ei, Ek in N1. rewrite Ek, Ej in N2. rewrite Ei, Ej, Ek.
  rewrite (proj2 (Nat.eqb_neq _ _) Hi), (proj2 (Nat.eqb_neq _ _) Hj), (proj2 (Nat.eqb_neq _ _) Hk). cbn [orb].
  pose proof (can_iff_lookup s tgt fix_ t1 R He Ht1) as C1. pose proof (can_iff_lookup s fix_ src t2 R He Ht2) as C2.
  destruct (can_total s tgt fix_ t1 W) as [b1 E1]. destruct (can_total s fix_ src t2 W) as [b2 E2]. rewrite E1 in *. rewrite E2 in *. rewrite N1. cbn [bind].
  split.
  - intros H. destruct b1; [|discriminate]. rewrite N2 in H. assert (b2 = true) by (inversion H; reflexivity). subst b2.
    destruct (proj1 C2 eq_refl) as [m2 ->]. destruct (proj1 C1 eq_refl) as [m1 ->]. cbn. eauto.
  - intros [m H]. destruct (lookupTransform s fix_ src t2) as [m2| |] eqn:L2; try discriminate. cbn in H.
    destruct (lookupTransform s tgt fix_ t1) as [m1| |] eqn:L1; try discriminate.
    pose proof (proj2 C2 (ex_intro _ m2 eq_refl)) as X2. pose proof (proj2 C1 (ex_intro _ m1 eq_refl)) as X1.
    inversion X1; subst. rewrite N2. assumption.
Qed.

(** ** headers *)
Theorem lookup_header : forall s tgt src t m, reachable s -> lookupTransform s tgt src t = Ok m ->
  tm_frame m = tgt /\ tm_child m = src /\ (t <> 0 -> tm_stamp m = t) /\
  (t = 0 -> tgt <> src -> latest_common_time s tgt src = Ok (NO_ERROR, Some (tm_stamp m))).
Proof.
  intros s tgt src t m R H. apply reachable_wf in R as W. destruct (string_dec tgt src) as [->|Ne].
  { unfold lookupTransform in H. rewrite String.eqb_refl in H. inversion H; subst. cbn.
    split; [reflexivity|]. split; [reflexivity|]. split; [|congruence].
    intros Ht. rewrite (proj2 (Z.eqb_neq _ _) Ht). reflexivity. }
  apply lookup_ok_inv in H as (P1 & K1 & P2 & K2 & a & e & ch & E & ->); [|assumption|assumption]. cbn.
  split; [reflexivity|]. split; [reflexivity|].
  destruct (known_live s tgt W K1) as (i & Li & Ni & Ei & _). destruct (known_live s src W K2) as (j & Lj & Nj & Ej & _).
  assert (D : j <> i) by congruence. rewrite Ei, Ej in E.
  assert (At : forall u a0, twalk_at s u i j taccum0 (Some EEmpty) = Ok (NO_ERROR, a, e, ch) -> a0 = a -> ta_time a0 = u).
  { intros u a0 Hu ->. pose proof (walk_at_outcome s u i j (Some EEmpty) W Lj Li) as O. rewrite Hu in O.
    inversion O; subst; auto. destruct (getFrame s m'), (getFrame s m); discriminate. }
  split.
  - intros Ht. rewrite walk_time in E by assumption. apply (At t a E eq_refl).
  - intros -> _. rewrite walk_zero in E by assumption. unfold latest_common_time. rewrite Ei, Ej.
    assert (RL : rel s s (fun _ => True) i i /\ rel s s (fun _ => True) j j) by (unfold rel; auto).
    pose proof (lct_rel s s W W (fun _ => True) true (fun _ _ => eq_refl) i i j j (Some EEmpty) None
      (fun n d _ _ => I) (proj1 RL) (proj2 RL) eq_refl) as LR.
    destruct (lct_outcome_ok s i j (Some EEmpty) W Lj Li D) as [ds dt p H1 H2 H3 H4 H5 H6|ds m dt m' err' H1 H2 H3 H4 H5 ->|k ds m err' H1 H2 H3 [str ->]];
      cbn [bind] in E; try discriminate.
    cbn in LR. destruct LR as ([[code ot] e1] & -> & <- & <- & _). cbn. f_equal. f_equal. f_equal. symmetry. apply (At _ a E eq_refl).
Qed.

Theorem latest_then_at_stamp : forall s tgt src m, reachable s -> lookupTransform s tgt src 0 = Ok m ->
  lookupTransform s tgt src (tm_stamp m) = Ok m.
Proof.
  intros s tgt src m R H. apply reachable_wf in R as W. destruct (Z.eq_dec (tm_stamp m) 0) as [Z0|Z0]; [rewrite Z0; assumption|].
  destruct (string_dec tgt src) as [->|Ne].
  { unfold lookupTransform in *. rewrite String.eqb_refl in *. inversion H; subst. cbn [tm_stamp] in *.
    rewrite (proj2 (Z.eqb_neq _ _) Z0). reflexivity. }
  pose proof (lookup_header s tgt src 0 m R H) as (_ & _ & _ & HL).
  apply lookup_ok_inv in H as (P1 & K1 & P2 & K2 & a & e & ch & E & Em); [|assumption|assumption].
  rewrite lookup_walk by assumption.
  destruct (known_live s tgt W K1) as (i & Li & Ni & Ei & _). destruct (known_live s src W K2) as (j & Lj & Nj & Ej & _).
  assert (D : j <> i) by congruence. rewrite Ei, Ej in *.
  rewrite walk_zero in E by assumption.
  destruct (lct_outcome_ok s i j (Some EEmpty) W Lj Li D) as [ds dt p H1 H2 H3 H4 H5 H6|ds mm dt m' err' H1 H2 H3 H4 H5 ->|k ds mm err' H1 H2 H3 [str ->]];
    cbn [bind] in E; try discriminate.
  set (u := time_or_zero _) in *.
  assert (Hu : tm_stamp m = u).
  { subst m. cbn. pose proof (walk_at_outcome s u i j (Some EEmpty) W Lj Li) as O. rewrite E in O.
    inversion O; subst; auto. destruct (getFrame s m'), (getFrame s m); discriminate. }
  rewrite walk_time by assumption. rewrite Hu, E. cbn. rewrite Em. reflexivity.
Qed.
End P.
