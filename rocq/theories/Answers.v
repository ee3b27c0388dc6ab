(** * Buffers that know the same things answer the same *)
From Coq Require Import ZArith Bool List String Ascii Lia Arith.
From Verif Require Import RosTime Scalar LinearMath Cache SpecCache CacheProofs CacheQueries CacheTheorems
  BufferCore SpecCore CoreInv Naturality CoreSet WalkSpec LctSpec Bridge WalkMain Sim Forget LookupBase LookupTheorems LookupTree History.
Import ListNotations.
Open Scope Z_scope.
Local Opaque MAX_GRAPH_DEPTH.

Section P.
Context {S : Scalar}.
Notation core := (core S).
Notation taccum := (@taccum S).
Implicit Types (s : core) (t : time) (tgt src n : string).
Notation twalk := (@walkToTopParent S taccum ta_gather ta_accum ta_finalize).
Notation lfn := lookupFrameNumber.

Section Two.
Variables (s s' : core) (W : wf s) (W' : wf s') (P : string -> Prop).
Hypothesis Hist : forall n, P n -> hist s n = hist s' n.
Hypothesis Known : forall n, P n -> (known s n <-> known s' n).

Lemma known_rel : forall n, P n -> known s n -> rel s s' P (lfn s n) (lfn s' n).
Proof.
  intros n Hp K. destruct (known_live s n W K) as (i & L & N & -> & _).
  destruct (known_live s' n W' (proj1 (Known n Hp) K)) as (i' & L' & N' & -> & _).
  unfold rel. rewrite N, N'. auto.
Qed.

Lemma lfn_zero : forall n, P n -> (Nat.eqb (lfn s n) 0 = Nat.eqb (lfn s' n) 0).
Proof.
  intros n Hp. destruct (known_dec s n) as [K|K].
  - destruct (rel_nz s s' P _ _ (known_rel n Hp K)) as [-> ->]. reflexivity.
  - rewrite (lookupFrameNumber_unknown s n W K), (lookupFrameNumber_unknown s' n W'); [reflexivity|].
    intros K'. apply K, Known; assumption.
Qed.

Definition closed_at t tgt src : Prop :=
  closed s P t /\ (t = 0 -> forall u, latest_common_time s tgt src = Ok (NO_ERROR, Some u) -> closed s P u).

Lemma closed_at_for : forall t tgt src, closed_at t tgt src -> closed_for s P t (lfn s tgt) (lfn s src).
Proof.
  intros t tgt src [H1 H2]. split; [assumption|]. intros Ht e u H. apply H2; [assumption|].
  unfold latest_common_time. clear - H W. revert H. unfold getLatestCommonTime.
  destruct (Nat.eqb (lfn s src) 0 || Nat.eqb (lfn s tgt) 0); [discriminate|].
  destruct (Nat.eqb (lfn s src) (lfn s tgt)); [intros H; inversion H; subst; reflexivity|].
  destruct (lctSource _ _ _ _ _ _) as [[t|l|]| |]; cbn [bind]; try discriminate.
  - intros X; inversion X; subst; reflexivity.
  - destruct (lctTarget _ _ _ _ _ _) as [[t|p t| |]| |]; cbn [bind]; try discriminate; intros X; try (inversion X; subst; reflexivity).
    + destruct (connectivity_error s (lfn s src) (lfn s tgt) e); cbn in X; discriminate.
    + destruct (loop_error s e); cbn in X; discriminate.
  - destruct (loop_error s e); cbn; discriminate.
Qed.

Lemma twalk_same : forall t tgt src, closed_at t tgt src -> P tgt -> P src -> known s tgt -> known s src ->
  simr false (wrel s s' P false) (twalk s t (lfn s tgt) (lfn s src) taccum0 (Some EEmpty))
    (twalk s' t (lfn s' tgt) (lfn s' src) taccum0 (Some EEmpty)) /\
  simr false (wrel s s' P false) (twalk s t (lfn s tgt) (lfn s src) taccum0 None)
    (twalk s' t (lfn s' tgt) (lfn s' src) taccum0 None).
Proof.
  intros t tgt src Cl P1 P2 K1 K2. apply closed_at_for in Cl.
  split; apply walk_rel; auto using known_rel; try reflexivity; repeat split.
Qed.

(** only lookup errors carry the loop text *)
Lemma twalk_loop_code : forall x t i j code a str ch, wf x -> live x i -> live x j ->
  twalk x t i j taccum0 (Some EEmpty) = Ok (code, a, Some (ELoop str), ch) -> code = LOOKUP_ERROR.
Proof.
  intros x t i j code a str ch Wx Li Lj H.
  assert (At : forall u, walk_at ta_gather ta_accum ta_finalize x u i j taccum0 (Some EEmpty) = Ok (code, a, Some (ELoop str), ch) -> code = LOOKUP_ERROR).
  { intros u E. pose proof (walk_at_outcome x u i j (Some EEmpty) Wx Lj Li) as O. rewrite E in O. inversion O; subst; try reflexivity.
    destruct (getFrame x m'), (getFrame x m);
      try (destruct (H16 eq_refl _ eq_refl) as [y Hy]; discriminate); try (specialize (H15 eq_refl); discriminate). }
  destruct (Nat.eq_dec j i) as [->|Ne]; [rewrite walk_same in H; discriminate|].
  destruct (Z.eq_dec t 0) as [->|Ht]; [|rewrite walk_time in H by assumption; eauto].
  rewrite walk_zero in H by assumption. destruct (lct_outcome_ok x i j (Some EEmpty) Wx Lj Li Ne); cbn [bind] in H.
  - eauto.
  - subst err'. discriminate.
  - inversion H. reflexivity.
Qed.

Lemma validate_same : forall arg n, P n -> ~ (known s n /\ plain n) -> exists c e,
  validateFrameId s arg n = Throw c e /\ validateFrameId s' arg n = Throw c e.
Proof.
  intros arg n Hp H. unfold validateFrameId. rewrite <- (lfn_zero n Hp).
  destruct (plain_dec n) as [Q|Q].
  - assert (K : ~ known s n) by tauto. destruct Q as [Q1 Q2]. destruct n as [|c r]; [congruence|]. cbn [is_empty]. rewrite Q2.
    rewrite (lookupFrameNumber_unknown s _ W K). cbn. eauto.
  - unfold plain in Q. destruct n as [|c0 r0]; cbn; [eauto|].
    destruct (Ascii.eqb c0 "/"%char) eqn:E; [eauto|]. destruct Q. split; [discriminate|assumption].
Qed.

Theorem agree_lookup : forall t tgt src, closed_at t tgt src -> P tgt -> P src ->
  (tgt = src -> t = 0 -> known s tgt) ->
  same_answer (lookupTransform s tgt src t) (lookupTransform s' tgt src t).
Proof.
  intros t tgt src Cl P1 P2 Hself. destruct (string_dec tgt src) as [->|Ne].
  { left. unfold lookupTransform. rewrite String.eqb_refl. destruct (Z.eqb t 0) eqn:Et; [|reflexivity].
    apply Z.eqb_eq in Et. pose proof (known_rel src P2 (Hself eq_refl Et)) as R.
    destruct (rel_frame s s' W W' P Hist _ _ R) as [(c & c' & -> & -> & C)|[-> ->]]; [|reflexivity].
    f_equal. f_equal. unfold crel in C. destruct c as [mx [|x l]|[x|]], c' as [mx' [|x' l']|[x'|]]; cbn in C |- *; try discriminate; try reflexivity.
    inversion C. congruence. }
  assert (Dec : forall n, (known s n /\ plain n) \/ ~ (known s n /\ plain n)).
  { intros n. destruct (known_dec s n), (plain_dec n); tauto. }
  unfold lookupTransform at 1 2. rewrite (proj2 (String.eqb_neq _ _) Ne).
  destruct (Dec tgt) as [[K1 Q1]|H1].
  2:{ destruct (validate_same "lookupTransform argument target_frame" tgt P1 H1) as (c & e & -> & ->). left. reflexivity. }
  rewrite (validate_known s _ tgt) by assumption. rewrite (validate_known s' _ tgt) by (auto; apply Known; assumption). cbn [bind].
  destruct (Dec src) as [[K2 Q2]|H2].
  2:{ destruct (validate_same "lookupTransform argument source_frame" src P2 H2) as (c & e & -> & ->). left. reflexivity. }
  rewrite (validate_known s _ src) by assumption. rewrite (validate_known s' _ src) by (auto; apply Known; assumption). cbn [bind].
  destruct (twalk_same t tgt src Cl P1 P2 K1 K2) as [H _].
  destruct (twalk s t (lfn s tgt) (lfn s src) taccum0 (Some EEmpty)) as [[[[code a] e] ch]|cl x|] eqn:Ew; cbn in H.
  - destruct H as ([[[code' a'] e'] ch'] & -> & <- & A & He & _). cbn.
    assert (E : (exists x y, e = Some (ELoop x) /\ e' = Some (ELoop y)) \/ e' = e).
    { destruct He as [He|(_ & x & y & -> & ->)]; [right; exact He|left; eauto]. }
    destruct E as [(x & y & -> & ->)|E].
    + destruct (known_live s tgt W K1) as (i & Li & _ & Ei & _). destruct (known_live s src W K2) as (j & Lj & _ & Ej & _).
      rewrite Ei, Ej in Ew. apply twalk_loop_code in Ew; try assumption. subst code. right. cbn. eauto.
    + subst e'. left. destruct code; cbn; try reflexivity. f_equal. destruct A as (_ & A1 & A2 & A3 & A4 & A5 & A6 & A7). congruence.
  - destruct H as [[? _]| ->]; [discriminate|]. left. reflexivity.
  - rewrite H. left. reflexivity.
Qed.

Theorem agree_can : forall t tgt src, closed_at t tgt src -> P tgt -> P src ->
  canTransform s tgt src t None = canTransform s' tgt src t None.
Proof.
  intros t tgt src Cl P1 P2. destruct (string_dec tgt src) as [->|Ne].
  { unfold canTransform. rewrite String.eqb_refl. reflexivity. }
  destruct (known_dec s tgt) as [K1|K1]; [destruct (known_dec s src) as [K2|K2]; [destruct (plain_dec tgt) as [Q1|Q1]; [destruct (plain_dec src) as [Q2|Q2]|]|]|].
  - rewrite (can_walk s) by assumption. rewrite (can_walk s') by (auto; apply Known; assumption).
    destruct (twalk_same t tgt src Cl P1 P2 K1 K2) as [_ H].
    destruct (twalk s t (lfn s tgt) (lfn s src) taccum0 None) as [[[[code a] e] ch]|cl x|] eqn:Ew; cbn in H.
    + destruct H as ([[[code' a'] e'] ch'] & E & <- & A & He & _). rewrite E. cbn. f_equal. f_equal.
      destruct (known_live s tgt W K1) as (i & Li & _ & Ei & _). destruct (known_live s src W K2) as (j & Lj & _ & Ej & _).
      rewrite Ei, Ej in Ew.
      destruct (twalk_cases s t i j None W Li Lj) as [[X _]|(c1 & a1 & e1 & ch1 & E1 & _ & N)]; [congruence|].
      rewrite E1 in Ew. inversion Ew; subst. rewrite (proj1 N eq_refl) in *. destruct He as [He|(_ & x & y & X & _)]; [symmetry; exact He|discriminate].
    + destruct H as [[? _]| ->]; [discriminate|]. reflexivity.
    + rewrite H. reflexivity.
  - unfold canTransform. rewrite (proj2 (String.eqb_neq _ _) Ne). destruct (warnFrameId src) eqn:E; [destruct (warnFrameId tgt); reflexivity|].
    apply plain_warn in E. contradiction.
  - unfold canTransform. rewrite (proj2 (String.eqb_neq _ _) Ne). destruct (warnFrameId tgt) eqn:E; [reflexivity|].
    apply plain_warn in E. contradiction.
  - unfold canTransform. rewrite (proj2 (String.eqb_neq _ _) Ne), <- !lfn_zero by assumption.
    rewrite (lookupFrameNumber_unknown s src W K2), orb_true_r. unfold missing_err. rewrite <- !lfn_zero by assumption.
    rewrite (lookupFrameNumber_unknown s src W K2). reflexivity.
  - unfold canTransform. rewrite (proj2 (String.eqb_neq _ _) Ne), <- !lfn_zero by assumption.
    rewrite (lookupFrameNumber_unknown s tgt W K1). unfold missing_err. rewrite <- !lfn_zero by assumption.
    rewrite (lookupFrameNumber_unknown s tgt W K1). reflexivity.
Qed.

Theorem agree_latest : forall tgt src, closed s P 0 -> P tgt -> P src ->
  latest_common_time s tgt src = latest_common_time s' tgt src.
Proof.
  intros tgt src Cl P1 P2. unfold latest_common_time.
  destruct (known_dec s tgt) as [K1|K1]; [destruct (known_dec s src) as [K2|K2]|].
  - pose proof (lct_rel s s' W W' P false Hist (lfn s tgt) (lfn s' tgt) (lfn s src) (lfn s' src) None None Cl (known_rel tgt P1 K1) (known_rel src P2 K2) eq_refl) as H.
    destruct (getLatestCommonTime s (lfn s tgt) (lfn s src) None) as [[[code ot] e]|c x|]; cbn in H.
    + destruct H as ([[code' ot'] e'] & -> & <- & <- & _). reflexivity.
    + destruct H as [[? _]| ->]; [discriminate|reflexivity].
    + rewrite H. reflexivity.
  - unfold getLatestCommonTime. rewrite <- !lfn_zero by assumption. rewrite (lookupFrameNumber_unknown s src W K2). reflexivity.
  - unfold getLatestCommonTime. rewrite <- !lfn_zero by assumption. rewrite (lookupFrameNumber_unknown s tgt W K1).
    cbn [Nat.eqb]. rewrite !orb_true_r. reflexivity.
Qed.
End Two.
End P.
