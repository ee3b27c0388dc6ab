(** * lookupTransform and canTransform in terms of walks *)
From Coq Require Import ZArith Bool List String Lia Arith.
From Verif Require Import RosTime Scalar LinearMath Cache SpecCache CacheProofs CacheQueries
  BufferCore SpecCore CoreInv Naturality CoreSet WalkSpec LctSpec Bridge WalkMain Sim Forget.
Import ListNotations.
Open Scope Z_scope.
Local Opaque MAX_GRAPH_DEPTH.

Section P.
Context {S : Scalar}.
Notation storage := (storage S nat).
Notation cache := (cache S nat).
Notation core := (core S).
Notation taccum := (@taccum S).
Implicit Types (s : core) (c : cache) (i : nat) (t : time) (err ext : errp) (tgt src : string).

Notation twalk := (@walkToTopParent S taccum ta_gather ta_accum ta_finalize).
Notation cwalk := (@walkToTopParent S unit ca_gather ca_accum ca_finalize).

Definition finish tgt src (r : res (tf2_error * taccum * errp * list nat)) : res (tmsg S) :=
  ' (code, a, err, _) <- r ;;
  match code with
  | NO_ERROR => Ok {| tm_stamp := ta_time a; tm_frame := tgt; tm_child := src; tm_trans := ta_rv a; tm_rot := ta_rq a |}
  | _ => throw_code code err
  end.

Lemma plain_dec : forall n, {plain n} + {~ plain n}.
Proof.
  intros n. unfold plain. destruct n as [|a n]; [right; intros [H _]; congruence|].
  destruct (startsWithSlash (String a n)); [right; intros [_ H]; discriminate|left; split; [discriminate|reflexivity]].
Qed.
Lemma plain_warn : forall n, warnFrameId n = false <-> plain n.
Proof.
  intros n. unfold warnFrameId, plain. destruct n as [|a n]; cbn [is_empty orb].
  - split; [discriminate|intros [H _]; congruence].
  - split; [intros H; split; [discriminate|assumption]|intros [_ H]; assumption].
Qed.

Lemma validate_known : forall s arg n, wf s -> plain n -> known s n -> validateFrameId s arg n = Ok (lookupFrameNumber s n).
Proof.
  intros s arg n W [H1 H2] K. unfold validateFrameId. destruct n as [|a n]; [congruence|]. cbn [is_empty]. rewrite H2.
  destruct (lookupFrameNumber_known s _ W K) as (i & -> & Hz & _). rewrite (proj2 (Nat.eqb_neq _ _) Hz). reflexivity.
Qed.
Lemma validate_unknown : forall s arg n, wf s -> plain n -> ~ known s n ->
  validateFrameId s arg n = Throw LookupException (ENoSuchFrame arg n).
Proof.
  intros s arg n W [H1 H2] K. unfold validateFrameId. destruct n as [|a n]; [congruence|]. cbn [is_empty]. rewrite H2.
  rewrite (lookupFrameNumber_unknown s _ W K). reflexivity.
Qed.
Lemma validate_not_plain : forall s arg n, ~ plain n -> exists e, validateFrameId s arg n = Throw InvalidArgumentException e.
Proof.
  intros s arg n H. unfold validateFrameId. destruct n as [|a n]; cbn [is_empty]; [eauto|].
  destruct (startsWithSlash (String a n)) eqn:E; [eauto|]. destruct H. split; [discriminate|assumption].
Qed.

Lemma lookup_walk : forall s tgt src t, wf s -> tgt <> src -> plain tgt -> plain src -> known s tgt -> known s src ->
  lookupTransform s tgt src t =
  finish tgt src (twalk s t (lookupFrameNumber s tgt) (lookupFrameNumber s src) taccum0 (Some EEmpty)).
Proof.
  intros s tgt src t W Hne P1 P2 K1 K2. unfold lookupTransform. rewrite (proj2 (String.eqb_neq _ _) Hne).
  rewrite !validate_known by assumption. reflexivity.
Qed.

Lemma can_walk : forall s tgt src t err, wf s -> tgt <> src -> plain tgt -> plain src -> known s tgt -> known s src ->
  canTransform s tgt src t err =
  (' (code, _, err', _) <- twalk s t (lookupFrameNumber s tgt) (lookupFrameNumber s src) taccum0 err ;;
   Ok (match code with NO_ERROR => true | _ => false end, err')).
Proof.
  intros s tgt src t err W Hne P1 P2 K1 K2. unfold canTransform. rewrite (proj2 (String.eqb_neq _ _) Hne).
  rewrite (proj2 (plain_warn _) P1), (proj2 (plain_warn _) P2).
  destruct (known_live s tgt W K1) as (i & Li & Ni & -> & _). destruct (known_live s src W K2) as (j & Lj & Nj & -> & _).
  assert (D : i <> j) by congruence.
  rewrite (proj2 (Nat.eqb_neq _ _) (proj1 Li)), (proj2 (Nat.eqb_neq _ _) (proj1 Lj)). cbn [orb].
  unfold canTransformNoLock.
  rewrite (proj2 (Nat.eqb_neq _ _) (proj1 Li)), (proj2 (Nat.eqb_neq _ _) (proj1 Lj)), (proj2 (Nat.eqb_neq _ _) D). cbn [orb].
  rewrite (walk_forget s t i j taccum0 err W).
  destruct (twalk s t i j taccum0 err) as [[[[code a] e] ch]| |]; try reflexivity. cbn. destruct code; reflexivity.
Qed.

(** ** no undefined behaviour, no unexpected codes *)
Lemma twalk_cases : forall s t target source err, wf s -> live s target -> live s source ->
  (err <> None /\ twalk s t target source taccum0 err = range_exn) \/
  exists code a err' ch, twalk s t target source taccum0 err = Ok (code, a, err', ch) /\
    (code = NO_ERROR \/ code = LOOKUP_ERROR \/ code = CONNECTIVITY_ERROR \/ code = EXTRAPOLATION_ERROR) /\
    (err = None <-> err' = None).
Proof.
  intros s t target source err W Lt Ls.
  assert (At : forall u, (err <> None /\ walk_at ta_gather ta_accum ta_finalize s u target source taccum0 err = range_exn) \/
    exists code a err' ch, walk_at ta_gather ta_accum ta_finalize s u target source taccum0 err = Ok (code, a, err', ch) /\
    (code = NO_ERROR \/ code = LOOKUP_ERROR \/ code = CONNECTIVITY_ERROR \/ code = EXTRAPOLATION_ERROR) /\
    (err = None <-> err' = None)).
  { intros u. destruct (walk_at_outcome s u target source err W Ls Lt); try (right; do 4 eexists; split; [reflexivity|]; split; [auto|]; tauto).
    - right. do 4 eexists. split; [reflexivity|]. split; [|assumption]. subst code.
      destruct (getFrame s m'), (getFrame s m); auto.
    - left. auto. }
  destruct (Nat.eq_dec source target) as [->|Ne].
  - right. rewrite walk_same. do 4 eexists. split; [reflexivity|]. split; [auto|tauto].
  - destruct (Z.eq_dec t 0) as [->|Ht]; [|rewrite walk_time by assumption; apply At].
    rewrite walk_zero by assumption. destruct (lct_outcome_ok s target source err W Ls Lt Ne); cbn [bind].
    + apply At.
    + right. do 4 eexists. split; [reflexivity|]. split; [auto|]. subst err'. destruct err; split; congruence.
    + right. do 4 eexists. split; [reflexivity|]. split; [auto|]. destruct H2 as [str ->]. destruct err; split; congruence.
Qed.

(** The silent walk gives the same verdict, unless the reporting one fails in rostime. *)
Lemma twalk_silent : forall s t target source e, wf s -> live s target -> live s source ->
  simr true (fun p p' => fst (fst (fst p)) = fst (fst (fst p')) /\ snd p = snd p')
    (twalk s t target source taccum0 (Some e)) (twalk s t target source taccum0 None).
Proof.
  intros s t target source e W Lt Ls.
  assert (R : forall i, live s i -> rel s s (fun _ => True) i i) by (intros i L; unfold rel; auto).
  pose proof (walk_rel s s W W (fun _ => True) true (fun _ _ => eq_refl) t target target source source taccum0 taccum0 (Some e) None) as H.
  lapply H; [clear H; intros H|split; [intros n d _ _; exact I|intros _ e0 u _ n d _ _; exact I]].
  specialize (H (R _ Lt) (R _ Ls)).
  assert (A : arel s s taccum0 taccum0) by (repeat split). specialize (H A eq_refl).
  destruct (twalk s t target source taccum0 (Some e)) as [[[[code a] e1] ch]| |]; cbn in H |- *.
  - destruct H as ([[[code' a'] e1'] ch'] & -> & H1 & _ & _ & H4). eexists. split; [reflexivity|]. cbn. split; [assumption|].
    clear - H4 W. induction H4 as [|x y l l' Hx H IH]; [reflexivity|]. f_equal; [|assumption].
    destruct Hx as (L1 & L2 & N & _). apply (live_inj s); assumption.
  - assumption.
  - assumption.
Qed.

(** When no stamp is 2^31 s or more away there is no range exception. *)
Lemma early_getFrame : forall s i c x, wf s -> early s -> live s i -> getFrame s i = Some c -> In x (samples c) -> st_stamp x < dur_bound.
Proof.
  intros s i c x W He [Hz _] Hc Hx. specialize (He _ _ (map_storage (name_of s) x) (hist_frame s i c W Hz Hc)).
  rewrite samples_map in He. apply He. apply in_map. assumption.
Qed.
Lemma gather_no_range : forall s t i c a err, wf s -> early s -> 0 <= t < dur_bound -> live s i -> getFrame s i = Some c ->
  ta_gather a c t err <> range_exn.
Proof.
  intros s t i c a err W He Ht L Hc. unfold ta_gather. destruct (wf_cache s W _ _ Hc) as (Hok & _ & _).
  pose proof (getData_no_range Nat.eqb c t err Hok) as H.
  destruct (getData Nat.eqb c t err) as [[[d|] e]|cl e|]; cbn; try discriminate. unfold range_exn.
  intros E. apply H; [|congruence]. intros max l x -> Hx.
  pose proof (early_getFrame s i _ x W He L Hc Hx).
  assert (0 <= st_stamp x).
  { destruct Hok as [_ (_ & _ & P)]. exact (P x Hx). }
  unfold dur_bound in *. lia.
Qed.

(** The parent read from a frame is a live id or 0. *)
Lemma gather_live : forall s t i c a err a' p e, wf s -> getFrame s i = Some c ->
  ta_gather a c t err = Ok (a', p, e) -> p <> 0%nat -> live s p.
Proof.
  intros s t i c a err a' p e W Hc H Hz. unfold ta_gather in H.
  destruct (getData Nat.eqb c t err) as [[[d|] x]| |] eqn:E; cbn in H; try discriminate; inversion H; subst; [|congruence].
  split; [assumption|]. apply getData_in in E as (y & Hy & F & _). destruct (wf_cache s W _ _ Hc) as (_ & _ & H3).
  rewrite <- F. apply (H3 y Hy).
Qed.

Lemma walkSource_no_range : forall fuel s t target frame top a ext ch, wf s -> early s -> 0 <= t < dur_bound -> live s frame ->
  walkSource ta_gather ta_accum ta_finalize fuel s t target frame top a ext ch <> range_exn.
Proof.
  induction fuel as [|fuel IH]; intros s t target frame top a ext ch W He Ht L; cbn [walkSource];
    (destruct (Nat.eqb frame 0); [discriminate|]); destruct (getFrame s frame) as [c|] eqn:E; try discriminate;
    pose proof (gather_no_range s t frame c a ext W He Ht L E) as G;
    destruct (ta_gather a c t ext) as [[[a1 p] e]|cl e|] eqn:Eg; cbn [bind]; try discriminate; try (intros X; inversion X; subst; apply G; reflexivity);
    destruct (Nat.eqb p 0) eqn:Ez; try discriminate; destruct (Nat.eqb frame target); try discriminate.
  apply IH; auto. apply Nat.eqb_neq in Ez. eapply gather_live; eassumption.
Qed.
Lemma walkTarget_no_range : forall fuel s t source top frame a err ch, wf s -> early s -> 0 <= t < dur_bound -> live s frame ->
  walkTarget ta_gather ta_accum ta_finalize fuel s t source top frame a err ch <> range_exn.
Proof.
  induction fuel as [|fuel IH]; intros s t source top frame a err ch W He Ht L; cbn [walkTarget];
    (destruct (Nat.eqb frame top); [discriminate|]); destruct (getFrame s frame) as [c|] eqn:E; try discriminate;
    pose proof (gather_no_range s t frame c a err W He Ht L E) as G;
    destruct (ta_gather a c t err) as [[[a1 p] e]|cl e|] eqn:Eg; cbn [bind]; try discriminate; try (intros X; inversion X; subst; apply G; reflexivity);
    destruct (Nat.eqb p 0) eqn:Ez; try discriminate; destruct (Nat.eqb frame source); try discriminate.
  apply IH; auto. apply Nat.eqb_neq in Ez. eapply gather_live; eassumption.
Qed.
Lemma walk_at_no_range : forall s t target source a err, wf s -> early s -> 0 <= t < dur_bound -> live s source -> live s target ->
  walk_at ta_gather ta_accum ta_finalize s t target source a err <> range_exn.
Proof.
  intros s t target source a err W He Ht Ls Lt. unfold walk_at.
  pose proof (walkSource_no_range MAX_GRAPH_DEPTH s t target source source a
    (match err with Some _ => Some EEmpty | None => None end) [] W He Ht Ls) as G.
  destruct (walkSource _ _ _ _ _ _ _ _ _ _ _ _) as [[a1 ch|a1 top x b ch|]| |]; cbn [bind]; try discriminate; try (intros X; inversion X; subst; apply G; reflexivity).
  - pose proof (walkTarget_no_range MAX_GRAPH_DEPTH s t source top target a1 err [] W He Ht Lt) as G'.
    destruct (walkTarget _ _ _ _ _ _ _ _ _ _ _ _) as [[a2 rch|a2 f y rch|y|y]| |]; cbn [bind]; try discriminate; try (intros X; inversion X; subst; apply G'; reflexivity).
    + destruct (Nat.eqb f top).
      * unfold prune_chain. set (n := Z.of_nat (List.length ch) - 1 - _).
        destruct (0 <? n); [destruct (Z.of_nat (List.length ch) <? n + 2)|]; discriminate.
      * destruct b.
        -- rewrite when_ok by assumption. discriminate.
        -- rewrite connectivity_ok by assumption. discriminate.
    + rewrite when_ok by assumption. discriminate.
    + destruct (loop_ok s y W) as [str ->]. discriminate.
  - destruct (loop_ok s err W) as [str ->]. discriminate.
Qed.

(** The time a time-zero query is answered for is zero or a kept stamp. *)
Lemma idata0_stamp : forall s i d, idata s 0 i = Some d -> st_stamp d = 0 \/ exists c, getFrame s i = Some c /\ In d (samples c).
Proof.
  intros s i d H. unfold idata in H. destruct (getFrame s i) as [c|] eqn:E; [|discriminate].
  destruct c as [max [|x l]|[x|]]; cbn in H; try discriminate; inversion H; subst.
  - right. eexists. split; [reflexivity|]. cbn. auto.
  - left. reflexivity.
Qed.
Lemma iclimb_stamp : forall s i ds j, wf s -> early s -> live s i -> iclimb s 0 i ds j -> Forall (fun d => st_stamp d = 0 \/ 0 <= st_stamp d < dur_bound) ds.
Proof.
  intros s i ds j W He L H. induction H as [i|i d ds j E H IH]; [constructor|].
  constructor; [|apply IH; eapply lnk_live; eassumption].
  destruct (lnk_data _ _ _ _ E) as [E1 _]. destruct (idata0_stamp s i d E1) as [|(c & Hc & Hd)]; [auto|].
  right. split; [|eapply early_getFrame; eassumption].
  destruct (wf_cache s W _ _ Hc) as (Hok & _ & _). destruct c as [max l|[o|]]; cbn in Hd.
  - destruct Hok as [_ (_ & _ & P)]. exact (P d Hd).
  - unfold idata in E1. rewrite Hc in E1. cbn in E1. inversion E1. cbn. lia.
  - destruct Hd.
Qed.
Lemma time_or_zero_mins : forall ds : list storage, Forall (fun d => st_stamp d = 0 \/ 0 <= st_stamp d < dur_bound) ds ->
  0 <= time_or_zero (mins TIME_MAX ds) < dur_bound.
Proof.
  intros ds H. destruct (mins_spec ds TIME_MAX) as [[E|(d & Hd & E & Hz)] _].
  - unfold time_or_zero. rewrite E, Z.eqb_refl. unfold dur_bound. lia.
  - rewrite Forall_forall in H. specialize (H d Hd). unfold time_or_zero. rewrite <- E.
    destruct (st_stamp d =? TIME_MAX); unfold dur_bound in *; lia.
Qed.

Lemma twalk_no_range : forall s t target source err, wf s -> early s -> 0 <= t < dur_bound -> live s target -> live s source ->
  twalk s t target source taccum0 err <> range_exn.
Proof.
  intros s t target source err W He Ht Lt Ls. destruct (Nat.eq_dec source target) as [->|Ne].
  - rewrite walk_same. discriminate.
  - destruct (Z.eq_dec t 0) as [->|Hz].
    + rewrite walk_zero by assumption. destruct (lct_outcome_ok s target source err W Ls Lt Ne) as [ds dt p H1 H2| |]; cbn [bind]; try discriminate.
      apply walk_at_no_range; auto. apply time_or_zero_mins. apply Forall_app.
      split; [apply (iclimb_stamp s source ds p)|apply (iclimb_stamp s target dt p)]; assumption.
    + rewrite walk_time by assumption. apply walk_at_no_range; assumption.
Qed.
End P.
