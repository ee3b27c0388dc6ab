(** * From ids to names: links and climbs *)
From Coq Require Import ZArith Bool List String Lia Arith.
From Verif Require Import RosTime Scalar LinearMath Cache SpecCache CacheProofs CacheQueries
  BufferCore SpecCore CoreInv Naturality CoreSet WalkSpec.
Import ListNotations.
Open Scope Z_scope.

Section P.
Context {S : Scalar}.
Notation storage := (storage S nat).
Notation nstorage := (Cache.storage S string).
Notation cache := (cache S nat).
Notation core := (core S).
Implicit Types (s : core) (c : cache) (x : storage) (i frame target source top : nat) (t : time)
  (err ext : errp).

(** A live id: in range and not the reserved one. *)
Definition live s i : Prop := i <> 0%nat /\ (i < List.length (c_rev s))%nat.
Notation nm s := (map_storage (name_of s)).

Lemma live_assoc : forall s n i, wf s -> assoc n (c_ids s) = Some i -> i <> 0%nat -> live s i /\ name_of s i = n.
Proof.
  intros s n i W H Hz. split; [|apply assoc_name_of; assumption]. split; [assumption|].
  rewrite <- (wf_len s W). apply (wf_id_lt s n); assumption.
Qed.
Lemma assoc_live : forall s i, wf s -> live s i -> assoc (name_of s i) (c_ids s) = Some i.
Proof. intros s i W [_ H]. apply (wf_ids s W). apply name_of_lt. assumption. Qed.
Lemma known_live : forall s n, wf s -> known s n ->
  exists i, live s i /\ name_of s i = n /\ lookupFrameNumber s n = i /\ assoc n (c_ids s) = Some i.
Proof.
  intros s n W H. destruct (lookupFrameNumber_known s n W H) as (i & E & Hz & Ha).
  destruct (live_assoc s n i W Ha Hz). eauto.
Qed.
Lemma live_known : forall s i, wf s -> live s i -> known s (name_of s i).
Proof.
  intros s i W H. split.
  - unfold frameExists. rewrite (assoc_live s i W H). reflexivity.
  - intros E. pose proof (assoc_live s i W H) as A. rewrite E in A.
    rewrite (proj2 (assoc_NO_PARENT s _ W) eq_refl) in A. destruct H. congruence.
Qed.
Lemma live_inj : forall s i j, wf s -> live s i -> live s j -> name_of s i = name_of s j -> i = j.
Proof. intros s i j W [_ H1] [_ H2]. apply name_of_inj; assumption. Qed.
Lemma lookup_live : forall s i, wf s -> live s i -> lookupFrameNumber s (name_of s i) = i.
Proof. intros s i W H. unfold lookupFrameNumber. rewrite (assoc_live s i W H). reflexivity. Qed.
Lemma known_dec : forall s n, known s n \/ ~ known s n.
Proof.
  intros s n. unfold known. destruct (frameExists s n); [|right; intros [H _]; discriminate].
  destruct (string_dec n NO_PARENT) as [->|H]; [right; intros [_ H]; congruence|left; auto].
Qed.

Lemma lnk_live : forall s t i d, wf s -> lnk s t i = Some d -> live s (st_frame d).
Proof. intros s t i d W H. destruct (lnk_props s t i d W H) as (_ & H1 & H2). split; assumption. Qed.

Lemma name_getData : forall s i c t err, wf s -> getFrame s i = Some c ->
  getData String.eqb (map_cache (name_of s) c) t err =
  bind (getData Nat.eqb c t err) (fun p => Ok (option_map (nm s) (fst p), snd p)).
Proof.
  intros s i c t err W Hc. apply getData_map. intros x y Hx Hy.
  destruct (wf_cache s W _ _ Hc) as (_ & _ & H3). destruct (H3 x Hx), (H3 y Hy).
  apply name_of_eqb; assumption.
Qed.

Lemma sample_idata : forall s t i, wf s -> live s i ->
  sample_at s t (name_of s i) = option_map (nm s) (idata s t i).
Proof.
  intros s t i W [Hz Hl]. unfold sample_at, idata. destruct (getFrame s i) as [c|] eqn:E.
  - rewrite (hist_frame s i c W Hz E), (name_getData s i c t None W E).
    destruct (getData Nat.eqb c t None) as [[[d|] e]| |]; reflexivity.
  - rewrite (hist_frame_none s i W Hz Hl E). reflexivity.
Qed.

Lemma link_lnk : forall s t i, wf s -> live s i ->
  link s t (name_of s i) = option_map (nm s) (lnk s t i).
Proof.
  intros s t i W H. unfold link, lnk. rewrite (sample_idata s t i W H).
  destruct (idata s t i) as [d|] eqn:E; [|reflexivity]. cbn [option_map map_storage st_frame].
  destruct (idata_props s t i d W E) as [_ L]. rewrite (name_of_NO_PARENT s _ W L).
  destruct (Nat.eqb (st_frame d) 0); reflexivity.
Qed.

Lemma link_unknown : forall s t n, wf s -> ~ known s n -> link s t n = None.
Proof.
  intros s t n W H. unfold link, sample_at, hist. destruct (assoc n (c_ids s)) as [[|i]|] eqn:E; try reflexivity.
  destruct H. destruct (live_assoc s n _ W E) as [L <-]; [discriminate|]. apply live_known; assumption.
Qed.

Lemma iclimb_climbs : forall s t i ds j, wf s -> live s i -> iclimb s t i ds j ->
  climbs s t (name_of s i) (map (nm s) ds) (name_of s j) /\ live s j.
Proof.
  intros s t i ds j W L H. induction H as [i|i d ds j E H IH]; [split; [constructor|assumption]|].
  destruct (IH (lnk_live s t i d W E)) as [H1 H2]. split; [|assumption].
  cbn. econstructor; [rewrite (link_lnk s t i W L), E; reflexivity|]. exact H1.
Qed.

Lemma climbs_iclimb : forall s t n nds m, wf s -> climbs s t n nds m -> forall i, live s i -> name_of s i = n ->
  exists ds j, nds = map (nm s) ds /\ m = name_of s j /\ live s j /\ iclimb s t i ds j.
Proof.
  intros s t n nds m W H. induction H as [n|n d ds m E H IH]; intros i L <-.
  - exists [], i. repeat split; try apply L. constructor.
  - rewrite (link_lnk s t i W L) in E. destruct (lnk s t i) as [d'|] eqn:Ed; [|discriminate].
    inversion E; subst d. destruct (IH (st_frame d') (lnk_live s t i d' W Ed) eq_refl) as (ds' & j & -> & -> & Lj & Hj).
    exists (d' :: ds'), j. repeat split; try apply Lj. econstructor; eassumption.
Qed.

Lemma climbs_linear : forall s t n ds1 m1 ds2 m2, climbs s t n ds1 m1 -> climbs s t n ds2 m2 ->
  (exists ds, ds2 = ds1 ++ ds /\ climbs s t m1 ds m2) \/ (exists ds, ds1 = ds2 ++ ds /\ climbs s t m2 ds m1).
Proof.
  intros s t n ds1 m1 ds2 m2 H1. revert ds2 m2.
  induction H1 as [n|n d ds1 m1 E H IH]; intros ds2 m2 H2.
  - left. exists ds2. auto.
  - inversion H2; subst.
    + right. exists (d :: ds1). split; [reflexivity|]. econstructor; eauto.
    + rewrite E in H0. inversion H0; subst. destruct (IH _ _ H1) as [(r & -> & Hr)|(r & -> & Hr)].
      * left. exists r. auto.
      * right. exists r. auto.
Qed.
Lemma climbs_app : forall s t n ds1 m ds2 k, climbs s t n ds1 m -> climbs s t m ds2 k -> climbs s t n (ds1 ++ ds2) k.
Proof. intros s t n ds1 m ds2 k H. induction H; cbn; [auto|]. intros. econstructor; eauto. Qed.

(** A bounded chain has no cycle. *)
Lemma climbs_repeat : forall s t n d ds, climbs s t n (d :: ds) n -> forall k,
  exists es, climbs s t n es n /\ (k <= List.length es)%nat.
Proof.
  intros s t n d ds H. induction k as [|k (es & He & L)].
  - exists []. split; [constructor|cbn; lia].
  - exists ((d :: ds) ++ es). split; [eapply climbs_app; eassumption|]. rewrite app_length. cbn. lia.
Qed.
Lemma depth_acyclic : forall s t n ds1 m ds2, depth_ok s t n -> climbs s t n ds1 m -> climbs s t m ds2 m -> ds2 = [].
Proof.
  intros s t n ds1 m ds2 Hd H1 H2. destruct ds2 as [|d ds2]; [reflexivity|]. exfalso.
  destruct (climbs_repeat s t m d ds2 H2 (Datatypes.S MAX_GRAPH_DEPTH)) as (es & He & L).
  specialize (Hd _ _ (climbs_app _ _ _ _ _ _ _ H1 He)). rewrite app_length in Hd. unfold MAX_GRAPH_DEPTH in *. lia.
Qed.
Lemma climbs_same_end : forall s t n ds1 ds2 m, depth_ok s t n -> climbs s t n ds1 m -> climbs s t n ds2 m -> ds1 = ds2.
Proof.
  intros s t n ds1 ds2 m Hd H1 H2.
  destruct (climbs_linear _ _ _ _ _ _ _ H1 H2) as [(r & -> & Hr)|(r & -> & Hr)].
  - rewrite (depth_acyclic s t n ds1 m r Hd H1 Hr), app_nil_r. reflexivity.
  - rewrite (depth_acyclic s t n ds2 m r Hd H2 Hr), app_nil_r. reflexivity.
Qed.
Lemma depth_up : forall s t n ds m, depth_ok s t n -> climbs s t n ds m -> depth_ok s t m.
Proof.
  intros s t n ds m Hd H es k He. specialize (Hd _ _ (climbs_app _ _ _ _ _ _ _ H He)).
  rewrite app_length in Hd. lia.
Qed.
Lemma idepth : forall s t i, wf s -> live s i -> depth_ok s t (name_of s i) ->
  forall ds j, iclimb s t i ds j -> (List.length ds <= MAX_GRAPH_DEPTH)%nat.
Proof.
  intros s t i W L Hd ds j H. destruct (iclimb_climbs s t i ds j W L H) as [H1 _].
  specialize (Hd _ _ H1). rewrite map_length in Hd. assumption.
Qed.

(** ** error texts can always be built *)
Lemma frame_string : forall s i, wf s -> (i < List.length (c_rev s))%nat -> lookupFrameString s i = Ok (name_of s i).
Proof. intros s i W H. unfold lookupFrameString. rewrite (name_of_lt s i H). reflexivity. Qed.
Lemma connectivity_ok : forall s source target err, wf s -> live s source -> live s target ->
  connectivity_error s source target err =
  Ok (match err with None => None | Some _ => Some (EConnectivity (name_of s target) (name_of s source)) end).
Proof.
  intros s source target err W [_ H1] [_ H2]. destruct err; [|reflexivity]. cbn.
  rewrite !frame_string by assumption. reflexivity.
Qed.
Lemma when_ok : forall s source target text err, wf s -> live s source -> live s target ->
  when_error s source target text err =
  Ok (match err with None => None | Some _ => Some (EWhenLookingUp text (name_of s source) (name_of s target)) end).
Proof.
  intros s source target text err W [_ H1] [_ H2]. destruct err; [|reflexivity]. cbn.
  rewrite !frame_string by assumption. reflexivity.
Qed.

Lemma allFrames_from_ok : forall s fs k, wf s ->
  (forall j c, nth_error fs j = Some (Some c) -> getFrame s (k + j) = Some c) ->
  exists str, allFrames_from s fs k = Ok str.
Proof.
  intros s fs. induction fs as [|[c|] fs IH]; intros k W H; [cbn; eauto| |].
  - cbn [allFrames_from]. pose proof (H 0%nat c eq_refl) as Hc. rewrite Nat.add_0_r in Hc.
    destruct (wf_cache s W _ _ Hc) as (Hok & _ & H3).
    destruct (getData_no_throw Nat.eqb c 0 Hok) as [o Eo]. rewrite Eo. cbn [bind].
    assert (L : (k < List.length (c_rev s))%nat) by (rewrite <- (wf_len s W); apply (getFrame_lt s k c Hc)).
    rewrite (name_of_lt s k L).
    assert (L' : (match o with Some d => st_frame d | None => 0%nat end < List.length (c_rev s))%nat).
    { destruct o as [d|]; [|pose proof (wf_root s W) as R; apply nth_error_lt in R; assumption].
      apply getData_in in Eo as (x & Hx & E1 & _). rewrite <- E1. apply (H3 x Hx). }
    rewrite (name_of_lt s _ L').
    destruct (IH (Datatypes.S k) W) as [str ->].
    { intros j c' Hj. rewrite Nat.add_succ_comm. apply (H (Datatypes.S j)). exact Hj. }
    cbn. eauto.
  - cbn [allFrames_from]. apply IH; [assumption|].
    intros j c' Hj. rewrite Nat.add_succ_comm. apply (H (Datatypes.S j)). exact Hj.
Qed.
Lemma allFrames_ok : forall s, wf s -> exists str, allFramesAsString s = Ok str.
Proof.
  intros s W. apply allFrames_from_ok; [assumption|]. intros j c H. unfold getFrame.
  destruct (c_frames s) as [|f fs]; cbn in *; [destruct j; discriminate|]. rewrite H. reflexivity.
Qed.
Lemma loop_ok : forall s err, wf s -> exists str,
  loop_error s err = Ok (match err with None => None | Some _ => Some (ELoop str) end).
Proof. intros s err W. destruct (allFrames_ok s W) as [str E]. exists str. destruct err; [|reflexivity]. cbn. rewrite E. reflexivity. Qed.
End P.
