(** * Which lookups succeed, how they fail, and the latest common time *)
From Coq Require Import ZArith Bool List String Lia Arith.
From Verif Require Import RosTime Scalar LinearMath Cache SpecCache CacheProofs CacheQueries
  BufferCore SpecCore CoreInv Naturality CoreSet WalkSpec LctSpec Bridge WalkMain Sim Forget LookupBase LookupTheorems.
Import ListNotations.
Open Scope Z_scope.
Local Opaque MAX_GRAPH_DEPTH.

Section P.
Context {S : Scalar}.
Notation storage := (storage S nat).
Notation nstorage := (Cache.storage S string).
Notation core := (core S).
Notation taccum := (@taccum S).
Implicit Types (s : core) (i : nat) (t : time) (tgt src : string).

Notation twalk := (@walkToTopParent S taccum ta_gather ta_accum ta_finalize).
Notation twalk_at := (@walk_at S taccum ta_gather ta_accum ta_finalize).
Notation lfn := lookupFrameNumber.
Notation nm s := (map_storage (name_of s)).

Definition bounded s t i : Prop := forall ds j, iclimb s t i ds j -> (List.length ds <= MAX_GRAPH_DEPTH)%nat.

Lemma iclimb_acyclic : forall s t i ds1 m ds2, bounded s t i -> iclimb s t i ds1 m -> iclimb s t m ds2 m -> ds2 = [].
Proof.
  intros s t i ds1 m ds2 Hb H1 H2. destruct ds2 as [|d ds2]; [reflexivity|]. exfalso.
  assert (G : forall k, exists es, iclimb s t m es m /\ (k <= List.length es)%nat).
  { induction k as [|k (es & He & L)]; [exists []; split; [constructor|cbn; lia]|].
    exists ((d :: ds2) ++ es). split; [eapply iclimb_app; eassumption|]. rewrite app_length. cbn [List.length]. lia. }
  destruct (G (Datatypes.S MAX_GRAPH_DEPTH)) as (es & He & L).
  specialize (Hb _ _ (iclimb_app _ _ _ _ _ _ _ H1 He)). rewrite app_length in Hb. lia.
Qed.
Lemma iclimb_same_end : forall s t i ds1 ds2 m, bounded s t i -> iclimb s t i ds1 m -> iclimb s t i ds2 m -> ds1 = ds2.
Proof.
  intros s t i ds1 ds2 m Hb H1 H2. destruct (iclimb_linear _ _ _ _ _ _ _ H1 H2) as [(r & -> & Hr)|(r & -> & Hr)].
  - rewrite (iclimb_acyclic s t i ds1 m r Hb H1 Hr), app_nil_r. reflexivity.
  - rewrite (iclimb_acyclic s t i ds2 m r Hb H2 Hr), app_nil_r. reflexivity.
Qed.
(** A chain that ends at a frame without link contains every other chain. *)
Lemma iclimb_top : forall s t i ds m es c, iclimb s t i ds m -> lnk s t m = None -> iclimb s t i es c ->
  exists r, ds = es ++ r /\ iclimb s t c r m.
Proof.
  intros s t i ds m es c H Hn He. destruct (iclimb_linear _ _ _ _ _ _ _ H He) as [(r & -> & Hr)|(r & -> & Hr)].
  - inversion Hr; subst; [|congruence]. exists []. rewrite !app_nil_r. split; [reflexivity|constructor].
  - exists r. auto.
Qed.
Lemma tops_meet : forall s t i j ds m dt m' es ft c, iclimb s t i ds m -> lnk s t m = None ->
  iclimb s t j dt m' -> lnk s t m' = None -> iclimb s t i es c -> iclimb s t j ft c -> m = m'.
Proof.
  intros s t i j ds m dt m' es ft c H1 N1 H2 N2 E1 E2.
  destruct (iclimb_top _ _ _ _ _ _ _ H1 N1 E1) as (r & _ & Hr). destruct (iclimb_top _ _ _ _ _ _ _ H2 N2 E2) as (r' & _ & Hr').
  destruct (iclimb_top _ _ _ _ _ _ _ Hr N1 Hr') as (x & _ & Hx). inversion Hx; subst; [reflexivity|congruence].
Qed.

(** ** success at a resolved time *)
Lemma walk_at_iff : forall s t target source err, wf s -> live s source -> live s target ->
  bounded s t source -> bounded s t target ->
  twalk_at s t target source taccum0 err <> range_exn ->
  (exists a e ch, twalk_at s t target source taccum0 err = Ok (NO_ERROR, a, e, ch)) <->
  (exists c ds dt, iclimb s t source ds c /\ iclimb s t target dt c).
Proof.
  intros s t target source err W Ls Lt Bs Bt Hr. pose proof (walk_at_outcome s t target source err W Ls Lt) as O. split.
  - intros (a & e & ch & E). rewrite E in O. inversion O; subst.
    + exists target, ds, []. split; [assumption|constructor].
    + exists source, [], dt. split; [constructor|assumption].
    + exists m, ds, dt. auto.
    + destruct (getFrame s m'), (getFrame s m); discriminate.
  - intros (c & es & ft & Es & Et). inversion O; subst; try (do 3 eexists; reflexivity).
    + specialize (Bs _ _ H0). lia.
    + specialize (Bt _ _ H3). lia.
    + exfalso. match goal with N : m' <> m |- _ => apply N end. symmetry.
      apply (tops_meet s t source target ds m dt m' es ft c); assumption.
    + exfalso. apply Hr. unfold range_exn. congruence.
Qed.

Lemma known_ids : forall s tgt src, wf s -> known s tgt -> known s src -> tgt <> src ->
  exists i j, live s i /\ live s j /\ name_of s i = tgt /\ name_of s j = src /\ lfn s tgt = i /\ lfn s src = j /\ j <> i.
Proof.
  intros s tgt src W K1 K2 Ne. destruct (known_live s tgt W K1) as (i & Li & Ni & Ei & _).
  destruct (known_live s src W K2) as (j & Lj & Nj & Ej & _). exists i, j. repeat (split; [assumption|]). congruence.
Qed.

Lemma common_names : forall s t i j, wf s -> live s i -> live s j ->
  (exists c ds dt, iclimb s t j ds c /\ iclimb s t i dt c) <-> (exists c, common_ancestor s t (name_of s j) (name_of s i) c).
Proof.
  intros s t i j W Li Lj. split.
  - intros (c & ds & dt & H1 & H2). exists (name_of s c).
    split; eexists; [apply (iclimb_climbs s t j ds c W Lj H1)|apply (iclimb_climbs s t i dt c W Li H2)].
  - intros (c & (ds & H1) & (dt & H2)).
    destruct (climbs_iclimb s t _ _ _ W H1 j Lj eq_refl) as (ds' & k & _ & Ek & Lk & Ck).
    destruct (climbs_iclimb s t _ _ _ W H2 i Li eq_refl) as (dt' & k' & _ & Ek' & Lk' & Ck').
    assert (k = k') by (apply (live_inj s); congruence). subst k'. eauto.
Qed.

Lemma finish_ok_iff : forall tgt src r, (exists m, finish tgt src r = Ok m) <-> exists a e ch, r = Ok (NO_ERROR, a, e, ch) :> res (tf2_error * taccum * errp * list nat).
Proof.
  intros tgt src r. split.
  - intros [m H]. destruct r as [[[[code a] e] ch]| |]; cbn in H; try discriminate. destruct code; try discriminate. eauto.
  - intros (a & e & ch & ->). cbn. eauto.
Qed.

Theorem lookup_succeeds_iff : forall s tgt src t, reachable s -> early s -> 0 < t < dur_bound ->
  plain tgt -> plain src -> known s tgt -> known s src -> tgt <> src ->
  depth_ok s t src -> depth_ok s t tgt ->
  ((exists m, lookupTransform s tgt src t = Ok m) <-> exists c, common_ancestor s t src tgt c).
Proof.
  intros s tgt src t R He Ht P1 P2 K1 K2 Ne Ds Dt. apply reachable_wf in R as W.
  rewrite lookup_walk by assumption.
  destruct (known_ids s tgt src W K1 K2 Ne) as (i & j & Li & Lj & <- & <- & -> & -> & D).
  rewrite walk_time by (assumption || lia). rewrite finish_ok_iff.
  assert (NR : twalk_at s t i j taccum0 (Some EEmpty) <> range_exn) by (apply walk_at_no_range; auto; lia).
  pose proof (idepth s t j W Lj Ds) as Bs. pose proof (idepth s t i W Li Dt) as Bt.
  rewrite (walk_at_iff s t i j (Some EEmpty) W Lj Li Bs Bt NR). apply common_names; assumption.
Qed.

(** ** latest common time *)
Lemma mins_oldest : forall ds : list storage, oldest_nonzero (map st_stamp ds) (time_or_zero (mins TIME_MAX ds)).
Proof.
  intros ds. destruct (mins_spec ds TIME_MAX) as [H1 H2]. pose proof (mins_le ds TIME_MAX) as L.
  unfold time_or_zero. destruct (mins TIME_MAX ds =? TIME_MAX) eqn:E.
  - left. apply Z.eqb_eq in E. split; [reflexivity|]. intros x Hx. apply in_map_iff in Hx as (d & <- & Hd).
    destruct (Z.eq_dec (st_stamp d) 0); [auto|]. right. rewrite <- E. auto.
  - right. apply Z.eqb_neq in E. destruct H1 as [|(d & Hd & Ed & Hz)]; [contradiction|].
    split; [congruence|]. split; [lia|]. split; [apply in_map_iff; eauto|].
    intros x Hx Hz'. apply in_map_iff in Hx as (d' & <- & Hd'). auto.
Qed.

Lemma oldest_nonzero_perm : forall l l' r, (forall x, In x l <-> In x l') -> oldest_nonzero l r -> oldest_nonzero l' r.
Proof.
  intros l l' r H [(-> & H1)|(H1 & H2 & H3 & H4)]; [left|right].
  - split; [reflexivity|]. intros x Hx. apply H1, H, Hx.
  - split; [assumption|]. split; [assumption|]. split; [apply H; assumption|]. intros x Hx. apply H4, H, Hx.
Qed.

Lemma map_nm_stamp : forall s (ds : list storage), map (@st_stamp S string) (map (nm s) ds) = map st_stamp ds.
Proof. intros s ds. rewrite map_map. reflexivity. Qed.

Theorem lct_is_oldest : forall s tgt src ds dt c, reachable s -> known s tgt -> known s src -> tgt <> src ->
  depth_ok s 0 src -> depth_ok s 0 tgt ->
  climbs s 0 src ds c -> climbs s 0 tgt dt c ->
  (forall c', common_ancestor s 0 src tgt c' -> exists es, climbs s 0 c es c') ->
  exists r, latest_common_time s tgt src = Ok (NO_ERROR, Some r) /\
    oldest_nonzero (map (@st_stamp S string) (ds ++ dt)) r.
Proof.
  intros s tgt src ds dt c R K1 K2 Ne Ds Dt Cs Ct Near. apply reachable_wf in R as W.
  unfold latest_common_time.
  destruct (known_ids s tgt src W K1 K2 Ne) as (i & j & Li & Lj & <- & <- & -> & -> & D).
  destruct (climbs_iclimb s 0 _ _ _ W Cs j Lj eq_refl) as (ds' & k & -> & -> & Lk & Is).
  destruct (climbs_iclimb s 0 _ _ _ W Ct i Li eq_refl) as (dt' & k' & -> & Ek & Lk' & It).
  apply (live_inj s) in Ek; [|assumption|assumption|assumption]. subst k'.
  pose proof (idepth s 0 j W Lj Ds) as Bs. pose proof (idepth s 0 i W Li Dt) as Bt.
  pose proof (lct_outcome_ok s i j None W Lj Li D) as O.
  inversion O as [es et p H1 H2 H3 H4 H5 H6 Eo|es m et m' err' H1 H2 H3 H4 H5 Ex Eo|q es m err' H1 H2 H3 Ex Eo]; cbn [bind].
  - exists (time_or_zero (mins TIME_MAX (es ++ et))). split; [reflexivity|].
    assert (Cp : common_ancestor s 0 (name_of s j) (name_of s i) (name_of s p)).
    { split; eexists; [apply (iclimb_climbs s 0 j es p W Lj H1)|apply (iclimb_climbs s 0 i et p W Li H2)]. }
    destruct (Near _ Cp) as [xs Hxs].
    destruct (climbs_iclimb s 0 _ _ _ W Hxs k Lk eq_refl) as (ys & p' & -> & Ep & Lp' & Iy).
    assert (Lp : live s p) by (apply (iclimb_climbs s 0 j es p W Lj H1)).
    apply (live_inj s) in Ep; [|assumption|assumption|assumption]. subst p'.
    assert (Es : es = ds' ++ ys) by (eapply iclimb_same_end; [exact Bs|exact H1|eapply iclimb_app; eassumption]).
    assert (Et : et = dt' ++ ys) by (eapply iclimb_same_end; [exact Bt|exact H2|eapply iclimb_app; eassumption]).
    destruct ys as [|y ys].
    + rewrite app_nil_r in *. subst. rewrite map_app, !map_nm_stamp, <- map_app. apply mins_oldest.
    + exfalso. assert (Hy : st_child y = k) by (inversion Iy; subst; eapply lnk_props; eassumption).
      assert (Hk : In k (map st_child et)).
      { rewrite Et, map_app. apply in_app_iff. right. cbn. auto. }
      destruct (H5 k Hk) as [N1 N2].
      pose proof (iclimb_child_frame s 0 j ds' k W Is) as CF.
      assert (In k (j :: map st_frame ds')) as [|Hin] by (rewrite <- CF; apply in_app_iff; cbn; auto); [congruence|].
      apply N2. rewrite Es, map_app. apply in_app_iff. auto.
  - exfalso. apply H5. eapply tops_meet; [exact H1|exact H2|exact H3|exact H4|exact Is|exact It].
  - exfalso. destruct H1 as [-> | ->]; [specialize (Bs _ _ H2)|specialize (Bt _ _ H2)]; lia.
Qed.

Theorem lct_disconnected : forall s tgt src, reachable s -> known s tgt -> known s src -> tgt <> src ->
  depth_ok s 0 src -> depth_ok s 0 tgt ->
  (forall c, ~ common_ancestor s 0 src tgt c) ->
  latest_common_time s tgt src = Ok (CONNECTIVITY_ERROR, None).
Proof.
  intros s tgt src R K1 K2 Ne Ds Dt Hn. apply reachable_wf in R as W. unfold latest_common_time.
  destruct (known_ids s tgt src W K1 K2 Ne) as (i & j & Li & Lj & <- & <- & -> & -> & D).
  pose proof (idepth s 0 j W Lj Ds) as Bs. pose proof (idepth s 0 i W Li Dt) as Bt.
  pose proof (lct_outcome_ok s i j None W Lj Li D) as O.
  inversion O as [es et p H1 H2 H3 H4 H5 H6 Eo|es m et m' err' H1 H2 H3 H4 H5 Ex Eo|q es m err' H1 H2 H3 Ex Eo]; cbn [bind].
  - exfalso. destruct (proj1 (common_names s 0 i j W Li Lj)) as [c Hc]; [eauto|]. apply (Hn c Hc).
  - reflexivity.
  - exfalso. destruct H1 as [-> | ->]; [specialize (Bs _ _ H2)|specialize (Bt _ _ H2)]; lia.
Qed.

(** A nearest common ancestor always exists when there is any. *)
Theorem nearest_exists : forall s t a b, depth_ok s t a -> depth_ok s t b -> (exists c, common_ancestor s t a b c) ->
  exists c ds dt, climbs s t a ds c /\ climbs s t b dt c /\
    (forall c', common_ancestor s t a b c' -> exists es, climbs s t c es c').
Proof.
  intros s t a b Da Db (c0 & (ds0 & H0) & (dt0 & K0)). revert dt0 K0.
  induction H0 as [n|n d ds m E H IH]; intros dt0 K0.
  - exists n, [], dt0. split; [constructor|]. split; [assumption|]. intros c' [H _]. exact H.
  - (* is [n] itself an ancestor of [b]? *)
    assert (Hdec : (exists es, climbs s t b es n) \/ ~ (exists es, climbs s t b es n)).
    { clear - Db K0. revert Db. induction K0 as [b|b d ds m E H IH]; intros Db.
      - destruct (string_dec b n) as [->|Hne]; [left; exists []; constructor|].
        (* climb on from the end of the given chain, at most MAX_GRAPH_DEPTH more steps *)
        assert (G : forall k m, (forall es x, climbs s t m es x -> (List.length es <= k)%nat) ->
           (exists es, climbs s t m es n) \/ ~ (exists es, climbs s t m es n)).
        { induction k as [|k IHk]; intros m Hm; (destruct (string_dec m n) as [->|Hmn]; [left; exists []; constructor|]).
          - right. intros [es He]. inversion He; subst; [congruence|]. specialize (Hm _ _ He). cbn in Hm. lia.
          - destruct (link s t m) as [d|] eqn:Ed.
            + destruct (IHk (st_frame d)) as [[es He]|Hno].
              * intros es x Hx. assert (Hc : climbs s t m (d :: es) x) by (econstructor; eassumption).
                specialize (Hm _ _ Hc). cbn in Hm. lia.
              * left. exists (d :: es). econstructor; eassumption.
              * right. intros [es He]. inversion He; subst; [congruence|]. apply Hno.
                match goal with L : link s t m = Some ?x |- _ => rewrite Ed in L; inversion L; subst end. eauto.
            + right. intros [es He]. inversion He; subst; [congruence|]. congruence. }
        apply (G MAX_GRAPH_DEPTH). exact Db.
      - destruct (string_dec b n) as [->|Hne]; [left; exists []; constructor|].
        assert (D2 : depth_ok s t (st_frame d)) by (apply (depth_up s t b [d] (st_frame d) Db); econstructor; [eassumption|constructor]).
        destruct (IH D2) as [[es He]|Hno].
        + left. exists (d :: es). econstructor; eassumption.
        + right. intros [es He]. inversion He; subst; [congruence|]. apply Hno.
          match goal with L : link s t b = Some ?x, L' : link s t b = Some ?y |- _ => rewrite L in L'; inversion L'; subst end. eauto. }
    destruct Hdec as [[es He]|Hno].
    + exists n, [], es. split; [constructor|]. split; [assumption|]. intros c' [H' _]. exact H'.
    + assert (D2 : depth_ok s t (st_frame d)) by (apply (depth_up s t n [d] (st_frame d) Da); econstructor; [eassumption|constructor]).
      destruct (IH D2 dt0 K0) as (c & ds1 & dt1 & C1 & C2 & Near).
      exists c, (d :: ds1), dt1. split; [econstructor; eassumption|]. split; [assumption|].
      intros c' [[xs Hx] Hc']. inversion Hx; subst.
      * destruct (Hno Hc').
      * apply Near. split; [|assumption].
        match goal with L : link s t n = Some ?x |- _ => rewrite E in L; inversion L; subst end. eauto.
Qed.

(** ** failure classification *)
Lemma hist_getFrame : forall s i, wf s -> live s i -> (hist s (name_of s i) = None <-> getFrame s i = None).
Proof.
  intros s i W [Hz L]. destruct (getFrame s i) as [c|] eqn:E.
  - rewrite (hist_frame s i c W Hz E). split; discriminate.
  - rewrite (hist_frame_none s i W Hz L E). tauto.
Qed.
End P.
