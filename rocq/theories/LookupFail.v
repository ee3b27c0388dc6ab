(** * How lookups fail *)
From Coq Require Import ZArith Bool List String Lia Arith.
From Verif Require Import RosTime Scalar LinearMath Cache SpecCache CacheProofs CacheQueries
  BufferCore SpecCore CoreInv Naturality CoreSet WalkSpec LctSpec Bridge WalkMain Sim Forget LookupBase LookupTheorems LookupTree.
Import ListNotations.
Open Scope Z_scope.
Local Opaque MAX_GRAPH_DEPTH.

Section P.
Context {S : Scalar}.
Notation storage := (storage S nat).
Notation core := (core S).
Notation taccum := (@taccum S).
Implicit Types (s : core) (i : nat) (t : time) (tgt src : string).
Notation twalk := (@walkToTopParent S taccum ta_gather ta_accum ta_finalize).
Notation twalk_at := (@walk_at S taccum ta_gather ta_accum ta_finalize).
Notation lfn := lookupFrameNumber.

(** ** names *)
Theorem lookup_invalid_iff : forall s tgt src t, reachable s ->
  ((exists e, lookupTransform s tgt src t = Throw InvalidArgumentException e) <->
   tgt <> src /\ (~ plain tgt \/ (known s tgt /\ ~ plain src))).
Proof.
  intros s tgt src t R. apply reachable_wf in R as W.
  destruct (lookup_shape s tgt src t W) as [(E & ->)|[(N & A & x & ->)|[(N & A & B & x & ->)|[(N & A & B & C & x & ->)|[(N & A & B & C & D & x & ->)|(N & P1 & K1 & P2 & K2 & ->)]]]]].
  - split; [intros [e H]; discriminate|intros [H _]; congruence].
  - split; [tauto|eauto].
  - split; [intros [e H]; discriminate|intros [_ [H|[H _]]]; contradiction].
  - split; [tauto|eauto].
  - split; [intros [e H]; discriminate|intros [_ [H|[_ H]]]; contradiction].
  - split; [|intros [_ [H|[_ H]]]; contradiction]. intros [e H]. exfalso.
    destruct (known_live s tgt W K1) as (i & Li & _ & Ei & _). destruct (known_live s src W K2) as (j & Lj & _ & Ej & _).
    rewrite Ei, Ej in H.
    destruct (twalk_cases s t i j (Some EEmpty) W Li Lj) as [[_ E]|(code & a & e' & ch & E & Hc & _)]; rewrite E in H; cbn in H; [discriminate|].
    destruct Hc as [->|[->|[->| ->]]]; cbn in H; discriminate.
Qed.

Theorem lookup_unknown : forall s tgt src t, reachable s -> tgt <> src -> plain tgt ->
  (~ known s tgt \/ (plain src /\ ~ known s src)) ->
  exists e, lookupTransform s tgt src t = Throw LookupException e.
Proof.
  intros s tgt src t R N P1 H. apply reachable_wf in R as W.
  destruct (lookup_shape s tgt src t W) as [(E & _)|[(_ & A & x & ->)|[(_ & A & B & x & ->)|[(_ & A & B & C & x & ->)|[(_ & A & B & C & D & x & ->)|(_ & A & K1 & P2 & K2 & ->)]]]]];
    [congruence|contradiction|eauto|tauto|eauto|tauto].
Qed.

Theorem lookup_total : forall s tgt src t, reachable s ->
  (exists m, lookupTransform s tgt src t = Ok m) \/
  exists cl e, lookupTransform s tgt src t = Throw cl e /\
    In cl [InvalidArgumentException; LookupException; ConnectivityException; ExtrapolationException; RuntimeError].
Proof.
  intros s tgt src t R. apply reachable_wf in R as W.
  destruct (lookup_shape s tgt src t W) as [(E & ->)|[(_ & A & x & ->)|[(_ & A & B & x & ->)|[(_ & A & B & C & x & ->)|[(_ & A & B & C & D & x & ->)|(_ & A & K1 & P2 & K2 & ->)]]]]];
    try (left; eauto; fail); try (right; do 2 eexists; split; [reflexivity|cbn; tauto]).
  destruct (known_live s tgt W K1) as (i & Li & _ & Ei & _). destruct (known_live s src W K2) as (j & Lj & _ & Ej & _). rewrite Ei, Ej.
  destruct (twalk_cases s t i j (Some EEmpty) W Li Lj) as [[_ E]|(code & a & e' & ch & E & Hc & _)]; rewrite E; cbn.
  - right. do 2 eexists. split; [reflexivity|cbn; tauto].
  - destruct Hc as [->|[->|[->| ->]]]; cbn; [left; eauto|right..]; do 2 eexists; (split; [reflexivity|cbn; tauto]).
Qed.

(** ** chains *)
Lemma iclimb_len : forall s t i ds m ds' m', iclimb s t i ds m -> iclimb s t i ds' m' -> (List.length ds <= List.length ds')%nat ->
  exists r, ds' = ds ++ r /\ iclimb s t m r m'.
Proof.
  intros s t i ds m ds' m' H1 H2 L. destruct (iclimb_linear _ _ _ _ _ _ _ H1 H2) as [(r & -> & Hr)|(r & -> & Hr)]; [eauto|].
  rewrite app_length in L. destruct r; cbn in L; [|lia]. inversion Hr; subst. exists []. rewrite !app_nil_r. split; [reflexivity|constructor].
Qed.

(** A source chain longer than the bound that does not pass the target. *)
Lemma walk_at_deep_src : forall s t target source ds m, wf s -> live s source -> live s target ->
  iclimb s t source ds m -> (MAX_GRAPH_DEPTH < List.length ds)%nat -> (forall i, In i (map st_child ds) -> i <> target) ->
  exists a str, twalk_at s t target source taccum0 (Some EEmpty) = Ok (LOOKUP_ERROR, a, Some (ELoop str), []).
Proof.
  intros s t target source ds m W Ls Lt H L Hp.
  assert (Top : forall ds1 m1, iclimb s t source ds1 m1 -> lnk s t m1 = None -> (List.length ds1 <= MAX_GRAPH_DEPTH)%nat -> False).
  { intros ds1 m1 H1 N1 L1. destruct (iclimb_top _ _ _ _ _ _ _ H1 N1 H) as (r & -> & _). rewrite app_length in L1. lia. }
  pose proof (walk_at_outcome s t target source (Some EEmpty) W Ls Lt) as O.
  destruct O as [ds1 m1 a err' H1 L1 P1 [str ->] _|ds1 a H1 L1 P1 D1 _ _|ds1 m1 ? ? ? ? H1 N1 L1|ds1 m1 ? ? H1 N1 L1|ds1 m1 ? ? ? H1 N1 L1|ds1 m1 ? ? ? ? ? H1 N1 L1|ds1 m1 ? H1 L1 N1];
    try (exfalso; eapply Top; eassumption).
  - eauto.
  - exfalso. destruct (iclimb_len _ _ _ _ _ _ _ H1 H) as (r & -> & Hr); [lia|]. destruct r as [|d r].
    + rewrite app_nil_r in L. lia.
    + apply (Hp target); [|reflexivity]. rewrite map_app. apply in_app_iff. right. cbn. left.
      inversion Hr; subst. eapply lnk_props; eassumption.
Qed.

(** A target chain longer than the bound, the source chain ending without meeting it. *)
Lemma walk_at_deep_tgt : forall s t target source ds m dt m', wf s -> live s source -> live s target ->
  iclimb s t source ds m -> lnk s t m = None -> (List.length ds <= MAX_GRAPH_DEPTH)%nat ->
  iclimb s t target dt m' -> (MAX_GRAPH_DEPTH < List.length dt)%nat ->
  (forall i, In i (map st_child dt) -> i <> source /\ i <> m) ->
  twalk_at s t target source taccum0 (Some EEmpty) <> range_exn ->
  exists a str, twalk_at s t target source taccum0 (Some EEmpty) = Ok (LOOKUP_ERROR, a, Some (ELoop str), []).
Proof.
  intros s t target source ds m dt m' W Ls Lt H N L H' L' Hp NR.
  assert (EndIn : forall dt1 k, iclimb s t target dt1 k -> (List.length dt1 <= MAX_GRAPH_DEPTH)%nat -> In k (map st_child dt)).
  { intros dt1 k K Lk. destruct (iclimb_len _ _ _ _ _ _ _ K H') as (r & -> & Hr); [lia|]. destruct r as [|d r].
    - rewrite app_nil_r in L'. lia.
    - rewrite map_app. apply in_app_iff. right. cbn. left. inversion Hr; subst. eapply lnk_props; eassumption. }
  pose proof (walk_at_outcome s t target source (Some EEmpty) W Ls Lt) as O.
  destruct O as [ds1 m1 a err' H1 L1 P1 [str ->] _|ds1 a H1 L1 P1 D1 _ _|ds1 m1 dt1 m1' a err' H1 N1 L1 K1 M1 P1 [str ->] _|ds1 m1 dt1 a H1 N1 L1 Q K1 M1 P1|ds1 m1 dt1 a ch H1 N1 L1 P1 K1 M1 Q1|ds1 m1 dt1 m1' a code err' H1 N1 L1 P1 K1 M1 Q1|ds1 m1 ? H1 L1 N1];
    eauto.
  - (* target above the source: then the target chain passes m, or is shorter *)
    exfalso. destruct (iclimb_top _ _ _ _ _ _ _ H N H1) as (r & -> & Hr).
    destruct (iclimb_linear _ _ _ _ _ _ _ Hr H') as [(x & -> & Hx)|(x & -> & Hx)].
    + destruct x as [|d x]; [rewrite app_nil_r in L'; rewrite app_length in L; lia|]. inversion Hx; congruence.
    + rewrite !app_length in L. lia.
  - exfalso. destruct (Hp source) as [F _]; [eapply EndIn; eassumption|]. congruence.
  - exfalso. assert (m1 = m).
    { destruct (iclimb_top _ _ _ _ _ _ _ H N H1) as (r & _ & Hr). inversion Hr; subst; [reflexivity|congruence]. }
    subst m1. destruct (Hp m) as [_ F]; [eapply EndIn; eassumption|]. congruence.
  - exfalso. destruct (iclimb_top _ _ _ _ _ _ _ K1 M1 H') as (r & -> & _). rewrite app_length in Q1. lia.
  - exfalso. apply NR. reflexivity.
Qed.

(** ** the classification at a given time *)
Lemma walk_at_class : forall s t target source, wf s -> live s source -> live s target ->
  bounded s t source -> bounded s t target ->
  (exists a e ch c ds dt, twalk_at s t target source taccum0 (Some EEmpty) = Ok (NO_ERROR, a, e, ch) /\
     iclimb s t source ds c /\ iclimb s t target dt c) \/
  (exists ds m dt m' a e, iclimb s t source ds m /\ lnk s t m = None /\ iclimb s t target dt m' /\ lnk s t m' = None /\ m' <> m /\
     twalk_at s t target source taccum0 (Some EEmpty) =
       Ok (match getFrame s m', getFrame s m with None, None => CONNECTIVITY_ERROR | _, _ => EXTRAPOLATION_ERROR end, a, e, [])) \/
  twalk_at s t target source taccum0 (Some EEmpty) = range_exn.
Proof.
  intros s t target source W Ls Lt Bs Bt.
  destruct (walk_at_outcome s t target source (Some EEmpty) W Ls Lt)
    as [ds1 m1 a err' H1 L1 P1 [str ->] _|ds1 a H1 L1 P1 D1 _ _|ds1 m1 dt1 m1' a err' H1 N1 L1 K1 M1 P1 [str ->] _|ds1 m1 dt1 a H1 N1 L1 Q K1 M1 P1|ds1 m1 dt1 a ch H1 N1 L1 P1 K1 M1 Q1|ds1 m1 dt1 m1' a code err' H1 N1 L1 P1 K1 M1 Q1 R1 NE ->|ds1 m1 ? H1 L1 N1].
  - specialize (Bs _ _ H1). lia.
  - left. do 6 eexists. split; [reflexivity|]. split; [eassumption|constructor].
  - specialize (Bt _ _ K1). lia.
  - left. do 6 eexists. split; [reflexivity|]. split; [constructor|eassumption].
  - left. do 6 eexists. split; [reflexivity|]. split; eassumption.
  - right; left. do 6 eexists. do 5 (split; [eassumption|]). reflexivity.
  - right; right. reflexivity.
Qed.

Lemma tops_iclimb : forall s t i n m, wf s -> live s i -> name_of s i = n -> tops_at s t n m ->
  exists ds k, iclimb s t i ds k /\ lnk s t k = None /\ name_of s k = m /\ live s k.
Proof.
  intros s t i n m W L E [[ds H] N]. subst n.
  destruct (climbs_iclimb s t _ _ _ W H i L eq_refl) as (ds' & k & _ & -> & Lk & C). exists ds', k.
  split; [assumption|]. split; [|auto]. rewrite (link_lnk s t k W Lk) in N. destruct (lnk s t k); [discriminate|reflexivity].
Qed.
Lemma iclimb_tops : forall s t i ds k, wf s -> live s i -> iclimb s t i ds k -> lnk s t k = None ->
  tops_at s t (name_of s i) (name_of s k) /\ live s k.
Proof.
  intros s t i ds k W L H N. destruct (iclimb_climbs s t i ds k W L H) as [H' Lk].
  split; [|assumption]. split; [eauto|]. rewrite (link_lnk s t k W Lk), N. reflexivity.
Qed.

Lemma tops_unique : forall s t n m m', tops_at s t n m -> tops_at s t n m' -> m = m'.
Proof.
  intros s t n m m' [[ds H] N] [[ds' H'] N']. destruct (climbs_linear s t _ _ _ _ _ H H') as [(r & _ & Hr)|(r & _ & Hr)];
  inversion Hr; congruence.
Qed.

(** The three outcomes for queries between two registered frames at a nonzero time. *)
Theorem lookup_class : forall s tgt src t, reachable s -> early s -> 0 < t < dur_bound ->
  plain tgt -> plain src -> known s tgt -> known s src -> tgt <> src ->
  depth_ok s t src -> depth_ok s t tgt ->
  (exists c m, common_ancestor s t src tgt c /\ lookupTransform s tgt src t = Ok m) \/
  (exists ms mt e, tops_at s t src ms /\ tops_at s t tgt mt /\ ms <> mt /\ hist s ms = None /\ hist s mt = None /\
     lookupTransform s tgt src t = Throw ConnectivityException e) \/
  (exists ms mt e, tops_at s t src ms /\ tops_at s t tgt mt /\ ms <> mt /\ (hist s ms <> None \/ hist s mt <> None) /\
     lookupTransform s tgt src t = Throw ExtrapolationException e).
Proof.
  intros s tgt src t R He Ht P1 P2 K1 K2 Ne Ds Dt. apply reachable_wf in R as W.
  rewrite lookup_walk by assumption.
  destruct (known_ids s tgt src W K1 K2 Ne) as (i & j & Li & Lj & <- & <- & -> & -> & D).
  rewrite walk_time by (assumption || lia).
  assert (NR : twalk_at s t i j taccum0 (Some EEmpty) <> range_exn) by (apply walk_at_no_range; auto; lia).
  pose proof (idepth s t j W Lj Ds) as Bs. pose proof (idepth s t i W Li Dt) as Bt.
  destruct (walk_at_class s t i j W Lj Li Bs Bt) as [(a & e & ch & c & ds & dt & E & C1 & C2)|[(ds & m & dt & m' & a & e & C1 & N1 & C2 & N2 & NE & E)|E]].
  - left. destruct (proj1 (common_names s t i j W Li Lj)) as [c' Hc]; [eauto|].
    exists c'. rewrite E. cbn. eauto.
  - right. destruct (iclimb_tops s t j ds m W Lj C1 N1) as [T1 L1]. destruct (iclimb_tops s t i dt m' W Li C2 N2) as [T2 L2].
    assert (NE' : name_of s m <> name_of s m') by (intros X; apply NE; symmetry; apply (live_inj s); assumption).
    pose proof (hist_getFrame s m W L1) as G1. pose proof (hist_getFrame s m' W L2) as G2. rewrite E.
    destruct (getFrame s m') as [x|] eqn:E2; [right|destruct (getFrame s m) as [y|] eqn:E1; [right|left]];
      exists (name_of s m), (name_of s m'); cbn; eexists.
    + do 3 (split; [assumption|]). split; [right; rewrite G2; discriminate|reflexivity].
    + do 3 (split; [assumption|]). split; [left; rewrite G1; discriminate|reflexivity].
    + do 3 (split; [assumption|]). split; [apply G1; reflexivity|]. split; [apply G2; reflexivity|reflexivity].
  - contradiction.
Qed.

(** Connected frames have the same top. *)
Lemma common_same_top : forall s t a b c ma mb, common_ancestor s t a b c -> tops_at s t a ma -> tops_at s t b mb -> ma = mb.
Proof.
  intros s t a b c ma mb [[ds H] [dt H']] [[es He] N] [[es' He'] N'].
  assert (X : forall n e m xs x, climbs s t n e m -> link s t m = None -> climbs s t n xs x -> exists r, climbs s t x r m).
  { intros n e m xs x A B C. destruct (climbs_linear s t _ _ _ _ _ A C) as [(r & _ & Hr)|(r & _ & Hr)]; [|eauto].
    inversion Hr; subst; [exists []; constructor|congruence]. }
  destruct (X _ _ _ _ _ He N H) as [r Hr]. destruct (X _ _ _ _ _ He' N' H') as [r' Hr'].
  destruct (X _ _ _ _ _ Hr N Hr') as [q Hq]. inversion Hq; congruence.
Qed.

Theorem lookup_connectivity_iff : forall s tgt src t, reachable s -> early s -> 0 < t < dur_bound ->
  plain tgt -> plain src -> known s tgt -> known s src -> tgt <> src ->
  depth_ok s t src -> depth_ok s t tgt ->
  ((exists e, lookupTransform s tgt src t = Throw ConnectivityException e) <->
   exists ms mt, tops_at s t src ms /\ tops_at s t tgt mt /\ ms <> mt /\ hist s ms = None /\ hist s mt = None).
Proof.
  intros s tgt src t R He Ht P1 P2 K1 K2 Ne Ds Dt.
  destruct (lookup_class s tgt src t R He Ht P1 P2 K1 K2 Ne Ds Dt) as [(c & m & C & E)|[(ms & mt & e & T1 & T2 & N & H1 & H2 & E)|(ms & mt & e & T1 & T2 & N & H & E)]]; rewrite E; split.
  - intros [e H]. discriminate.
  - intros (ms & mt & T1 & T2 & N & _). destruct N. eapply common_same_top; eassumption.
  - intros _. exists ms, mt. auto.
  - eauto.
  - intros [x H']. discriminate.
  - intros (ms' & mt' & T1' & T2' & _ & H1 & H2).
    rewrite (tops_unique _ _ _ _ _ T1' T1) in H1. rewrite (tops_unique _ _ _ _ _ T2' T2) in H2. tauto.
Qed.

Theorem lookup_extrapolation_iff : forall s tgt src t, reachable s -> early s -> 0 < t < dur_bound ->
  plain tgt -> plain src -> known s tgt -> known s src -> tgt <> src ->
  depth_ok s t src -> depth_ok s t tgt ->
  ((exists e, lookupTransform s tgt src t = Throw ExtrapolationException e) <->
   exists ms mt, tops_at s t src ms /\ tops_at s t tgt mt /\ ms <> mt /\ (hist s ms <> None \/ hist s mt <> None)).
Proof.
  intros s tgt src t R He Ht P1 P2 K1 K2 Ne Ds Dt.
  destruct (lookup_class s tgt src t R He Ht P1 P2 K1 K2 Ne Ds Dt) as [(c & m & C & E)|[(ms & mt & e & T1 & T2 & N & H1 & H2 & E)|(ms & mt & e & T1 & T2 & N & H & E)]]; rewrite E; split.
  - intros [e H]. discriminate.
  - intros (ms & mt & T1 & T2 & N & _). destruct N. eapply common_same_top; eassumption.
  - intros [x H']. discriminate.
  - intros (ms' & mt' & T1' & T2' & _ & H).
    rewrite (tops_unique _ _ _ _ _ T1' T1), (tops_unique _ _ _ _ _ T2' T2) in H. tauto.
  - intros _. exists ms, mt. auto.
  - eauto.
Qed.

(** ** loops and over-deep chains *)
Theorem lookup_deep_source : forall s tgt src t ds m, reachable s -> t <> 0 ->
  plain tgt -> plain src -> known s tgt -> known s src -> tgt <> src ->
  climbs s t src ds m -> (MAX_GRAPH_DEPTH < List.length ds)%nat -> ~ In tgt (passed ds) ->
  exists str, lookupTransform s tgt src t = Throw LookupException (ELoop str).
Proof.
  intros s tgt src t ds m R Ht P1 P2 K1 K2 Ne H L Hp. apply reachable_wf in R as W.
  rewrite lookup_walk by assumption.
  destruct (known_ids s tgt src W K1 K2 Ne) as (i & j & Li & Lj & <- & <- & -> & -> & D).
  rewrite walk_time by assumption.
  destruct (climbs_iclimb s t _ _ _ W H j Lj eq_refl) as (ds' & k & -> & -> & Lk & C).
  rewrite map_length in L.
  destruct (walk_at_deep_src s t i j ds' k W Lj Li C L) as (a & str & ->).
  - intros q Hq ->. apply Hp. unfold passed. rewrite map_map. cbn. apply in_map_iff in Hq as (d & Ed & Hd).
    apply in_map_iff. exists d. split; [congruence|assumption].
  - cbn. eauto.
Qed.

Theorem lookup_deep_target : forall s tgt src t ds m dt m', reachable s -> early s -> 0 < t < dur_bound ->
  plain tgt -> plain src -> known s tgt -> known s src -> tgt <> src ->
  climbs s t src ds m -> link s t m = None -> (List.length ds <= MAX_GRAPH_DEPTH)%nat ->
  climbs s t tgt dt m' -> (MAX_GRAPH_DEPTH < List.length dt)%nat -> ~ In src (passed dt) -> ~ In m (passed dt) ->
  exists str, lookupTransform s tgt src t = Throw LookupException (ELoop str).
Proof.
  intros s tgt src t ds m dt m' R He Ht P1 P2 K1 K2 Ne H N L H' L' Hp Hp'. apply reachable_wf in R as W.
  rewrite lookup_walk by assumption.
  destruct (known_ids s tgt src W K1 K2 Ne) as (i & j & Li & Lj & <- & <- & -> & -> & D).
  rewrite walk_time by (assumption || lia).
  destruct (climbs_iclimb s t _ _ _ W H j Lj eq_refl) as (ds' & k & -> & -> & Lk & C).
  destruct (climbs_iclimb s t _ _ _ W H' i Li eq_refl) as (dt' & k' & -> & -> & Lk' & C').
  rewrite map_length in *. rewrite (link_lnk s t k W Lk) in N. destruct (lnk s t k) eqn:N'; [discriminate|].
  assert (X : forall q n, name_of s q = n -> In q (map st_child dt') -> In n (passed (map (map_storage (name_of s)) dt'))).
  { intros q n <- Hq. unfold passed. rewrite map_map. cbn. apply in_map_iff in Hq as (d & Ed & Hd). apply in_map_iff. exists d. split; [congruence|assumption]. }
  destruct (walk_at_deep_tgt s t i j ds' k dt' k' W Lj Li C N' L C' L') as (a & str & ->).
  - intros q Hq. split; intros ->; [apply Hp|apply Hp']; eapply X; eauto.
  - apply walk_at_no_range; auto. lia.
  - cbn. eauto.
Qed.

(** Cyclic chains: the source runs into a cycle from which the target is not reached. *)
Theorem lookup_cyclic_source : forall s tgt src t, reachable s -> t <> 0 ->
  plain tgt -> plain src -> known s tgt -> known s src -> tgt <> src ->
  endless s t src -> ~ (exists ds, climbs s t src ds tgt) ->
  exists str, lookupTransform s tgt src t = Throw LookupException (ELoop str).
Proof.
  intros s tgt src t R Ht P1 P2 K1 K2 Ne En Hn. apply reachable_wf in R as W.
  destruct (En (Datatypes.S MAX_GRAPH_DEPTH)) as (ds & m & H & L).
  eapply lookup_deep_source; try eassumption; [lia|]. intros Hin. apply Hn.
  unfold passed in Hin. apply in_map_iff in Hin as (d & Ed & Hd).
  clear - H Hd Ed W K2. 
  destruct (known_live s src W K2) as (j & Lj & Nj & _). subst src.
  destruct (climbs_iclimb s t _ _ _ W H j Lj eq_refl) as (ds' & k & -> & -> & Lk & C). clear H K2.
  apply in_map_iff in Hd as (d0 & <- & Hd). cbn in Ed. subst tgt.
  assert (G : exists es, iclimb s t j es (st_child d0)).
  { clear Lk Lj. induction C as [j|j d ds m E H IH]; [destruct Hd|]. destruct Hd as [->|Hd].
    - exists []. destruct (lnk_props s t j d0 W E) as (-> & _). constructor.
    - destruct (IH Hd) as [es He]. exists (d :: es). econstructor; eassumption. }
  destruct G as [es He]. eexists. apply (iclimb_climbs s t j es _ W Lj He).
Qed.

(** ** time zero *)
Theorem lookup_zero_resolved : forall s tgt src r, reachable s -> plain tgt -> plain src -> known s tgt -> known s src -> tgt <> src ->
  latest_common_time s tgt src = Ok (NO_ERROR, Some r) -> r <> 0 ->
  lookupTransform s tgt src 0 = lookupTransform s tgt src r.
Proof.
  intros s tgt src r R P1 P2 K1 K2 Ne H Hr. apply reachable_wf in R as W. rewrite !lookup_walk by assumption.
  unfold latest_common_time in H.
  destruct (known_ids s tgt src W K1 K2 Ne) as (i & j & Li & Lj & <- & <- & Ei & Ej & D). rewrite Ei, Ej in *.
  rewrite (walk_time _ _ _ s r) by assumption. rewrite walk_zero by assumption.
  pose proof (lct_outcome_ok s i j (Some EEmpty) W Lj Li D) as O. pose proof (lct_outcome_ok s i j None W Lj Li D) as O'.
  assert (Err : forall err, getLatestCommonTime s i j err = Ok (NO_ERROR, Some r, err)).
  { intros err. revert H. unfold getLatestCommonTime. destruct (Nat.eqb j 0 || Nat.eqb i 0); [discriminate|].
    destruct (Nat.eqb j i); [intros H; cbn in H; congruence|].
    destruct (lctSource MAX_GRAPH_DEPTH s i j TIME_MAX []) as [[t|l|]| |]; cbn [bind]; try discriminate.
    - intros X; inversion X; subst; reflexivity.
    - destruct (lctTarget MAX_GRAPH_DEPTH s j l i TIME_MAX) as [[t|p t| |]| |]; cbn [bind]; try discriminate;
        intros X; inversion X; subst; reflexivity. }
  rewrite Err. reflexivity.
Qed.

(** Success of a time-zero lookup is success at the latest common time. *)
Theorem lookup_zero_iff : forall s tgt src, reachable s -> early s -> plain tgt -> plain src -> known s tgt -> known s src -> tgt <> src ->
  (forall t, depth_ok s t src) -> (forall t, depth_ok s t tgt) ->
  ((exists m, lookupTransform s tgt src 0 = Ok m) <->
   exists r c, latest_common_time s tgt src = Ok (NO_ERROR, Some r) /\ common_ancestor s r src tgt c).
Proof.
  intros s tgt src R He P1 P2 K1 K2 Ne Ds Dt. apply reachable_wf in R as W. rewrite lookup_walk by assumption.
  destruct (known_ids s tgt src W K1 K2 Ne) as (i & j & Li & Lj & <- & <- & Ei & Ej & D). unfold latest_common_time. rewrite Ei, Ej.
  rewrite walk_zero by assumption. rewrite finish_ok_iff.
  assert (At : forall r, 0 <= r < dur_bound ->
    ((exists a e ch, twalk_at s r i j taccum0 (Some EEmpty) = Ok (NO_ERROR, a, e, ch)) <-> exists c, common_ancestor s r (name_of s j) (name_of s i) c)).
  { intros r Hr. rewrite (walk_at_iff s r i j (Some EEmpty) W Lj Li (idepth s r j W Lj (Ds r)) (idepth s r i W Li (Dt r))).
    - apply common_names; assumption.
    - apply walk_at_no_range; auto. }
  pose proof (lct_outcome_ok s i j (Some EEmpty) W Lj Li D) as O.
  assert (Same : forall code ot e, getLatestCommonTime s i j (Some EEmpty) = Ok (code, ot, e) -> exists e', getLatestCommonTime s i j None = Ok (code, ot, e')).
  { intros code ot e. unfold getLatestCommonTime. destruct (Nat.eqb j 0 || Nat.eqb i 0); [intros X; inversion X; subst; eauto|].
    destruct (Nat.eqb j i); [intros X; inversion X; subst; eauto|].
    destruct (lctSource MAX_GRAPH_DEPTH s i j TIME_MAX []) as [[t|l|]| |]; cbn [bind]; try discriminate.
    - intros X; inversion X; subst; eauto.
    - destruct (lctTarget MAX_GRAPH_DEPTH s j l i TIME_MAX) as [[t|p t| |]| |]; cbn [bind]; try discriminate;
        try (intros X; inversion X; subst; eauto; fail).
      + rewrite connectivity_ok by assumption. cbn. intros X; inversion X; subst; eauto.
      + destruct (loop_ok s (Some EEmpty) W) as [str ->]. cbn. intros X; inversion X; subst; eauto.
    - destruct (loop_ok s (Some EEmpty) W) as [str ->]. cbn. intros X; inversion X; subst; eauto. }
  remember (getLatestCommonTime s i j (Some EEmpty)) as g eqn:Eg. 
  destruct O as [ds dt p H1 H2 _ _ _ _|ds m dt m' err' H1 H2 H3 H4 H5 Ex|q ds m err' H1 H2 H3 [str Ex]];
    destruct (Same _ _ _ eq_refl) as [e' E']; rewrite E'; cbn [bind].
  - assert (Rb : 0 <= time_or_zero (mins TIME_MAX (ds ++ dt)) < dur_bound).
    { apply time_or_zero_mins. apply Forall_app. split; [apply (iclimb_stamp s j ds p)|apply (iclimb_stamp s i dt p)]; assumption. }
    rewrite (At _ Rb). split.
    + intros [c Hc]. eauto.
    + intros (r & c & Hr & Hc). inversion Hr; subst. eauto.
  - split; [intros (a & e & ch & H); discriminate|intros (r & c & Hr & _); discriminate].
  - split; [intros (a & e & ch & H); discriminate|intros (r & c & Hr & _); discriminate].
Qed.
End P.
