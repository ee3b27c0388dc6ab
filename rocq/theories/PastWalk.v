(** * Proofs for C81: an answer at a time is a function of the links at that time

    [ask lk target source] is what lookupTransform computes from the links [lk] (frame name to
    sample) alone; [lookup_ask] proves it. *)
From Coq Require Import ZArith Bool List String Lia Arith.
From Verif Require Import RosTime Scalar LinearMath Cache SpecCache CacheProofs CacheQueries
  BufferCore SpecCore CoreInv Naturality CoreSet WalkSpec LctSpec Bridge WalkMain Sim Forget LookupBase LookupTheorems LookupTree
  History SpecReal LookupPose.
Import ListNotations.
Open Scope Z_scope.
Local Opaque MAX_GRAPH_DEPTH.

Section P.
Context {S : Scalar}.
Notation core := (core S).
Notation taccum := (@taccum S).
Notation twalk := (@walkToTopParent S taccum ta_gather ta_accum ta_finalize).
Notation twalk_at := (@walk_at S taccum ta_gather ta_accum ta_finalize).
Notation nm s := (map_storage (name_of s)).
Notation links := (string -> option (storage S string)).
Implicit Types (s : core) (t : time) (n : string) (lk : links) (stop : string -> bool).

Fixpoint up lk stop (fuel : nat) n : option (list (storage S string) * string) :=
  if stop n then Some ([], n)
  else match lk n with
  | None => Some ([], n)
  | Some d =>
      match fuel with
      | O => None
      | Datatypes.S f => option_map (fun p => (d :: fst p, snd p)) (up lk stop f (st_frame d))
      end
  end.

Definition ask lk (target source : string) : option (pose S) :=
  match up lk (String.eqb target) MAX_GRAPH_DEPTH source with
  | None => None
  | Some (ds, m) =>
      if String.eqb target m && (match lk m with Some _ => true | None => false end) then Some (climb_pose ds)
      else match up lk (fun n => String.eqb m n || String.eqb source n) MAX_GRAPH_DEPTH target with
      | None => None
      | Some (dt, m') =>
          if String.eqb m m' then Some (pose_mul (pose_inv (climb_pose dt)) (climb_pose ds))
          else if String.eqb source m' then Some (pose_inv (climb_pose dt)) else None
      end
  end.

Lemma up_ext : forall lk lk' stop fuel n, (forall x, lk x = lk' x) -> up lk stop fuel n = up lk' stop fuel n.
Proof.
  intros lk lk' stop fuel. induction fuel as [|f IH]; intros n H; cbn [up]; rewrite <- (H n); destruct (stop n), (lk n) as [d|]; try reflexivity.
  rewrite (IH _ H). reflexivity.
Qed.
Lemma ask_ext : forall lk lk' target source, (forall x, lk x = lk' x) -> ask lk target source = ask lk' target source.
Proof.
  intros lk lk' target source H. unfold ask. rewrite (up_ext lk lk' _ _ _ H).
  destruct (up lk' (String.eqb target) MAX_GRAPH_DEPTH source) as [[ds m]|]; [|reflexivity]. rewrite <- (H m).
  rewrite (up_ext lk lk' _ _ _ H). reflexivity.
Qed.

Lemma up_some : forall s t stop n ds m, climbs s t n ds m ->
  (forall i, In i (passed ds) -> stop i = false) -> (forall d, In d ds -> True) ->
  stop m = true \/ link s t m = None -> forall fuel, (List.length ds <= fuel)%nat ->
  (forall d n', In d ds -> link s t n' = Some d -> st_child d = n') ->
  up (link s t) stop fuel n = Some (ds, m).
Proof.
  intros s t stop n ds m C. induction C as [n|n d ds m E C IH]; intros Hs Hu Hm fuel L Hc.
  - destruct fuel; cbn [up]; destruct (stop n); try reflexivity; destruct Hm as [Hm|Hm]; try discriminate; rewrite Hm; reflexivity.
  - destruct fuel as [|fuel]; cbn in L; [lia|]. cbn [up].
    rewrite <- (Hc d n (or_introl eq_refl) E) at 1. rewrite (Hs (st_child d)) by (cbn; auto). rewrite E.
    rewrite IH; [reflexivity| | |assumption|lia|]; intros; eauto; [apply Hs; cbn; auto|apply Hc; cbn; auto].
Qed.
Lemma up_none : forall s t stop n ds m, climbs s t n ds m ->
  (forall i, In i (passed ds) -> stop i = false) -> forall fuel, List.length ds = Datatypes.S fuel ->
  (forall d n', In d ds -> link s t n' = Some d -> st_child d = n') ->
  up (link s t) stop fuel n = None.
Proof.
  intros s t stop n ds m C. induction C as [n|n d ds m E C IH]; intros Hs fuel L Hc; [discriminate|]. cbn in L.
  assert (Hn : stop n = false) by (rewrite <- (Hc d n (or_introl eq_refl) E); apply Hs; cbn; auto).
  destruct fuel as [|fuel]; cbn [up]; rewrite Hn, E; [reflexivity|].
  rewrite IH; [reflexivity| | |]; intros; [apply Hs; cbn; auto|lia|apply Hc; cbn; auto].
Qed.

Lemma link_child : forall s t n d, wf s -> link s t n = Some d -> st_child d = n.
Proof.
  intros s t n d W H. destruct (known_dec s n) as [K|K]; [|rewrite link_unknown in H by assumption; discriminate].
  destruct (known_live s n W K) as (i & Li & Ni & _). rewrite <- Ni in H. rewrite (link_lnk s t i W Li) in H.
  destruct (lnk s t i) as [d0|] eqn:E; [|discriminate]. injection H as <-. cbn.
  rewrite (proj1 (lnk_props s t i d0 W E)). assumption.
Qed.

Lemma passed_names : forall s t i ds j, wf s -> live s i -> iclimb s t i ds j -> forall k, In k (map (@st_child S nat) ds) -> live s k.
Proof.
  intros s t i ds j W Li C. induction C as [i|i d ds j E C IH]; intros k Hk; [destruct Hk|].
  destruct Hk as [<-|Hk]; [rewrite (proj1 (lnk_props s t i d W E)); assumption|]. apply IH; [apply (lnk_live s t i d W E)|assumption].
Qed.

(** a climb as the walk sees it *)
Lemma up_iclimb : forall s t stop i ds j, wf s -> live s i -> iclimb s t i ds j ->
  (forall k, In k (map (@st_child S nat) ds) -> stop (name_of s k) = false) ->
  stop (name_of s j) = true \/ lnk s t j = None -> (List.length ds <= MAX_GRAPH_DEPTH)%nat ->
  up (link s t) stop MAX_GRAPH_DEPTH (name_of s i) = Some (map (nm s) ds, name_of s j).
Proof.
  intros s t stop i ds j W Li C Hs Hj L. destruct (iclimb_climbs s t i ds j W Li C) as [C' Lj].
  eapply up_some; [exact C'| |auto| | |].
  - intros k Hk. unfold passed in Hk. rewrite map_map in Hk. apply in_map_iff in Hk as (d & <- & Hd). cbn. apply Hs. apply in_map. assumption.
  - destruct Hj as [Hj|Hj]; [auto|]. right. rewrite (link_lnk s t j W Lj), Hj. reflexivity.
  - rewrite map_length. assumption.
  - intros d n' _ E. apply (link_child s t); assumption.
Qed.
Lemma up_iclimb_none : forall s t stop i ds j, wf s -> live s i -> iclimb s t i ds j ->
  (forall k, In k (map (@st_child S nat) ds) -> stop (name_of s k) = false) ->
  List.length ds = Datatypes.S MAX_GRAPH_DEPTH ->
  up (link s t) stop MAX_GRAPH_DEPTH (name_of s i) = None.
Proof.
  intros s t stop i ds j W Li C Hs L. destruct (iclimb_climbs s t i ds j W Li C) as [C' Lj].
  eapply up_none; [exact C'| | |].
  - intros k Hk. unfold passed in Hk. rewrite map_map in Hk. apply in_map_iff in Hk as (d & <- & Hd). cbn. apply Hs. apply in_map. assumption.
  - rewrite map_length. assumption.
  - intros d n' _ E. apply (link_child s t); assumption.
Qed.

Lemma eqb_live : forall s i j, wf s -> live s i -> live s j -> i <> j -> String.eqb (name_of s i) (name_of s j) = false.
Proof. intros s i j W Li Lj D. apply String.eqb_neq. intros E. apply D. apply (live_inj s); assumption. Qed.

(** a climb that ends passes no frame twice, so what it does not pass it never meets *)
Lemma passes_suffix : forall s t i ds j k, wf s -> iclimb s t i ds j -> In k (map (@st_child S nat) ds) ->
  exists es d fs, ds = es ++ d :: fs /\ iclimb s t k (d :: fs) j /\ iclimb s t i es k.
Proof.
  intros s t i ds j k W C. induction C as [i|i d ds j E C IH]; intros Hk; [destruct Hk|].
  destruct Hk as [Hk|Hk].
  - rewrite (proj1 (lnk_props s t i d W E)) in Hk. subst k. exists [], d, ds. split; [reflexivity|]. split; [econstructor; eassumption|constructor].
  - destruct (IH Hk) as (es & e & fs & -> & C1 & C2). exists (d :: es), e, fs. split; [reflexivity|]. split; [assumption|econstructor; eassumption].
Qed.
Lemma no_cycle_below_top : forall s t k ds i j c, (List.length ds <= k)%nat -> iclimb s t i ds j -> lnk s t j = None -> iclimb s t i c i -> c = [].
Proof.
  intros s t k. induction k as [|k IH]; intros ds i j c L C Hj Cc.
  - destruct ds; [|cbn in L; lia]. inversion C; subst. inversion Cc; subst; [reflexivity|congruence].
  - destruct c as [|x c]; [reflexivity|]. exfalso.
    destruct (iclimb_linear s t i _ _ _ _ C Cc) as [(r & E & Cr)|(r & E & Cr)].
    + destruct r as [|y r]; [|inversion Cr; subst; congruence]. inversion Cr; subst. inversion Cc; subst. congruence.
    + subst ds. rewrite app_length in L. cbn in L. assert (X : x :: c = []) by (eapply (IH r); [lia|eassumption|assumption|assumption]). discriminate.
Qed.

Theorem ask_walk : forall s t target source err, wf s -> live s target -> live s source -> source <> target ->
  match twalk_at s t target source taccum0 err with
  | Ok (NO_ERROR, a, _, _) => ask (link s t) (name_of s target) (name_of s source) = Some (ta_rq a, ta_rv a) /\ ta_time a = t
  | Ok _ => ask (link s t) (name_of s target) (name_of s source) = None
  | _ => True
  end.
Proof.
  intros s t target source err W Lt Ls Ne. pose proof (walk_at_outcome s t target source err W Ls Lt) as O.
  assert (SN : forall ds : list (storage S nat), (forall i, In i (map (@st_child S nat) ds) -> i <> target) -> (forall i, In i (map (@st_child S nat) ds) -> live s i) ->
     forall i, In i (map (@st_child S nat) ds) -> String.eqb (name_of s target) (name_of s i) = false).
  { intros ds H1 H2 i Hi. apply eqb_live; auto. intros <-. exact (H1 _ Hi eq_refl). }
  assert (TN : forall (m : nat) (dt : list (storage S nat)), live s m -> (forall i, In i (map (@st_child S nat) dt) -> i <> source /\ i <> m) -> (forall i, In i (map (@st_child S nat) dt) -> live s i) ->
     forall i, In i (map (@st_child S nat) dt) -> String.eqb (name_of s m) (name_of s i) || String.eqb (name_of s source) (name_of s i) = false).
  { intros m dt Lm H1 H2 i Hi. destruct (H1 i Hi). rewrite !eqb_live; auto. }
  assert (NL : forall j, live s j -> lnk s t j = None -> link s t (name_of s j) = None) by (intros j Lj E; rewrite (link_lnk s t j W Lj), E; reflexivity).
  destruct O as [ds m a err' C L H _ _|ds a C L H [d Hd] Ea Ep|ds m dt m' a err' C Hm L C' L' H _ _|ds m dt a C Hm L Nm C' L' H Ea Ep
    |ds m dt a chain C Hm L Hs C' L' H Ea Ep Ech|ds m dt m' a code err' C Hm L Hs C' Hm' L' H Nm Ec _ _ _|]; [| | | | | |exact I].
  - unfold ask. rewrite (up_iclimb_none s t _ source ds m); auto. apply SN; auto. apply (passed_names s t source ds m); assumption.
  - unfold ask. rewrite (up_iclimb s t _ source ds target); auto.
    2:{ apply SN; auto. apply (passed_names s t source ds target); assumption. }
    2:{ left. apply String.eqb_refl. }
    rewrite String.eqb_refl, (link_lnk s t target W Lt), Hd. cbn [option_map andb]. split; [|assumption]. rewrite climb_pose_names, <- Ep. reflexivity.
  - destruct (iclimb_climbs s t source ds m W Ls C) as [_ Lm].
    assert (Hs : forall i, In i (map (@st_child S nat) ds) -> i <> target).
    { intros i Hi ->. destruct (passes_suffix s t source ds m target W C Hi) as (es & d & fs & -> & C2 & _).
      rewrite app_length in L. destruct (iclimb_linear s t target _ _ _ _ C2 C') as [(r & E & Cr)|(r & E & Cr)].
      - destruct r as [|x r]; [rewrite app_nil_r in E; rewrite E in L'; cbn in *; lia|]. inversion Cr; subst. congruence.
      - pose proof (f_equal (@List.length _) E) as EL. rewrite app_length in EL. cbn in *. lia. }
    unfold ask. rewrite (up_iclimb s t _ source ds m); auto; [|apply SN; auto; apply (passed_names s t source ds m); assumption].
    rewrite (NL m Lm Hm), andb_false_r.
    rewrite (up_iclimb_none s t _ target dt m'); auto. apply TN; auto. apply (passed_names s t target dt m'); assumption.
  - destruct (iclimb_climbs s t source ds m W Ls C) as [_ Lm].
    assert (Hs : forall i, In i (map (@st_child S nat) ds) -> i <> target).
    { intros i Hi ->. destruct (passes_suffix s t source ds m target W C Hi) as (es & d & fs & -> & C2 & C1).
      assert (X : es ++ dt = []) by (eapply no_cycle_below_top; [reflexivity|exact C|assumption|eapply iclimb_app; eassumption]).
      apply app_eq_nil in X as [-> _]. inversion C1; subst. congruence. }
    unfold ask. rewrite (up_iclimb s t _ source ds m); auto; [|apply SN; auto; apply (passed_names s t source ds m); assumption].
    rewrite (NL m Lm Hm), andb_false_r.
    rewrite (up_iclimb s t _ target dt source); auto; [|apply TN; auto; apply (passed_names s t target dt source); assumption|left; rewrite String.eqb_refl; apply orb_true_r].
    rewrite (eqb_live s m source), String.eqb_refl by assumption. rewrite climb_pose_names, <- Ep. split; [reflexivity|assumption].
  - destruct (iclimb_climbs s t source ds m W Ls C) as [_ Lm].
    unfold ask. rewrite (up_iclimb s t _ source ds m); auto; [|apply SN; auto; apply (passed_names s t source ds m); assumption].
    rewrite (NL m Lm Hm), andb_false_r.
    rewrite (up_iclimb s t _ target dt m); auto; [|apply TN; auto; apply (passed_names s t target dt m); assumption].
    rewrite String.eqb_refl, !climb_pose_names, <- Ep. split; [reflexivity|assumption].
  - destruct (iclimb_climbs s t source ds m W Ls C) as [_ Lm]. destruct (iclimb_climbs s t target dt m' W Lt C') as [_ Lm'].
    assert (Ns : m' <> source).
    { intros ->. inversion C; subst; [congruence|]. congruence. }
    assert (A : ask (link s t) (name_of s target) (name_of s source) = None).
    { unfold ask. rewrite (up_iclimb s t _ source ds m); auto; [|apply SN; auto; apply (passed_names s t source ds m); assumption].
      rewrite (NL m Lm Hm), andb_false_r.
      rewrite (up_iclimb s t _ target dt m'); auto; [|apply TN; auto; apply (passed_names s t target dt m'); assumption].
      rewrite !eqb_live by auto. reflexivity. }
    rewrite Ec. destruct (getFrame s m'), (getFrame s m); exact A.
Qed.

(** What lookupTransform answers at a nonzero time. *)
Theorem lookup_ask : forall s tgt src t m, reachable s -> early s -> 0 < t < dur_bound -> tgt <> src ->
  plain tgt -> plain src -> known s tgt -> known s src ->
  (lookupTransform s tgt src t = Ok m <->
   ask (link s t) tgt src = Some (msg_pose m) /\ tm_stamp m = t /\ tm_frame m = tgt /\ tm_child m = src).
Proof.
  intros s tgt src t m R He Ht Ne P1 P2 K1 K2. apply reachable_wf in R as W.
  rewrite lookup_walk by assumption.
  destruct (known_live s tgt W K1) as (i & Li & Ni & -> & _). destruct (known_live s src W K2) as (j & Lj & Nj & -> & _).
  assert (D : j <> i) by congruence.
  pose proof (walk_at_no_range s t i j taccum0 (Some EEmpty) W He ltac:(lia) Lj Li) as NR.
  rewrite walk_time by (assumption || lia).
  pose proof (ask_walk s t i j (Some EEmpty) W Li Lj D) as A. rewrite Ni, Nj in A.
  pose proof (walk_at_outcome s t i j (Some EEmpty) W Lj Li) as O.
  destruct (twalk_at s t i j taccum0 (Some EEmpty)) as [[[[code a] e] ch]|cl e|].
  - unfold finish. cbn [bind]. destruct code; try (rewrite A; cbn; split; [discriminate|intros [X _]; discriminate]).
    destruct A as [-> Ea]. cbn. split.
    + intros E. injection E as <-. cbn. auto.
    + intros (E & E1 & E2 & E3). unfold msg_pose in E. injection E as E4 E5. destruct m; cbn in *. subst. reflexivity.
  - exfalso. inversion O; subst. apply NR. reflexivity.
  - exfalso. inversion O.
Qed.

(** Same links at [t], same answers at [t]. *)
Theorem same_links : forall s s' tgt src t, reachable s -> reachable s' -> early s -> early s' -> 0 < t < dur_bound ->
  (known s tgt <-> known s' tgt) -> (known s src <-> known s' src) -> (forall n, link s t n = link s' t n) ->
  forall m, lookupTransform s tgt src t = Ok m <-> lookupTransform s' tgt src t = Ok m.
Proof.
  intros s s' tgt src t R R' He He' Ht K1 K2 L m. destruct (string_dec tgt src) as [->|Ne].
  { unfold lookupTransform. rewrite String.eqb_refl, (proj2 (Z.eqb_neq t 0)) by lia. tauto. }
  assert (One : forall s s', reachable s -> reachable s' -> early s -> early s' -> (known s tgt -> known s' tgt) -> (known s src -> known s' src) ->
    (forall n, link s t n = link s' t n) -> lookupTransform s tgt src t = Ok m -> lookupTransform s' tgt src t = Ok m).
  { clear - Ne Ht. intros s s' R R' He He' K1 K2 L H.
    destruct (lookup_ok_inv s tgt src t m (reachable_wf _ R) Ne H) as (P1 & Q1 & P2 & Q2 & _).
    apply (lookup_ask s tgt src t m R He Ht Ne P1 P2 Q1 Q2) in H.
    apply (lookup_ask s' tgt src t m R' He' Ht Ne P1 P2 (K1 Q1) (K2 Q2)).
    rewrite <- (ask_ext _ _ tgt src L). exact H. }
  split; apply One; auto; tauto.
Qed.
End P.
