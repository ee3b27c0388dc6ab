(** * Proofs about what a buffer reports about itself *)
From Coq Require Import ZArith Bool List String Lia Arith.
From Verif Require Import RosTime Scalar LinearMath Cache SpecCache CacheProofs CacheQueries CacheTheorems
  BufferCore SpecCore CoreInv Naturality CoreSet WalkSpec LctSpec Bridge History CoreTheorems Introspection SpecIntro.
Import ListNotations.
Open Scope Z_scope.

Section P.
Context {S : Scalar}.
Notation core := (core S).
Implicit Types (s : core) (m : tmsg S) (n : string) (ops : list (core_op S)).

Lemma sapp_assoc : forall a b c : string, ((a ++ b) ++ c = a ++ (b ++ c))%string.
Proof. induction a as [|x a IH]; intros b c; cbn; [reflexivity|]. rewrite IH. reflexivity. Qed.

(** ** _getParent *)
Theorem get_parent_known : forall s n t, reachable s -> known s n ->
  getParentName s n t = Ok (option_map (@st_frame S string) (link s t n)).
Proof.
  intros s n t R K. apply reachable_wf in R as W. destruct (known_live s n W K) as (i & L & N & E & _).
  unfold getParentName. rewrite E. subst n. rewrite (link_lnk s t i W L).
  destruct (getFrame s i) as [c|] eqn:Ec.
  - destruct (wf_cache s W _ _ Ec) as (Hok & _ & _).
    rewrite (getParent_getData Nat.eqb c t None Hok).
    destruct (getData_no_throw Nat.eqb c t Hok) as [o Eo].
    unfold lnk, idata. rewrite Ec, Eo. cbn [bind option_map fst snd].
    destruct o as [d|]; cbn [option_map parent_id]; [|reflexivity].
    destruct (Nat.eqb (st_frame d) 0) eqn:E0; [reflexivity|].
    assert (Hd : idata s t i = Some d) by (unfold idata; rewrite Ec, Eo; reflexivity).
    destruct (idata_props s t i d W Hd) as [_ L']. rewrite (frame_string s _ W L'). reflexivity.
  - unfold lnk, idata. rewrite Ec. reflexivity.
Qed.

(** ** iterating over the frames *)
Definition rows_ok s (fs : list (option (cache S nat))) (ns : list string) (k : nat) : Prop :=
  List.length fs = List.length ns /\
  forall j f n, nth_error fs j = Some f -> nth_error ns j = Some n ->
    live s (k + j) /\ name_of s (k + j) = n /\ getFrame s (k + j) = f.

Lemma rows_ok_cons : forall s f fs n ns k, rows_ok s (f :: fs) (n :: ns) k ->
  live s k /\ name_of s k = n /\ getFrame s k = f /\ rows_ok s fs ns (Datatypes.S k).
Proof.
  intros s f fs n ns k [H1 H2]. destruct (H2 0%nat f n eq_refl eq_refl) as (A & B & C). rewrite Nat.add_0_r in *.
  split; [assumption|]. split; [assumption|]. split; [assumption|]. split; [cbn in H1; lia|].
  intros j f' n' Hf Hn. rewrite Nat.add_succ_comm. apply H2; assumption.
Qed.

Lemma rows_ok_all : forall s, wf s -> rows_ok s (tl (c_frames s)) (getFrameStrings s) 1.
Proof.
  intros s W. pose proof (wf_len s W) as Len. pose proof (wf_root s W) as Rt. unfold getFrameStrings.
  destruct (c_rev s) as [|n0 ns] eqn:Er; [discriminate|]. destruct (c_frames s) as [|f0 fs] eqn:Ef; [discriminate|].
  cbn [tl]. cbn in Len. split; [lia|]. intros j f n Hf Hn. cbn [Nat.add].
  assert (Hl : (Datatypes.S j < List.length (c_rev s))%nat) by (rewrite Er; cbn; apply nth_error_lt in Hn; lia).
  split; [split; [discriminate|assumption]|]. split.
  - apply name_of_nth. rewrite Er. exact Hn.
  - unfold getFrame. rewrite Ef. cbn. rewrite Hf. reflexivity.
Qed.

Lemma live_rev : forall s i, live s i -> nth_error (c_rev s) i = Some (name_of s i).
Proof. intros s i [_ H]. apply name_of_lt. assumption. Qed.
Lemma live_hist : forall s i, wf s -> live s i ->
  hist s (name_of s i) = option_map (map_cache (name_of s)) (getFrame s i).
Proof.
  intros s i W [Hz Hl]. destruct (getFrame s i) as [c|] eqn:E.
  - apply hist_frame; assumption.
  - rewrite (hist_frame_none s i W Hz Hl E). reflexivity.
Qed.
Lemma row_data : forall s i c, wf s -> live s i -> getFrame s i = Some c ->
  exists o, getData Nat.eqb c 0 None = Ok (o, None) /\
    sample_at s 0 (name_of s i) = option_map (map_storage (name_of s)) o /\
    (forall d, o = Some d -> nth_error (c_rev s) (st_frame d) = Some (name_of s (st_frame d))).
Proof.
  intros s i c W L E. destruct (wf_cache s W _ _ E) as (Hok & _ & _).
  destruct (getData_no_throw Nat.eqb c 0 Hok) as [o Eo]. exists o. split; [assumption|].
  rewrite (sample_idata s 0 i W L). unfold idata. rewrite E, Eo. split; [destruct o; reflexivity|].
  intros d ->. assert (Hd : idata s 0 i = Some d) by (unfold idata; rewrite E, Eo; reflexivity).
  destruct (idata_props s 0 i d W Hd) as [_ L']. apply name_of_lt. assumption.
Qed.

Lemma string_from : forall s fs ns k, wf s -> rows_ok s fs ns k ->
  allFrames_from s fs k = Ok (fold_right String.append EmptyString (map (parent_line s) (filter (has_history s) ns))).
Proof.
  intros s fs. induction fs as [|f fs IH]; intros ns k W H.
  - destruct H as [H _]. destruct ns; [reflexivity|discriminate].
  - destruct ns as [|n ns]; [destruct H as [H _]; discriminate|].
    destruct (rows_ok_cons _ _ _ _ _ _ H) as (L & N & G & H'). specialize (IH ns _ W H').
    pose proof (live_hist s k W L) as Hh. rewrite N, G in Hh.
    cbn [filter]. unfold has_history at 1. rewrite Hh. destruct f as [c|]; cbn [option_map].
    + cbn [allFrames_from]. destruct (row_data s k c W L G) as (o & Eo & Es & Ep). rewrite Eo. cbn [bind].
      rewrite (live_rev s k L), N.
      assert (P : nth_error (c_rev s) (match o with Some d => st_frame d | None => 0%nat end) =
                  Some (match sample_at s 0 n with Some d => st_frame d | None => NO_PARENT end)).
      { rewrite <- N, Es. destruct o as [d|]; cbn; [apply Ep; reflexivity|apply wf_root; assumption]. }
      rewrite P, IH. cbn [bind map fold_right]. unfold parent_line at 2.
      rewrite !sapp_assoc. reflexivity.
    + cbn [allFrames_from]. exact IH.
Qed.
Theorem frames_as_string : forall s, reachable s ->
  allFramesAsString s =
  Ok (fold_right String.append EmptyString (map (parent_line s) (filter (has_history s) (getFrameStrings s)))).
Proof. intros s R. apply reachable_wf in R as W. apply string_from; [assumption|apply rows_ok_all; assumption]. Qed.

(** ** the YAML rows *)
Lemma newest_front : forall (F : Type) max (x : storage S F) l, newest_first (x :: l) ->
  @newest_stamp S F (Dynamic max (x :: l)) (st_stamp x).
Proof.
  intros F max x l H. cbn. split; [exists x; cbn; auto|]. intros y [<-|Hy]; [lia|].
  inversion H as [|? ? _ Hf]; subst. rewrite Forall_forall in Hf. specialize (Hf y Hy). cbn in Hf. lia.
Qed.
Lemma oldest_last : forall (F : Type) max l (x : storage S F), newest_first (x :: l) ->
  @oldest_stamp S F (Dynamic max (x :: l)) (st_stamp (last l x)).
Proof.
  intros F max l. induction l as [|y l IH]; intros x H; cbn.
  - split; [exists x; auto|]. intros z [<-|[]]. lia.
  - inversion H as [|? ? Hs Hf]; subst. destruct (IH y Hs) as [(z & Hz & Ez) Hall].
    assert (El : last (y :: l) x = last l y).
    { clear. assert (G : forall l (a b : storage S F), last (a :: l) b = last l a).
      { clear. induction l as [|c l IH]; intros a b; [reflexivity|]. change (last (a :: c :: l) b) with (last (c :: l) b).
        rewrite !IH. reflexivity. }
      apply G. }
    change (match l with [] => y | _ :: _ => last l x end) with (last (y :: l) x). rewrite El.
    split; [exists z; split; [right; exact Hz|exact Ez]|].
    intros w [<-|Hw]; [|apply Hall; exact Hw].
    rewrite Forall_forall in Hf. specialize (Hf z Hz). cbn in Hf. lia.
Qed.

Lemma row_describes : forall s now i c, wf s -> live s i -> getFrame s i = Some c ->
  match sample_at s 0 (name_of s i) with
  | None => frame_row s now i c = Ok None
  | Some _ => exists r, frame_row s now i c = Ok (Some r) /\ describes s now (name_of s i) r /\
                        y_broadcaster r = authority_of s i
  end.
Proof.
  intros s now i c W L G. destruct (row_data s i c W L G) as (o & Eo & Es & Ep).
  rewrite Es. unfold frame_row. rewrite Eo. cbn [bind]. destruct o as [d|]; cbn [option_map]; [|reflexivity].
  rewrite (live_rev s i L), (Ep d eq_refl).
  pose proof (live_hist s i W L) as Hh. rewrite G in Hh. cbn [option_map] in Hh.
  destruct (hist_ok s _ _ W Hh) as (Hk & _).
  destruct (wf_cache s W _ _ G) as (Hok & Hct & _).
  assert (St : exists hi lo, getLatestTimestamp c = hi /\ getOldestTimestamp c = lo /\
     newest_stamp (map_cache (name_of s) c) hi /\ oldest_stamp (map_cache (name_of s) c) lo /\
     time_sub hi lo = Some (hi - lo) /\ Z.of_nat (getListLength c) = Z.of_nat (List.length (samples (map_cache (name_of s) c)))).
  { destruct c as [max l|[x|]].
    - destruct Hok as (Hm & HI & Hwin). destruct l as [|x l]; [cbn in Eo; discriminate|].
      exists (st_stamp x), (st_stamp (last l x)).
      assert (Nf : newest_first (map (map_storage (name_of s)) (x :: l))) by (apply nf_map; assumption).
      split; [reflexivity|]. split; [reflexivity|]. split; [exact (newest_front _ max _ _ Nf)|].
      split; [rewrite <- (stamp_map (name_of s)), <- last_map; exact (oldest_last _ max _ _ Nf)|].
      split; [|cbn; rewrite map_length; reflexivity].
      destruct Hwin as [Hwin _]. pose proof (newest_front _ max _ _ HI) as [_ A1]. pose proof (oldest_last _ max _ _ HI) as [(z & Hz & Ez) A2].
      pose proof (Hwin z x Hz (or_introl eq_refl)) as A3. pose proof (A2 x (or_introl eq_refl)) as A4. pose proof (wf_ct s W) as A5.
      cbn in Hct. unfold time_sub, valid_durb. rewrite (proj2 (Z.leb_le _ _)), (proj2 (Z.ltb_lt _ _)); [reflexivity| |];
        unfold dur_bound in *; lia.
    - exists 0, 0. repeat split.
    - destruct Hok as [? H]; discriminate. }
  destruct St as (hi & lo & Ehi & Elo & Hn & Ho & Esub & Elen).
  rewrite Ehi, Elo, Esub. cbn [lift_time bind]. eexists. split; [reflexivity|]. split; [|reflexivity].
  exists (map_storage (name_of s) d), (map_cache (name_of s) c), hi, lo. rewrite Es. cbn [option_map].
  split; [reflexivity|]. split; [assumption|]. split; [assumption|]. split; [assumption|].
  cbn [y_name y_parent y_latest y_oldest y_length y_delay y_rate]. split; [reflexivity|]. split; [reflexivity|].
  split; [reflexivity|]. split; [reflexivity|]. split; [reflexivity|]. split; [reflexivity|].
  unfold rate_of, smax. rewrite Ehi, Elo, Elen. reflexivity.
Qed.
Lemma rows_from_spec : forall s now fs ns k, wf s -> rows_ok s fs ns k ->
  exists rows, rows_from s now fs k = Ok rows /\
    Forall2 (fun n r => describes s now n r /\ y_broadcaster r = authority_of s (lookupFrameNumber s n))
            (filter (has_data s) ns) rows.
Proof.
  intros s now fs. induction fs as [|f fs IH]; intros ns k W H.
  - destruct H as [H _]. destruct ns; [|discriminate]. exists []. split; [reflexivity|constructor].
  - destruct ns as [|n ns]; [destruct H as [H _]; discriminate|].
    destruct (rows_ok_cons _ _ _ _ _ _ H) as (L & N & G & H'). destruct (IH ns _ W H') as (rows & Er & Fr).
    cbn [filter]. unfold has_data at 1. destruct f as [c|].
    + cbn [rows_from]. pose proof (row_describes s now k c W L G) as Rd. rewrite N in Rd.
      destruct (sample_at s 0 n) as [d|].
      * destruct Rd as (r & -> & D & B). cbn [bind]. rewrite Er. cbn [bind]. exists (r :: rows). split; [reflexivity|].
        constructor; [|assumption]. split; [assumption|]. rewrite B. subst n. rewrite (lookup_live s k W L). reflexivity.
      * rewrite Rd. cbn [bind]. rewrite Er. cbn [bind]. eauto.
    + cbn [rows_from]. rewrite <- N, (sample_idata s 0 k W L). unfold idata. rewrite G. cbn [option_map]. eauto.
Qed.

Theorem frames_as_yaml : forall s now, reachable s ->
  exists rows,
    allFramesAsYAML s now = Ok (match getFrameStrings s with [] => None | _ => Some rows end) /\
    Forall2 (fun n r => describes s now n r /\ y_broadcaster r = authority_of s (lookupFrameNumber s n))
            (filter (has_data s) (getFrameStrings s)) rows.
Proof.
  intros s now R. apply reachable_wf in R as W.
  destruct (rows_from_spec s now _ _ 1%nat W (rows_ok_all s W)) as (rows & E & F). exists rows. split; [|assumption].
  unfold allFramesAsYAML. rewrite E. cbn [bind]. f_equal. pose proof (wf_len s W) as Len. rewrite Len. unfold getFrameStrings.
  pose proof (wf_root s W) as Rt. destruct (c_rev s) as [|n0 [|n1 ns]]; [discriminate|reflexivity|reflexivity].
Qed.

(** ** the graph *)
Lemma dot_from_spec : forall s now fs ns k, wf s -> rows_ok s fs ns k ->
  dot_roots_from s now fs k = Ok (filter (drawn_as_root s now) ns).
Proof.
  intros s now fs. induction fs as [|f fs IH]; intros ns k W H.
  - destruct H as [H _]. destruct ns; [reflexivity|discriminate].
  - destruct ns as [|n ns]; [destruct H as [H _]; discriminate|].
    destruct (rows_ok_cons _ _ _ _ _ _ H) as (L & N & G & H'). cbn [dot_roots_from]. rewrite (IH ns _ W H'). cbn [bind filter].
    set (rest := filter (drawn_as_root s now) ns). unfold drawn_as_root.
    pose proof (live_hist s k W L) as Hh. rewrite N, G in Hh. rewrite Hh.
    destruct f as [c|]; cbn [option_map].
    + destruct (row_data s k c W L G) as (o & Eo & Es & Ep). rewrite Eo. cbn [bind].
      rewrite (live_rev s k L), N. unfold link. rewrite <- N, Es.
      destruct o as [d|]; cbn [option_map].
      * rewrite (Ep d eq_refl). cbn [map_storage st_frame]. destruct (String.eqb (name_of s (st_frame d)) NO_PARENT); reflexivity.
      * rewrite (wf_root s W). rewrite String.eqb_refl. reflexivity.
    + rewrite (live_rev s k L), N. destruct (sgtb now szero); reflexivity.
Qed.

Theorem frames_as_dot : forall s now, reachable s ->
  exists rows,
    allFramesAsDot s now = Ok (rows, filter (drawn_as_root s now) (getFrameStrings s)) /\
    Forall2 (fun n r => describes s now n r /\ y_broadcaster r = authority_of s (lookupFrameNumber s n))
            (filter (has_data s) (getFrameStrings s)) rows.
Proof.
  intros s now R. apply reachable_wf in R as W.
  destruct (rows_from_spec s now _ _ 1%nat W (rows_ok_all s W)) as (rows & E & F). exists rows. split; [|assumption].
  unfold allFramesAsDot. rewrite E, (dot_from_spec s now _ _ 1%nat W (rows_ok_all s W)). reflexivity.
Qed.

(** ** authorities *)
Lemma set_auth : forall s m a st, wf s -> valid_time (tm_stamp m) ->
  let s' := fst (setTransform s m a st) in
  (snd (setTransform s m a st) = Ok true /\
   exists ci, assoc (stripSlash (tm_child m)) (c_ids s') = Some ci /\ c_auth s' = (ci, a) :: c_auth s) \/
  (snd (setTransform s m a st) <> Ok true /\ c_auth s' = c_auth s).
Proof.
  intros s m a st W V s'. subst s'. unfold setTransform.
  set (m' := strip_msg m). destruct (setTransform_error m') eqn:Eb; [right; split; [discriminate|reflexivity]|].
  destruct (lookupOrInsertFrameNumber s (tm_child m')) as [s1 ci] eqn:E1.
  assert (A1 : c_auth s1 = c_auth s).
  { unfold lookupOrInsertFrameNumber in E1. destruct (assoc (tm_child m') (c_ids s)); inversion E1; reflexivity. }
  assert (I1 : assoc (tm_child m') (c_ids s1) = Some ci).
  { unfold lookupOrInsertFrameNumber in E1. destruct (assoc (tm_child m') (c_ids s)) eqn:Ea; inversion E1; subst; [assumption|].
    cbn. rewrite String.eqb_refl. reflexivity. }
  set (p := match getFrame s1 ci with Some c => (s1, c) | None => _ end).
  assert (A2 : c_auth (fst p) = c_auth s1 /\ c_ids (fst p) = c_ids s1) by (subst p; destruct (getFrame s1 ci); split; reflexivity).
  destruct p as [s2 c]. cbn [fst] in A2. destruct A2 as [A2 I2].
  destruct (lookupOrInsertFrameNumber s2 (tm_frame m')) as [s3 pi] eqn:E3.
  assert (A3 : c_auth s3 = c_auth s2).
  { unfold lookupOrInsertFrameNumber in E3. destruct (assoc (tm_frame m') (c_ids s2)); inversion E3; reflexivity. }
  assert (I3 : assoc (tm_child m') (c_ids s3) = Some ci).
  { unfold lookupOrInsertFrameNumber in E3. destruct (assoc (tm_frame m') (c_ids s2)) eqn:Ea; injection E3 as Es3 _; rewrite <- Es3; [rewrite I2; exact I1|].
    cbn [c_ids assoc]. change (stripSlash (tm_frame m)) with (tm_frame m').
    destruct (String.eqb (tm_child m') (tm_frame m')) eqn:En; [|rewrite I2; exact I1].
    apply String.eqb_eq in En. rewrite I2, <- En in Ea. congruence. }
  destruct (insertData c (mk_storage m' pi ci)) as [c' r].
  destruct r as [[|e]|cl e|]; cbn [fst snd]; try (right; split; [discriminate|cbn; congruence]).
  left. split; [reflexivity|]. exists ci. split; [exact I3|]. cbn. congruence.
Qed.

Definition auth_bounded s : Prop := forall i a, In (i, a) (c_auth s) -> (i < List.length (c_rev s))%nat.
Definition auth_at s n : option string :=
  match assoc n (c_ids s) with Some i => nassoc i (c_auth s) | None => None end.

Lemma step_rev : forall s o, wf s -> op_ok o -> exists suf, c_rev (step s o) = c_rev s ++ suf.
Proof.
  intros s o W H. destruct o as [m a st|]; [|exists []; rewrite app_nil_r; reflexivity]. cbn [step].
  destruct (setTransform_error (strip_msg m)) eqn:Eb; [rewrite setTransform_rejects by assumption; exists []; rewrite app_nil_r; reflexivity|].
  destruct (setTransform_effect s m a st W (op_ok_stamp _ _ _ H) Eb) as (s' & ci & pi & Es & _ & _ & _ & _ & Suf & _).
  rewrite Es. exact Suf.
Qed.
Lemma nassoc_in : forall i l (a : string), nassoc i l = Some a -> In (i, a) l.
Proof.
  intros i l a. induction l as [|[k v] l IH]; cbn; [discriminate|]. destruct (Nat.eqb i k) eqn:E; [|auto].
  intros H. inversion H. subst. apply Nat.eqb_eq in E. subst. auto.
Qed.
Lemma auth_bounded_step : forall s o, wf s -> op_ok o -> auth_bounded s -> auth_bounded (step s o).
Proof.
  intros s o W H B i x Hi. destruct (step_rev s o W H) as [suf Suf].
  assert (L : (List.length (c_rev s) <= List.length (c_rev (step s o)))%nat) by (rewrite Suf, app_length; lia).
  destruct o as [m a st|]; [|specialize (B i x Hi); lia]. cbn [step] in *.
  pose proof (wf_step s (OSet m a st) W H) as W'. cbn [step] in W'.
  destruct (set_auth s m a st W H) as [(_ & ci & Ea & E)|[_ E]]; rewrite E in Hi; [|specialize (B i x Hi); lia].
  destruct Hi as [Hi|Hi]; [|specialize (B i x Hi); lia]. inversion Hi; subst.
  apply (wf_ids _ W') in Ea. apply nth_error_lt in Ea. assumption.
Qed.

Lemma auth_step : forall s o n, wf s -> op_ok o -> auth_bounded s ->
  auth_at (step s o) n =
  match o with
  | OSet m a st => if String.eqb (stripSlash (tm_child m)) n && (match snd (setTransform s m a st) with Ok true => true | _ => false end)
                   then Some a else auth_at s n
  | OClear => auth_at s n
  end.
Proof.
  intros s o n W H B. destruct o as [m a st|]; [|reflexivity].
  pose proof (wf_step s _ W H) as W'. destruct (step_rev s _ W H) as [suf Suf]. cbn [step] in *.
  assert (Keep : forall i, assoc n (c_ids s) = Some i -> assoc n (c_ids (fst (setTransform s m a st))) = Some i).
  { intros i Hi. apply (wf_ids _ W'). apply (wf_ids _ W) in Hi. rewrite Suf, nth_error_app1; [assumption|].
    apply nth_error_lt in Hi. assumption. }
  assert (Same : forall l, c_auth (fst (setTransform s m a st)) = l ->
     (forall i, assoc n (c_ids (fst (setTransform s m a st))) = Some i -> nassoc i l = nassoc i (c_auth s)) ->
     auth_at (fst (setTransform s m a st)) n = auth_at s n).
  { intros l El Hl. unfold auth_at. rewrite El. destruct (assoc n (c_ids s)) as [i|] eqn:Ei.
    - rewrite (Keep i eq_refl). apply Hl, Keep. reflexivity.
    - destruct (assoc n (c_ids (fst (setTransform s m a st)))) as [i|] eqn:Ei'; [|reflexivity].
      rewrite (Hl i eq_refl). destruct (nassoc i (c_auth s)) eqn:Ea; [|reflexivity].
      apply nassoc_in, B in Ea. apply (wf_ids _ W') in Ei'. rewrite Suf, nth_error_app1 in Ei' by assumption.
      apply (wf_ids _ W) in Ei'. congruence. }
  destruct (set_auth s m a st W H) as [(R & ci & Ea & E)|[R E]].
  - rewrite R, andb_true_r. destruct (String.eqb (stripSlash (tm_child m)) n) eqn:En.
    + apply String.eqb_eq in En. subst n. unfold auth_at. rewrite Ea, E. cbn. rewrite Nat.eqb_refl. reflexivity.
    + apply (Same _ E). intros i Hi. cbn. destruct (Nat.eqb i ci) eqn:Ei; [|reflexivity].
      apply Nat.eqb_eq in Ei. subst. apply (wf_ids _ W') in Hi, Ea. rewrite Hi in Ea. inversion Ea. subst n.
      rewrite String.eqb_refl in En. discriminate.
  - replace (match snd (setTransform s m a st) with Ok true => true | _ => false end) with false
      by (destruct (snd (setTransform s m a st)) as [[|]| |]; congruence).
    rewrite andb_false_r. apply (Same _ E). reflexivity.
Qed.

Theorem broadcaster_is_last_sender : forall ct ops n, 0 <= ct < dur_bound -> Forall op_ok ops ->
  known (run (init_core ct) ops) n ->
  let a := authority_of (run (init_core ct) ops) (lookupFrameNumber (run (init_core ct) ops) n) in
  last_sender ct n ops a \/ (a = no_authority /\ never_accepted ct n ops).
Proof.
  intros ct ops n Hct Hf [K _]. cbv zeta.
  assert (G : auth_bounded (run (@init_core S ct) ops) /\
    match auth_at (run (init_core ct) ops) n with
    | Some a => last_sender ct n ops a | None => never_accepted ct n ops end).
  { clear K. induction ops as [|o ops IH] using rev_ind.
    - split; [intros i a []|].
      assert (X : auth_at (run (@init_core S ct) []) n = None) by (unfold auth_at; cbn; destruct (String.eqb n NO_PARENT); reflexivity).
      rewrite X. intros pre o post E. destruct pre; discriminate.
    - apply Forall_app in Hf as [Hf Ho]. inversion Ho as [|? ? Ho' _]; subst. destruct (IH Hf) as [B A].
      assert (W : wf (run (@init_core S ct) ops)) by (apply wf_run; [apply wf_init; assumption|assumption]).
      rewrite run_app. change (run (run (init_core ct) ops) [o]) with (step (run (init_core ct) ops) o).
      split; [apply auth_bounded_step; assumption|]. rewrite (auth_step _ _ n W Ho' B).
      assert (Ext : ~ accepted_for ct n ops o ->
        match auth_at (run (init_core ct) ops) n with
        | Some a => last_sender ct n (ops ++ [o]) a | None => never_accepted ct n (ops ++ [o]) end).
      { intros No. destruct (auth_at (run (init_core ct) ops) n) as [x|].
        - destruct A as (pre & m & st & post & E & Acc & Last). subst ops. exists pre, m, st, (post ++ [o]).
          split; [rewrite <- app_assoc; reflexivity|]. split; [assumption|].
          intros p1 o' p2 E. destruct p2 as [|z p2 _] using rev_ind.
          + apply app_inj_tail in E as [-> ->]. exact No.
          + rewrite app_comm_cons, app_assoc in E. apply app_inj_tail in E as [E _]. apply (Last _ _ _ E).
        - intros pre o' post E. destruct post as [|z post _] using rev_ind.
          + apply app_inj_tail in E as [-> ->]. exact No.
          + rewrite app_comm_cons, app_assoc in E. apply app_inj_tail in E as [E _]. apply (A _ _ _ E). }
      destruct o as [m a st|]; [|apply Ext; cbn; auto].
      destruct (String.eqb (stripSlash (tm_child m)) n) eqn:En; cbn [andb].
      2:{ apply Ext. intros [C _]. apply String.eqb_neq in En. congruence. }
      apply String.eqb_eq in En. destruct (snd (setTransform (run (init_core ct) ops) m a st)) as [[|]| |] eqn:Er;
        try (apply Ext; intros [_ C]; congruence).
      exists ops, m, st, []. split; [reflexivity|]. split; [split; assumption|].
      intros p1 o' p2 E. destruct p1; discriminate. }
  destruct G as [_ G]. unfold auth_at, authority_of, lookupFrameNumber in *. unfold frameExists in K.
  destruct (assoc n (c_ids (run (init_core ct) ops))) as [i|]; [|discriminate].
  destruct (nassoc i (c_auth (run (init_core ct) ops))); auto.
Qed.
(** Once something is stored for a frame, somebody's message for it was accepted. *)
Lemma data_means_accepted : forall ct ops n, 0 <= ct < dur_bound ->
  Forall (fun o => match o with OSet m _ _ => valid_time (tm_stamp m) /\ valid_time (tm_stamp m + ct) | OClear => True end) ops ->
  n <> NO_PARENT -> never_accepted ct n ops ->
  match hist (run (@init_core S ct) ops) n with None => True | Some c => samples c = [] end.
Proof.
  intros ct ops n Hct. induction ops as [|o ops IH] using rev_ind; intros Hf Hn Nv.
  - unfold hist. cbn. rewrite (proj2 (String.eqb_neq _ _) Hn). exact I.
  - apply Forall_app in Hf as [Hf Ho]. inversion Ho as [|? ? Ho' _]; subst.
    assert (Hf' : Forall op_ok ops) by (eapply Forall_impl; [|exact Hf]; intros [m a st|]; cbn; tauto).
    assert (Ok' : op_ok o) by (destruct o; cbn; tauto).
    assert (R : reachable (run (@init_core S ct) ops)) by (exists ct, ops; auto).
    apply reachable_wf in R as W. rewrite run_app. change (run (run (init_core ct) ops) [o]) with (step (run (init_core ct) ops) o).
    assert (IH' := IH Hf Hn (fun pre o' post E => Nv pre o' (post ++ [o]) (eq_trans (f_equal (fun l => l ++ [o]) E) (eq_sym (app_assoc pre (o' :: post) [o]))))).
    rewrite (hist_step _ n o W Ok' Hn). destruct o as [m a st|]; cbn [frame_step].
    + destruct (bad_message (strip_msg m)) eqn:Eb; [assumption|].
      destruct (String.eqb (tm_child (strip_msg m)) n) eqn:En; [|assumption].
      exfalso. apply (Nv ops (OSet m a st) [] eq_refl). apply String.eqb_eq in En. cbn in En. split; [assumption|].
      assert (Ct : c_cache_time (run (@init_core S ct) ops) = ct) by (rewrite run_ct; [reflexivity|assumption|apply wf_init; assumption]).
      apply (set_verdict _ m a st R); [apply Ho'|rewrite Ct; apply Ho'|congruence|]. split; [assumption|].
      rewrite En. destruct (hist (run (init_core ct) ops) n) as [[mx l|x]|]; try exact I. cbn in IH'. subst l. intros y [].
    + destruct (hist (run (init_core ct) ops) n) as [[mx l|x]|]; cbn in *; auto.
Qed.

Theorem broadcaster_recorded : forall ct ops n d, 0 <= ct < dur_bound ->
  Forall (fun o => match o with OSet m _ _ => valid_time (tm_stamp m) /\ valid_time (tm_stamp m + ct) | OClear => True end) ops ->
  sample_at (run (@init_core S ct) ops) 0 n = Some d ->
  last_sender ct n ops (authority_of (run (init_core ct) ops) (lookupFrameNumber (run (init_core ct) ops) n)).
Proof.
  intros ct ops n d Hct Hf Hd.
  assert (Hf' : Forall op_ok ops) by (eapply Forall_impl; [|exact Hf]; intros [m a st|]; cbn; tauto).
  assert (R : reachable (run (@init_core S ct) ops)) by (exists ct, ops; auto).
  apply reachable_wf in R as W.
  assert (K : known (run (@init_core S ct) ops) n).
  { unfold sample_at in Hd. destruct (hist (run (init_core ct) ops) n) as [c|] eqn:Eh; [|discriminate].
    destruct (hist_ok _ _ _ W Eh) as (_ & K & _). exact K. }
  destruct (broadcaster_is_last_sender ct ops n Hct Hf' K) as [H|[_ Nv]]; [assumption|].
  pose proof (data_means_accepted ct ops n Hct Hf (proj2 K) Nv) as E. unfold sample_at in Hd.
  destruct (hist (run (init_core ct) ops) n) as [[mx l|[x|]]|]; cbn in *; try discriminate. subst l. discriminate.
Qed.

(** ** unknown names *)
Lemma frame0_none : forall ct ops, 0 <= ct < dur_bound -> Forall op_ok ops ->
  Forall (fun o => match o with OSet m _ _ => stripSlash (tm_child m) <> NO_PARENT | OClear => True end) ops ->
  getFrame (run (@init_core S ct) ops) 0 = None.
Proof.
  intros ct ops Hct. induction ops as [|o ops IH] using rev_ind; intros Hf Hn; [reflexivity|].
  apply Forall_app in Hf as [Hf Ho]. inversion Ho as [|? ? Ho' _]; subst. apply Forall_app in Hn as [Hn Hno]. inversion Hno as [|? ? Hno' _]; subst.
  specialize (IH Hf Hn). assert (W : wf (run (@init_core S ct) ops)) by (apply wf_run; [apply wf_init; assumption|assumption]).
  rewrite run_app. change (run (run (init_core ct) ops) [o]) with (step (run (init_core ct) ops) o).
  destruct o as [m a st|]; cbn [step].
  - destruct (setTransform_error (strip_msg m)) eqn:Eb; [rewrite setTransform_rejects by assumption; assumption|].
    destruct (setTransform_effect _ m a st W (op_ok_stamp _ _ _ Ho') Eb) as (s' & ci & pi & Es & W' & Ac & _ & _ & _ & Oth & _).
    rewrite Es. cbn [fst]. rewrite Oth; [assumption|]. intros <-. apply (wf_ids _ W') in Ac. rewrite (wf_root _ W') in Ac.
    inversion Ac. cbn in *. congruence.
  - pose proof (getFrame_clear (run (@init_core S ct) ops) 0) as E. rewrite E. rewrite IH. reflexivity.
Qed.
Theorem get_parent_unknown : forall ct ops n t, 0 <= ct < dur_bound -> Forall op_ok ops ->
  Forall (fun o => match o with OSet m _ _ => stripSlash (tm_child m) <> NO_PARENT | OClear => True end) ops ->
  ~ known (run (@init_core S ct) ops) n -> getParentName (run (init_core ct) ops) n t = Ok None.
Proof.
  intros ct ops n t Hct Hf Hn K. unfold getParentName.
  assert (W : wf (run (@init_core S ct) ops)) by (apply wf_run; [apply wf_init; assumption|assumption]).
  replace (lookupFrameNumber (run (init_core ct) ops) n) with 0%nat; [rewrite frame0_none by assumption; reflexivity|].
  unfold lookupFrameNumber, known, frameExists in *. destruct (assoc n (c_ids (run (init_core ct) ops))) as [i|] eqn:E; [|reflexivity].
  destruct (string_dec n NO_PARENT) as [->|X]; [|exfalso; apply K; auto].
  pose proof (proj1 (wf_ids _ W _ _) E). pose proof (wf_root _ W) as Rt. apply (wf_ids _ W) in Rt. congruence.
Qed.
End P.
