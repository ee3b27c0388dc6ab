(** * The effect of setTransform and clear on reachable buffers *)
From Coq Require Import ZArith Bool List String Lia Arith.
From Verif Require Import RosTime Scalar LinearMath Cache SpecCache CacheProofs CacheQueries
  BufferCore SpecCore CoreInv Naturality.
Import ListNotations.
Open Scope Z_scope.

Section P.
Context {S : Scalar}.
Notation storage := (storage S nat).
Notation cache := (cache S nat).
Notation core := (core S).
Implicit Types (s : core) (c : cache) (x : storage) (n : string) (i : nat) (m : tmsg S).

Definition ins_outcome (r : res ins_result) : res bool :=
  match r with
  | Ok Inserted => Ok true
  | Ok (Rejected _) => Ok false
  | Throw c e => Throw c e
  | UB => UB
  end.

Lemma setTransform_effect : forall s m0 auth st, wf s -> 0 <= tm_stamp m0 ->
  setTransform_error (strip_msg m0) = false ->
  exists s' ci pi,
    let m := strip_msg m0 in
    let c0 := match getFrame s ci with Some c => c | None => new_cache s st end in
    let r := insertData c0 (mk_storage m pi ci) in
    setTransform s m0 auth st = (s', ins_outcome (snd r)) /\
    wf s' /\
    assoc (tm_child m) (c_ids s') = Some ci /\ assoc (tm_frame m) (c_ids s') = Some pi /\
    (forall n, n <> tm_child m -> n <> tm_frame m -> assoc n (c_ids s') = assoc n (c_ids s)) /\
    (exists suffix, c_rev s' = c_rev s ++ suffix) /\
    (forall j, j <> ci -> getFrame s' j = getFrame s j) /\
    getFrame s' ci = Some (fst r) /\
    c_cache_time s' = c_cache_time s.
Proof.
  intros s m0 auth st W Hst Herr.
  remember (setTransform s m0 auth st) as R eqn:ER.
  unfold setTransform in ER. rewrite Herr in ER. set (m := strip_msg m0) in *. cbv zeta in ER.
  destruct (lookupOrInsertFrameNumber s (tm_child m)) as [s1 ci] eqn:E1.
  destruct (insert_name_spec _ _ _ _ W E1) as (W1 & R1 & L1 & G1 & T1 & _ & (x1 & X1 & _) & A1).
  set (c0 := match getFrame s ci with Some c => c | None => new_cache s st end).
  assert (Hc0 : (cache_ok c0 \/ c0 = Static None) /\
          match c0 with Dynamic max _ => max = c_cache_time s | Static _ => True end /\
          forall x, In x (samples c0) -> (st_frame x < List.length (c_rev s))%nat /\ st_child x = ci).
  { unfold c0. destruct (getFrame s ci) as [c|] eqn:Ec.
    - destruct (wf_cache s W _ _ Ec) as (H1 & H2 & H3). auto.
    - unfold new_cache. destruct st.
      + split; [auto|]. split; [trivial|]. intros x [].
      + split; [|split; [reflexivity|intros x []]]. left. split; [apply (wf_ct s W)|].
        split; [constructor|]. split; [intros x y []|intros x []]. }
  destruct Hc0 as (Hok & Hmax & Hsam).
  (* the state after creating the cache *)
  assert (Hs2 : exists s2, (match getFrame s1 ci with
            | Some c => (s1, c)
            | None => (setFrame s1 ci (new_cache s1 st), new_cache s1 st) end) = (s2, c0) /\
          List.length (c_frames s2) = List.length (c_frames s1) /\ c_rev s2 = c_rev s1 /\ c_ids s2 = c_ids s1 /\
          c_cache_time s2 = c_cache_time s1 /\ getFrame s2 ci = Some c0 /\
          (forall j, j <> ci -> getFrame s2 j = getFrame s j)).
  { rewrite G1. unfold c0. destruct (getFrame s ci) as [c|] eqn:Ec.
    - exists s1. repeat split; auto. rewrite G1; assumption.
    - assert (EN : new_cache s1 st = new_cache s st) by (unfold new_cache; rewrite T1; reflexivity).
      rewrite EN. eexists. split; [reflexivity|]. cbn [setFrame c_frames c_rev c_ids c_cache_time].
      split; [apply list_set_length|]. do 3 (split; [reflexivity|]). split.
      + apply (getFrame_setFrame_same s1 ci (new_cache s st)). assumption.
      + intros j Hj. rewrite <- G1. apply (getFrame_setFrame_other s1 ci j (new_cache s st)). congruence. }
  destruct Hs2 as (s2 & E2 & Len2 & Rev2 & Ids2 & T2 & F2 & O2).
  rewrite E2 in ER.
  (* s2 is well formed except that its ci cache may be an unwritten static cache; insert the
     parent name by hand *)
  destruct (lookupOrInsertFrameNumber s2 (tm_frame m)) as [s3 pi] eqn:E3.
  assert (H3 : exists s3', lookupOrInsertFrameNumber s1 (tm_frame m) = (s3', pi) /\
     c_rev s3 = c_rev s3' /\ c_ids s3 = c_ids s3' /\ c_cache_time s3 = c_cache_time s3' /\
     List.length (c_frames s3) = List.length (c_frames s3') /\
     (forall j, getFrame s3 j = getFrame s2 j)).
  { unfold lookupOrInsertFrameNumber in *. rewrite Ids2 in E3.
    destruct (assoc (tm_frame m) (c_ids s1)); inversion E3; subst; clear E3.
    - exists s1. auto 10.
    - rewrite Len2. eexists. split; [reflexivity|]. cbn.
      rewrite Rev2, T2, !app_length, Len2. repeat (split; [reflexivity|]).
      intros j. unfold getFrame. cbn. destruct (lt_eq_lt_dec j (List.length (c_frames s2))) as [[H| ->]|H].
      + rewrite nth_error_app1 by assumption. reflexivity.
      + rewrite nth_error_app_last, (proj2 (nth_error_None (c_frames s2) _)) by lia. reflexivity.
      + rewrite (proj2 (nth_error_None (c_frames s2 ++ [None]) j)) by (rewrite app_length; cbn; lia).
        rewrite (proj2 (nth_error_None (c_frames s2) j)) by lia. reflexivity. }
  destruct H3 as (s3' & E3' & Rev3 & Ids3 & T3 & Len3 & F3).
  destruct (insert_name_spec _ _ _ _ W1 E3') as (W3 & R3 & L3 & G3 & T3' & _ & (x3 & X3 & _) & A3).
  destruct (insertData c0 (mk_storage m pi ci)) as [c' r] eqn:Ei.
  destruct (insert_cache_ok c0 (mk_storage m pi ci) Hok Hst) as (Hok' & Hin' & Hk').
  rewrite Ei in Hok', Hin', Hk'. cbn [fst] in Hok', Hin', Hk'.
  set (s4 := setFrame s3 ci c').
  assert (Lci : (ci < List.length (c_frames s3))%nat).
  { rewrite Len3. rewrite (wf_len _ W3), X3, app_length. rewrite <- (wf_len _ W1).
    pose proof (getFrame_lt s2 ci c0 F2). lia. }
  assert (W4 : wf s4).
  { constructor; cbn [s4 setFrame c_frames c_rev c_ids c_cache_time].
    - rewrite list_set_length, Len3, Rev3. apply (wf_len _ W3).
    - rewrite Rev3. apply (wf_root _ W3).
    - rewrite Rev3, Ids3. apply (wf_ids _ W3).
    - rewrite T3. apply (wf_ct _ W3).
    - intros j c Hj. change (getFrame s4 j = Some c) in Hj. destruct (Nat.eq_dec ci j) as [<-|D].
      + unfold s4 in Hj. rewrite getFrame_setFrame_same in Hj by assumption. inversion Hj; subst c; clear Hj.
        split; [assumption|]. split.
        * destruct c' as [max' l'|o']; [|trivial]. destruct c0 as [max l|o]; [|contradiction].
          cbn in Hk'. rewrite <- Hk'. cbn [s4 setFrame c_cache_time]. rewrite T3, T3', T1. assumption.
        * intros x Hx. cbn [s4 setFrame c_rev]. rewrite Rev3. destruct (Hin' x Hx) as [->|Hx'].
          -- cbn. split; [|reflexivity]. apply nth_error_lt in R3. assumption.
          -- destruct (Hsam x Hx'). split; [|assumption]. rewrite X3, X1, !app_length. lia.
      + unfold s4 in Hj. rewrite getFrame_setFrame_other in Hj by assumption.
        rewrite F3, O2 in Hj by congruence. destruct (wf_cache s W _ _ Hj) as (H1 & H2 & H3).
        split; [assumption|]. split.
        * cbn [s4 setFrame c_cache_time]. rewrite T3, T3', T1. assumption.
        * intros x Hx. destruct (H3 x Hx). split; [|assumption].
          cbn [s4 setFrame c_rev]. rewrite Rev3, X3, X1, !app_length. lia. }
  assert (Asc : assoc (tm_child m) (c_ids s4) = Some ci).
  { change (c_ids s4) with (c_ids s3). rewrite Ids3, A3, A1, String.eqb_refl.
    destruct (String.eqb (tm_child m) (tm_frame m)) eqn:E; [|reflexivity].
    apply String.eqb_eq in E. exfalso. unfold setTransform_error in Herr. fold m in Herr.
    rewrite (proj2 (String.eqb_eq _ _) E) in Herr. discriminate. }
  assert (Asp : assoc (tm_frame m) (c_ids s4) = Some pi).
  { change (c_ids s4) with (c_ids s3). rewrite Ids3, A3, String.eqb_refl. reflexivity. }
  assert (Rest : forall n, n <> tm_child m -> n <> tm_frame m -> assoc n (c_ids s4) = assoc n (c_ids s)).
  { intros n H1 H2. change (c_ids s4) with (c_ids s3). rewrite Ids3, A3, A1.
    rewrite (proj2 (String.eqb_neq _ _) H1), (proj2 (String.eqb_neq _ _) H2). reflexivity. }
  assert (Suf : exists suffix, c_rev s4 = c_rev s ++ suffix).
  { exists (x1 ++ x3). cbn. rewrite Rev3, X3, X1, app_assoc. reflexivity. }
  assert (Oth : forall j, j <> ci -> getFrame s4 j = getFrame s j).
  { intros j Hj. unfold s4. rewrite getFrame_setFrame_other by congruence. rewrite F3. apply O2. assumption. }
  assert (Own : getFrame s4 ci = Some c').
  { unfold s4. apply getFrame_setFrame_same. assumption. }
  assert (Ct : c_cache_time s4 = c_cache_time s).
  { cbn. rewrite T3, T3', T1. reflexivity. }
  exists (match r with Ok Inserted => setAuthority s4 ci auth | _ => s4 end), ci, pi.
  cbv zeta. fold c0. rewrite Ei. cbn [fst snd].
  destruct r as [[|e]|cl e|]; cbn [ins_outcome]; (split; [exact ER|]);
    (split; [try apply wf_setAuthority; assumption|]); auto 10.
Qed.

Lemma setTransform_rejects : forall s m0 auth st,
  setTransform_error (strip_msg m0) = true -> setTransform s m0 auth st = (s, Ok false).
Proof. intros s m0 auth st H. unfold setTransform. rewrite H. reflexivity. Qed.

Lemma wf_step : forall s o, wf s -> op_ok o -> wf (step s o).
Proof.
  intros s [m a st|] W H; cbn.
  - destruct (setTransform_error (strip_msg m)) eqn:E.
    + rewrite setTransform_rejects by assumption. assumption.
    + destruct (setTransform_effect s m a st W (proj1 H) E) as (s' & ci & pi & -> & W' & _). assumption.
  - apply wf_clear. assumption.
Qed.

Lemma wf_run : forall ops s, wf s -> Forall op_ok ops -> wf (run s ops).
Proof.
  induction ops as [|o ops IH]; intros s W H; cbn; [assumption|].
  inversion H; subst. apply IH; [apply wf_step; assumption|assumption].
Qed.

Lemma reachable_wf : forall s, reachable s -> wf s.
Proof. intros s (ct & ops & Hct & Hops & ->). apply wf_run; [apply wf_init; assumption|assumption]. Qed.

Lemma run_app : forall s ops1 ops2, run s (ops1 ++ ops2) = run (run s ops1) ops2.
Proof. intros. apply fold_left_app. Qed.

Lemma reachable_step : forall s o, reachable s -> op_ok o -> reachable (step s o).
Proof.
  intros s o (ct & ops & H1 & H2 & ->) H. exists ct, (ops ++ [o]).
  split; [assumption|]. split; [apply Forall_app; auto|]. rewrite run_app. reflexivity.
Qed.
Lemma reachable_run : forall ops s, reachable s -> Forall op_ok ops -> reachable (run s ops).
Proof.
  induction ops as [|o ops IH]; intros s W H; cbn; [assumption|].
  inversion H; subst. apply IH; [apply reachable_step; assumption|assumption].
Qed.

(** ** names *)
Lemma name_of_nth : forall s i n, nth_error (c_rev s) i = Some n -> name_of s i = n.
Proof. intros s i n H. unfold name_of. apply (nth_error_nth (c_rev s) i EmptyString H). Qed.

Lemma name_of_lt : forall s i, (i < List.length (c_rev s))%nat -> nth_error (c_rev s) i = Some (name_of s i).
Proof. intros s i H. unfold name_of. apply nth_error_nth'. assumption. Qed.

Lemma name_of_inj : forall s i j, wf s -> (i < List.length (c_rev s))%nat -> (j < List.length (c_rev s))%nat ->
  name_of s i = name_of s j -> i = j.
Proof.
  intros s i j W Hi Hj E. apply name_of_lt in Hi, Hj. rewrite E in Hi.
  apply (wf_ids s W) in Hi, Hj. congruence.
Qed.

Lemma name_of_eqb : forall s i j, wf s -> (i < List.length (c_rev s))%nat -> (j < List.length (c_rev s))%nat ->
  String.eqb (name_of s i) (name_of s j) = Nat.eqb i j.
Proof.
  intros s i j W Hi Hj. destruct (Nat.eqb i j) eqn:E.
  - apply Nat.eqb_eq in E. subst. apply String.eqb_refl.
  - apply Nat.eqb_neq in E. apply String.eqb_neq. intros H. apply E. apply (name_of_inj s); assumption.
Qed.

Lemma name_of_0 : forall s, wf s -> name_of s 0 = NO_PARENT.
Proof. intros s W. apply name_of_nth, (wf_root s W). Qed.

Lemma name_of_NO_PARENT : forall s i, wf s -> (i < List.length (c_rev s))%nat ->
  String.eqb (name_of s i) NO_PARENT = Nat.eqb i 0.
Proof.
  intros s i W H. rewrite <- (name_of_0 s W). apply name_of_eqb; auto.
  apply (nth_error_lt _ _ _ (wf_root s W)).
Qed.

Lemma name_of_ext : forall s s' i suffix, c_rev s' = c_rev s ++ suffix -> (i < List.length (c_rev s))%nat ->
  name_of s' i = name_of s i.
Proof. intros s s' i suffix E H. unfold name_of. rewrite E. apply app_nth1. assumption. Qed.

Lemma assoc_name_of : forall s n i, wf s -> assoc n (c_ids s) = Some i -> name_of s i = n.
Proof. intros s n i W H. apply name_of_nth. apply (wf_ids s W). assumption. Qed.

Lemma assoc_NO_PARENT : forall s n, wf s -> (assoc n (c_ids s) = Some 0%nat <-> n = NO_PARENT).
Proof.
  intros s n W. split.
  - intros H. apply (wf_ids s W) in H. rewrite (wf_root s W) in H. congruence.
  - intros ->. apply (wf_ids s W), (wf_root s W).
Qed.

Lemma lookupFrameNumber_known : forall s n, wf s -> known s n ->
  exists i, lookupFrameNumber s n = i /\ i <> 0%nat /\ assoc n (c_ids s) = Some i.
Proof.
  intros s n W [H1 H2]. unfold frameExists in H1. unfold lookupFrameNumber.
  destruct (assoc n (c_ids s)) as [i|] eqn:E; [|discriminate].
  exists i. repeat split. intros ->. apply H2. apply (assoc_NO_PARENT s n W). assumption.
Qed.

Lemma lookupFrameNumber_unknown : forall s n, wf s -> ~ known s n -> lookupFrameNumber s n = 0%nat.
Proof.
  intros s n W H. unfold lookupFrameNumber. destruct (assoc n (c_ids s)) as [i|] eqn:E; [|reflexivity].
  destruct i as [|i]; [reflexivity|]. exfalso. apply H. split.
  - unfold frameExists. rewrite E. reflexivity.
  - intros ->.
    rewrite (proj2 (assoc_NO_PARENT s _ W) eq_refl) in E. discriminate.
Qed.

(** ** what is known per name *)
Lemma hist_frame : forall s i c, wf s -> i <> 0%nat -> getFrame s i = Some c ->
  hist s (name_of s i) = Some (map_cache (name_of s) c).
Proof.
  intros s i c W Hi Hc. unfold hist.
  assert (L : (i < List.length (c_rev s))%nat) by (rewrite <- (wf_len s W); apply (getFrame_lt s i c Hc)).
  rewrite (proj2 (wf_ids s W _ i) (name_of_lt s i L)), Hc. destruct i; [congruence|reflexivity].
Qed.
Lemma hist_frame_none : forall s i, wf s -> i <> 0%nat -> (i < List.length (c_rev s))%nat ->
  getFrame s i = None -> hist s (name_of s i) = None.
Proof.
  intros s i W Hi L Hc. unfold hist.
  rewrite (proj2 (wf_ids s W _ i) (name_of_lt s i L)), Hc. destruct i; reflexivity.
Qed.

(** Histories by name after an accepted-for-insertion message. *)
Lemma hist_setTransform : forall s m0 auth (st : bool), wf s -> 0 <= tm_stamp m0 ->
  setTransform_error (strip_msg m0) = false ->
  let m := strip_msg m0 in
  let child := tm_child m in
  let c0 := match hist s child with
            | Some c => c
            | None => if st then Static None else Dynamic (c_cache_time s) [] end in
  let x := {| st_rot := tm_rot m; st_trans := tm_trans m; st_stamp := tm_stamp m;
              st_frame := tm_frame m; st_child := child |} in
  let r := insertData c0 x in
  (child <> NO_PARENT -> snd (setTransform s m0 auth st) = ins_outcome (snd r)) /\
  (forall n, hist (fst (setTransform s m0 auth st)) n =
     if String.eqb n child then (if String.eqb n NO_PARENT then None else Some (fst r)) else hist s n).
Proof.
  intros s m0 auth st W Hst Herr. set (m := strip_msg m0). cbv zeta.
  destruct (setTransform_effect s m0 auth st W Hst Herr)
    as (s' & ci & pi & E & W' & Ac & Ap & Ao & (suf & Suf) & Oth & Own & Ct).
  fold m in Ac, Ap, Ao, Own, E. rewrite E. cbn [fst snd].
  assert (Nc : name_of s' ci = tm_child m) by (apply assoc_name_of; assumption).
  assert (Np : name_of s' pi = tm_frame m) by (apply assoc_name_of; assumption).
  assert (Hci : hist s (tm_child m) = match ci with O => None | _ => option_map (map_cache (name_of s)) (getFrame s ci) end).
  { unfold hist. destruct (assoc (tm_child m) (c_ids s)) as [j|] eqn:Ea.
    - assert (j = ci).
      { apply (wf_ids s W) in Ea. apply (wf_ids s' W') in Ac.
        assert (nth_error (c_rev s') j = Some (tm_child m)).
        { rewrite Suf, nth_error_app1; [assumption|]. apply nth_error_lt in Ea. assumption. }
        apply (wf_ids s' W') in H. apply (wf_ids s' W') in Ac. congruence. }
      subst j. destruct ci; reflexivity.
    - (* the child was unknown: its id is beyond the old frames *)
      assert (G : getFrame s ci = None).
      { destruct (getFrame s ci) as [c|] eqn:Eg; [|reflexivity]. exfalso.
        apply getFrame_lt in Eg. rewrite (wf_len s W) in Eg.
        apply name_of_lt in Eg. apply (wf_ids s W) in Eg.
        assert (name_of s ci = name_of s' ci).
        { symmetry. apply (name_of_ext s s' ci suf Suf). apply (wf_ids s W) in Eg. apply nth_error_lt in Eg. assumption. }
        rewrite H, Nc in Eg. congruence. }
      rewrite G. destruct ci; reflexivity. }
  set (c0 := match getFrame s ci with Some c => c | None => new_cache s st end) in *.
  assert (Hc0 : ci <> 0%nat -> match hist s (tm_child m) with
            | Some c => c
            | None => if st then Static None else Dynamic (c_cache_time s) [] end = map_cache (name_of s') c0).
  { intros Hz. rewrite Hci. destruct ci as [|ci']; [congruence|]. unfold c0.
    destruct (getFrame s (Datatypes.S ci')) as [c|] eqn:Eg; cbn [option_map].
    - apply map_cache_ext. intros x Hx. destruct (wf_cache s W _ _ Eg) as (_ & _ & H3).
      destruct (H3 x Hx) as [H4 H5]. rewrite H5.
      split; symmetry; apply (name_of_ext s s' _ suf Suf); [assumption|].
      rewrite <- (wf_len s W). apply (getFrame_lt s _ c Eg).
    - unfold new_cache. destruct st; reflexivity. }
  assert (Hx : {| st_rot := tm_rot m; st_trans := tm_trans m; st_stamp := tm_stamp m;
              st_frame := tm_frame m; st_child := tm_child m |}
             = map_storage (name_of s') (mk_storage m pi ci)).
  { unfold map_storage, mk_storage. cbn. rewrite Nc, Np. reflexivity. }
  split.
  - intros Hn.
    assert (Hz : ci <> 0%nat).
    { intros ->. apply Hn. apply (assoc_NO_PARENT s' _ W'). assumption. }
    rewrite (Hc0 Hz), Hx, insertData_map. reflexivity.
  - intros n. destruct (String.eqb n (tm_child m)) eqn:En.
    + apply String.eqb_eq in En. subst n. unfold hist at 1. rewrite Ac.
      destruct (String.eqb (tm_child m) NO_PARENT) eqn:Enp.
      * apply String.eqb_eq in Enp. apply (assoc_NO_PARENT s' _ W') in Enp.
        rewrite Ac in Enp. inversion Enp; subst. reflexivity.
      * assert (Hz : ci <> 0%nat).
        { intros ->. apply String.eqb_neq in Enp. apply Enp. apply (assoc_NO_PARENT s' _ W'). assumption. }
        rewrite (Hc0 Hz), Hx, insertData_map, Own. destruct ci; [congruence|]. reflexivity.
    + apply String.eqb_neq in En. unfold hist.
      destruct (assoc n (c_ids s)) as [j|] eqn:Ea.
      * assert (Ej : assoc n (c_ids s') = Some j).
        { apply (wf_ids s W) in Ea. apply (wf_ids s' W'). rewrite Suf, nth_error_app1; [assumption|].
          apply nth_error_lt in Ea. assumption. }
        rewrite Ej. assert (Hj : j <> ci).
        { intros ->. apply En. rewrite <- Nc. symmetry. apply (assoc_name_of s' n); assumption. }
        rewrite (Oth j Hj). destruct j as [|j]; [reflexivity|].
        destruct (getFrame s (Datatypes.S j)) as [c|] eqn:Eg; [|reflexivity]. cbn. f_equal.
        apply map_cache_ext. intros x Hx'. destruct (wf_cache s W _ _ Eg) as (_ & _ & H3).
        destruct (H3 x Hx') as [H4 H5]. rewrite H5.
        split; apply (name_of_ext s s' _ suf Suf); [assumption|].
        rewrite <- (wf_len s W). apply (getFrame_lt s _ c Eg).
      * destruct (assoc n (c_ids s')) as [j|] eqn:Ej; [|reflexivity].
        assert (Hj : j <> ci).
        { intros ->. apply En. rewrite <- Nc. symmetry. apply (assoc_name_of s' n); assumption. }
        rewrite (Oth j Hj). destruct j as [|j]; [reflexivity|].
        destruct (getFrame s (Datatypes.S j)) as [c|] eqn:Eg; [|reflexivity]. exfalso.
        assert (L : (Datatypes.S j < List.length (c_rev s))%nat) by (rewrite <- (wf_len s W); apply (getFrame_lt s _ c Eg)).
        pose proof (name_of_ext s s' _ suf Suf L) as E1. rewrite (assoc_name_of s' n _ W' Ej) in E1.
        apply name_of_lt in L. rewrite <- E1 in L. apply (wf_ids s W) in L. congruence.
Qed.

Lemma hist_clear : forall s n, wf s -> hist (clear s) n = option_map clearList (hist s n).
Proof.
  intros s n W. unfold hist. cbn [clear c_ids]. destruct (assoc n (c_ids s)) as [[|i]|]; try reflexivity.
  rewrite getFrame_clear. cbn [Nat.eqb]. destruct (getFrame s (Datatypes.S i)) as [c|]; [|reflexivity].
  cbn. rewrite clearList_map. f_equal.
Qed.
End P.
