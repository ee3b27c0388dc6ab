(** * The pose returned by a lookup *)
From Coq Require Import ZArith Bool List String Lia Arith.
From Verif Require Import RosTime Scalar LinearMath Cache SpecCache CacheProofs CacheQueries
  BufferCore SpecCore CoreInv Naturality CoreSet WalkSpec LctSpec Bridge WalkMain Sim Forget LookupBase LookupTheorems LookupTree
  History Instances RealSlerp RealQuat SpecReal.
Import ListNotations.
Open Scope Z_scope.
Local Opaque MAX_GRAPH_DEPTH.

Section P.
Context {S : Scalar}.
Notation core := (core S).
Notation taccum := (@taccum S).
Notation twalk := (@walkToTopParent S taccum ta_gather ta_accum ta_finalize).
Notation twalk_at := (@walk_at S taccum ta_gather ta_accum ta_finalize).
Notation nm s := (map_storage (name_of s)).

Lemma raise_names : forall (s : core) (ds : list (storage S nat)) (acc : pose S),
  fold_left (fun acc d => pose_mul (pose_of d) acc) (map (nm s) ds) acc = raise acc ds.
Proof. intros s ds. induction ds as [|d ds IH]; intros acc; [reflexivity|]. cbn. apply IH. Qed.
Lemma climb_pose_names : forall (s : core) (ds : list (storage S nat)), climb_pose (map (nm s) ds) = raise pose_id ds.
Proof. intros s ds. apply raise_names. Qed.

(** Exactly what is computed, in every arithmetic: three shapes. *)
Theorem lookup_pose_cases : forall (s : core) tgt src t m, reachable s -> tgt <> src ->
  lookupTransform s tgt src t = Ok m ->
  (exists ds, climbs s (tm_stamp m) src ds tgt /\ msg_pose m = climb_pose ds) \/
  (exists dt, climbs s (tm_stamp m) tgt dt src /\ msg_pose m = pose_inv (climb_pose dt)) \/
  (exists ds dt c, climbs s (tm_stamp m) src ds c /\ climbs s (tm_stamp m) tgt dt c /\ link s (tm_stamp m) c = None /\
     msg_pose m = pose_mul (pose_inv (climb_pose dt)) (climb_pose ds)).
Proof.
  intros s tgt src t m R Ne H. apply reachable_wf in R as W.
  apply lookup_ok_inv in H as (P1 & K1 & P2 & K2 & a & e & ch & E & ->); [|assumption|assumption].
  unfold msg_pose. cbn [tm_stamp tm_rot tm_trans].
  destruct (known_live s tgt W K1) as (i & Li & Ni & Ei & _). destruct (known_live s src W K2) as (j & Lj & Nj & Ej & _).
  assert (D : j <> i) by congruence. rewrite Ei, Ej in E. clear Ei Ej.
  assert (At : forall u e0, twalk_at s u i j taccum0 e0 = Ok (NO_ERROR, a, e, ch) ->
    (exists ds, climbs s (ta_time a) src ds tgt /\ (ta_rq a, ta_rv a) = climb_pose ds) \/
    (exists dt, climbs s (ta_time a) tgt dt src /\ (ta_rq a, ta_rv a) = pose_inv (climb_pose dt)) \/
    (exists ds dt c, climbs s (ta_time a) src ds c /\ climbs s (ta_time a) tgt dt c /\ link s (ta_time a) c = None /\
      (ta_rq a, ta_rv a) = pose_mul (pose_inv (climb_pose dt)) (climb_pose ds))).
  { intros u e0 Hu. pose proof (walk_at_outcome s u i j e0 W Lj Li) as O. rewrite Hu in O. clear Hu E.
    inversion O as [|ds a0 H1 H2 H3 H4 H5 H6| |ds m dt a0 H1 H2 H3 H4 H5 H6 H7 H8 H9|ds m dt a0 ch0 H1 H2 H3 H4 H5 H6 H7 H8 H9 H10
      |ds m dt m' a0 code err' H1 H2 H3 H4 H5 H6 H7 H8 H9 H10|]; subst a0.
    - left. subst u. destruct (iclimb_climbs s _ _ _ _ W Lj H1) as [C _]. rewrite Ni, Nj in C.
      eexists. split; [exact C|]. rewrite climb_pose_names. exact H6.
    - right. left. subst u. destruct (iclimb_climbs s _ _ _ _ W Li H5) as [C _]. rewrite Ni, Nj in C.
      eexists. split; [exact C|]. rewrite climb_pose_names. exact H9.
    - right. right. subst u. destruct (iclimb_climbs s _ _ _ _ W Lj H1) as [C1 Lm]. destruct (iclimb_climbs s _ _ _ _ W Li H5) as [C2 _].
      rewrite Ni in C2. rewrite Nj in C1.
      eexists _, _, _. split; [exact C1|]. split; [exact C2|]. split; [rewrite (link_lnk s _ m W Lm), H2; reflexivity|].
      rewrite !climb_pose_names. exact H9.
    - destruct (getFrame s m'), (getFrame s m); discriminate. }
  destruct (Z.eq_dec t 0) as [->|Hz].
  - rewrite walk_zero in E by assumption.
    destruct (getLatestCommonTime s i j (Some EEmpty)) as [[[code ot] e1]| |]; cbn [bind] in E; try discriminate.
    destruct code; try discriminate. exact (At _ _ E).
  - rewrite walk_time in E by assumption. exact (At _ _ E).
Qed.
End P.

(** ** Over the reals *)
Lemma climb_pose_app_gen : forall ds es (acc : pose RS),
  fold_left (fun acc d => pose_mul (pose_of d) acc) es (pose_mul (climb_pose ds) acc) =
  pose_mul (climb_pose (ds ++ es)) acc.
Proof.
  intros ds es. revert ds. induction es as [|d es IH]; intros ds acc; [rewrite app_nil_r; reflexivity|].
  cbn [fold_left]. rewrite pose_mul_assoc.
  replace (pose_mul (pose_of d) (climb_pose ds)) with (climb_pose (ds ++ [d])) by (unfold climb_pose; rewrite fold_left_app; reflexivity).
  rewrite IH, <- app_assoc. reflexivity.
Qed.
Lemma climb_pose_from : forall es (acc : pose RS),
  fold_left (fun acc d => pose_mul (pose_of d) acc) es acc = pose_mul (climb_pose es) acc.
Proof.
  intros es acc. pose proof (climb_pose_app_gen [] es acc) as H. cbn [app] in H. rewrite <- H. f_equal.
  change (climb_pose []) with (@pose_id RS). symmetry. apply pose_mul_id_l.
Qed.
Lemma climb_pose_app : forall ds es : list (storage RS string),
  climb_pose (ds ++ es) = pose_mul (climb_pose es) (climb_pose ds).
Proof. intros ds es. unfold climb_pose at 1. rewrite fold_left_app. apply climb_pose_from. Qed.

Lemma unitq_qunit : forall q : rquat, unitq q <-> qunit q.
Proof. intros q. reflexivity. Qed.

Lemma getData_unit : forall (c : cache RS string) t err d e,
  (forall x, In x (samples c) -> qunit (st_rot x)) ->
  getData String.eqb c t err = Ok (Some d, e) -> qunit (st_rot d).
Proof.
  intros [max l|[o|]] t err d e U E; cbn in E; [| |discriminate].
  - destruct (findClosest l t err) as [[n e']| |] eqn:Ef; cbn in E; try discriminate.
    apply findClosest_in in Ef. destruct n as [|x|x y]; [discriminate| |].
    + inversion E; subst. apply U. exact Ef.
    + destruct Ef as [Hx Hy]. destruct (String.eqb (st_frame x) (st_frame y)).
      * unfold interpolate in E. destruct (st_stamp y =? st_stamp x).
        -- cbn in E. inversion E; subst. apply U. assumption.
        -- destruct (time_sub t (st_stamp x)); cbn in E; [|discriminate].
           destruct (time_sub (st_stamp y) (st_stamp x)); cbn in E; [|discriminate].
           inversion E; subst. cbn [st_rot]. apply slerp_unit; apply U; assumption.
      * inversion E; subst. apply U. assumption.
  - inversion E; subst. cbn [st_rot]. apply (U o). cbn. auto.
Qed.

Lemma link_unit : forall (s : core RS) t n d, unit_samples s -> link s t n = Some d -> qunit (st_rot d).
Proof.
  intros s t n d U H. unfold link, sample_at in H. destruct (hist s n) as [c|] eqn:E; [|discriminate].
  destruct (getData String.eqb c t None) as [[[x|] e]| |] eqn:G; try discriminate.
  destruct (String.eqb (st_frame x) NO_PARENT); [discriminate|]. inversion H; subst.
  eapply getData_unit; [|exact G]. intros y Hy. exact (U n c y E Hy).
Qed.
Lemma climb_unit : forall (s : core RS) t n ds m, unit_samples s -> climbs s t n ds m -> unitp (climb_pose ds).
Proof.
  intros s t n ds m U H. induction H as [n|n d ds m E H IH]; [exact unitp_id|].
  change (d :: ds) with ([d] ++ ds). rewrite climb_pose_app. apply unitp_mul; [exact IH|].
  unfold climb_pose. cbn [fold_left]. rewrite pose_mul_id_r. unfold unitp, pose_of. cbn [fst]. apply unitq_qunit.
  eapply link_unit; eassumption.
Qed.

(** Any common ancestor gives the same relative pose. *)
Lemma relative_pose_unique : forall (s : core RS) t a b c ds dt c' es et, unit_samples s ->
  depth_ok s t a -> depth_ok s t b ->
  climbs s t a ds c -> climbs s t b dt c -> climbs s t a es c' -> climbs s t b et c' ->
  pose_mul (pose_inv (climb_pose dt)) (climb_pose ds) = pose_mul (pose_inv (climb_pose et)) (climb_pose es).
Proof.
  assert (G : forall (s : core RS) t a b c ds dt c' et r, unit_samples s -> depth_ok s t b ->
    climbs s t a ds c -> climbs s t b dt c -> climbs s t c r c' -> climbs s t b et c' ->
    pose_mul (pose_inv (climb_pose dt)) (climb_pose ds) = pose_mul (pose_inv (climb_pose et)) (climb_pose (ds ++ r))).
  { intros s t a b c ds dt c' et r U Db H1 H2 Hr H3.
    assert (E : et = dt ++ r) by (eapply climbs_same_end; [exact Db|exact H3|eapply climbs_app; eassumption]).
    rewrite E, !climb_pose_app.
    pose proof (climb_unit s t c r c' U Hr) as Ur. pose proof (climb_unit s t b dt c U H2) as Ut.
    rewrite pose_inv_mul by assumption. rewrite pose_mul_assoc, <- (pose_mul_assoc (pose_inv (climb_pose dt))), pose_inv_l, pose_mul_id_r by assumption.
    reflexivity. }
  intros s t a b c ds dt c' es et U Da Db H1 H2 H3 H4.
  destruct (climbs_linear s t a ds c es c' H1 H3) as [(r & -> & Hr)|(r & -> & Hr)].
  - eapply G; eassumption.
  - symmetry. eapply G; eassumption.
Qed.

Theorem lookup_pose : forall (s : core RS) tgt src t m c ds dt, reachable s -> unit_samples s -> tgt <> src ->
  lookupTransform s tgt src t = Ok m ->
  depth_ok s (tm_stamp m) src -> depth_ok s (tm_stamp m) tgt ->
  climbs s (tm_stamp m) src ds c -> climbs s (tm_stamp m) tgt dt c ->
  msg_pose m = pose_mul (pose_inv (climb_pose dt)) (climb_pose ds).
Proof.
  intros s tgt src t m c ds dt R U Ne H Ds Dt H1 H2.
  destruct (lookup_pose_cases s tgt src t m R Ne H) as [(es & C & ->)|[(et & C & ->)|(es & et & c' & C1 & C2 & _ & ->)]].
  - rewrite (relative_pose_unique s _ src tgt c ds dt tgt es [] U Ds Dt H1 H2 C (climbs_nil _ _ _)).
    change (climb_pose []) with (@pose_id RS). rewrite pose_inv_id, pose_mul_id_l. reflexivity.
  - rewrite (relative_pose_unique s _ src tgt c ds dt src [] et U Ds Dt H1 H2 (climbs_nil _ _ _) C).
    change (climb_pose []) with (@pose_id RS). rewrite pose_mul_id_r. reflexivity.
  - exact (relative_pose_unique s _ src tgt c' es et c ds dt U Ds Dt C1 C2 H1 H2).
Qed.

Lemma lookup_common : forall (s : core RS) tgt src t m, reachable s -> lookupTransform s tgt src t = Ok m -> tgt <> src ->
  exists c ds dt, climbs s (tm_stamp m) src ds c /\ climbs s (tm_stamp m) tgt dt c.
Proof.
  intros s tgt src t m R H Ne.
  destruct (lookup_pose_cases s tgt src t m R Ne H) as [(es & C & _)|[(et & C & _)|(es & et & c' & C1 & C2 & _)]].
  - exists tgt, es, []. split; [assumption|constructor].
  - exists src, [], et. split; [constructor|assumption].
  - eauto.
Qed.
Lemma lookup_unit : forall (s : core RS) tgt src t m, reachable s -> unit_samples s -> lookupTransform s tgt src t = Ok m ->
  unitp (msg_pose m).
Proof.
  intros s tgt src t m R U H. destruct (string_dec tgt src) as [->|Ne].
  - unfold lookupTransform in H. rewrite String.eqb_refl in H. inversion H; subst. exact unitp_id.
  - destruct (lookup_pose_cases s tgt src t m R Ne H) as [(es & C & ->)|[(et & C & ->)|(es & et & c' & C1 & C2 & _ & ->)]].
    + eapply climb_unit; eassumption.
    + apply unitp_inv. eapply climb_unit; eassumption.
    + apply unitp_mul; [apply unitp_inv|]; eapply climb_unit; eassumption.
Qed.
Lemma lookup_self_pose : forall (s : core RS) f t m, lookupTransform s f f t = Ok m -> msg_pose m = pose_id.
Proof. intros s f t m H. unfold lookupTransform in H. rewrite String.eqb_refl in H. inversion H. reflexivity. Qed.
Lemma lookup_stamp : forall (S : Scalar) (s : core S) tgt src t m, reachable s -> t <> 0 -> lookupTransform s tgt src t = Ok m -> tm_stamp m = t.
Proof. intros S s tgt src t m R Hz H. apply (lookup_header s tgt src t m R H). assumption. Qed.

(** [lookup_pose] also covers equal frames. *)
Lemma lookup_pose' : forall (s : core RS) tgt src t m c ds dt, reachable s -> unit_samples s -> t <> 0 ->
  lookupTransform s tgt src t = Ok m -> depth_ok s t src -> depth_ok s t tgt ->
  climbs s t src ds c -> climbs s t tgt dt c ->
  msg_pose m = pose_mul (pose_inv (climb_pose dt)) (climb_pose ds).
Proof.
  intros s tgt src t m c ds dt R U Hz H Ds Dt H1 H2. destruct (string_dec tgt src) as [->|Ne].
  - rewrite (lookup_self_pose s src t m H). rewrite (climbs_same_end s t src dt ds c Ds H2 H1).
    symmetry. apply pose_inv_l. eapply climb_unit; eassumption.
  - pose proof (lookup_stamp RS s tgt src t m R Hz H) as E. apply (lookup_pose s tgt src t m c ds dt R U Ne H); rewrite E; assumption.
Qed.

Theorem lookup_inverse : forall (s : core RS) a b t m m', reachable s -> unit_samples s -> t <> 0 ->
  depth_ok s t a -> depth_ok s t b ->
  lookupTransform s a b t = Ok m -> lookupTransform s b a t = Ok m' -> msg_pose m' = pose_inv (msg_pose m).
Proof.
  intros s a b t m m' R U Hz Da Db H H'. destruct (string_dec a b) as [->|Ne].
  { rewrite (lookup_self_pose s b t m H), (lookup_self_pose s b t m' H'), pose_inv_id. reflexivity. }
  destruct (lookup_common s a b t m R H Ne) as (c & ds & dt & C1 & C2). rewrite (lookup_stamp RS s a b t m R Hz H) in *.
  rewrite (lookup_pose' s a b t m c ds dt), (lookup_pose' s b a t m' c dt ds); try assumption.
  pose proof (climb_unit _ _ _ _ _ U C1). pose proof (climb_unit _ _ _ _ _ U C2).
  rewrite pose_inv_mul, pose_inv_inv; auto using unitp_inv.
Qed.

Lemma lookup_common' : forall (s : core RS) tgt src t m, reachable s -> t <> 0 -> lookupTransform s tgt src t = Ok m ->
  exists c ds dt, climbs s t src ds c /\ climbs s t tgt dt c.
Proof.
  intros s tgt src t m R Hz H. destruct (string_dec tgt src) as [->|Ne].
  - exists src, [], []. split; constructor.
  - rewrite <- (lookup_stamp RS s tgt src t m R Hz H). eapply lookup_common; eassumption.
Qed.

Theorem lookup_chain : forall (s : core RS) a b c t m1 m2 m3, reachable s -> unit_samples s -> t <> 0 ->
  depth_ok s t a -> depth_ok s t b -> depth_ok s t c ->
  lookupTransform s a b t = Ok m1 -> lookupTransform s b c t = Ok m2 -> lookupTransform s a c t = Ok m3 ->
  msg_pose m3 = pose_mul (msg_pose m1) (msg_pose m2).
Proof.
  intros s a b c t m1 m2 m3 R U Hz Da Db Dc H1 H2 H3.
  destruct (lookup_common' s a b t m1 R Hz H1) as (p & d1 & d2 & C1 & C2).
  destruct (lookup_common' s b c t m2 R Hz H2) as (q & e1 & e2 & C3 & C4).
  (* b reaches p (via d1) and q (via e2) *)
  assert (X : exists r da db dc, climbs s t a da r /\ climbs s t b db r /\ climbs s t c dc r).
  { destruct (climbs_linear s t b d1 p e2 q C1 C4) as [(r & -> & Hr)|(r & -> & Hr)].
    - exists q, (d2 ++ r), (d1 ++ r), e1. split; [eapply climbs_app; eassumption|]. split; assumption.
    - exists p, d2, (e2 ++ r), (e1 ++ r). split; [assumption|]. split; [assumption|]. eapply climbs_app; eassumption. }
  destruct X as (r & da & db & dc & A & B & C).
  rewrite (lookup_pose' s a b t m1 r db da), (lookup_pose' s b c t m2 r dc db), (lookup_pose' s a c t m3 r dc da); try assumption.
  pose proof (climb_unit _ _ _ _ _ U B). rewrite pose_mul_assoc, <- (pose_mul_assoc _ (climb_pose db)), pose_inv_r, pose_mul_id_r by assumption.
  reflexivity.
Qed.

(** ** Unit messages keep the buffer unit *)
Lemma insert_sorted_in : forall {F} (l : list (storage RS F)) x l' y, insert_sorted l x = Some l' -> In y l' -> y = x \/ In y l.
Proof.
  intros F. induction l as [|a l IH]; intros x l' y H Hy; cbn in H.
  - inversion H; subst. destruct Hy as [<-|[]]. auto.
  - destruct (st_stamp a <=? st_stamp x).
    + destruct (st_stamp a =? st_stamp x); [discriminate|]. inversion H; subst. destruct Hy as [<-|Hy]; auto.
    + destruct (insert_sorted l x) as [l1|] eqn:E; [|discriminate]. inversion H; subst.
      destruct Hy as [<-|Hy]; [cbn; auto|]. destruct (IH x l1 y E Hy); cbn; auto.
Qed.
Lemma insertData_in : forall {F} (c : cache RS F) x y, In y (samples (fst (insertData c x))) -> y = x \/ In y (samples c).
Proof.
  intros F [max l|o] x y H; [|cbn in H; destruct H as [<-|[]]; auto].
  assert (G : In y (samples (fst (match insert_sorted l x with
      | None => (Dynamic max l, Ok (Rejected ERepeatedData))
      | Some l' => let '(l'', thrown) := pruneList l' max in
          (Dynamic max l'', if thrown then Throw RuntimeError ETimeRange else Ok Inserted)
      end))) -> y = x \/ In y l).
  { destruct (insert_sorted l x) as [l'|] eqn:E; [|cbn; auto].
    destruct (pruneList_prefix l' max) as [l2 P]. destruct (pruneList l' max) as [l'' th]. cbn [fst samples] in *.
    intros Hy. apply (insert_sorted_in l x l' y E). rewrite P. apply in_or_app. auto. }
  unfold insertData in H. destruct l as [|f l]; [exact (G H)|].
  destruct (time_add (st_stamp x) max); [|cbn in H; auto].
  destruct (t <? st_stamp f); [cbn in H; auto|exact (G H)].
Qed.
Lemma unit_step : forall (s : core RS) o, wf s -> op_ok o -> unit_ops [o] -> unit_samples s -> unit_samples (step s o).
Proof.
  intros s o W Ho Uo U n c x H Hx. destruct (string_dec n NO_PARENT) as [->|Hn].
  { rewrite hist_NO_PARENT in H by (apply wf_step; assumption). discriminate. }
  rewrite hist_step in H by assumption. destruct o as [m a st|]; cbn [frame_step] in H.
  - destruct (bad_message (strip_msg m)); [exact (U n c x H Hx)|].
    destruct (String.eqb (tm_child (strip_msg m)) n); [|exact (U n c x H Hx)].
    inversion H; subst c. apply insertData_in in Hx as [->|Hx].
    + cbn. apply (Uo m a st). cbn. auto.
    + destruct (hist s n) as [c0|] eqn:E; [exact (U n c0 x E Hx)|]. destruct st; destruct Hx.
  - destruct (hist s n) as [c0|] eqn:E; [|discriminate]. inversion H; subst c. apply (U n c0 x E).
    destruct c0 as [max l|o]; [destruct Hx|exact Hx].
Qed.
Theorem unit_run : forall ct ops, 0 <= ct < dur_bound -> Forall op_ok ops -> unit_ops ops ->
  unit_samples (run (init_core ct) ops).
Proof.
  intros ct ops Hct. assert (G : forall ops s, wf s -> Forall op_ok ops -> unit_ops ops -> unit_samples s -> unit_samples (run s ops)).
  { clear. induction ops as [|o ops IH]; intros s W Hf Uo U; [exact U|]. inversion Hf; subst.
    change (run s (o :: ops)) with (run (step s o) ops). apply IH; [apply wf_step; assumption|assumption| |].
    - intros m a st Hm. apply (Uo m a st). cbn. auto.
    - apply unit_step; try assumption. intros m a st [->|[]]. apply (Uo m a st). cbn. auto. }
  intros Hf Uo. apply G; try assumption; [apply wf_init; assumption|].
  intros n c x H. unfold hist, init_core in H. cbn in H. destruct (String.eqb n NO_PARENT); discriminate.
Qed.
