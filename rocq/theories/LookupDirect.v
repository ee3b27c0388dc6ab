(** * Looking up a frame in its own parent

    Needs nothing of the rest of the tree: cycles and chains over the depth bound above the parent
    do not matter. *)
From Coq Require Import ZArith Bool List String Lia Arith Reals Lra.
From Verif Require Import RosTime Scalar LinearMath Cache SpecCache CacheProofs CacheQueries
  BufferCore SpecCore CoreInv Naturality CoreSet WalkSpec LctSpec Bridge WalkMain Sim Forget LookupBase LookupTheorems LookupTree
  History Instances RealSlerp RealQuat SpecReal LookupPose TopicProofs.
Import ListNotations.
Open Scope Z_scope.
Lemma depth_large : (1 < MAX_GRAPH_DEPTH)%nat.
Proof. unfold MAX_GRAPH_DEPTH. lia. Qed.
Local Opaque MAX_GRAPH_DEPTH.

Section P.
Context {S : Scalar}.
Notation storage := (storage S nat).
Notation core := (core S).
Notation taccum := (@taccum S).
Notation twalk_at := (@walk_at S taccum ta_gather ta_accum ta_finalize).
Notation nm s := (map_storage (name_of s)).
Implicit Types (s : core) (t : time).

Lemma no_way_back : forall s t n i ds m es, (List.length ds <= n)%nat -> iclimb s t i ds m -> lnk s t m = None -> iclimb s t i es i -> es = [].
Proof.
  intros s t n. induction n as [|n IH]; intros i ds m es L H N E; (destruct es as [|e es]; [reflexivity|exfalso]).
  - destruct ds; [|cbn in L; lia]. inversion H; subst. inversion E; subst. congruence.
  - destruct (iclimb_top _ _ _ _ _ _ _ H N E) as (r & -> & Hr). rewrite app_length in L. cbn [List.length] in L.
    specialize (IH i r m (e :: es) ltac:(lia) Hr N E). discriminate.
Qed.

(** The walk at a resolved time. *)
Lemma direct_walk : forall s t i j d err, wf s -> live s j -> live s i -> j <> i ->
  lnk s t j = Some d -> st_frame d = i -> twalk_at s t i j taccum0 err <> range_exn ->
  exists a e ch, twalk_at s t i j taccum0 err = Ok (NO_ERROR, a, e, ch) /\ ta_time a = t /\
    (res_pose a = pose_mul (pose_of (map_storage (name_of s) d)) pose_id \/
     res_pose a = pose_mul (pose_inv pose_id) (pose_mul (pose_of (map_storage (name_of s) d)) pose_id)).
Proof.
  intros s t i j d err W Lj Li D K Fd NR. pose proof (walk_at_outcome s t i j err W Lj Li) as O.
  assert (One : iclimb s t j [d] i) by (rewrite <- Fd; econstructor; [exact K|constructor]).
  (* the first two links of a chain from the source: the second starts at the target *)
  assert (Sh : forall ds m, iclimb s t j ds m -> (forall k, In k (map st_child ds) -> k <> i) -> (ds = [] /\ m = j) \/ (ds = [d] /\ m = i)).
  { intros ds m H Hn. inversion H as [|j0 d0 ds0 m0 E0 H0]; subst; [left; auto|right].
    assert (d0 = d) by congruence. subst d0. inversion H0 as [|j1 d1 ds1 m1 E1 H1]; subst; [auto|exfalso].
    destruct (lnk_props s t _ _ W E1) as (C1 & _). apply (Hn (st_child d1)); [cbn; auto|congruence]. }
  assert (Up : forall ds m, iclimb s t j ds m -> lnk s t m = None -> exists r, ds = d :: r /\ iclimb s t i r m).
  { intros ds m H N. destruct (iclimb_top _ _ _ _ _ _ _ H N One) as (r & -> & Hr). exists r. auto. }
  inversion O as [ds m a err' H1 H2 H3 H4 H5 E|ds a H1 H2 H3 H4 H5 H6 E|ds m dt m' a err' H1 H2 H3 H4 H5 H6 H7 H8 E|ds m dt a H1 H2 H3 H4 H5 H6 H7 H8 H9 E
    |ds m dt a chain H1 H2 H3 H4 H5 H6 H7 H8 H9 H10 E|ds m dt m' a code err' H1 H2 H3 H4 H5 H6 H7 H8 H9 H10 H11 H12 H13 E|ds m Hx H1 H2 H3 E].
  - exfalso. pose proof depth_large as MD. destruct (Sh ds m H1 H3) as [[-> _]|[-> _]]; cbn [List.length] in H2; lia.
  - exists a, err, (map st_child ds ++ [i]). split; [reflexivity|]. split; [exact H5|]. left. rewrite H6.
    destruct (Sh ds i H1 H3) as [[_ Em]|[-> _]]; [congruence|]. reflexivity.
  - exfalso. destruct (Up ds m H1 H2) as (r & -> & Hr). destruct (iclimb_top _ _ _ _ _ _ _ Hr H2 H4) as (r' & -> & _).
    cbn [List.length] in H3. rewrite app_length in H3. lia.
  - exfalso. destruct (Up ds m H1 H2) as (r & -> & Hr).
    pose proof (no_way_back s t _ i r m (dt ++ [d]) (le_n _) Hr H2 (iclimb_app _ _ _ _ _ _ _ H5 One)) as X. destruct dt; discriminate.
  - exists a, err, chain. split; [reflexivity|]. split; [exact H8|]. right. rewrite H9.
    destruct (Sh ds m H1 H4) as [[-> ->]|[-> ->]]; [congruence|].
    inversion H5 as [|i0 d0 ds0 m0 E0 H0]; subst; [reflexivity|exfalso].
    destruct (lnk_props _ _ _ _ W E0) as (C0 & _). destruct (H7 (st_child d0) ltac:(cbn; auto)) as [_ X]. congruence.
  - exfalso. apply H9. symmetry. eapply (tops_meet s t j i); [exact H1|exact H2|exact H5|exact H6|exact One|constructor].
  - exfalso. apply NR. symmetry. exact E.
Qed.

(** At a time that is not zero. *)
Theorem lookup_direct : forall s parent child t d, reachable s -> early s -> 0 < t < dur_bound ->
  plain parent -> plain child -> known s parent -> known s child -> parent <> child ->
  link s t child = Some d -> st_frame d = parent ->
  exists m, lookupTransform s parent child t = Ok m /\ tm_frame m = parent /\ tm_child m = child /\ tm_stamp m = t /\
    (msg_pose m = pose_mul (pose_of d) pose_id \/ msg_pose m = pose_mul (pose_inv pose_id) (pose_mul (pose_of d) pose_id)).
Proof.
  intros s parent child t d R He Ht P1 P2 K1 K2 Ne L F. apply reachable_wf in R as W.
  rewrite lookup_walk by assumption.
  destruct (known_ids s parent child W K1 K2 Ne) as (i & j & Li & Lj & <- & <- & -> & -> & D).
  rewrite walk_time by (assumption || lia).
  rewrite (link_lnk s t j W Lj) in L. destruct (lnk s t j) as [d0|] eqn:E; [|discriminate]. cbn in L. injection L as <-.
  assert (F0 : st_frame d0 = i). { cbn in F. apply (live_inj s); [assumption| |assumption|exact F]. apply (lnk_live s t j d0 W E). }
  assert (NR : twalk_at s t i j taccum0 (Some EEmpty) <> range_exn) by (apply walk_at_no_range; auto; lia).
  destruct (direct_walk s t i j d0 (Some EEmpty) W Lj Li D E F0 NR) as (a & e & ch & -> & T & Po).
  cbn [finish bind]. eexists. split; [reflexivity|]. cbn. split; [reflexivity|]. split; [reflexivity|]. split; [exact T|exact Po].
Qed.

(** At time zero (the latest), for a link that carries no stamp, as static ones do. *)
Theorem lookup_direct_latest : forall s parent child d, reachable s -> early s ->
  plain parent -> plain child -> known s parent -> known s child -> parent <> child -> depth_ok s 0 child ->
  link s 0 child = Some d -> st_frame d = parent -> st_stamp d = 0 ->
  exists m, lookupTransform s parent child 0 = Ok m /\ tm_frame m = parent /\ tm_child m = child /\ tm_stamp m = 0 /\
    (msg_pose m = pose_mul (pose_of d) pose_id \/ msg_pose m = pose_mul (pose_inv pose_id) (pose_mul (pose_of d) pose_id)).
Proof.
  intros s parent child d R He P1 P2 K1 K2 Ne Dp L F St. apply reachable_wf in R as W.
  rewrite lookup_walk by assumption.
  destruct (known_ids s parent child W K1 K2 Ne) as (i & j & Li & Lj & <- & <- & -> & -> & D).
  rewrite walk_zero by assumption.
  rewrite (link_lnk s 0 j W Lj) in L. destruct (lnk s 0 j) as [d0|] eqn:E; [|discriminate]. cbn in L. injection L as <-.
  assert (F0 : st_frame d0 = i). { cbn in F. apply (live_inj s); [assumption| |assumption|exact F]. apply (lnk_live s 0 j d0 W E). }
  cbn in St. pose proof (idepth s 0 j W Lj Dp) as B.
  assert (One : iclimb s 0 j [d0] i) by (rewrite <- F0; econstructor; [exact E|constructor]).
  assert (T0 : exists e', getLatestCommonTime s i j (Some EEmpty) = Ok (NO_ERROR, Some 0, e')).
  { pose proof (lct_outcome_ok s i j (Some EEmpty) W Lj Li D) as O.
    inversion O as [ds dt p H1 H2 H3 H4 H5 H6 Eo|ds m dt m' err' H1 H2 H3 H4 H5 Ex Eo|q ds m err' H1 H2 H3 Ex Eo].
    - eexists. f_equal. f_equal. f_equal. f_equal.
      assert (dt = []).
      { destruct dt as [|y dt]; [reflexivity|exfalso]. inversion H2 as [|? ? ? ? Ey Hy]; subst.
        destruct (lnk_props s 0 _ _ W Ey) as (Cy & _). destruct (H5 (st_child y) ltac:(cbn; auto)) as [_ N2]. rewrite Cy in N2.
        inversion H1 as [|? d1 ds1 ? E1 Hd]; subst.
        - pose proof (iclimb_acyclic s 0 p [] p ([d0] ++ y :: dt) B (iclimb_nil _ _ _) (iclimb_app _ _ _ _ _ _ _ One H2)). discriminate.
        - assert (d1 = d0) by congruence. subst d1. apply N2. cbn. left. reflexivity. }
      subst dt. assert (p = i) by (inversion H2; reflexivity). subst p.
      assert (ds = [d0]) as -> by (eapply iclimb_same_end; [exact B|exact H1|exact One]).
      cbn [app mins fold_left]. unfold mins. cbn [fold_left]. rewrite St. cbn. reflexivity.
    - exfalso. apply H5. eapply (tops_meet s 0 j i); [exact H1|exact H2|exact H3|exact H4|exact One|constructor].
    - exfalso. destruct H1 as [-> | ->]; [specialize (B _ _ H2); lia|].
      specialize (B _ _ (iclimb_app _ _ _ _ _ _ _ One H2)). cbn [app List.length] in B. lia. }
  destruct T0 as [e' ->]. cbn [bind].
  assert (NR : twalk_at s 0 i j taccum0 e' <> range_exn) by (apply walk_at_no_range; auto; unfold dur_bound; lia).
  destruct (direct_walk s 0 i j d0 e' W Lj Li D E F0 NR) as (a & e & ch & -> & T & Po).
  cbn [finish bind]. eexists. split; [reflexivity|]. cbn. split; [reflexivity|]. split; [reflexivity|]. split; [exact T|exact Po].
Qed.
End P.

(** A buffer told only of times before 2038 is early. *)
Lemma early_run : forall {S : Scalar} ct (ops : list (core_op S)), 0 <= ct < dur_bound -> Forall op_ok ops ->
  (forall m a st, In (OSet m a st) ops -> tm_stamp m < dur_bound) -> early (run (init_core ct) ops).
Proof.
  intros S ct ops Hct. induction ops as [|o ops IH] using rev_ind; intros F B n c x H I.
  - assert (n <> NO_PARENT) by (intros ->; rewrite hist_NO_PARENT in H by (apply wf_init; lia); discriminate).
    rewrite (hist_run ct [] n) in H by auto. discriminate.
  - apply Forall_app in F as [F Fo]. inversion Fo as [|? ? Ho _]; subst.
    assert (W : wf (run (init_core ct) ops)) by (apply reachable_wf; exists ct, ops; auto).
    assert (W' : wf (run (init_core ct) (ops ++ [o]))) by (apply reachable_wf; exists ct, (ops ++ [o]); split; [exact Hct|]; split; [apply Forall_app; auto|reflexivity]).
    assert (Nn : n <> NO_PARENT) by (intros ->; rewrite hist_NO_PARENT in H by assumption; discriminate).
    assert (IH' : early (run (init_core ct) ops)) by (apply IH; [exact F|]; intros m a st Hm; apply (B m a st), in_app_iff; auto).
    unfold run in H. rewrite fold_left_app in H. cbn [fold_left] in H. fold (run (init_core ct) ops) in H.
    rewrite hist_step in H by assumption. destruct o as [m a st|]; cbn [frame_step] in H.
    + destruct (bad_message (strip_msg m)); [exact (IH' n c x H I)|]. destruct (String.eqb _ n); [|exact (IH' n c x H I)].
      injection H as <-. apply insert_sub in I as [->|I].
      * cbn. apply (B m a st), in_app_iff. right. left. reflexivity.
      * destruct (hist (run (init_core ct) ops) n) as [c0|] eqn:E; [exact (IH' n c0 x E I)|]. destruct st; contradiction.
    + destruct (hist (run (init_core ct) ops) n) as [c0|] eqn:E; [|discriminate]. injection H as <-.
      destruct c0 as [mx l|o0]; [destruct I|]. exact (IH' n _ x E I).
Qed.

(** Over the reals the pose is that of the link, whatever its rotation. *)
Lemma pose_direct : forall d : pose RS, pose_mul d pose_id = d /\ pose_mul (pose_inv pose_id) d = d.
Proof.
  intros d. split; [apply pose_mul_id_r|].
  assert (U : qunit (fst (@pose_id RS))) by (unfold pose_id, qunit; cbn; lra).
  assert (E : pose_inv (@pose_id RS) = pose_id) by (rewrite <- (pose_mul_id_r (pose_inv pose_id)); apply pose_inv_l; exact U).
  rewrite E. apply pose_mul_id_l.
Qed.
