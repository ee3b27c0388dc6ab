(** * The whole of walkToTopParent and getLatestCommonTime *)
From Coq Require Import ZArith Bool List String Lia Arith.
From Verif Require Import RosTime Scalar LinearMath Cache SpecCache CacheProofs CacheQueries
  BufferCore SpecCore CoreInv Naturality CoreSet WalkSpec LctSpec Bridge.
Import ListNotations.
Open Scope Z_scope.

Local Opaque MAX_GRAPH_DEPTH walkSource walkTarget getLatestCommonTime.

Section P.
Context {S : Scalar}.
Notation storage := (storage S nat).
Notation cache := (cache S nat).
Notation core := (core S).
Notation taccum := (@taccum S).
Implicit Types (s : core) (c : cache) (d : storage) (i frame target source top : nat) (t : time)
  (err ext : errp) (ds dt : list storage).

(** The part of walkToTopParent after the time has been resolved. *)
Section At.
Context {A : Type}
  (gather : A -> cache -> time -> errp -> res (A * nat * errp))
  (accum : A -> bool -> A) (finalize : A -> walk_ending -> time -> A).
Definition walk_at s t target source (a0 : A) err : res (tf2_error * A * errp * list nat) :=
  let ext := match err with Some _ => Some EEmpty | None => None end in
  rs <- walkSource gather accum finalize MAX_GRAPH_DEPTH s t target source source a0 ext [] ;;
  match rs with
  | SDone a chain => Ok (NO_ERROR, a, err, chain)
  | SLoop => err' <- loop_error s err ;; Ok (LOOKUP_ERROR, a0, err', [])
  | STop a top ext might chain =>
      rt <- walkTarget gather accum finalize MAX_GRAPH_DEPTH s t source top target a err [] ;;
      match rt with
      | TDone a rchain => Ok (NO_ERROR, a, err, rev rchain)
      | TLoop e => err' <- loop_error s e ;; Ok (LOOKUP_ERROR, a0, err', [])
      | TExtrap e =>
          err' <- when_error s source target (match e with Some x => x | None => EEmpty end) e ;;
          Ok (EXTRAPOLATION_ERROR, a0, err', [])
      | TStop a frame e rchain =>
          if Nat.eqb frame top then
            chain' <- prune_chain chain (rchain ++ [frame]) ;;
            Ok (NO_ERROR, finalize a FullPath t, e, chain')
          else if might then
            err' <- when_error s source target (match ext with Some x => x | None => EEmpty end) e ;;
            Ok (EXTRAPOLATION_ERROR, a0, err', [])
          else
            err' <- connectivity_error s source target e ;;
            Ok (CONNECTIVITY_ERROR, a0, err', [])
      end
  end.

Lemma walk_same : forall s t i (a : A) err,
  walkToTopParent gather accum finalize s t i i a err = Ok (NO_ERROR, finalize a Identity t, err, []).
Proof. intros. unfold walkToTopParent. rewrite Nat.eqb_refl. reflexivity. Qed.

Lemma walk_time : forall s t target source (a : A) err, source <> target -> t <> 0 ->
  walkToTopParent gather accum finalize s t target source a err = walk_at s t target source a err.
Proof.
  intros s t target source a err H Ht. unfold walkToTopParent.
  rewrite (proj2 (Nat.eqb_neq _ _) H), (proj2 (Z.eqb_neq _ _) Ht). reflexivity.
Qed.

Lemma walk_zero : forall s target source (a : A) err, source <> target ->
  walkToTopParent gather accum finalize s 0 target source a err =
  (' (code, ot, err') <- getLatestCommonTime s target source err ;;
   match code with
   | NO_ERROR => walk_at s (match ot with Some t => t | None => 0 end) target source a err'
   | _ => Ok (code, a, err', [])
   end).
Proof.
  intros s target source a err H. unfold walkToTopParent. rewrite (proj2 (Nat.eqb_neq _ _) H).
  destruct (getLatestCommonTime s target source err) as [[[code ot] e]| |]; [|reflexivity|reflexivity].
  cbn [bind Z.eqb]. destruct code; reflexivity.
Qed.
End At.
Notation ta_walk_at := (@walk_at taccum ta_gather ta_accum ta_finalize).

(** ** chain pruning *)
Lemma common_prefix_le : forall l1 l2, (common_prefix l1 l2 <= List.length l1)%nat /\ (common_prefix l1 l2 <= List.length l2)%nat.
Proof.
  induction l1 as [|x l1 IH]; intros [|y l2]; cbn; try (split; lia).
  destruct (Nat.eqb x y); cbn; [|split; lia]. destruct (IH l2). split; lia.
Qed.
Lemma prune_ok : forall l1 l2 (m : nat), exists chain, prune_chain (l1 ++ [m]) (l2 ++ [m]) = Ok chain.
Proof.
  intros l1 l2 m. unfold prune_chain. rewrite !rev_app_distr. cbn [rev app common_prefix].
  rewrite Nat.eqb_refl. set (k := common_prefix (rev l1) (rev l2)).
  rewrite !app_length. cbn [List.length].
  set (n := Z.of_nat (List.length l1 + 1) - 1 - Z.of_nat (Datatypes.S k)).
  destruct (0 <? n) eqn:E; [|eauto].
  destruct (Z.of_nat (List.length l1 + 1) <? n + 2) eqn:E2; [|eauto].
  apply Z.ltb_lt in E2. lia.
Qed.

(** ** outcome of a walk at a resolved time *)
Definition code_err (code : tf2_error) (err err' : errp) : Prop := (err = None <-> err' = None).

Definition res_pose (a : taccum) : pose S := (ta_rq a, ta_rv a).

Inductive outcome s t target source (err : errp) : res (tf2_error * taccum * errp * list nat) -> Prop :=
| out_loop_src : forall ds m a err', iclimb s t source ds m -> List.length ds = Datatypes.S MAX_GRAPH_DEPTH ->
    (forall i, In i (map st_child ds) -> i <> target) ->
    (exists str, err' = match err with None => None | Some _ => Some (ELoop str) end) ->
    (err = None <-> err' = None) ->
    outcome s t target source err (Ok (LOOKUP_ERROR, a, err', []))
| out_src : forall ds a, iclimb s t source ds target -> (List.length ds <= MAX_GRAPH_DEPTH)%nat ->
    (forall i, In i (map st_child ds) -> i <> target) ->
    (exists d, lnk s t target = Some d) ->
    ta_time a = t -> res_pose a = raise pose_id ds ->
    outcome s t target source err (Ok (NO_ERROR, a, err, map st_child ds ++ [target]))
| out_loop_tgt : forall ds m dt m' a err', iclimb s t source ds m -> lnk s t m = None ->
    (List.length ds <= MAX_GRAPH_DEPTH)%nat ->
    iclimb s t target dt m' -> List.length dt = Datatypes.S MAX_GRAPH_DEPTH ->
    (forall i, In i (map st_child dt) -> i <> source /\ i <> m) ->
    (exists str, err' = match err with None => None | Some _ => Some (ELoop str) end) ->
    (err = None <-> err' = None) ->
    outcome s t target source err (Ok (LOOKUP_ERROR, a, err', []))
| out_tgt : forall ds m dt a, iclimb s t source ds m -> lnk s t m = None ->
    (List.length ds <= MAX_GRAPH_DEPTH)%nat -> m <> source ->
    iclimb s t target dt source -> (List.length dt <= MAX_GRAPH_DEPTH)%nat ->
    (forall i, In i (map st_child dt) -> i <> source /\ i <> m) ->
    ta_time a = t -> res_pose a = pose_inv (raise pose_id dt) ->
    outcome s t target source err (Ok (NO_ERROR, a, err, rev (map st_child dt ++ [source])))
| out_top : forall ds m dt a chain, iclimb s t source ds m -> lnk s t m = None ->
    (List.length ds <= MAX_GRAPH_DEPTH)%nat ->
    (forall i, In i (map st_child ds) -> i <> target) ->
    iclimb s t target dt m -> (List.length dt <= MAX_GRAPH_DEPTH)%nat ->
    (forall i, In i (map st_child dt) -> i <> source /\ i <> m) ->
    ta_time a = t -> res_pose a = pose_mul (pose_inv (raise pose_id dt)) (raise pose_id ds) ->
    prune_chain (map st_child ds ++ [m]) (map st_child dt ++ [m]) = Ok chain ->
    outcome s t target source err (Ok (NO_ERROR, a, err, chain))
| out_tops : forall ds m dt m' a code err', iclimb s t source ds m -> lnk s t m = None ->
    (List.length ds <= MAX_GRAPH_DEPTH)%nat ->
    (forall i, In i (map st_child ds) -> i <> target) ->
    iclimb s t target dt m' -> lnk s t m' = None -> (List.length dt <= MAX_GRAPH_DEPTH)%nat ->
    (forall i, In i (map st_child dt) -> i <> source /\ i <> m) ->
    m' <> m ->
    code = match getFrame s m', getFrame s m with None, None => CONNECTIVITY_ERROR | _, _ => EXTRAPOLATION_ERROR end ->
    (err = None <-> err' = None) ->
    (code = CONNECTIVITY_ERROR -> err' = match err with None => None | Some _ => Some (EConnectivity (name_of s target) (name_of s source)) end) ->
    (code = EXTRAPOLATION_ERROR -> forall x, err' = Some x -> exists y, x = EWhenLookingUp y (name_of s source) (name_of s target)) ->
    outcome s t target source err (Ok (code, a, err', []))
| out_range : forall ds m, err <> None -> iclimb s t source ds m -> (List.length ds <= MAX_GRAPH_DEPTH)%nat -> lnk s t m = None -> outcome s t target source err range_exn.

Lemma walk_at_outcome : forall s t target source err, wf s -> live s source -> live s target ->
  outcome s t target source err (ta_walk_at s t target source taccum0 err).
Proof.
  intros s t target source err W Ls Lt. unfold walk_at.
  set (ext := match err with Some _ => Some EEmpty | None => None end).
  assert (Hext : err = None <-> ext = None) by (unfold ext; destruct err; split; congruence).
  destruct (walkSource_spec MAX_GRAPH_DEPTH s t target source source taccum0 ext [] W (proj1 Ls))
    as (ds & m & Hcl & Hin & [(L & E)|[(L & Em & Hd & a' & Ha & E)|(L & Hn & [(a' & ext' & Ha & Hx & E)|(Hx & E)])]]);
    rewrite E; cbn [bind].
  - destruct (loop_ok s err W) as [str ->]. cbn [bind]. eapply out_loop_src; try eassumption; destruct err; eauto; split; congruence.
  - subst m. apply out_src; auto. unfold res_pose, ta_finalize. cbn. destruct Ha as (-> & _). reflexivity.
  - cbn [app].
    destruct (walkTarget_spec MAX_GRAPH_DEPTH s t source m target a' err [] W (proj1 Lt))
      as (dt & m' & Hcl' & Hin' & [(L' & E')|[(L' & Em & Hmt & Hd & a'' & Ha' & E')|[(L' & Em & a'' & Ha' & E')|
      [(L' & Em & Hg & a'' & Ha' & E')|(L' & Em & [c Hg] & Hn' & [(err' & He & E')|(Hx' & E')])]]]]);
      rewrite E'; cbn [bind range_exn].
    + destruct (loop_ok s err W) as [str ->]. cbn [bind]. eapply out_loop_tgt; try eassumption; destruct err; eauto; split; congruence.
    + subst m'. cbn [app]. eapply out_tgt; try eassumption; [congruence|reflexivity|].
      unfold res_pose, ta_finalize, pose_inv. destruct Ha' as (R & _). destruct Ha as (_ & T1 & T2 & _).
      rewrite T1, T2 in R. cbn in R. fold (@pose_id S) in R. rewrite <- R. reflexivity.
    + subst m'. rewrite Nat.eqb_refl. cbn [app].
      destruct (prune_ok (map st_child ds) (map st_child dt) m) as [chain Ep].
      rewrite Ep. cbn [bind]. eapply out_top; try eassumption; [reflexivity|].
      unfold res_pose, ta_finalize, pose_inv, pose_mul. destruct Ha' as (R & S1 & S2 & _).
      destruct Ha as (R' & T1 & T2 & _). rewrite T1, T2 in R. cbn in R, R'.
      fold (@pose_id S) in R, R'. rewrite <- R, <- R', S1, S2. reflexivity.
    + rewrite (proj2 (Nat.eqb_neq _ _) Em).
      assert (Hn' : lnk s t m' = None) by (unfold lnk, idata; rewrite Hg; reflexivity).
      destruct (getFrame s m) as [cm|] eqn:Egm.
      * rewrite when_ok by assumption. cbn [bind]. eapply out_tops; try eassumption; rewrite ?Hg, ?Egm; [reflexivity| | |].
        -- destruct err; split; congruence.
        -- discriminate.
        -- intros _ x Hxx. destruct err; inversion Hxx; eauto.
      * rewrite connectivity_ok by assumption. cbn [bind]. eapply out_tops; try eassumption; rewrite ?Hg, ?Egm; [reflexivity| | |].
        -- destruct err; split; congruence.
        -- reflexivity.
        -- discriminate.
    + rewrite when_ok by assumption. cbn [bind]. eapply out_tops; try eassumption; rewrite ?Hg; [reflexivity| | |].
      * rewrite He. destruct err'; split; congruence.
      * discriminate.
      * intros _ x Hxx. destruct err'; inversion Hxx; eauto.
    + eapply out_range; eassumption.
  - cbn [range_exn]. eapply out_range; [tauto|eassumption|assumption|assumption].
Qed.

(** ** outcome of getLatestCommonTime *)
Inductive lct_outcome s target source (err : errp) : res (tf2_error * option time * errp) -> Prop :=
| lo_path : forall ds dt p, iclimb s 0 source ds p -> iclimb s 0 target dt p ->
    (List.length ds <= Datatypes.S MAX_GRAPH_DEPTH)%nat -> (List.length dt <= Datatypes.S MAX_GRAPH_DEPTH)%nat ->
    (* no earlier meeting point *)
    (forall q, In q (map st_child dt) -> q <> source /\ ~ In q (map st_frame ds)) ->
    ~ In p (map st_child ds) ->
    lct_outcome s target source err (Ok (NO_ERROR, Some (time_or_zero (mins TIME_MAX (ds ++ dt))), err))
| lo_none : forall ds m dt m' err', iclimb s 0 source ds m -> lnk s 0 m = None ->
    iclimb s 0 target dt m' -> lnk s 0 m' = None -> m <> m' ->
    err' = match err with None => None | Some _ => Some (EConnectivity (name_of s target) (name_of s source)) end ->
    lct_outcome s target source err (Ok (CONNECTIVITY_ERROR, None, err'))
| lo_loop : forall i ds m err', i = source \/ i = target -> iclimb s 0 i ds m ->
    List.length ds = Datatypes.S MAX_GRAPH_DEPTH -> 
    (exists str, err' = match err with None => None | Some _ => Some (ELoop str) end) ->
    lct_outcome s target source err (Ok (LOOKUP_ERROR, None, err')).

Lemma iclimb_child_frame : forall s t i ds j, wf s -> iclimb s t i ds j ->
  map st_child ds ++ [j] = i :: map st_frame ds.
Proof.
  intros s t i ds j W H. induction H as [i|i d ds j E H IH]; [reflexivity|].
  cbn. rewrite IH. destruct (lnk_props s t i d W E) as (-> & _). reflexivity.
Qed.

Lemma inner_children : forall s t i ds j, wf s -> iclimb s t i ds j ->
  forall q, In q (map st_child ds) <-> ds <> [] /\ (q = i \/ In q (inner ds)).
Proof.
  intros s t i ds j W H. induction H as [i|i d ds j E H IH]; intros q; [cbn; split; [intros []|intros [? _]; congruence]|].
  destruct (lnk_props s t i d W E) as (Hc & _). cbn [map In]. rewrite Hc, IH.
  destruct ds as [|d' ds]; [cbn; split; [intros [->|[? _]]; [split; [discriminate|auto]|congruence]|intros [_ [->|[]]]; auto]|].
  rewrite inner_cons. cbn [In]. split.
  - intros [->|[_ [->|?]]]; (split; [discriminate|auto]).
  - intros [_ [->|[<-|?]]]; [auto| |]; right; (split; [discriminate|auto]).
Qed.

Local Transparent getLatestCommonTime.
Lemma lct_outcome_ok : forall s target source err, wf s -> live s source -> live s target -> source <> target ->
  lct_outcome s target source err (getLatestCommonTime s target source err).
Proof.
  intros s target source err W Ls Lt Hne. unfold getLatestCommonTime.
  rewrite (proj2 (Nat.eqb_neq _ _) (proj1 Ls)), (proj2 (Nat.eqb_neq _ _) (proj1 Lt)), (proj2 (Nat.eqb_neq _ _) Hne).
  cbn [orb].
  destruct (lctSource_spec MAX_GRAPH_DEPTH s target source TIME_MAX [] W (proj1 Ls)) as (ds & m & Hcl & Hout).
  cbv zeta in Hout. destruct Hout as [(Hds & -> & L & Hin & E)|[(Hn & L & Hin & E)|(L & Hin & E)]]; rewrite E; cbn [bind].
  - rewrite <- (app_nil_r ds) at 1. apply lo_path with (p := target); auto; [constructor|apply Nat.le_0_l|].
    rewrite (inner_children s 0 source ds target W Hcl). intros [_ [H|H]]; [congruence|auto].
  - cbn [app].
    assert (Hlct : forall p, in_lct (map lct_entry ds) p <-> In p (map st_frame ds)).
    { intros p. unfold in_lct. rewrite map_map. reflexivity. }
    assert (Htin : ~ In target (source :: map st_frame ds)) by (intros [H|H]; congruence).
    destruct (lctTarget_spec MAX_GRAPH_DEPTH s source (map lct_entry ds) target TIME_MAX W (proj1 Lt)) as (dt & m' & Hcl' & Hin' & Hout).
    cbv zeta in Hout.
    destruct Hout as [(Hne' & Hm & L' & E')|[(Hne' & Hm & Hn' & L' & E')|[(Hn' & L' & Hi & E')|(L' & Hi & E')]]];
      rewrite E'; cbn [bind].
    + apply Hlct in Hm.
      destruct (lctMerge_spec ds m' (mins TIME_MAX dt) Hm) as (ds1 & d & ds2 & -> & Hd & Hnd & ->).
      assert (Hcl1 : iclimb s 0 source (ds1 ++ [d]) m').
      { clear - Hcl Hd. revert source Hcl. induction ds1 as [|y ds1 IH]; intros source Hcl; cbn in *.
        - inversion Hcl; subst. econstructor; [eassumption|constructor].
        - inversion Hcl; subst. econstructor; [eassumption|]. auto. }
      rewrite <- mins_comm, <- mins_app.
      apply lo_path with (p := m'); auto.
      * rewrite app_length in *. cbn [List.length] in *. lia.
      * intros q Hq. apply (inner_children s 0 target dt m' W Hcl') in Hq as [_ [->|Hq]].
        -- split; [auto|]. intros H. apply Htin. right. rewrite map_app in *. apply in_app_iff in H as [H|H]; apply in_app_iff; auto.
           cbn [map In] in H. cbn [map In]. destruct H as [H|[]]. auto.
        -- destruct (Hin' q Hq) as [H1 H2]. split; [assumption|]. rewrite Hlct in H1. intros H. apply H1.
           rewrite map_app in *. apply in_app_iff in H as [H|H]; apply in_app_iff; auto.
           cbn [map In] in H. cbn [map In]. destruct H as [H|[]]. auto.
      * rewrite (inner_children s 0 source _ m' W Hcl1). unfold inner. rewrite removelast_last.
        intros [_ [H|H]]; [|contradiction]. rewrite H in Hcl1.
        (* the source is its own ancestor: then its chain is infinite *)
        assert (G : forall k, exists es, iclimb s 0 source es source /\ (k <= List.length es)%nat).
        { induction k as [|k (es & He & Lk)]; [exists []; split; [constructor|cbn; lia]|].
          exists ((ds1 ++ [d]) ++ es). split; [eapply iclimb_app; eassumption|]. rewrite !app_length. cbn [List.length]. lia. }
        destruct (G (Datatypes.S (List.length (ds1 ++ d :: ds2)))) as (es & He & Lk).
        destruct (iclimb_linear s 0 source _ _ _ _ Hcl He) as [(r & Er & Hr)|(r & Er & Hr)].
        -- destruct r as [|y r]; [rewrite app_nil_r in Er; subst es; lia|]. inversion Hr; subst. congruence.
        -- rewrite Er, app_length in Lk. lia.
    + subst m'. change (mins TIME_MAX dt) with (mins TIME_MAX ([] ++ dt)).
      apply lo_path with (p := source); auto; [constructor|apply Nat.le_0_l|].
      intros q Hq. split; [|intros []]. apply (inner_children s 0 target dt source W Hcl') in Hq as [_ [->|Hq]]; [auto|].
      apply (Hin' q Hq).
    + rewrite connectivity_ok by assumption. cbn [bind].
      eapply lo_none; try eassumption; [|reflexivity]. intros ->.
      pose proof (iclimb_child_frame s 0 target dt m' W Hcl') as F1.
      pose proof (iclimb_child_frame s 0 source ds m' W Hcl) as F2.
      assert (I1 : In m' (target :: map st_frame dt)) by (rewrite <- F1; apply in_app_iff; cbn; auto).
      assert (I2 : In m' (source :: map st_frame ds)) by (rewrite <- F2; apply in_app_iff; cbn; auto).
      destruct I1 as [->|I1]; [auto|]. destruct (Hi m' I1) as [H1 H2]. rewrite Hlct in H1.
      destruct I2 as [->|I2]; auto.
    + destruct (loop_ok s err W) as [str ->]. cbn [bind]. eapply lo_loop with (i := target); eauto.
  - destruct (loop_ok s err W) as [str ->]. cbn [bind]. eapply lo_loop with (i := source); eauto.
Qed.
End P.
