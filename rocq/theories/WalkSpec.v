(** * What the upward walks of walkToTopParent compute *)
From Coq Require Import ZArith Bool List String Lia Arith.
From Verif Require Import RosTime Scalar LinearMath Cache SpecCache CacheProofs CacheQueries
  BufferCore SpecCore CoreInv Naturality CoreSet.
Import ListNotations.
Open Scope Z_scope.

Section P.
Context {S : Scalar}.
Notation storage := (storage S nat).
Notation cache := (cache S nat).
Notation core := (core S).
Notation taccum := (@taccum S).
Implicit Types (s : core) (c : cache) (d x : storage) (i frame target source top : nat) (t : time)
  (a : taccum) (err ext : errp).

(** ** links between ids *)
Definition idata s t i : option storage :=
  match getFrame s i with
  | None => None
  | Some c => match getData Nat.eqb c t None with Ok (Some d, _) => Some d | _ => None end
  end.
Definition lnk s t i : option storage :=
  match idata s t i with
  | Some d => if Nat.eqb (st_frame d) 0 then None else Some d
  | None => None
  end.

Inductive iclimb s t : nat -> list storage -> nat -> Prop :=
| iclimb_nil : forall i, iclimb s t i [] i
| iclimb_cons : forall i d ds j, lnk s t i = Some d -> iclimb s t (st_frame d) ds j ->
    iclimb s t i (d :: ds) j.

Lemma lnk_data : forall s t i d, lnk s t i = Some d -> idata s t i = Some d /\ st_frame d <> 0%nat.
Proof.
  intros s t i d. unfold lnk. destruct (idata s t i) as [d'|]; [|discriminate].
  destruct (Nat.eqb (st_frame d') 0) eqn:E; [discriminate|]. intros H. inversion H; subst.
  apply Nat.eqb_neq in E. auto.
Qed.

Lemma idata_props : forall s t i d, wf s -> idata s t i = Some d ->
  st_child d = i /\ (st_frame d < List.length (c_rev s))%nat.
Proof.
  intros s t i d W H. unfold idata in H. destruct (getFrame s i) as [c|] eqn:E; [|discriminate].
  destruct (getData Nat.eqb c t None) as [[o e]| |] eqn:Eg; try discriminate.
  destruct o as [d'|]; [|discriminate]. inversion H; subst d'.
  apply getData_in in Eg as (x & Hx & E1 & E2).
  destruct (wf_cache s W _ _ E) as (_ & _ & H3). destruct (H3 x Hx). split; congruence.
Qed.

Lemma lnk_props : forall s t i d, wf s -> lnk s t i = Some d ->
  st_child d = i /\ (st_frame d < List.length (c_rev s))%nat /\ st_frame d <> 0%nat.
Proof.
  intros s t i d W H. apply lnk_data in H as [H H0]. apply idata_props in H; [|assumption]. tauto.
Qed.

Lemma iclimb_lt : forall s t i ds j, wf s -> iclimb s t i ds j ->
  (i < List.length (c_rev s))%nat -> (j < List.length (c_rev s))%nat.
Proof.
  intros s t i ds j W H. induction H as [i|i d ds j E H IH]; intros Hi; [assumption|].
  apply IH. apply (lnk_props s t i d W E).
Qed.

Lemma iclimb_nonzero : forall s t i ds j, wf s -> iclimb s t i ds j -> i <> 0%nat -> j <> 0%nat.
Proof.
  intros s t i ds j W H. induction H as [i|i d ds j E H IH]; intros Hi; [assumption|].
  apply IH. apply (lnk_props s t i d W E).
Qed.

Lemma iclimb_app : forall s t i ds j ds' k, iclimb s t i ds j -> iclimb s t j ds' k ->
  iclimb s t i (ds ++ ds') k.
Proof.
  intros s t i ds j ds' k H1 H2. induction H1 as [i|i d ds j E H IH]; [assumption|].
  cbn. econstructor; eauto.
Qed.

(** Upward chains are unique: of two climbs from a frame, one extends the other. *)
Lemma iclimb_linear : forall s t i ds1 j1 ds2 j2, iclimb s t i ds1 j1 -> iclimb s t i ds2 j2 ->
  (exists ds, ds2 = ds1 ++ ds /\ iclimb s t j1 ds j2) \/
  (exists ds, ds1 = ds2 ++ ds /\ iclimb s t j2 ds j1).
Proof.
  intros s t i ds1 j1 ds2 j2 H1. revert ds2 j2.
  induction H1 as [i|i d ds1 j1 E H IH]; intros ds2 j2 H2.
  - left. exists ds2. auto.
  - inversion H2; subst.
    + right. exists (d :: ds1). split; [reflexivity|]. econstructor; eauto.
    + rewrite E in H0. inversion H0; subst. destruct (IH _ _ H1) as [(r & -> & Hr)|(r & -> & Hr)].
      * left. exists r. auto.
      * right. exists r. auto.
Qed.

Lemma iclimb_snoc_inv : forall s t i ds d j, iclimb s t i (ds ++ [d]) j ->
  exists k, iclimb s t i ds k /\ lnk s t k = Some d /\ j = st_frame d.
Proof.
  intros s t i ds. revert i. induction ds as [|x ds IH]; intros i d j H; cbn in H.
  - inversion H; subst. inversion H5; subst. exists i. split; [constructor|auto].
  - inversion H; subst. destruct (IH _ _ _ H5) as (k & H1 & H2 & H4). exists k.
    split; [econstructor; eauto|auto].
Qed.

(** ** one gather *)
Definition with_st a d : taccum :=
  {| ta_st := Some d; ta_time := ta_time a; ta_sq := ta_sq a; ta_sv := ta_sv a;
     ta_tq := ta_tq a; ta_tv := ta_tv a; ta_rq := ta_rq a; ta_rv := ta_rv a |}.

(** Same accumulated products (the scratch sample may differ). *)
Definition same_acc a a' : Prop :=
  ta_sq a = ta_sq a' /\ ta_sv a = ta_sv a' /\ ta_tq a = ta_tq a' /\ ta_tv a = ta_tv a' /\
  ta_rq a = ta_rq a' /\ ta_rv a = ta_rv a' /\ ta_time a = ta_time a'.

(** The text a cache without usable data leaves in the error string. *)
Definition range_exn {B} : res B := Throw RuntimeError ETimeRange.

Lemma gather_link : forall s t i c d, wf s -> getFrame s i = Some c -> lnk s t i = Some d ->
  forall a err, ta_gather a c t err = Ok (with_st a d, st_frame d, err).
Proof.
  intros s t i c d W Hc Hd a err. apply lnk_data in Hd as [Hd H0]. unfold idata in Hd. rewrite Hc in Hd.
  destruct (wf_cache s W _ _ Hc) as (Hok & _ & _).
  unfold ta_gather. destruct (getData_err Nat.eqb c t err Hok) as [(d' & E1 & E2)|[E1 _]]; rewrite E1 in Hd.
  - inversion Hd; subst d'. rewrite E2. reflexivity.
  - discriminate.
Qed.

Lemma gather_nolink : forall s t i c, wf s -> getFrame s i = Some c -> lnk s t i = None ->
  forall a err,
  (exists a' err', ta_gather a c t err = Ok (a', 0%nat, err') /\ same_acc a a' /\ (err = None <-> err' = None)) \/
  (err <> None /\ ta_gather a c t err = range_exn).
Proof.
  intros s t i c W Hc Hd a err.
  destruct (wf_cache s W _ _ Hc) as (Hok & _ & _).
  unfold lnk, idata in Hd. rewrite Hc in Hd. unfold ta_gather.
  destruct (getData_err Nat.eqb c t err Hok) as [(d' & E1 & E2)|[E1 H]]; rewrite E1 in Hd.
  - rewrite E2. cbn. destruct (Nat.eqb (st_frame d') 0) eqn:E; [|discriminate].
    apply Nat.eqb_eq in E. rewrite E. left. do 2 eexists. split; [reflexivity|].
    split; [repeat split|tauto].
  - destruct H as [(e & E2 & He)|(H & E2)]; rewrite E2; cbn.
    + left. do 2 eexists. split; [reflexivity|]. split; [repeat split|assumption].
    + right. auto.
Qed.

(** ** accumulated products *)
Definition posei (d : storage) : pose S := (st_rot d, st_trans d).
Definition raise (acc : pose S) (ds : list storage) : pose S :=
  fold_left (fun acc d => pose_mul (posei d) acc) ds acc.

(** [a'] is [a] with the source-side (resp. target-side) product extended by [ds]. *)
Definition src_acc a ds a' : Prop :=
  (ta_sq a', ta_sv a') = raise (ta_sq a, ta_sv a) ds /\
  ta_tq a' = ta_tq a /\ ta_tv a' = ta_tv a /\ ta_rq a' = ta_rq a /\ ta_rv a' = ta_rv a.
Definition tgt_acc a ds a' : Prop :=
  (ta_tq a', ta_tv a') = raise (ta_tq a, ta_tv a) ds /\
  ta_sq a' = ta_sq a /\ ta_sv a' = ta_sv a /\ ta_rq a' = ta_rq a /\ ta_rv a' = ta_rv a.

Lemma src_acc_step : forall a d ds a', src_acc (ta_accum (with_st a d) true) ds a' -> src_acc a (d :: ds) a'.
Proof. intros a d ds a' (H1 & H2 & H3 & H4 & H5). repeat split; cbn in *; assumption. Qed.
Lemma tgt_acc_step : forall a d ds a', tgt_acc (ta_accum (with_st a d) false) ds a' -> tgt_acc a (d :: ds) a'.
Proof. intros a d ds a' (H1 & H2 & H3 & H4 & H5). repeat split; cbn in *; assumption. Qed.
Lemma src_acc_same : forall a a', same_acc a a' -> src_acc a [] a'.
Proof. intros a a' (H1 & H2 & H3 & H4 & H5 & H6 & _). repeat split; cbn; congruence. Qed.
Lemma tgt_acc_same : forall a a', same_acc a a' -> tgt_acc a [] a'.
Proof. intros a a' (H1 & H2 & H3 & H4 & H5 & H6 & _). repeat split; cbn; congruence. Qed.
Lemma same_acc_refl : forall a, same_acc a a.
Proof. intros a. repeat split. Qed.

(** ** the source walk *)
Definition src_outcome (fuel : nat) s t target frame a ext (chain : list nat)
    (r : res (@src_result taccum)) (ds : list storage) (m : nat) : Prop :=
  (* too deep *)
  (List.length ds = Datatypes.S fuel /\ r = Ok SLoop) \/
  (* met the target, which has a parent itself *)
  ((List.length ds <= fuel)%nat /\ m = target /\ (exists d, lnk s t m = Some d) /\
   exists a', src_acc a ds a' /\
     r = Ok (SDone (ta_finalize a' TargetParentOfSource t) (chain ++ map st_child ds ++ [m]))) \/
  (* stopped at a frame without a link *)
  ((List.length ds <= fuel)%nat /\ lnk s t m = None /\
   ((exists a' ext', src_acc a ds a' /\ (ext = None <-> ext' = None) /\
      r = Ok (STop a' m ext' (match getFrame s m with Some _ => true | None => false end)
                (chain ++ map st_child ds ++ [m]))) \/
    (ext <> None /\ r = range_exn))).

Lemma walkSource_spec : forall fuel s t target frame top a ext chain, wf s -> frame <> 0%nat ->
  exists ds m, iclimb s t frame ds m /\ (forall i, In i (map st_child ds) -> i <> target) /\
    src_outcome fuel s t target frame a ext chain
      (walkSource ta_gather ta_accum ta_finalize fuel s t target frame top a ext chain) ds m.
Proof.
  induction fuel as [|fuel IH]; intros s t target frame top a ext chain W Hf.
  - cbn [walkSource]. rewrite (proj2 (Nat.eqb_neq frame 0) Hf).
    destruct (getFrame s frame) as [c|] eqn:Ec.
    2:{ exists [], frame. split; [constructor|]. split; [intros i []|]. right. right.
        split; [cbn; lia|]. split; [unfold lnk, idata; rewrite Ec; reflexivity|]. left.
        exists a, ext. split; [apply src_acc_same, same_acc_refl|]. split; [tauto|].
        rewrite Ec. reflexivity. }
    destruct (lnk s t frame) as [d|] eqn:Ed.
    + rewrite (gather_link s t frame c d W Ec Ed). cbn [bind].
      destruct (lnk_props s t frame d W Ed) as (Hch & _ & H0).
      rewrite (proj2 (Nat.eqb_neq _ _) H0). destruct (Nat.eqb frame target) eqn:Et.
      * apply Nat.eqb_eq in Et. subst target. exists [], frame. split; [constructor|].
        split; [intros i []|]. right. left. split; [cbn; lia|]. split; [reflexivity|].
        split; [eauto|]. exists (with_st a d). split; [apply src_acc_same; repeat split|reflexivity].
      * apply Nat.eqb_neq in Et. exists [d], (st_frame d). split; [econstructor; [eassumption|constructor]|].
        split; [cbn; intros i [<-|[]]; congruence|]. left. split; reflexivity.
    + destruct (gather_nolink s t frame c W Ec Ed a ext) as [(a' & ext' & E & Sa & Hx)|(Hx & E)]; rewrite E; cbn [bind range_exn].
      * exists [], frame. split; [constructor|]. split; [intros i []|]. right. right.
        split; [cbn; lia|]. split; [assumption|]. left. exists a', ext'. rewrite Ec.
        split; [apply src_acc_same; assumption|]. split; [assumption|reflexivity].
      * exists [], frame. split; [constructor|]. split; [intros i []|]. right. right.
        split; [cbn; lia|]. split; [assumption|]. right. split; [assumption|reflexivity].
  - cbn [walkSource]. rewrite (proj2 (Nat.eqb_neq frame 0) Hf).
    destruct (getFrame s frame) as [c|] eqn:Ec.
    2:{ exists [], frame. split; [constructor|]. split; [intros i []|]. right. right.
        split; [cbn; lia|]. split; [unfold lnk, idata; rewrite Ec; reflexivity|]. left.
        exists a, ext. split; [apply src_acc_same, same_acc_refl|]. split; [tauto|].
        rewrite Ec. reflexivity. }
    destruct (lnk s t frame) as [d|] eqn:Ed.
    + rewrite (gather_link s t frame c d W Ec Ed). cbn [bind].
      destruct (lnk_props s t frame d W Ed) as (Hch & _ & H0).
      rewrite (proj2 (Nat.eqb_neq _ _) H0). destruct (Nat.eqb frame target) eqn:Et.
      * apply Nat.eqb_eq in Et. subst target. exists [], frame. split; [constructor|].
        split; [intros i []|]. right. left. split; [cbn; lia|]. split; [reflexivity|].
        split; [eauto|]. exists (with_st a d). split; [apply src_acc_same; repeat split|reflexivity].
      * apply Nat.eqb_neq in Et.
        destruct (IH s t target (st_frame d) frame (ta_accum (with_st a d) true) ext (chain ++ [frame]) W H0)
          as (ds & m & Hcl & Hin & Hout).
        exists (d :: ds), m. split; [econstructor; eassumption|].
        split; [cbn; intros i [<-|Hi]; [congruence|auto]|].
        destruct Hout as [(L & E)|[(L & Em & Hd & a' & Ha & E)|(L & Hn & Hout)]].
        -- left. split; [cbn; lia|assumption].
        -- right. left. split; [cbn; lia|]. split; [assumption|]. split; [assumption|].
           exists a'. split; [apply src_acc_step; assumption|].
           rewrite E. cbn. rewrite Hch, <- app_assoc. reflexivity.
        -- right. right. split; [cbn; lia|]. split; [assumption|].
           destruct Hout as [(a' & ext' & Ha & Hx & E)|(Hx & E)]; [left|right; auto].
           exists a', ext'. split; [apply src_acc_step; assumption|]. split; [assumption|].
           rewrite E. cbn. rewrite Hch, <- app_assoc. reflexivity.
    + destruct (gather_nolink s t frame c W Ec Ed a ext) as [(a' & ext' & E & Sa & Hx)|(Hx & E)]; rewrite E; cbn [bind range_exn].
      * exists [], frame. split; [constructor|]. split; [intros i []|]. right. right.
        split; [cbn; lia|]. split; [assumption|]. left. exists a', ext'. rewrite Ec.
        split; [apply src_acc_same; assumption|]. split; [assumption|reflexivity].
      * exists [], frame. split; [constructor|]. split; [intros i []|]. right. right.
        split; [cbn; lia|]. split; [assumption|]. right. split; [assumption|reflexivity].
Qed.

(** ** the target walk *)
Definition tgt_outcome (fuel : nat) s t source top frame a err (rchain : list nat)
    (r : res (@tgt_result taccum)) (ds : list storage) (m : nat) : Prop :=
  (* too deep *)
  (List.length ds = Datatypes.S fuel /\ r = Ok (TLoop err)) \/
  (* met the source, which has a parent itself *)
  ((List.length ds <= fuel)%nat /\ m = source /\ m <> top /\ (exists d, lnk s t m = Some d) /\
   exists a', tgt_acc a ds a' /\
     r = Ok (TDone (ta_finalize a' SourceParentOfTarget t) (rchain ++ map st_child ds ++ [m]))) \/
  (* reached the top *)
  ((List.length ds <= fuel)%nat /\ m = top /\
   exists a', tgt_acc a ds a' /\ r = Ok (TStop a' m err (rchain ++ map st_child ds))) \/
  (* stopped at another frame without history *)
  ((List.length ds <= fuel)%nat /\ m <> top /\ getFrame s m = None /\
   exists a', tgt_acc a ds a' /\ r = Ok (TStop a' m err (rchain ++ map st_child ds ++ [m]))) \/
  (* stopped at another frame without data at this time *)
  ((List.length ds <= fuel)%nat /\ m <> top /\ (exists c, getFrame s m = Some c) /\ lnk s t m = None /\
   ((exists err', (err = None <-> err' = None) /\ r = Ok (TExtrap err')) \/
    (err <> None /\ r = range_exn))).

Lemma walkTarget_spec : forall fuel s t source top frame a err rchain, wf s -> frame <> 0%nat ->
  exists ds m, iclimb s t frame ds m /\
    (forall i, In i (map st_child ds) -> i <> source /\ i <> top) /\
    tgt_outcome fuel s t source top frame a err rchain
      (walkTarget ta_gather ta_accum ta_finalize fuel s t source top frame a err rchain) ds m.
Proof.
  induction fuel as [|fuel IH]; intros s t source top frame a err rchain W Hf.
  all: cbn [walkTarget]; destruct (Nat.eqb frame top) eqn:Etop;
    [ apply Nat.eqb_eq in Etop; exists [], frame; split; [constructor|]; split; [intros i []|];
      right; right; left; split; [cbn; lia|]; split; [assumption|]; exists a;
      split; [apply tgt_acc_same, same_acc_refl|]; cbn; rewrite app_nil_r; reflexivity
    | apply Nat.eqb_neq in Etop ].
  all: destruct (getFrame s frame) as [c|] eqn:Ec;
    [| exists [], frame; split; [constructor|]; split; [intros i []|];
       right; right; right; left; split; [cbn; lia|]; split; [assumption|]; split; [assumption|];
       exists a; split; [apply tgt_acc_same, same_acc_refl|reflexivity] ].
  all: destruct (lnk s t frame) as [d|] eqn:Ed;
    [| destruct (gather_nolink s t frame c W Ec Ed a err) as [(a' & ext' & E & Sa & Hx)|(Hx & E)];
       rewrite E; cbn [bind range_exn]; exists [], frame; (split; [constructor|]); (split; [intros i []|]);
       right; right; right; right; (split; [cbn; lia|]); (split; [assumption|]);
       (split; [eauto|]); (split; [assumption|]);
       [left; exists ext'; split; [assumption|reflexivity] | right; split; [assumption|reflexivity]] ].
  all: rewrite (gather_link s t frame c d W Ec Ed); cbn [bind];
    destruct (lnk_props s t frame d W Ed) as (Hch & _ & H0);
    rewrite (proj2 (Nat.eqb_neq _ _) H0); destruct (Nat.eqb frame source) eqn:Es;
    [ apply Nat.eqb_eq in Es; exists [], frame; split; [constructor|]; split; [intros i []|];
      right; left; split; [cbn; lia|]; split; [assumption|]; split; [assumption|];
      split; [eauto|]; exists (with_st a d); split; [apply tgt_acc_same; repeat split|reflexivity]
    | apply Nat.eqb_neq in Es ].
  - exists [d], (st_frame d). split; [econstructor; [eassumption|constructor]|].
    split; [cbn; intros i [<-|[]]; rewrite Hch; auto|]. left. split; reflexivity.
  - destruct (IH s t source top (st_frame d) (ta_accum (with_st a d) false) err (rchain ++ [frame]) W H0)
      as (ds & m & Hcl & Hin & Hout).
    exists (d :: ds), m. split; [econstructor; eassumption|].
    split; [cbn; intros i [<-|Hi]; [rewrite Hch; auto|auto]|].
    destruct Hout as [(L & E)|[(L & Em & Hmt & Hd & a' & Ha & E)|[(L & Em & a' & Ha & E)|
      [(L & Em & Hg & a' & Ha & E)|(L & Em & Hg & Hn & Hout)]]]].
    + left. split; [cbn; lia|assumption].
    + right. left. split; [cbn; lia|]. do 3 (split; [assumption|]).
      exists a'. split; [apply tgt_acc_step; assumption|]. rewrite E. cbn. rewrite Hch, <- app_assoc. reflexivity.
    + right. right. left. split; [cbn; lia|]. split; [assumption|].
      exists a'. split; [apply tgt_acc_step; assumption|]. rewrite E. cbn. rewrite Hch, <- app_assoc. reflexivity.
    + right. right. right. left. split; [cbn; lia|]. do 2 (split; [assumption|]).
      exists a'. split; [apply tgt_acc_step; assumption|]. rewrite E. cbn. rewrite Hch, <- app_assoc. reflexivity.
    + right. right. right. right. split; [cbn; lia|]. auto.
Qed.
End P.
