(** * What getLatestCommonTime computes *)
From Coq Require Import ZArith Bool List String Lia Arith.
From Verif Require Import RosTime Scalar LinearMath Cache SpecCache CacheProofs CacheQueries
  BufferCore SpecCore CoreInv Naturality CoreSet WalkSpec.
Import ListNotations.
Open Scope Z_scope.

Section P.
Context {S : Scalar}.
Notation storage := (storage S nat).
Notation cache := (cache S nat).
Notation core := (core S).
Implicit Types (s : core) (c : cache) (d x : storage) (i frame target source top : nat) (t : time)
  (err ext : errp) (ds : list storage).

(** The newest link as read by getLatestTimeAndParent is the link at time zero. *)
Lemma latest_link : forall s i c d, wf s -> getFrame s i = Some c -> lnk s 0 i = Some d ->
  getLatestTimeAndParent c = Ok (st_stamp d, Some (st_frame d)).
Proof.
  intros s i c d W Hc Hd. apply lnk_data in Hd as [Hd _]. unfold idata in Hd. rewrite Hc in Hd.
  destruct c as [max [|a l]|[o|]]; cbn in Hd; try discriminate; inversion Hd; subst; reflexivity.
Qed.
Lemma latest_nolink : forall s i c, wf s -> getFrame s i = Some c -> lnk s 0 i = None ->
  exists st po, getLatestTimeAndParent c = Ok (st, po) /\ parent_id po = 0%nat.
Proof.
  intros s i c W Hc Hd. destruct (wf_cache s W _ _ Hc) as (Hok & _ & _).
  unfold lnk, idata in Hd. rewrite Hc in Hd.
  destruct c as [max [|a l]|[o|]]; cbn in Hd |- *.
  - exists 0, None. auto.
  - destruct (Nat.eqb (st_frame a) 0) eqn:E; [|discriminate]. apply Nat.eqb_eq in E.
    do 2 eexists. split; [reflexivity|assumption].
  - destruct (Nat.eqb (st_frame o) 0) eqn:E; [|discriminate]. apply Nat.eqb_eq in E.
    do 2 eexists. split; [reflexivity|assumption].
  - destruct Hok as [? H]. discriminate.
Qed.

Definition mins (common : time) (ds : list storage) : time :=
  fold_left (fun (m : time) d => min_nonzero (st_stamp d) m) ds common.
Definition lct_entry d : time * nat := (st_stamp d, st_frame d).

(** Frames reached by the links of [ds], except the last one. *)
Definition inner (ds : list storage) : list nat := map st_frame (removelast ds).

Lemma inner_cons : forall d d' ds, inner (d :: d' :: ds) = st_frame d :: inner (d' :: ds).
Proof. reflexivity. Qed.

Lemma lctSource_spec : forall fuel s target frame common lct, wf s -> frame <> 0%nat ->
  exists ds m, iclimb s 0 frame ds m /\
  let r := lctSource fuel s target frame common lct in
  ((ds <> [] /\ m = target /\ (List.length ds <= Datatypes.S fuel)%nat /\ ~ In target (inner ds) /\
     r = Ok (LSdone (time_or_zero (mins common ds)))) \/
   (lnk s 0 m = None /\ (List.length ds <= fuel)%nat /\ ~ In target (map st_frame ds) /\
     r = Ok (LSend (lct ++ map lct_entry ds))) \/
   (List.length ds = Datatypes.S fuel /\ ~ In target (map st_frame ds) /\ r = Ok LSloop)).
Proof.
  induction fuel as [|fuel IH]; intros s target frame common lct W Hf; cbv zeta.
  all: cbn [lctSource]; rewrite (proj2 (Nat.eqb_neq frame 0) Hf);
    destruct (getFrame s frame) as [c|] eqn:Ec;
    [| exists [], frame; split; [constructor|]; right; left;
       split; [unfold lnk, idata; rewrite Ec; reflexivity|]; split; [cbn; lia|]; split; [intros []|];
       cbn; rewrite app_nil_r; reflexivity].
  all: destruct (lnk s 0 frame) as [d|] eqn:Ed;
    [| destruct (latest_nolink s frame c W Ec Ed) as (st & po & -> & Hp); cbn [bind]; rewrite Hp; cbn [Nat.eqb];
       exists [], frame; split; [constructor|]; right; left; split; [assumption|]; split; [cbn; lia|];
       split; [intros []|]; cbn; rewrite app_nil_r; reflexivity ].
  all: rewrite (latest_link s frame c d W Ec Ed); cbn [bind parent_id];
    destruct (lnk_props s 0 frame d W Ed) as (Hch & _ & H0); rewrite (proj2 (Nat.eqb_neq _ _) H0);
    destruct (Nat.eqb (st_frame d) target) eqn:Et;
    [ apply Nat.eqb_eq in Et; exists [d], (st_frame d); split; [econstructor; [eassumption|constructor]|];
      left; split; [discriminate|]; split; [assumption|]; split; [cbn; lia|]; split; [intros []|reflexivity]
    | apply Nat.eqb_neq in Et ].
  - exists [d], (st_frame d). split; [econstructor; [eassumption|constructor]|]. right. right.
    split; [reflexivity|]. split; [cbn; intros [H|[]]; congruence|reflexivity].
  - destruct (IH s target (st_frame d) (min_nonzero (st_stamp d) common) (lct ++ [(st_stamp d, st_frame d)]) W H0)
      as (ds & m & Hcl & Hout).
    exists (d :: ds), m. split; [econstructor; eassumption|].
    destruct Hout as [(Hne & Hm & L & Hin & E)|[(Hn & L & Hin & E)|(L & Hin & E)]].
    + left. split; [discriminate|]. split; [assumption|]. split; [cbn; lia|].
      split; [|exact E]. destruct ds as [|d' ds]; [congruence|]. rewrite inner_cons.
      intros [H|H]; [congruence|auto].
    + right. left. split; [assumption|]. split; [cbn; lia|]. split; [cbn; intros [H|H]; [congruence|auto]|].
      rewrite E. rewrite <- app_assoc. reflexivity.
    + right. right. split; [cbn; lia|]. split; [cbn; intros [H|H]; [congruence|auto]|]. exact E.
Qed.

Definition in_lct (lct : list (time * nat)) (p : nat) : Prop := In p (map snd lct).

Lemma existsb_lct : forall lct p, existsb (fun q => Nat.eqb (snd q) p) lct = true <-> in_lct lct p.
Proof.
  intros lct p. rewrite existsb_exists. unfold in_lct. rewrite in_map_iff. split.
  - intros (q & Hq & E). apply Nat.eqb_eq in E. eauto.
  - intros (q & E & Hq). exists q. split; [assumption|]. apply Nat.eqb_eq. assumption.
Qed.

Lemma lctTarget_spec : forall fuel s source lct frame common, wf s -> frame <> 0%nat ->
  exists ds m, iclimb s 0 frame ds m /\
    (forall p, In p (inner ds) -> ~ in_lct lct p /\ p <> source) /\
  let r := lctTarget fuel s source lct frame common in
  ((ds <> [] /\ in_lct lct m /\ (List.length ds <= Datatypes.S fuel)%nat /\
     r = Ok (LTcommon m (mins common ds))) \/
   (ds <> [] /\ m = source /\ ~ in_lct lct m /\ (List.length ds <= Datatypes.S fuel)%nat /\
     r = Ok (LTdone (time_or_zero (mins common ds)))) \/
   (lnk s 0 m = None /\ (List.length ds <= fuel)%nat /\
     (forall p, In p (map st_frame ds) -> ~ in_lct lct p /\ p <> source) /\ r = Ok LTend) \/
   (List.length ds = Datatypes.S fuel /\
     (forall p, In p (map st_frame ds) -> ~ in_lct lct p /\ p <> source) /\ r = Ok LTloop)).
Proof.
  induction fuel as [|fuel IH]; intros s source lct frame common W Hf; cbv zeta.
  all: cbn [lctTarget];
    destruct (getFrame s frame) as [c|] eqn:Ec;
    [| exists [], frame; split; [constructor|]; split; [intros p []|]; right; right; left;
       split; [unfold lnk, idata; rewrite Ec; reflexivity|]; split; [cbn; lia|]; split; [intros p []|reflexivity] ].
  all: destruct (lnk s 0 frame) as [d|] eqn:Ed;
    [| destruct (latest_nolink s frame c W Ec Ed) as (st & po & -> & Hp); cbn [bind]; rewrite Hp; cbn [Nat.eqb];
       exists [], frame; split; [constructor|]; split; [intros p []|]; right; right; left;
       split; [assumption|]; split; [cbn; lia|]; split; [intros p []|reflexivity] ].
  all: rewrite (latest_link s frame c d W Ec Ed); cbn [bind parent_id];
    destruct (lnk_props s 0 frame d W Ed) as (Hch & _ & H0); rewrite (proj2 (Nat.eqb_neq _ _) H0);
    destruct (existsb (fun q => Nat.eqb (snd q) (st_frame d)) lct) eqn:El;
    [ apply existsb_lct in El; exists [d], (st_frame d); split; [econstructor; [eassumption|constructor]|];
      split; [intros p []|]; left; split; [discriminate|]; split; [assumption|]; split; [cbn; lia|reflexivity]
    | assert (Hnl : ~ in_lct lct (st_frame d)) by (rewrite <- existsb_lct; congruence);
      destruct (Nat.eqb (st_frame d) source) eqn:Es;
      [ apply Nat.eqb_eq in Es; exists [d], (st_frame d); split; [econstructor; [eassumption|constructor]|];
        split; [intros p []|]; right; left; split; [discriminate|]; split; [assumption|]; split; [assumption|];
        split; [cbn; lia|reflexivity]
      | apply Nat.eqb_neq in Es ] ].
  - exists [d], (st_frame d). split; [econstructor; [eassumption|constructor]|]. split; [intros p []|].
    right. right. right. split; [reflexivity|]. split; [cbn; intros p [<-|[]]; auto|reflexivity].
  - destruct (IH s source lct (st_frame d) (min_nonzero (st_stamp d) common) W H0)
      as (ds & m & Hcl & Hin & Hout).
    exists (d :: ds), m. split; [econstructor; eassumption|].
    split.
    { destruct ds as [|d' ds]; [intros p []|]. rewrite inner_cons. intros p [<-|Hp]; auto. }
    destruct Hout as [(Hne & Hm & L & E)|[(Hne & Hm & Hn & L & E)|[(Hn & L & Hi & E)|(L & Hi & E)]]].
    + left. split; [discriminate|]. split; [assumption|]. split; [cbn; lia|]. exact E.
    + right. left. split; [discriminate|]. split; [assumption|]. split; [assumption|]. split; [cbn; lia|]. exact E.
    + right. right. left. split; [assumption|]. split; [cbn; lia|]. split; [cbn; intros p [<-|Hp]; auto|]. exact E.
    + right. right. right. split; [cbn; lia|]. split; [cbn; intros p [<-|Hp]; auto|]. exact E.
Qed.

(** Merging the two sides. *)
Lemma lctMerge_spec : forall ds p common, In p (map st_frame ds) ->
  exists ds1 d ds2, ds = ds1 ++ d :: ds2 /\ st_frame d = p /\ ~ In p (map st_frame ds1) /\
    lctMerge (map lct_entry ds) p common = mins common (ds1 ++ [d]).
Proof.
  induction ds as [|d ds IH]; intros p common H; [destruct H|]. cbn [map lctMerge lct_entry].
  destruct (Nat.eqb (st_frame d) p) eqn:E.
  - apply Nat.eqb_eq in E. exists [], d, ds. split; [reflexivity|]. split; [assumption|]. split; [intros []|].
    cbn. unfold min_nonzero. destruct (st_stamp d =? 0); [reflexivity|]. apply Z.min_comm.
  - apply Nat.eqb_neq in E. destruct H as [H|H]; [congruence|].
    destruct (IH p (if st_stamp d =? 0 then common else Z.min common (st_stamp d)) H) as (ds1 & d1 & ds2 & -> & Hd & Hn & Em).
    exists (d :: ds1), d1, ds2. split; [reflexivity|]. split; [assumption|].
    split; [cbn; intros [H1|H1]; [congruence|auto]|].
    rewrite Em. cbn. unfold min_nonzero. destruct (st_stamp d =? 0); [reflexivity|].
    rewrite Z.min_comm. reflexivity.
Qed.

(** The minimum of the nonzero stamps, capped by [common]. *)
Lemma mins_le : forall ds common, mins common ds <= common.
Proof.
  induction ds as [|d ds IH]; intros common; cbn; [lia|].
  etransitivity; [apply IH|]. unfold min_nonzero. destruct (st_stamp d =? 0); lia.
Qed.
Lemma mins_spec : forall ds common,
  (mins common ds = common \/ exists d, In d ds /\ st_stamp d = mins common ds /\ st_stamp d <> 0) /\
  (forall d, In d ds -> st_stamp d <> 0 -> mins common ds <= st_stamp d).
Proof.
  induction ds as [|d ds IH]; intros common; cbn; [split; [auto|intros d []]|].
  destruct (IH (min_nonzero (st_stamp d) common)) as [H1 H2]. split.
  - destruct H1 as [H1|(d' & Hd & E & Hz)]; [|right; exists d'; auto].
    unfold min_nonzero in H1 at 2. destruct (st_stamp d =? 0) eqn:Ez; [auto|].
    apply Z.eqb_neq in Ez. destruct (Z.min_spec (st_stamp d) common) as [[_ E]|[_ E]]; rewrite E in H1; [|auto].
    right. exists d. auto.
  - intros d' [<-|Hd] Hz; [|auto]. fold (mins (min_nonzero (st_stamp d) common) ds).
    pose proof (mins_le ds (min_nonzero (st_stamp d) common)) as L.
    unfold min_nonzero in L at 2. rewrite (proj2 (Z.eqb_neq _ _) Hz) in L. lia.
Qed.

Lemma mins_app : forall ds1 ds2 common, mins common (ds1 ++ ds2) = mins (mins common ds1) ds2.
Proof. intros. apply fold_left_app. Qed.

Lemma mins_comm : forall ds1 ds2 common, mins (mins common ds1) ds2 = mins (mins common ds2) ds1.
Proof.
  intros ds1 ds2 common.
  assert (G : forall d ds (m : time), mins (min_nonzero (st_stamp d) m) ds = min_nonzero (st_stamp d) (mins m ds)).
  { intros d ds. induction ds as [|x ds IH]; intros m; [reflexivity|].
    change (mins (min_nonzero (st_stamp x) (min_nonzero (st_stamp d) m)) ds =
            min_nonzero (st_stamp d) (mins (min_nonzero (st_stamp x) m) ds)). rewrite <- IH. f_equal.
    unfold min_nonzero. destruct (st_stamp d =? 0), (st_stamp x =? 0); try reflexivity. lia. }
  revert common. induction ds1 as [|d ds1 IH]; intros common; [reflexivity|].
  change (mins (mins (min_nonzero (st_stamp d) common) ds1) ds2 = mins (min_nonzero (st_stamp d) (mins common ds2)) ds1).
  rewrite IH, G. reflexivity.
Qed.
End P.
