(** * Proofs about networks of broadcasters and listeners *)
From Coq Require Import ZArith Bool List String Lia Arith Permutation.
From Verif Require Import RosTime Scalar LinearMath Cache SpecCache CacheProofs CacheQueries CacheTheorems BufferCore SpecCore CoreInv CoreSet
  Forget LookupBase LookupTheorems LookupTree History Malformed NoRange CoreTheorems Requests SpecRequests RequestProofs RequestHistory TfTopics SpecTopics TopicProofs Network SpecNetwork.
Import ListNotations.
Open Scope Z_scope.

Section P.
Context {S : Scalar}.
Notation tmsg := (tmsg S).
Notation net_op := (net_op S).
Notation network := (network S).
Notation listener := (listener S).
Implicit Types (ops : list net_op) (n : network) (m : tmsg).

(** ** everything received was sent *)
Lemma sent_more : forall ops o m st, sent ops m st -> sent (ops ++ [o]) m st.
Proof. intros ops o m st (x & Hx & H). exists x. split; [apply in_app_iff; left; exact Hx|exact H]. Qed.
Lemma sent_last : forall ops o m st, match o with
  | Broadcast _ ms => st = false /\ In m ms
  | BroadcastStatic _ _ ms | PyBroadcastStatic _ ms => st = true /\ In m ms
  | Receive _ _ _ => False end -> sent (ops ++ [o]) m st.
Proof. intros ops o m st H. exists o. split; [apply in_app_iff; right; left; reflexivity|exact H]. Qed.
Definition all_sent ops n : Prop :=
  (forall who st msg m, In (who, st, msg) (k_topics n) -> In m msg -> sent ops m st) /\
  (forall k m, In m (k_static n k) -> sent ops m true) /\
  forall j m st, received (k_got n j) m st -> sent ops m st.
Lemma rop_sub : forall (net : tfmessage S) m x, In x (replace_or_push net m) -> x = m \/ In x net.
Proof.
  induction net as [|y net IH]; intros m x H; cbn [replace_or_push] in H; [destruct H as [<-|[]]; left; reflexivity|].
  destruct (String.eqb _ _); destruct H as [<-|H]; [left; reflexivity|right; right; exact H|right; left; reflexivity|]. destruct (IH _ _ H) as [->|H']; [left; reflexivity|right; right; exact H'].
Qed.
Lemma send_sub : forall ms (net : tfmessage S) x, In x (static_sendTransform net ms) -> In x ms \/ In x net.
Proof.
  induction ms as [|m ms IH]; intros net x H; [right; exact H|]. unfold static_sendTransform in *. cbn [fold_left] in H. destruct (IH _ _ H) as [H'|H']; [left; right; exact H'|].
  apply rop_sub in H' as [->|H']; [left; left; reflexivity|right; exact H'].
Qed.
Lemma received_snoc : forall (got : list (arrival S)) a m st, received (got ++ [a]) m st -> received got m st \/ (a_static a = st /\ In m (a_msg a)).
Proof. intros got a m st (x & Hx & H). apply in_app_iff in Hx as [Hx|[<-|[]]]; [left; exists x; split; assumption|right; exact H]. Qed.
Lemma all_sent_step : forall warn ops n o, all_sent ops n -> all_sent (ops ++ [o]) (net_step warn n o).
Proof.
  intros warn ops n o (T & K & G).
  assert (T' : forall who st msg m, In (who, st, msg) (k_topics n) -> In m msg -> sent (ops ++ [o]) m st) by (intros; apply sent_more; eapply T; eassumption).
  assert (K' : forall k m, In m (k_static n k) -> sent (ops ++ [o]) m true) by (intros; apply sent_more; eapply K; eassumption).
  assert (G' : forall j m st, received (k_got n j) m st -> sent (ops ++ [o]) m st) by (intros; apply sent_more; eapply G; eassumption).
  destruct o as [who ms|k who ms|who ms|j i now]; cbn [net_step].
  - split; [|split; [exact K'|exact G']]. cbn [k_topics]. intros w st msg m H Hm. apply in_app_iff in H as [H|[H|[]]]; [eapply T'; eassumption|]. injection H as <- <- <-. apply sent_last. split; [reflexivity|].
    rewrite plain_broadcast in Hm. exact Hm.
  - assert (N : forall m, In m (static_sendTransform (k_static n k) ms) -> sent (ops ++ [BroadcastStatic k who ms]) m true) by (intros m Hm; apply send_sub in Hm as [Hm|Hm]; [apply sent_last; split; [reflexivity|exact Hm]|eapply K', Hm]).
    split; [|split; [|exact G']]; cbn [k_topics k_static].
    + intros w st msg m H Hm. apply in_app_iff in H as [H|[H|[]]]; [eapply T'; eassumption|]. injection H as <- <- <-. apply N, Hm.
    + intros j m Hm. unfold update in Hm. destruct (Nat.eqb j k); [apply N, Hm|eapply K', Hm].
  - split; [|split; [exact K'|exact G']]. cbn [k_topics]. intros w st msg m H Hm. apply in_app_iff in H as [H|[H|[]]]; [eapply T'; eassumption|]. injection H as <- <- <-. apply sent_last. split; [reflexivity|exact Hm].
  - destruct (nth_error (k_topics n) i) as [[[who st] msg]|] eqn:E; [|split; [exact T'|split; [exact K'|exact G']]]. split; [exact T'|split; [exact K'|]]. cbn [k_got]. intros j' m st' H. unfold update in H. destruct (Nat.eqb j' j); [|eapply G', H].
    apply received_snoc in H as [H|(<- & H)]; [eapply G', H|]. cbn [a_static a_msg] in *. eapply T'; [eapply nth_error_In, E|exact H].
Qed.
Lemma run_snoc : forall warn ct ops o, net_run warn ct (ops ++ [o]) = net_step warn (net_run warn ct ops) o.
Proof. intros. unfold net_run. rewrite fold_left_app. reflexivity. Qed.
Theorem all_received_sent : forall warn ct ops, all_sent ops (net_run warn ct ops).
Proof.
  intros warn ct ops. induction ops as [|o ops IH] using rev_ind.
  - split; [intros who st msg m []|split; [intros k m []|intros j m st (a & [] & _)]].
  - rewrite run_snoc. apply all_sent_step, IH.
Qed.

(** ** a node's buffer *)
Lemma set_all_run : forall msgs (b : buf S) a st, exists k, b_core (fst (fst (set_all b msgs a st))) = run (b_core b) (map (fun m => OSet m a st) (firstn k msgs)).
Proof.
  induction msgs as [|m msgs IH]; intros b a st; [exists 0%nat; reflexivity|]. cbn [set_all]. pose proof (set_transform_core b m a st) as E. destruct (set_transform b m a st) as [b' r]. cbn [fst] in E.
  assert (One : exists k, b_core b' = run (b_core b) (map (fun m => OSet m a st) (firstn k (m :: msgs)))) by (exists 1%nat; exact E).
  assert (More : exists k, b_core (fst (fst (set_all b' msgs a st))) = run (b_core b) (map (fun m => OSet m a st) (firstn k (m :: msgs)))).
  { destruct (IH b' a st) as (k & H). exists (Datatypes.S k). rewrite H, E. reflexivity. }
  destruct r as [[v evs]|c e|]; [|destruct c; try exact One; exact More|exact One].
  destruct (set_all b' msgs a st) as [[b'' evs'] r']. exact More.
Qed.
Lemma callback_run : forall warn (l : listener) now msg who st, exists pre k,
  b_core (l_buf (fst (fst (subscription_callback warn l now msg who st)))) = run (b_core (l_buf l)) (pre ++ map (fun m => OSet m who st) (firstn k msg)) /\ (pre = [] \/ pre = [OClear]).
Proof.
  intros warn l now msg who st. unfold subscription_callback.
  destruct (if (now <? l_last l) && warn then _ else _) as [z|c e|]; [|exists [], 0%nat; split; [reflexivity|left; reflexivity]..].
  set (b := if now <? l_last l then _ else _). destruct (set_all_run msg b who st) as (k & H). destruct (set_all b msg who st) as [[b' evs] r]. cbn [fst l_buf] in *.
  subst b. destruct (now <? l_last l); [exists [OClear], k|exists [], k]; (split; [rewrite H; reflexivity|auto]).
Qed.
Theorem node_run : forall warn ct ops j, exists cops, node_core (net_run warn ct ops) j = run (init_core ct) cops /\
  forall m a st, In (OSet m a st) cops -> received (k_got (net_run warn ct ops) j) m st.
Proof.
  intros warn ct ops j. induction ops as [|o ops (cops & E & H)] using rev_ind; [exists []; split; [reflexivity|intros m a st []]|]. rewrite run_snoc.
  destruct o as [who ms|k who ms|who ms|j' i now]; try (exists cops; split; [exact E|exact H]). cbn [net_step]. set (n := net_run warn ct ops) in *.
  destruct (nth_error (k_topics n) i) as [[[who st] msg]|]; [|exists cops; split; [exact E|exact H]]. unfold node_core. cbn [k_node k_got]. unfold update. destruct (Nat.eqb_spec j j') as [<-|]; [|exists cops; split; [exact E|exact H]].
  destruct (callback_run warn (k_node n j) now msg who st) as (pre & k & Ec & Pre). exists (cops ++ pre ++ map (fun m => OSet m who st) (firstn k msg)). split; [rewrite Ec; unfold run at 2; rewrite fold_left_app; unfold node_core in E; rewrite E; reflexivity|].
  intros m a s Hin. apply in_app_iff in Hin as [Hin|Hin]; [destruct (H m a s Hin) as (x & Hx & X); exists x; split; [apply in_app_iff; left; exact Hx|exact X]|].
  apply in_app_iff in Hin as [Hin|Hin]; [destruct Pre as [->| ->]; [destruct Hin|destruct Hin as [Hin|[]]; discriminate Hin]|].
  apply in_map_iff in Hin as (m' & X & Hm). injection X as -> <- <-. eexists. split; [apply in_app_iff; right; left; reflexivity|]. split; [reflexivity|]. cbn [a_msg]. rewrite <- (firstn_skipn k msg). apply in_app_iff. left. exact Hm.
Qed.

(** ** where a sample comes from *)
Definition set_for (cops : list (core_op S)) (nm : string) (m : tmsg) (st : bool) : Prop := exists a, In (OSet m a st) cops /\ bad_message (strip_msg m) = false /\ stripSlash (tm_child m) = nm.
Lemma fold_samples : forall ct nm cops h c, fold_left (frame_step ct nm) cops h = Some c ->
  (forall x, In x (samples c) -> (exists m st, set_for cops nm m st /\ x = sample_of (strip_msg m)) \/ (exists c0, h = Some c0 /\ In x (samples c0))) /\
  (forall o, c = Static o -> (exists m, set_for cops nm m true) \/ (exists o0, h = Some (Static o0))).
Proof.
  intros ct nm. induction cops as [|o cops IH]; intros h c H.
  - cbn [fold_left] in H. subst h. split; [intros x Hx; right; eauto|intros o ->; right; eauto].
  - cbn [fold_left] in H. destruct (IH _ _ H) as (A & B). clear IH.
    assert (Up : forall m st, set_for cops nm m st -> set_for (o :: cops) nm m st) by (intros m st (a & Ha & X); exists a; split; [right; exact Ha|exact X]).
    destruct o as [m a st|].
    + cbn [frame_step] in *. destruct (bad_message (strip_msg m)) eqn:Bm; [split; [intros x Hx; destruct (A x Hx) as [(m' & st' & X & Y)|X]; [left; eauto|right; exact X]|intros o E; destruct (B o E) as [(m' & X)|X]; [left; eauto|right; exact X]]|].
      change (tm_child (strip_msg m)) with (stripSlash (tm_child m)) in *. destruct (String.eqb_spec (stripSlash (tm_child m)) nm) as [En|]; [|split; [intros x Hx; destruct (A x Hx) as [(m' & st' & X & Y)|X]; [left; eauto|right; exact X]|intros o E; destruct (B o E) as [(m' & X)|X]; [left; eauto|right; exact X]]].
      assert (Me : set_for (OSet m a st :: cops) nm m st) by (exists a; split; [left; reflexivity|split; assumption]). split.
      * intros x Hx. destruct (A x Hx) as [(m' & st' & X & Y)|(c0 & X & Y)]; [left; eauto|]. injection X as <-. apply insert_sub in Y as [->|Y]; [left; eauto|]. destruct h as [c1|]; [right; eauto|]. destruct st; destruct Y.
      * intros o E. destruct (B o E) as [(m' & X)|(o0 & X)]; [left; eauto|]. injection X as X.
        assert (Kd : forall c1 : cache S string, fst (insertData c1 (sample_of (strip_msg m))) = Static o0 -> exists o1, c1 = Static o1) by (intros c1 E1; pose proof (insert_kind c1 (sample_of (strip_msg m))) as K; rewrite E1 in K; destruct c1; [destruct K|eauto]).
        destruct (Kd _ X) as (o1 & E1). destruct h as [c1|]; [right; exists o1; congruence|]. destruct st; [left; eauto|discriminate E1].
    + cbn [frame_step] in *. split.
      * intros x Hx. destruct (A x Hx) as [(m' & st' & X & Y)|(c0 & X & Y)]; [left; eauto|]. destruct h as [c1|]; [|discriminate X]. injection X as <-. right. exists c1. split; [reflexivity|]. destruct c1; [destruct Y|exact Y].
      * intros o E. destruct (B o E) as [(m' & X)|(o0 & X)]; [left; eauto|]. destruct h as [c1|]; [|discriminate X]. right. destruct c1; [discriminate X|eauto].
Qed.
Lemma valid_nonneg : forall t, valid_time t -> 0 <= t.
Proof. intros t (H & _). exact H. Qed.

(** ** what a link is *)
Definition node_link (cops : list (core_op S)) (t : time) (d : storage S string) : Prop :=
  let from m := (exists st, set_for cops (st_child d) m st) in
  let at_parent m p := stripSlash (tm_frame m) = p in
  (exists m m0, from m /\ at_parent m (st_frame d) /\ set_for cops (st_child d) m0 true /\ pose_of d = (tm_rot m, tm_trans m)) \/
  (exists m, from m /\ at_parent m (st_frame d) /\ (t = 0 \/ tm_stamp m = t) /\ pose_of d = (tm_rot m, tm_trans m)) \/
  (exists m m', from m /\ from m' /\ at_parent m (st_frame d) /\ tm_stamp m <= t < tm_stamp m' /\
     ((at_parent m' (st_frame d) /\ (let ratio := sdiv (sofns (t - tm_stamp m)) (sofns (tm_stamp m' - tm_stamp m)) in
        pose_of d = (qslerp (tm_rot m) (tm_rot m') ratio, vinterp (tm_trans m) (tm_trans m') ratio))) \/
      (~ at_parent m' (st_frame d) /\ pose_of d = (tm_rot m, tm_trans m)))).
Theorem link_origin : forall ct cops t nm d, 0 <= ct < dur_bound -> Forall op_ok cops -> link (run (init_core ct) cops) t nm = Some d -> st_child d = nm /\ node_link cops t d.
Proof.
  intros ct cops t nm d Hct F L. assert (R : reachable (run (init_core ct) cops)) by (exists ct, cops; auto). pose proof (reachable_wf _ R) as W.
  destruct (link_parent _ _ _ _ W L) as (_ & Ch & K). split; [exact Ch|]. subst nm. unfold link in L. destruct (sample_at (run (init_core ct) cops) t (st_child d)) as [d'|] eqn:E; [|discriminate L].
  destruct (String.eqb (st_frame d') NO_PARENT); [discriminate L|]. injection L as ->. unfold sample_at in E. destruct (hist _ (st_child d)) as [c|] eqn:H; [|discriminate E].
  destruct (hist_ok _ _ _ W H) as (Ck & _ & _ & Names).
  rewrite hist_run in H; [|exact Hct|exact F|exact (proj2 K)]. destruct (fold_samples _ _ _ _ _ H) as (A & B).
  assert (From : forall x, In x (samples c) -> exists m st, set_for cops (st_child d) m st /\ x = sample_of (strip_msg m)) by (intros x Hx; destruct (A x Hx) as [X|(c0 & X & _)]; [exact X|discriminate X]).
  destruct c as [mx l|o].
  - destruct (covers_dec l t (proj1 (proj2 Ck))) as [Cv|Nc]; [|destruct (getData_uncovered String.eqb mx l t None Ck Nc) as [(e & G & _)|(X & _)]; [rewrite G in E; discriminate E|destruct (X eq_refl)]].
    destruct Ck as [Hm (N & Wd & P)]. destruct l as [|f l]; [destruct Cv as (Cv & _); destruct (Cv eq_refl)|]. cbn [getData] in E.
    assert (Verb : forall x, In x (f :: l) -> x = d -> t = 0 \/ st_stamp x = t -> node_link cops t d).
    { intros x Hx -> Ht. destruct (From d Hx) as (m & st & Sf & Ex). right. left. exists m. split; [exists st; exact Sf|]. rewrite Ex in *. split; [reflexivity|]. split; [exact Ht|reflexivity]. }
    destruct (position f l t N) as [->|[(Ht & Ef)|[(Ht & Ef & _)|[(Ht & Bt)|[(Ht & Lt)|(Ht & Lt)]]]]].
    + rewrite find_zero in E. cbn [bind] in E. injection E as E. eapply Verb; [left; reflexivity|exact E|left; reflexivity].
    + rewrite find_newest in E by assumption. cbn [bind] in E. injection E as E. eapply Verb; [left; reflexivity|exact E|right; exact Ef].
    + rewrite find_oldest in E by assumption. cbn [bind] in E. injection E as E. eapply Verb; [apply last_in|exact E|right; exact Ef].
    + destruct (find_between f l t None N Ht Bt) as (o & nw & l1 & l2 & El & B' & Ff). rewrite Ff in E. cbn [bind] in E. destruct (in_mid l1 l2 nw o) as (In1 & In2). rewrite <- El in In1, In2.
      destruct (From o In2) as (m & st & Sf & Eo). destruct (From nw In1) as (m' & st' & Sf' & En). right. right. exists m, m'.
      split; [exists st; exact Sf|]. split; [exists st'; exact Sf'|]. destruct (String.eqb_spec (st_frame o) (st_frame nw)) as [Ep|Np].
      * rewrite interpolate_lt with (max := mx) in E; [|exact Hm|lia|apply Wd; assumption]. cbn [bind] in E. injection E as <-. rewrite Eo, En in *. cbn [st_frame st_stamp sample_of strip_msg tm_frame tm_stamp tm_child] in *.
        split; [reflexivity|]. split; [exact B'|]. left. split; [congruence|reflexivity].
      * injection E as <-. rewrite Eo, En in *. cbn [st_frame st_stamp sample_of strip_msg tm_frame tm_stamp tm_child] in *. split; [reflexivity|]. split; [exact B'|]. right. split; [congruence|reflexivity].
    + destruct (not_covers_future f l t N Ht Lt Cv).
    + destruct (not_covers_past f l t N Ht Lt Cv).
  - destruct Ck as (x & ->). cbn [getData] in E. injection E as E. destruct (From x (or_introl eq_refl)) as (m & st & Sf & Ex). destruct (B _ eq_refl) as [(m0 & S0)|(o0 & X)]; [|discriminate X].
    left. exists m, m0. split; [exists st; exact Sf|]. rewrite Ex in E. rewrite <- E at 1 3. split; [reflexivity|]. split; [exact S0|reflexivity].
Qed.

Theorem broadcast_origin : forall warn ct ops j t nm d, 0 <= ct < dur_bound -> net_ok ops -> link (node_core (net_run warn ct ops) j) t nm = Some d -> broadcast_link ops t d.
Proof.
  intros warn ct ops j t nm d Hct Ok L. destruct (node_run warn ct ops j) as (cops & E & Rc). rewrite E in L.
  assert (Sn : forall m a st, In (OSet m a st) cops -> sent ops m st) by (intros m a st H; apply (all_received_sent warn ct ops) with (j := j), (Rc m a st H)).
  assert (F : Forall op_ok cops) by (apply Forall_forall; intros [m a st|] H; [exact (Ok m st (Sn m a st H))|exact I]).
  destruct (link_origin ct cops t nm d Hct F L) as (_ & N).
  assert (Lk : forall m p, (exists st, set_for cops (st_child d) m st) -> stripSlash (tm_frame m) = p -> sent_link ops m (st_child d) p).
  { intros m p (st & a & H & B & C) P. split; [exists st; exact (Sn m a st H)|]. split; [apply not_malformed, B|]. split; assumption. }
  destruct N as [(m & m0 & A & P & S0 & Q)|[(m & A & P & T & Q)|(m & m' & A & A' & P & T & [(P' & Q)|(P' & Q)])]].
  - eapply of_static with (m0 := m0) (p := stripSlash (tm_frame m0)); [apply Lk; [exact A|exact P]| | |exact Q]; [destruct S0 as (a & H & _); exact (Sn _ _ _ H)|apply Lk; [exists true; exact S0|reflexivity]].
  - eapply at_its_stamp; [apply Lk; [exact A|exact P]|exact T|exact Q].
  - eapply between with (m' := m'); [apply Lk; [exact A|exact P]|apply Lk; [exact A'|exact P']|exact T|exact Q].
  - eapply before_change with (m' := m') (p := stripSlash (tm_frame m')); [apply Lk; [exact A|exact P]|apply Lk; [exact A'|reflexivity]|exact P'|exact T|exact Q].
Qed.
Lemma climbs_links : forall (s : core S) t a ds b, reachable s -> climbs s t a ds b -> leads a ds b /\ forall d, In d ds -> exists nm, link s t nm = Some d.
Proof.
  intros s t a ds b R H. pose proof (reachable_wf _ R) as W. induction H as [n0|n0 d ds m0 L H IH]; [split; [constructor|intros x []]|]. destruct IH as (A & B). split.
  - destruct (link_parent _ _ _ _ W L) as (_ & <- & _). constructor. exact A.
  - intros x [<-|Hx]; [exists n0; exact L|apply B, Hx].
Qed.
Theorem node_reachable : forall warn ct ops j, 0 <= ct < dur_bound -> net_ok ops -> reachable (node_core (net_run warn ct ops) j).
Proof.
  intros warn ct ops j Hct Ok. destruct (node_run warn ct ops j) as (cops & E & Rc). exists ct, cops. split; [exact Hct|]. split; [|exact E].
  apply Forall_forall. intros [m a st|] H; [|exact I]. eapply Ok, (all_received_sent warn ct ops) with (j := j), (Rc m a st H).
Qed.

(** ** two nodes that received the same transforms *)
Definition delivered (ops : list (core_op S)) (m : tmsg) (st : bool) : Prop := exists a, In (OSet m a st) ops.
Definition all_sets (ops : list (core_op S)) : Prop := forall o, In o ops -> exists m a st, o = OSet m a st.
Lemma offers_iff : forall nm (ops : list (core_op S)) x, all_sets ops ->
  In x (offers nm ops) <-> exists m st, delivered ops m st /\ bad_message (strip_msg m) = false /\ stripSlash (tm_child m) = nm /\ x = sample_of (strip_msg m).
Proof.
  intros nm ops x Al. unfold offers. rewrite in_flat_map. split.
  - intros (o & Ho & Hx). destruct (Al o Ho) as (m & a & st & ->). destruct (bad_message (strip_msg m)) eqn:B; [destruct Hx|]. cbn [negb andb] in Hx.
    destruct (String.eqb_spec (tm_child (strip_msg m)) nm) as [E|]; [|destruct Hx]. destruct Hx as [<-|[]]. exists m, st. split; [exists a; exact Ho|]. split; [exact B|]. split; [exact E|reflexivity].
  - intros (m & st & (a & Ho) & B & E & ->). exists (OSet m a st). split; [exact Ho|]. rewrite B. cbn [negb andb]. change (tm_child (strip_msg m)) with (stripSlash (tm_child m)). rewrite (proj2 (String.eqb_eq _ _) E). left. reflexivity.
Qed.
Definition matters (nm : string) (o : core_op S) : bool :=
  match o with OSet m _ _ => negb (bad_message (strip_msg m)) && String.eqb (stripSlash (tm_child m)) nm | OClear => true end.
Lemma matters_fold : forall ct nm (ops : list (core_op S)) h, fold_left (frame_step ct nm) ops h = fold_left (frame_step ct nm) (filter (matters nm) ops) h.
Proof.
  intros ct nm. induction ops as [|o ops IH]; intros h; [reflexivity|]. cbn [fold_left filter]. destruct (matters nm o) eqn:E; [cbn [fold_left]; apply IH|]. rewrite <- IH. f_equal.
  destruct o as [m a st|]; [|discriminate E]. cbn [frame_step]. cbn [matters] in E. destruct (bad_message (strip_msg m)); [reflexivity|]. cbn [negb andb] in E. change (tm_child (strip_msg m)) with (stripSlash (tm_child m)). rewrite E. reflexivity.
Qed.
Lemma about_sets : forall nm (ops : list (core_op S)) m a st, In (OSet m a st) (filter (matters nm) ops) <-> In (OSet m a st) ops /\ bad_message (strip_msg m) = false /\ stripSlash (tm_child m) = nm.
Proof.
  intros nm ops m a st. rewrite filter_In. cbn [matters]. split; intros (A & B); (split; [exact A|]).
  - apply andb_true_iff in B as (B & C). split; [apply negb_true_iff, B|apply String.eqb_eq, C].
  - destruct B as (B & C). apply andb_true_iff. split; [apply negb_true_iff, B|apply String.eqb_eq, C].
Qed.
Lemma static_fold : forall ct nm x (ops : list (core_op S)) h, (forall o, In o ops -> exists m a, o = OSet m a true /\ bad_message (strip_msg m) = false /\ stripSlash (tm_child m) = nm /\ sample_of (strip_msg m) = x) ->
  (h = None \/ exists o, h = Some (Static o)) -> ops <> [] -> fold_left (frame_step ct nm) ops h = Some (Static (Some x)).
Proof.
  intros ct nm x. induction ops as [|o ops IH]; intros h Al Hh Ne; [destruct (Ne eq_refl)|]. destruct (Al o (or_introl eq_refl)) as (m & a & -> & B & C & X). cbn [fold_left frame_step]. rewrite B.
  change (tm_child (strip_msg m)) with (stripSlash (tm_child m)). rewrite (proj2 (String.eqb_eq _ _) C).
  assert (E : Some (fst (insertData (match h with Some c => c | None => if true then Static None else Dynamic ct [] end) (sample_of (strip_msg m)))) = Some (Static (Some x))) by (destruct Hh as [->|(o & ->)]; cbn [insertData fst]; rewrite X; reflexivity).
  rewrite E. destruct ops as [|o2 ops]; [reflexivity|]. apply IH; [intros o Ho; apply Al; right; exact Ho|right; eauto|discriminate].
Qed.
Lemma retained_same : forall max (xs ys : list (storage S string)), (forall x, In x xs <-> In x ys) ->
  (forall x y, In x xs -> In y xs -> st_stamp x = st_stamp y -> x = y) -> forall x, retained max xs x -> retained max ys x.
Proof.
  intros max xs ys Sm U x ((b & a & E & D) & W).
  assert (Hx : In x xs) by (rewrite E; apply in_app_iff; right; left; reflexivity). split; [|intros y Hy; apply W, Sm, Hy].
  assert (F : forall zs, In x zs -> (forall y, In y zs -> In y xs) -> exists b' a', zs = b' ++ x :: a' /\ forall y, In y b' -> st_stamp y <> st_stamp x).
  { induction zs as [|z zs IH]; intros Hz Sub; [destruct Hz|]. destruct (Z.eq_dec (st_stamp z) (st_stamp x)) as [Ez|Nz].
    - assert (z = x) as -> by (apply U; [apply Sub; left; reflexivity|exact Hx|exact Ez]). exists [], zs. split; [reflexivity|intros y []].
    - destruct Hz as [->|Hz]; [destruct (Nz eq_refl)|]. destruct (IH Hz (fun y Hy => Sub y (or_intror Hy))) as (b' & a' & -> & D'). exists (z :: b'), a'. split; [reflexivity|]. intros y [<-|Hy]; [exact Nz|apply D', Hy]. }
  apply F; [apply Sm, Hx|intros y Hy; apply Sm, Hy].
Qed.
Lemma dynamic_same : forall max (xs ys : list (storage S string)), 0 <= max -> stamps_ok max xs -> stamps_ok max ys -> (forall x, In x xs <-> In x ys) ->
  (forall x y, In x xs -> In y xs -> st_stamp x = st_stamp y -> x = y) -> offer_all (Dynamic max []) xs = offer_all (Dynamic max []) ys.
Proof.
  intros max xs ys Hm Ox Oy Sm U. destruct (offer_all_retained max xs Hm Ox) as (l1 & -> & N1 & I1). destruct (offer_all_retained max ys Hm Oy) as (l2 & -> & N2 & I2).
  f_equal. apply nf_ext; [exact N1|exact N2|]. intros x. rewrite I1, I2. split; apply retained_same; try assumption; [intros y; symmetry; apply Sm|].
  intros y z Hy Hz. apply U; apply Sm; assumption.
Qed.
Definition agree_sets (ops ops' : list (core_op S)) : Prop := forall m st, bad_message (strip_msg m) = false -> (delivered ops m st <-> delivered ops' m st).
Definition one_story (ops : list (core_op S)) : Prop := forall m st m' st', delivered ops m st -> delivered ops m' st' -> bad_message (strip_msg m) = false -> bad_message (strip_msg m') = false ->
  stripSlash (tm_child m) = stripSlash (tm_child m') -> st = st' /\ (st = true \/ tm_stamp m = tm_stamp m' -> strip_msg m = strip_msg m').
Definition range_ops (ct : duration) (ops : list (core_op S)) : Prop := forall m st, delivered ops m st -> in_range ct m.
Lemma hist_agree : forall ct nm (ops ops' : list (core_op S)), 0 <= ct < dur_bound -> all_sets ops -> all_sets ops' -> range_ops ct ops -> range_ops ct ops' -> agree_sets ops ops' -> one_story ops ->
  fold_left (frame_step ct nm) ops None = fold_left (frame_step ct nm) ops' None.
Proof.
  intros ct nm ops ops' Hct Al Al' R R' Ag U. rewrite matters_fold, (matters_fold ct nm ops').
  set (f := filter (matters nm) ops). set (f' := filter (matters nm) ops').
  assert (Sub : forall (o : list (core_op S)), all_sets o -> all_sets (filter (matters nm) o)) by (intros o A x Hx; apply A; apply filter_In in Hx as (Hx & _); exact Hx).
  pose proof (Sub ops Al) as Af. pose proof (Sub ops' Al') as Af'. fold f in Af. fold f' in Af'.
  assert (D : forall m st, delivered f m st <-> delivered ops m st /\ bad_message (strip_msg m) = false /\ stripSlash (tm_child m) = nm) by (intros m st; split; [intros (a & H); apply about_sets in H as (H & X); split; [exists a; exact H|exact X]|intros ((a & H) & X); exists a; apply about_sets; split; assumption]).
  assert (D' : forall m st, delivered f' m st <-> delivered ops' m st /\ bad_message (strip_msg m) = false /\ stripSlash (tm_child m) = nm) by (intros m st; split; [intros (a & H); apply about_sets in H as (H & X); split; [exists a; exact H|exact X]|intros ((a & H) & X); exists a; apply about_sets; split; assumption]).
  assert (DD : forall m st, delivered f m st <-> delivered f' m st) by (intros m st; rewrite D, D'; split; intros (A & B & C); (split; [apply (Ag m st B), A|split; assumption])).
  assert (Uf : forall m st m' st', delivered f m st -> delivered f m' st' -> st = st' /\ (st = true \/ tm_stamp m = tm_stamp m' -> strip_msg m = strip_msg m')).
  { intros m st m' st' H H'. apply D in H as (H & B & C). apply D in H' as (H' & B' & C'). apply U; try assumption. congruence. }
  assert (Rf : forall m st, delivered f m st -> in_range ct m) by (intros m st H; apply D in H as (H & _); eapply R, H).
  assert (Wf : forall m st, delivered f m st -> bad_message (strip_msg m) = false /\ stripSlash (tm_child m) = nm) by (intros m st H; apply D in H as (_ & X); exact X).
  clear D D' Sub U R R' Ag Al Al'. clearbody f f'. clear ops ops'.
  destruct f as [|o f].
  { destruct f' as [|o f']; [reflexivity|]. exfalso. destruct (Af' o (or_introl eq_refl)) as (m & a & st & ->). destruct (proj2 (DD m st)) as (x & []). exists a. left. reflexivity. }
  destruct (Af o (or_introl eq_refl)) as (m & a & st & ->). assert (D0 : delivered (OSet m a st :: f) m st) by (exists a; left; reflexivity). destruct st.
  - assert (E : forall fs : list (core_op S), all_sets fs -> (forall m0 st0, delivered fs m0 st0 <-> delivered (OSet m a true :: f) m0 st0) -> forall o, In o fs -> exists m0 a0, o = OSet m0 a0 true /\ bad_message (strip_msg m0) = false /\ stripSlash (tm_child m0) = nm /\ sample_of (strip_msg m0) = sample_of (strip_msg m)).
    { intros fs As Df o Ho. destruct (As o Ho) as (m0 & a0 & st0 & ->). assert (D1 : delivered (OSet m a true :: f) m0 st0) by (apply Df; exists a0; exact Ho). destruct (Uf _ _ _ _ D0 D1) as (<- & X). exists m0, a0. split; [reflexivity|]. destruct (Wf _ _ D1) as (B & C). split; [exact B|]. split; [exact C|].
      rewrite (X (or_introl eq_refl)). reflexivity. }
    rewrite (static_fold ct nm (sample_of (strip_msg m)) (OSet m a true :: f) None); [|apply E; [exact Af|intros; tauto]|left; reflexivity|discriminate].
    rewrite (static_fold ct nm (sample_of (strip_msg m)) f' None); [reflexivity|apply E; [exact Af'|intros; symmetry; apply DD]|left; reflexivity|].
    intros ->. apply DD in D0 as (x & []).
  - set (g := OSet m a false :: f) in *.
    assert (Dy : forall fs : list (core_op S), all_sets fs -> (forall m0 st0, delivered fs m0 st0 -> delivered g m0 st0) -> forall o, In o fs -> is_dynamic_set o).
    { intros fs As Df o Ho. destruct (As o Ho) as (m0 & a0 & st0 & ->). cbn. destruct (Uf m false m0 st0 D0 (Df _ _ (ex_intro _ a0 Ho))) as (<- & _). reflexivity. }
    rewrite !fold_offers_none; [|apply Dy; [exact Af'|intros m0 st0; apply DD]|apply Dy; [exact Af|auto]].
    assert (Sm : forall x, In x (offers nm g) <-> In x (offers nm f')).
    { intros x. rewrite !offers_iff by assumption. split; intros (m0 & st0 & A & B); exists m0, st0; (split; [apply DD, A|exact B]). }
    assert (Ok : forall fs : list (core_op S), (forall x, In x (offers nm fs) -> In x (offers nm g)) -> stamps_ok ct (offers nm fs)).
    { intros fs Sx. apply Forall_forall. intros x Hx. apply Sx, offers_iff in Hx as (m0 & st0 & A & _ & _ & ->); [|exact Af]. exact (Rf _ _ A). }
    assert (E : offer_all (Dynamic ct []) (offers nm g) = offer_all (Dynamic ct []) (offers nm f')).
    { apply dynamic_same; [apply Hct|apply Ok; auto|apply Ok; intros x; apply Sm|exact Sm|]. intros x y Hx Hy Es. apply offers_iff in Hx as (m1 & s1 & A1 & _ & _ & ->); [|exact Af]. apply offers_iff in Hy as (m2 & s2 & A2 & _ & _ & ->); [|exact Af].
      destruct (Uf _ _ _ _ A1 A2) as (_ & X). rewrite X; [reflexivity|]. right. exact Es. }
    destruct (offers nm g) as [|x xs], (offers nm f') as [|y ys]; [reflexivity|destruct (proj2 (Sm y) (or_introl eq_refl))|destruct (proj1 (Sm x) (or_introl eq_refl))|rewrite E; reflexivity].
Qed.
Theorem agreement : forall ct (ops ops' : list (core_op S)) tgt src t, 0 <= ct < dur_bound -> all_sets ops -> all_sets ops' -> range_ops ct ops -> range_ops ct ops' -> agree_sets ops ops' -> one_story ops ->
  let s := run (init_core ct) ops in let s' := run (init_core ct) ops' in
  (tgt = src -> t = 0 -> known s tgt) ->
  same_answer (lookupTransform s tgt src t) (lookupTransform s' tgt src t) /\
  canTransform s tgt src t None = canTransform s' tgt src t None /\
  latest_common_time s tgt src = latest_common_time s' tgt src.
Proof.
  intros ct ops ops' tgt src t Hct Al Al' R R' Ag U s s' Hs.
  assert (Fo : forall o : list (core_op S), all_sets o -> range_ops ct o -> Forall op_ok o) by (intros o A B; apply Forall_forall; intros x Hx; destruct (A x Hx) as (m & a & st & ->); exact (proj1 (B m st (ex_intro _ a Hx)))).
  pose proof (Fo ops Al R) as F. pose proof (Fo ops' Al' R') as F'.
  apply same_knowledge; [exists ct, ops; auto|exists ct, ops'; auto| | |exact Hs].
  - intros nm. destruct (string_dec nm NO_PARENT) as [->|Hn]; [unfold s, s'; rewrite !hist_NO_PARENT; [reflexivity|apply wf_run; [apply wf_init; assumption|assumption]..]|].
    unfold s, s'. rewrite !hist_run by assumption. apply hist_agree; assumption.
  - intros nm. unfold s, s'. rewrite !known_run by assumption. rewrite !Exists_exists.
    assert (X : forall o1 o2 : list (core_op S), all_sets o1 -> (forall m st, bad_message (strip_msg m) = false -> delivered o1 m st -> delivered o2 m st) -> (exists o, In o o1 /\ mentions nm o) -> exists o, In o o2 /\ mentions nm o).
    { intros o1 o2 A B (o & Ho & M). destruct (A o Ho) as (m & a & st & ->). destruct (B m st (proj1 M) (ex_intro _ a Ho)) as (a' & H'). exists (OSet m a' st). split; [exact H'|exact M]. }
    split; intros (A & B); (split; [exact A|]); revert B; apply X; try assumption; intros m st Bm; apply (Ag m st Bm).
Qed.
Lemma node_fold : forall warn ct ops j, k_node (net_run warn ct ops) j = fold_left (fun l a => fst (fst (listen warn l a))) (k_got (net_run warn ct ops) j) (init_listener (init_buf ct)).
Proof.
  intros warn ct ops j. induction ops as [|o ops IH] using rev_ind; [reflexivity|]. rewrite run_snoc. destruct o as [who ms|k who ms|who ms|j' i now]; try exact IH. cbn [net_step].
  set (n := net_run warn ct ops) in *. destruct (nth_error (k_topics n) i) as [[[who st] msg]|]; [|exact IH]. cbn [k_node k_got]. unfold update. destruct (Nat.eqb_spec j j') as [<-|]; [|exact IH].
  rewrite fold_left_app, <- IH. reflexivity.
Qed.
Lemma listen_all_fold : forall h warn (l l' : listener) evs, listen_all warn l h = (l', evs, Ok tt) -> fold_left (fun l a => fst (fst (listen warn l a))) h l = l'.
Proof.
  induction h as [|a h IH]; intros warn l l' evs H; cbn [listen_all fold_left] in *; [injection H as -> _; reflexivity|]. destruct (listen warn l a) as [[l1 e1] r1]. destruct r1 as [z|c e|]; [|discriminate H..].
  destruct (listen_all warn l1 h) as [[l2 e2] r2] eqn:E. injection H as <- _ ->. exact (IH _ _ _ _ E).
Qed.
Lemma steady_short : forall (h : list (arrival S)) last, ~ goes_back last h -> short_jumps last h.
Proof. induction h as [|a h IH]; intros last N; [exact I|]. cbn [goes_back short_jumps] in *. split; [|apply IH; tauto]. assert (last <= a_now a) by (destruct (Z_lt_le_dec (a_now a) last); [tauto|assumption]). unfold dur_bound. lia. Qed.
Lemma calls_sets : forall (h : list (arrival S)) last m a st, In (RSet m a st) (calls_for_all last h) <-> exists x, In x h /\ a_who x = a /\ a_static x = st /\ In m (a_msg x).
Proof.
  induction h as [|x h IH]; intros last m a st; cbn [calls_for_all]; [split; [intros []|intros (x & [] & _)]|]. rewrite in_app_iff, IH. unfold calls_for. rewrite in_app_iff, in_map_iff. split.
  - intros [[H|(m' & E & Hm)]|(y & Hy & X)]; [destruct (a_now x <? last); [destruct H as [H|[]]; discriminate H|destruct H]| |exists y; split; [right; exact Hy|exact X]]. injection E as -> <- <-. exists x. split; [left; reflexivity|]. auto.
  - intros (y & [<-|Hy] & A & B & C); [left; right; exists m; split; [congruence|exact C]|right; exists y; auto].
Qed.
Lemma calls_only : forall (h : list (arrival S)) last o, In o (calls_for_all last h) -> o = RClear \/ exists m a st, o = RSet m a st.
Proof.
  induction h as [|x h IH]; intros last o H; cbn [calls_for_all] in H; [destruct H|]. apply in_app_iff in H as [H|H]; [|eapply IH, H]. unfold calls_for in H. apply in_app_iff in H as [H|H].
  - destruct (a_now x <? last); [destruct H as [<-|[]]; left; reflexivity|destruct H].
  - apply in_map_iff in H as (m & <- & _). right. eauto.
Qed.
Theorem steady_node : forall warn ct ops j, 0 <= ct < dur_bound -> let got := k_got (net_run warn ct ops) j in
  Forall (arrival_ok ct) got -> ~ goes_back 0 got ->
  exists cops, node_core (net_run warn ct ops) j = run (init_core ct) cops /\ all_sets cops /\ forall m st, delivered cops m st <-> received got m st.
Proof.
  intros warn ct ops j Hct got F N. destruct (listen_all_ok got warn (init_listener (init_buf ct))) as (l' & evs & E).
  { cbn [l_buf init_listener]. exact (proj1 (reach_binv _ (rr_init ct Hct))). }
  { intros p []. }
  { vm_compute. reflexivity. }
  { cbn [l_last init_listener]. split; [apply Z.le_refl|vm_compute; reflexivity]. }
  { exact F. }
  { apply steady_short, N. }
  pose proof (node_fold warn ct ops j) as Nf. fold got in Nf. rewrite (listen_all_fold _ _ _ _ _ E) in Nf. destruct (listen_all_calls _ _ _ _ _ E) as (_ & log & R & _). apply req_run_core in R. cbn [l_buf init_listener l_last b_core init_buf] in R.
  exists (flat_map core_calls (calls_for_all 0 got)). split; [unfold node_core; rewrite Nf; exact R|].
  assert (Only : forall o, In o (calls_for_all 0 got) -> exists m a st, o = RSet m a st).
  { intros o Ho. destruct (calls_only _ _ _ Ho) as [->|X]; [|exact X]. destruct N. apply clears_iff, Ho. }
  split.
  - intros o Ho. apply in_flat_map in Ho as (r & Hr & Ho). destruct (Only r Hr) as (m & a & st & ->). destruct Ho as [<-|[]]. eauto.
  - intros m st. split.
    + intros (a & H). apply in_flat_map in H as (r & Hr & Ho). destruct (Only r Hr) as (m' & a' & st' & ->). destruct Ho as [X|[]]. injection X as -> -> ->. apply calls_sets in Hr as (x & Hx & _ & B & C). exists x. auto.
    + intros (x & Hx & B & C). exists (a_who x). apply in_flat_map. exists (RSet m (a_who x) st). split; [apply calls_sets; exists x; auto|left; reflexivity].
Qed.

Lemma got_published : forall warn ct ops j a, In a (k_got (net_run warn ct ops) j) -> In (a_who a, a_static a, a_msg a) (k_topics (net_run warn ct ops)).
Proof.
  intros warn ct ops j a. induction ops as [|o ops IH] using rev_ind; [intros []|]. rewrite run_snoc. set (n := net_run warn ct ops) in *.
  destruct o as [who ms|k who ms|who ms|j' i now]; try (intros H; cbn [net_step k_topics]; apply in_app_iff; left; exact (IH H)). cbn [net_step].
  destruct (nth_error (k_topics n) i) as [[[who st] msg]|] eqn:E; [|exact IH]. cbn [k_got k_topics]. unfold update. destruct (Nat.eqb_spec j j') as [<-|]; [|exact IH].
  intros H. apply in_app_iff in H as [H|[<-|[]]]; [exact (IH H)|]. exact (nth_error_In _ _ E).
Qed.
Lemma caught_up_receipts : forall warn ct ops j, let n := net_run warn ct ops in caught_up n j ->
  forall m st, received (k_got n j) m st <-> exists who msg, In (who, st, msg) (k_topics n) /\ In m msg.
Proof.
  intros warn ct ops j n C m st. split.
  - intros (a & Ha & <- & Hm). exists (a_who a), (a_msg a). split; [exact (got_published warn ct ops j a Ha)|exact Hm].
  - intros (who & p & H & Hm). destruct (C _ _ _ H) as (a & Ha & A & B). exists a. split; [exact Ha|]. split; [exact A|]. rewrite B. exact Hm.
Qed.
End P.
