(** * Histories of transformable requests *)
From Coq Require Import ZArith Bool List String Lia Permutation.
From Verif Require Import RosTime Scalar LinearMath Cache SpecCache BufferCore SpecCore CoreInv CoreSet Bridge
  LookupBase LookupTheorems History CoreTheorems Requests SpecRequests RequestProofs.
Import ListNotations.
Open Scope Z_scope.
Local Opaque MAX_GRAPH_DEPTH.

Section P.
Context {S : Scalar}.
Notation core := (core S).
Notation buf := (buf S).
Notation req_op := (req_op S).
Implicit Types (s : core) (b : buf) (p : preq) (t : time) (tgt src : string) (o : req_op) (ops : list req_op).

Lemma test_step : forall b b' r, binv b -> testTransformableRequests b = (b', r) ->
  binv b' /\ b_core b' = b_core b /\ b_rq_counter b' = b_rq_counter b /\ b_cbs b' = b_cbs b /\
  exists removed, Permutation (pending b' ++ removed) (pending b) /\
    forall evs, r = Ok evs -> exists srcs others, Permutation (srcs ++ others) removed /\ Forall2 from_request srcs evs /\
      Forall (fun e => registered (b_cbs b) (ev_cb e) = true) evs.
Proof.
  intros b b' r I H. pose proof (reachable_wf _ (bi_core b I)) as W. unfold testTransformableRequests in H.
  destruct (test_loop (List.length (b_reqs b)) (b_core b) (b_cbs b) [] (b_reqs b) []) as [final out] eqn:E.
  inversion H; subst. cbn. destruct (test_loop_sub _ (b_core b) (b_cbs b) [] (b_reqs b) [] _ _ W (bi_ok b I) E) as (F & removed & P & Ho).
  cbn [app] in P. split; [apply binv_sub; [assumption|assumption|]; exists removed; exact P|].
  repeat split. exists removed. split; [exact P|]. intros evs Ev. destruct (Ho evs Ev) as (es & srcs & others & -> & Ps & F2 & Fr).
  exists srcs, others. auto.
Qed.

Lemma forall2_handles : forall srcs evs, Forall2 from_request srcs evs -> map ev_handle evs = map p_handle srcs.
Proof. intros srcs evs H. induction H as [|x y l l' (_ & E & _) _ IH]; [reflexivity|]. cbn. congruence. Qed.
Lemma forall2_in_r : forall {A B} (R : A -> B -> Prop) l l' y, Forall2 R l l' -> In y l' -> exists x, In x l /\ R x y.
Proof. intros A B R l l' y H. induction H; intros []; subst; cbn; eauto. destruct (IHForall2 H1) as (z & Hz & Hr). eauto. Qed.
Lemma NoDup_app_r : forall {A} (l l' : list A), NoDup (l ++ l') -> NoDup l'.
Proof. intros A l l' H. apply (Permutation_NoDup (Permutation_app_comm l l')) in H. eapply NoDup_app_l; eassumption. Qed.
Lemma NoDup_app_disj : forall {A} (l l' : list A) x, NoDup (l ++ l') -> In x l -> In x l' -> False.
Proof.
  intros A. induction l as [|y l IH]; intros l' x H H1 H2; [destruct H1|]. inversion H; subst. destruct H1 as [->|H1].
  - apply H4. apply in_app_iff. auto.
  - eapply IH; eassumption.
Qed.

(** One call. *)
Record step_ok b o b' (a : answer) (evs : list event) : Prop := {
  so_inv : binv b';
  so_ctr : b_rq_counter b <= b_rq_counter b' <= b_rq_counter b + 1;
  so_src : forall e, In e evs -> exists p, In p (pending b) /\ from_request p e /\ registered (b_cbs b) (ev_cb e) = true;
  so_once : NoDup (map ev_handle evs);
  so_gone : forall e p, In e evs -> In p (pending b') -> p_handle p <> ev_handle e;
  so_new : forall p, In p (pending b') -> In p (pending b) \/
    (o = RAddRequest (p_cb p) (p_target p) (p_source p) (p_time p) /\ a = AHandle (Ok (p_handle p)) /\ p_handle p = b_rq_counter b + 1);
  so_add : forall cb tgt src t h, o = RAddRequest cb tgt src t -> a = AHandle (Ok h) -> 1 <= h < uint64 - 1 ->
    In (mkPreq h cb tgt src t) (pending b') /\ h = b_rq_counter b + 1 /\ b_rq_counter b' = h
}.

Lemma quiet_step : forall b o b' a, binv b' -> b_rq_counter b' = b_rq_counter b ->
  (forall p, In p (pending b') -> In p (pending b)) -> (forall cb tgt src t, o <> RAddRequest cb tgt src t) -> step_ok b o b' a [].
Proof.
  intros b o b' a I E H N. constructor; [assumption|lia|intros e []|constructor|intros e p []|auto|].
  intros cb tgt src t h Eo. exfalso. eapply N; eassumption.
Qed.

Lemma step_fact : forall b o b' a evs, binv b -> req_op_ok o -> b_rq_counter b + 1 < uint64 - 1 ->
  req_step b o = (b', a, evs) -> step_ok b o b' a evs.
Proof.
  intros b o b' a evs I Ho Hc H. destruct o as [m au st| | |cb|cb tgt src t|h]; cbn [req_step] in H.
  - unfold set_transform in H. destruct (setTransform (b_core b) m au st) as [s' r] eqn:Es.
    assert (Ecore : step (b_core b) (OSet m au st) = s') by (cbn; rewrite Es; reflexivity).
    assert (Io : op_ok (OSet m au st)) by exact Ho.
    pose proof (binv_core b (OSet m au st) I Io) as I'. pose proof (pending_core b (OSet m au st) (reachable_wf _ (bi_core b I)) Io (bi_ok b I)) as P'.
    rewrite Ecore in I', P'.
    assert (Quiet : forall a', step_ok b (RSet m au st) (with_core b s') a' []).
    { intros a'. apply quiet_step; [exact I'|reflexivity|rewrite P'; auto|discriminate]. }
    destruct r as [[|]|c e|]; try (inversion H; subst; apply Quiet).
    destruct (testTransformableRequests (with_core b s')) as [b2 out] eqn:Et.
    destruct (test_step _ _ _ I' Et) as (I2 & _ & Ec & _ & removed & Pm & Hout).
    rewrite P' in Pm. cbn [b_cbs with_core] in Hout. cbn [b_rq_counter with_core] in Ec.
    assert (Sub : forall p, In p (pending b2) -> In p (pending b)).
    { intros p Hp. eapply Permutation_in; [exact Pm|]. apply in_app_iff. auto. }
    destruct out as [evs'|c e|]; cbn in H; inversion H; subst; try (apply quiet_step; [assumption|assumption|assumption|discriminate]).
    destruct (Hout evs eq_refl) as (srcs & others & Ps & F2 & Fr).
    assert (Pall : Permutation (pending b' ++ srcs ++ others) (pending b)) by (rewrite Ps; exact Pm).
    assert (Nd : NoDup (map p_handle (pending b' ++ srcs ++ others))) by (eapply Permutation_NoDup; [apply Permutation_map; symmetry; exact Pall|apply I]).
    rewrite !map_app in Nd.
    constructor; try assumption.
    + lia.
    + intros e He. destruct (forall2_in_r _ _ _ _ F2 He) as (p & Hp & Hf). exists p. split; [eapply Permutation_in; [exact Pall|]; rewrite !in_app_iff; auto|].
      split; [assumption|]. rewrite Forall_forall in Fr. apply Fr. assumption.
    + rewrite (forall2_handles _ _ F2). apply NoDup_app_r in Nd. apply NoDup_app_l in Nd. assumption.
    + intros e p He Hp E. apply (NoDup_app_disj _ _ (p_handle p) Nd); [apply in_map; assumption|]. apply in_app_iff. left.
      rewrite <- (forall2_handles _ _ F2), E. apply in_map. assumption.
    + intros p Hp. left. apply Sub. assumption.
    + discriminate.
  - inversion H; subst. pose proof (binv_core b OClear I Logic.I) as I'. pose proof (pending_core b OClear (reachable_wf _ (bi_core b I)) Logic.I (bi_ok b I)) as P'.
    cbn [step] in I', P'. apply quiet_step; [exact I'|reflexivity|rewrite P'; auto|discriminate].
  - unfold addTransformableCallback in H. destruct (next_cb_handle _ _ _) as [h|] eqn:E; inversion H; subst; [|apply quiet_step; auto; discriminate].
    apply next_cb_fresh in E as [E1 E2]. apply quiet_step; [|reflexivity|auto|discriminate].
    destruct I. constructor; cbn; try assumption; constructor; assumption.
  - inversion H; subst. apply quiet_step; [|reflexivity| |discriminate].
    + destruct (filter_reqs_sub (b_core b) (fun r => negb (Z.eqb (rq_cb r) cb)) (b_reqs b)) as [rm P].
      pose proof (binv_sub b _ I (incl_Forall (incl_filter _ _) (bi_ok b I)) (ex_intro _ rm P)) as I'. destruct I'. constructor; cbn in *; try assumption.
      * apply NoDup_filter. assumption.
      * eapply incl_Forall; [apply incl_filter|assumption].
    + intros p Hp. unfold pending in *. cbn in Hp. apply in_map_iff in Hp as (r & <- & Hr). apply in_map. apply filter_In in Hr. apply Hr.
  - destruct (addTransformableRequest b cb tgt src t) as [b1 r] eqn:Ea. inversion H; subst. destruct Ho as [Hcb Ht].
    destruct (binv_add b cb tgt src t b' r I Hc Ht Ea) as (I' & Hctr & _ & _ & D).
    destruct D as [[-> N]|(-> & Hctr' & Ep)].
    + constructor; [assumption|lia|intros e []|constructor|intros e p []|auto|].
      intros cb' tgt' src' t' h Eo Ea' Hh. exfalso. apply N. exists h. split; [congruence|assumption].
    + constructor; [assumption|lia|intros e []|constructor|intros e p []| |].
      * intros p Hp. rewrite Ep in Hp. apply in_app_iff in Hp as [Hp|[<-|[]]]; [auto|]. right. cbn. auto.
      * intros cb' tgt' src' t' h Eo Ea' Hh. assert (h = b_rq_counter b + 1) by congruence. subst h. rewrite Ep. split; [|auto].
        inversion Eo; subst. apply in_app_iff. right. cbn. auto.
  - inversion H; subst. apply quiet_step; [|reflexivity| |discriminate].
    + destruct (filter_reqs_sub (b_core b) (fun r => negb (Z.eqb (rq_handle r) (h mod uint32))) (b_reqs b)) as [rm P].
      exact (binv_sub b _ I (incl_Forall (incl_filter _ _) (bi_ok b I)) (ex_intro _ rm P)).
    + intros p Hp. unfold pending in *. cbn in Hp. apply in_map_iff in Hp as (r & <- & Hr). apply in_map. apply filter_In in Hr. apply Hr.
Qed.

Lemma req_run_app : forall ops1 ops2 b, req_run b (ops1 ++ ops2) =
  let '(b1, log1) := req_run b ops1 in let '(b2, log2) := req_run b1 ops2 in (b2, log1 ++ log2).
Proof.
  induction ops1 as [|o ops1 IH]; intros ops2 b; cbn.
  - destruct (req_run b ops2); reflexivity.
  - destruct (req_step b o) as [[b' a] evs]. rewrite IH. destruct (req_run b' ops1) as [b1 log1]. destruct (req_run b1 ops2) as [b2 log2]. reflexivity.
Qed.
Lemma req_run_length : forall ops b, List.length (snd (req_run b ops)) = List.length ops.
Proof.
  induction ops as [|o ops IH]; intros b; [reflexivity|]. cbn. destruct (req_step b o) as [[b' a] evs]. specialize (IH b').
  destruct (req_run b' ops). cbn in *. congruence.
Qed.

(** Every event of a history names a request that was pending at its start or was added during it,
    and every handle fires at most once. *)
Definition added (log : list (entry (S := S))) p : Prop :=
  exists evs, In (RAddRequest (p_cb p) (p_target p) (p_source p) (p_time p), AHandle (Ok (p_handle p)), evs) log.

Lemma run_fact : forall ops b b' log, binv b -> Forall req_op_ok ops -> b_rq_counter b + Z.of_nat (List.length ops) < uint64 - 1 ->
  req_run b ops = (b', log) ->
  binv b' /\ b_rq_counter b <= b_rq_counter b' <= b_rq_counter b + Z.of_nat (List.length ops) /\
  NoDup (map ev_handle (events_of log)) /\
  (forall e, In e (events_of log) -> b_rq_counter b < ev_handle e \/ In (ev_handle e) (map p_handle (pending b))) /\
  (forall p, In p (pending b') -> In p (pending b) \/ (added log p /\ b_rq_counter b < p_handle p)) /\
  (forall e p, In e (events_of log) -> In p (pending b') -> p_handle p <> ev_handle e).
Proof.
  induction ops as [|o ops IH]; intros b b' log I F Hc H.
  - cbn in H. inversion H; subst. cbn. split; [assumption|]. split; [lia|]. split; [constructor|]. split; [contradiction|]. split; [auto|]. contradiction.
  - inversion F; subst. cbn [List.length] in Hc. cbn [req_run] in H. destruct (req_step b o) as [[b1 a] evs] eqn:Es.
    destruct (req_run b1 ops) as [b2 log'] eqn:Er. inversion H; subst.
    assert (Hc1 : b_rq_counter b + 1 < uint64 - 1) by lia.
    pose proof (step_fact b o b1 a evs I H2 Hc1 Es) as K. destruct K.
    destruct (IH b1 b' log' so_inv0 H3 ltac:(lia) Er) as (I' & Hctr & Nd & Src & New & Gone).
    split; [assumption|]. split; [cbn [List.length]; lia|].
    assert (Hin : forall h, In h (map ev_handle evs) -> In h (map p_handle (pending b))).
    { intros h Hh. apply in_map_iff in Hh as (e & <- & He). destruct (so_src0 e He) as (p & Hp & (_ & -> & _) & _). apply in_map. assumption. }
    assert (Hold : forall h, In h (map p_handle (pending b)) -> 1 <= h <= b_rq_counter b).
    { intros h Hh. apply in_map_iff in Hh as (p & <- & Hp). pose proof (bi_range b I) as R. rewrite Forall_forall in R. apply R. assumption. }
    assert (Later : forall h, In h (map p_handle (pending b1)) -> In h (map p_handle (pending b)) \/ b_rq_counter b < h).
    { intros h Hh. apply in_map_iff in Hh as (p & <- & Hp). destruct (so_new0 p Hp) as [Hp'|(_ & _ & E)]; [left; apply in_map; assumption|right; lia]. }
    split; [|split; [|split]].
    + change (events_of ((o, a, evs) :: log')) with (evs ++ events_of log'). rewrite map_app.
      assert (D : forall h, In h (map ev_handle evs) -> In h (map ev_handle (events_of log')) -> False).
      { intros h H4 H5. pose proof (Hold h (Hin h H4)) as R. apply in_map_iff in H5 as (e & E & He). destruct (Src e He) as [L|L]; [lia|].
        rewrite E in L. apply in_map_iff in H4 as (e0 & E0 & He0). apply in_map_iff in L as (p & Ep & Hp). apply (so_gone0 e0 p He0 Hp). congruence. }
      clear - so_once0 Nd D. revert so_once0 D. generalize (map ev_handle evs). induction l as [|x l IH]; intros N D; [assumption|].
      inversion N; subst. cbn. constructor.
      * rewrite in_app_iff. intros [Hx|Hx]; [auto|]. apply (D x); cbn; auto.
      * apply IH; [assumption|]. intros h H1' H2'. apply (D h); cbn; auto.
    + intros e He. change (events_of ((o, a, evs) :: log')) with (evs ++ events_of log') in He. apply in_app_iff in He as [He|He].
      * right. apply Hin. apply in_map. exact He.
      * destruct (Src e He) as [L|L]; [left; lia|]. apply Later in L as [L|L]; auto.
    + intros p Hp. destruct (New p Hp) as [Hp1|[[evs' Ha] L]].
      * destruct (so_new0 p Hp1) as [Hp2|(-> & -> & E)]; [auto|]. right. split; [exists evs; left; reflexivity|lia].
      * right. split; [exists evs'; right; assumption|lia].
    + intros e p He Hp. change (events_of ((o, a, evs) :: log')) with (evs ++ events_of log') in He. apply in_app_iff in He as [He|He]; [|eapply Gone; eassumption].
      destruct (New p Hp) as [Hp1|[_ L]]; [eapply so_gone0; eassumption|].
      intros E. assert (X : In (ev_handle e) (map ev_handle evs)) by (apply in_map; assumption). apply Hin, Hold in X. lia.
Qed.

(** ** handles stay dead *)
Lemma stays_dead : forall ops b b' log h, binv b -> Forall req_op_ok ops -> b_rq_counter b + Z.of_nat (List.length ops) < uint64 - 1 ->
  req_run b ops = (b', log) -> h <= b_rq_counter b -> ~ In h (map p_handle (pending b)) ->
  (forall e, In e (events_of log) -> ev_handle e <> h) /\ ~ In h (map p_handle (pending b')).
Proof.
  intros ops b b' log h I F Hc H Hh N. destruct (run_fact ops b b' log I F Hc H) as (_ & _ & _ & Src & New & _). split.
  - intros e He <-. destruct (Src e He) as [L|L]; [lia|contradiction].
  - intros Hin. apply in_map_iff in Hin as (p & E & Hp). destruct (New p Hp) as [Hp'|[_ L]]; [|lia].
    apply N. rewrite <- E. apply in_map. assumption.
Qed.

Lemma cancel_removes : forall b h, 0 <= h < uint32 -> ~ In h (map p_handle (pending (cancelTransformableRequest b h))).
Proof.
  intros b h Hh Hin. apply in_map_iff in Hin as (p & E & Hp). unfold pending in Hp. cbn in Hp. apply in_map_iff in Hp as (r & <- & Hr).
  apply filter_In in Hr as [_ Hr]. rewrite Z.mod_small in Hr by assumption. cbn in E. rewrite E, Z.eqb_refl in Hr. discriminate.
Qed.

(** ** deregistered callbacks stay silent *)
Lemma unregistered_step : forall b o b' a evs cb, binv b -> req_op_ok o -> b_rq_counter b + 1 < uint64 - 1 ->
  req_step b o = (b', a, evs) -> ~ In cb (b_cbs b) -> (o <> RAddCallback \/ a <> ACallback (Some cb)) ->
  (forall e, In e evs -> ev_cb e <> cb) /\ ~ In cb (b_cbs b').
Proof.
  intros b o b' a evs cb I Ho Hc H N D. split.
  - intros e He <-. destruct (so_src _ _ _ _ _ (step_fact b o b' a evs I Ho Hc H) e He) as (p & _ & _ & R). apply registered_In in R. auto.
  - destruct o as [m au st| | |c|c tgt src t|h]; cbn [req_step] in H.
    + unfold set_transform in H. destruct (setTransform (b_core b) m au st) as [s' r].
      destruct r as [[|]|cl e|]; try (inversion H; subst; exact N).
      unfold testTransformableRequests in H. destruct (test_loop _ _ _ _ _ _) as [f r]. inversion H; subst. exact N.
    + inversion H; subst. exact N.
    + unfold addTransformableCallback in H. destruct (next_cb_handle _ _ _) as [k|] eqn:E; inversion H; subst; [|exact N].
      cbn. intros [->|Hin]; [|auto]. destruct D; congruence.
    + inversion H; subst. cbn. intros Hin. apply filter_In in Hin. tauto.
    + destruct (addTransformableRequest b c tgt src t) as [b1 r] eqn:Ea. inversion H; subst. destruct Ho as [_ Ht].
      destruct (binv_add b c tgt src t b' r I Hc Ht Ea) as (_ & _ & _ & -> & _). exact N.
    + inversion H; subst. exact N.
Qed.
Lemma unregistered_run : forall ops b b' log cb, binv b -> Forall req_op_ok ops -> b_rq_counter b + Z.of_nat (List.length ops) < uint64 - 1 ->
  req_run b ops = (b', log) -> ~ In cb (b_cbs b) -> (forall evs, ~ In (RAddCallback, ACallback (Some cb), evs) log) ->
  forall e, In e (events_of log) -> ev_cb e <> cb.
Proof.
  induction ops as [|o ops IH]; intros b b' log cb I F Hc H N D e He.
  - cbn in H. inversion H; subst. destruct He.
  - inversion F; subst. cbn [List.length] in Hc. cbn [req_run] in H. destruct (req_step b o) as [[b1 a] evs] eqn:Es.
    destruct (req_run b1 ops) as [b2 log'] eqn:Er. inversion H; subst.
    assert (Hc1 : b_rq_counter b + 1 < uint64 - 1) by lia.
    pose proof (step_fact b o b1 a evs I H2 Hc1 Es) as K.
    assert (D1 : o <> RAddCallback \/ a <> ACallback (Some cb)).
    { destruct o; try (left; discriminate). right. intros ->. apply (D evs). left. reflexivity. }
    destruct (unregistered_step b o b1 a evs cb I H2 Hc1 Es N D1) as [S1 S2].
    change (events_of ((o, a, evs) :: log')) with (evs ++ events_of log') in He. apply in_app_iff in He as [He|He]; [apply S1; exact He|].
    eapply (IH b1 b' log' cb); try eassumption; [apply K|destruct K; lia|]. intros ev Hin. apply (D ev). right. assumption.
Qed.

(** ** a fresh callback handle exists *)
Lemma next_cb_some : forall cbs fuel ctr, 0 <= ctr < uint32 -> (List.length cbs < fuel)%nat -> Z.of_nat fuel <= uint32 ->
  exists h, next_cb_handle fuel cbs ctr = Some h.
Proof.
  intros cbs fuel ctr Hc Hl Hf.
  assert (G : forall fuel k, 0 <= k -> next_cb_handle fuel cbs ((ctr + k) mod uint32) = None ->
    forall i, (i < fuel)%nat -> In ((ctr + k + 1 + Z.of_nat i) mod uint32) cbs).
  { clear. induction fuel as [|f IH]; intros k Hk H i Hi; [lia|]. cbn [next_cb_handle] in H.
    replace (((ctr + k) mod uint32 + 1) mod uint32) with ((ctr + (k + 1)) mod uint32) in H
      by (rewrite Zplus_mod_idemp_l; f_equal; lia).
    destruct (registered cbs ((ctr + (k + 1)) mod uint32)) eqn:E; [|discriminate].
    destruct i as [|i].
    - apply registered_In in E. replace (ctr + k + 1 + Z.of_nat 0) with (ctr + (k + 1)) by lia. exact E.
    - replace (ctr + k + 1 + Z.of_nat (Datatypes.S i)) with (ctr + (k + 1) + 1 + Z.of_nat i) by lia. apply (IH (k + 1)); [lia|assumption|lia]. }
  destruct (next_cb_handle fuel cbs ctr) as [h|] eqn:E; [eauto|]. exfalso.
  specialize (G fuel 0 (Z.le_refl 0)). rewrite Z.add_0_r, (Z.mod_small ctr) in G by assumption. specialize (G E).
  set (l := map (fun i => (ctr + 1 + Z.of_nat i) mod uint32) (seq 0 fuel)).
  assert (Nd : NoDup l).
  { unfold l. assert (Hinj : forall i j, (i < fuel)%nat -> (j < fuel)%nat -> (ctr + 1 + Z.of_nat i) mod uint32 = (ctr + 1 + Z.of_nat j) mod uint32 -> i = j).
    { intros i j Hi Hj Eq.
      assert (D : (Z.of_nat i - Z.of_nat j) mod uint32 = 0).
      { replace (Z.of_nat i - Z.of_nat j) with ((ctr + 1 + Z.of_nat i) - (ctr + 1 + Z.of_nat j)) by lia.
        rewrite Zminus_mod, Eq, Z.sub_diag. reflexivity. }
      apply Z.mod_divide in D; [|unfold uint32; lia]. destruct D as [q D].
      assert (q = 0) by nia. lia. }
    apply NoDup_nth_error. intros i j Hi Eq. rewrite map_length, seq_length in Hi.
    assert (Hj : (j < fuel)%nat).
    { destruct (le_lt_dec fuel j) as [L|L]; [|assumption]. exfalso.
      rewrite (proj2 (nth_error_None _ j)) in Eq by (rewrite map_length, seq_length; assumption).
      apply nth_error_None in Eq. rewrite map_length, seq_length in Eq. lia. }
    rewrite !nth_error_map in Eq.
    assert (X : forall i, (i < fuel)%nat -> nth_error (seq 0 fuel) i = Some i).
    { intros k Hk. rewrite (nth_error_nth' _ 0%nat) by (rewrite seq_length; assumption). rewrite seq_nth by assumption. reflexivity. }
    rewrite (X i Hi), (X j Hj) in Eq. cbn in Eq. inversion Eq. apply Hinj; assumption. }
  assert (Inc : incl l cbs).
  { intros x Hx. unfold l in Hx. apply in_map_iff in Hx as (i & <- & Hi). apply in_seq in Hi. apply G. lia. }
  pose proof (NoDup_incl_length Nd Inc) as L. unfold l in L. rewrite map_length, seq_length in L. lia.
Qed.

(** ** a place in the log is a place in the history *)
Lemma log_split : forall ops b b' l1 o a evs l2, req_run b ops = (b', l1 ++ (o, a, evs) :: l2) ->
  exists ops1 ops2 b1 b2, ops = ops1 ++ o :: ops2 /\ req_run b ops1 = (b1, l1) /\ req_step b1 o = (b2, a, evs) /\ req_run b2 ops2 = (b', l2).
Proof.
  induction ops as [|o0 ops IH]; intros b b' l1 o a evs l2 H.
  - cbn in H. destruct l1; discriminate.
  - cbn [req_run] in H. destruct (req_step b o0) as [[b0 a0] e0] eqn:Es. destruct (req_run b0 ops) as [bf log] eqn:Er.
    destruct l1 as [|x l1]; cbn [app] in H.
    + inversion H; subst. exists [], ops, b, b0. repeat split; auto.
    + inversion H; subst. destruct (IH b0 b' l1 o a evs l2 Er) as (o1 & o2 & b1 & b2 & -> & H1 & H2 & H3).
      exists (o0 :: o1), o2, b1, b2. cbn. rewrite Es, H1. repeat split; auto.
Qed.
Lemma cbs_step : forall b o b' a evs cb, req_step b o = (b', a, evs) -> In cb (b_cbs b') ->
  In cb (b_cbs b) \/ (o = RAddCallback /\ a = ACallback (Some cb)).
Proof.
  intros b o b' a evs cb H Hin. destruct o as [m au st| | |c|c tgt src t|h]; cbn [req_step] in H.
  - unfold set_transform in H. destruct (setTransform (b_core b) m au st) as [s' r].
    destruct r as [[|]|cl e|]; try (inversion H; subst; left; exact Hin).
    unfold testTransformableRequests in H. destruct (test_loop _ _ _ _ _ _) as [f r]. inversion H; subst. left. exact Hin.
  - inversion H; subst. left. exact Hin.
  - unfold addTransformableCallback in H. destruct (next_cb_handle _ _ _) as [k|] eqn:E; inversion H; subst; [|left; exact Hin].
    cbn in Hin. destruct Hin as [->|Hin]; auto.
  - inversion H; subst. cbn in Hin. apply filter_In in Hin. tauto.
  - unfold addTransformableRequest in H. destruct (add_check (b_core b) tgt src t) as [[h|i j]|c0 e|]; cbn in H; inversion H; subst; left; exact Hin.
  - inversion H; subst. left. exact Hin.
Qed.
Lemma cbs_run : forall ops b b' log cb, req_run b ops = (b', log) -> In cb (b_cbs b') ->
  In cb (b_cbs b) \/ In (RAddCallback, ACallback (Some cb), []) log.
Proof.
  induction ops as [|o ops IH]; intros b b' log cb H Hin.
  - cbn in H. inversion H; subst. auto.
  - cbn [req_run] in H. destruct (req_step b o) as [[b0 a0] e0] eqn:Es. destruct (req_run b0 ops) as [bf l] eqn:Er. inversion H; subst.
    destruct (IH b0 b' l cb Er Hin) as [Hb|Hl]; [|right; right; exact Hl].
    destruct (cbs_step b o b0 a0 e0 cb Es Hb) as [Hc|[-> ->]]; [auto|]. right. left.
    cbn in Es. destruct (addTransformableCallback b). inversion Es; subst. reflexivity.
Qed.

(** every notification has a cause earlier in the log *)
Lemma caused : forall ct ops b log l1 o a evs l2 e, 0 <= ct < dur_bound -> Forall req_op_ok ops ->
  Z.of_nat (List.length ops) < uint64 - 2 -> req_run (init_buf ct) ops = (b, log) -> log = l1 ++ (o, a, evs) :: l2 -> In e evs ->
  exists p, added l1 p /\ from_request p e /\ In (RAddCallback, ACallback (Some (ev_cb e)), []) l1.
Proof.
  intros ct ops b log l1 o a evs l2 e Hct F Hl H -> He.
  destruct (log_split _ _ _ _ _ _ _ _ H) as (ops1 & ops2 & b1 & b2 & -> & H1 & H2 & _).
  apply Forall_app in F as [F1 F2]. inversion F2 as [|? ? Ho _]; subst. rewrite app_length in Hl. cbn [List.length] in Hl.
  destruct (run_fact ops1 (init_buf ct) b1 l1 (binv_init ct Hct) F1) as (I1 & Hc & _ & _ & New & _); [cbn [b_rq_counter init_buf]; lia|assumption|].
  cbn [b_rq_counter init_buf] in Hc.
  destruct (so_src _ _ _ _ _ (step_fact b1 o b2 a evs I1 Ho ltac:(lia) H2) e He) as (p & Hp & Hf & Hr).
  exists p. destruct (New p Hp) as [[]|[Ha _]]. split; [assumption|]. split; [assumption|].
  apply registered_In in Hr. destruct (cbs_run _ _ _ _ _ H1 Hr) as [[]|]. assumption.
Qed.

Lemma reach_binv : forall b, req_reachable b -> binv b /\ b_rq_counter b < uint64 - 2.
Proof.
  intros b R. induction R as [ct Hct|b o R (I & Hc) Ho Hl].
  - split; [apply binv_init; exact Hct|]. cbn [b_rq_counter init_buf]. unfold uint64. lia.
  - destruct (req_step b o) as [[b' a] evs] eqn:E. cbn [fst] in *.
    split; [apply (so_inv _ _ _ _ _ (step_fact b o b' a evs I Ho ltac:(lia) E))|exact Hl].
Qed.
Lemma reach_run : forall ops b, req_reachable b -> Forall req_op_ok ops -> b_rq_counter b + Z.of_nat (List.length ops) < uint64 - 2 ->
  req_reachable (fst (req_run b ops)).
Proof.
  induction ops as [|o ops IH]; intros b R F Hl; [exact R|]. inversion F as [|? ? Ho F']; subst. cbn [List.length] in Hl. destruct (reach_binv b R) as (I & Hc).
  cbn [req_run]. destruct (req_step b o) as [[b1 a] e] eqn:E. pose proof (so_ctr _ _ _ _ _ (step_fact b o b1 a e I Ho ltac:(lia) E)) as C.
  assert (R1 : req_reachable b1) by (replace b1 with (fst (fst (req_step b o))) by (rewrite E; reflexivity); apply rr_step; [exact R|exact Ho|rewrite E; cbn [fst]; lia]).
  specialize (IH b1 R1 F' ltac:(lia)). destruct (req_run b1 ops). exact IH.
Qed.

(** ** setTransform *)
Lemma step_ct : forall s (o : core_op S), wf s -> op_ok o -> c_cache_time (step s o) = c_cache_time s.
Proof. intros s o W H. apply (run_ct [o] s); [repeat constructor; assumption|assumption]. Qed.

Lemma set_settles : forall b m au st s', binv b -> times_in_range b -> valid_time (tm_stamp m) ->
  setTransform (b_core b) m au st = (s', Ok true) ->
  exists b' evs, set_transform b m au st = (b', Ok (true, evs)) /\ b_core b' = s' /\ b_cbs b' = b_cbs b /\
    Permutation (pending b') (filter (not_due s') (pending b)) /\
    Permutation (map notice_of evs) (flat_map (owed s' (b_cbs b)) (pending b)).
Proof.
  intros b m au st s' I Ht Hm Es. pose proof (reachable_wf _ (bi_core b I)) as W.
  assert (Ecore : step (b_core b) (OSet m au st) = s') by (cbn; rewrite Es; reflexivity).
  assert (Io : op_ok (OSet m au st)) by exact Hm.
  pose proof (binv_core b (OSet m au st) I Io) as I'. pose proof (pending_core b (OSet m au st) W Io (bi_ok b I)) as P'.
  pose proof (step_ct (b_core b) (OSet m au st) W Io) as Ct. rewrite Ecore in I', P', Ct.
  pose proof (reachable_wf _ (bi_core _ I')) as W'. cbn [b_core with_core] in W'.
  destruct (test_loop_spec (List.length (b_reqs b)) s' (b_cbs b) [] (b_reqs b) []) as (final & es & E & F1 & F2 & F3); auto.
  - exact (bi_ok _ I').
  - apply Forall_forall. intros r Hr. pose proof (bi_time b I) as T. rewrite Forall_forall in T.
    specialize (T _ (in_map (view (b_core b)) _ _ Hr)). specialize (Ht _ (in_map (view (b_core b)) _ _ Hr)). cbn in T, Ht.
    split; [apply T|]. rewrite Ct. exact Ht.
  - unfold set_transform. rewrite Es. unfold testTransformableRequests. cbn [b_core b_cbs b_reqs with_core]. rewrite E. cbn [app bind].
    eexists _, es. split; [reflexivity|]. cbn [b_core b_cbs]. split; [reflexivity|]. split; [reflexivity|].
    unfold pending in P' |- *. cbn [b_core b_reqs with_core map app] in *. rewrite P' in F2, F3. auto.
Qed.
Lemma set_rejected : forall b m au st s' r b' out, binv b -> valid_time (tm_stamp m) ->
  setTransform (b_core b) m au st = (s', r) -> r <> Ok true -> set_transform b m au st = (b', out) ->
  pending b' = pending b /\ b_cbs b' = b_cbs b /\ b_core b' = s' /\ forall v evs, out = Ok (v, evs) -> v = false /\ evs = [].
Proof.
  intros b m au st s' r b' out I Hm Es N H.
  pose proof (pending_core b (OSet m au st) (reachable_wf _ (bi_core b I)) Hm (bi_ok b I)) as P'. cbn [step] in P'. rewrite Es in P'. cbn [fst] in P'.
  unfold set_transform in H. rewrite Es in H. destruct r as [[|]|c e|]; [congruence| | |]; inversion H; subst; cbn [b_core b_cbs with_core]; split; auto; split; auto; split; auto; intros v evs E; inversion E; auto.
Qed.

(** ** addTransformableRequest *)
Lemma expired_known : forall s p, expired s p = true -> lookupFrameNumber s (p_target p) <> 0%nat /\ lookupFrameNumber s (p_source p) <> 0%nat.
Proof.
  intros s p E. unfold expired, latest_common_time, getLatestCommonTime in E.
  destruct (Nat.eqb_spec (lookupFrameNumber s (p_source p)) 0) as [E1|E1]; [discriminate|].
  destruct (Nat.eqb_spec (lookupFrameNumber s (p_target p)) 0) as [E2|E2]; [discriminate|]. auto.
Qed.
Lemma add_answers : forall b cb tgt src t, binv b -> b_rq_counter b + 1 < uint64 - 1 -> valid_time t -> t + c_cache_time (b_core b) < time_bound ->
  let old h := expired (b_core b) (mkPreq h cb tgt src t) in
  if (String.eqb tgt src || available (b_core b) tgt src t)%bool then addTransformableRequest b cb tgt src t = (b, Ok 0)
  else if old 0 then addTransformableRequest b cb tgt src t = (b, Ok (uint64 - 1))
  else exists b', addTransformableRequest b cb tgt src t = (b', Ok (b_rq_counter b + 1)) /\ b_core b' = b_core b /\ b_cbs b' = b_cbs b /\
       pending b' = pending b ++ [mkPreq (b_rq_counter b + 1) cb tgt src t].
Proof.
  intros b cb tgt src t I Hc Ht Hr old. pose proof (reachable_wf _ (bi_core b I)) as W. unfold addTransformableRequest, add_check.
  destruct (String.eqb_spec tgt src) as [E|E]; [reflexivity|]. cbn [orb].
  destruct (can_internal_total (b_core b) (lookupFrameNumber (b_core b) tgt) (lookupFrameNumber (b_core b) src) t W (lfn_id_ok _ _ W) (lfn_id_ok _ _ W)) as [v Ev].
  unfold available. rewrite Ev. cbn [bind]. destruct v; [reflexivity|].
  pose proof (too_old_named (b_core b) (mkPreq 0 cb tgt src t) W (proj1 Ht) Hr) as To. cbn [p_target p_source p_time] in To. fold (old 0) in To.
  assert (X : (if (Nat.eqb (lookupFrameNumber (b_core b) tgt) 0 || Nat.eqb (lookupFrameNumber (b_core b) src) 0)%bool then Ok false
               else too_old (b_core b) (lookupFrameNumber (b_core b) tgt) (lookupFrameNumber (b_core b) src) t) = Ok (old 0)).
  { destruct (Nat.eqb_spec (lookupFrameNumber (b_core b) tgt) 0) as [E1|E1]; destruct (Nat.eqb_spec (lookupFrameNumber (b_core b) src) 0) as [E2|E2]; cbn [orb]; try exact To;
    destruct (old 0) eqn:O; try reflexivity; apply expired_known in O; cbn in O; tauto. }
  rewrite X. cbn [bind]. destruct (old 0); [reflexivity|].
  pose proof (push_pending b cb tgt src t I Hc) as P. destruct (push_request _ _ _ _ _ _ _) as [b1 h]. destruct P as (-> & _ & P1 & P2 & P3 & _).
  exists b1. auto.
Qed.
Lemma available_can : forall s tgt src t, wf s -> tgt <> src -> warnFrameId tgt = false -> warnFrameId src = false ->
  (available s tgt src t = true <-> canTransform s tgt src t None = Ok (true, None)).
Proof.
  intros s tgt src t W N W1 W2. unfold available, canTransform, canTransformInternal.
  rewrite (proj2 (String.eqb_neq tgt src) N), W1, W2.
  destruct (can_total s tgt src t W) as [v Hv]. unfold canTransform in Hv. rewrite (proj2 (String.eqb_neq tgt src) N), W1, W2 in Hv.
  destruct (Nat.eqb (lookupFrameNumber s tgt) 0 || Nat.eqb (lookupFrameNumber s src) 0)%bool eqn:Z.
  - unfold canTransformNoLock. rewrite Z. destruct (Nat.eqb (lookupFrameNumber s tgt) 0), (Nat.eqb (lookupFrameNumber s src) 0); cbn in *; split; congruence.
  - rewrite Hv. cbn [bind]. split; [intros ->; reflexivity|congruence].
Qed.

Lemma cb_counter_step : forall b o, 0 <= b_cb_counter b < uint32 -> 0 <= b_cb_counter (fst (fst (req_step b o))) < uint32.
Proof.
  intros b o H. destruct o as [m au st| | |c|c tgt src t|h]; cbn [req_step].
  - unfold set_transform. destruct (setTransform (b_core b) m au st) as [s' [[|]|cl e|]]; try exact H.
    unfold testTransformableRequests. destruct (test_loop _ _ _ _ _ _) as [f r]. exact H.
  - exact H.
  - unfold addTransformableCallback. destruct (next_cb_handle _ _ _) as [k|] eqn:E; [|exact H]. apply next_cb_fresh in E. apply E.
  - exact H.
  - unfold addTransformableRequest. destruct (add_check (b_core b) tgt src t) as [[h|i j]|c0 e|]; exact H.
  - exact H.
Qed.
Lemma cb_counter_run : forall ops b, 0 <= b_cb_counter b < uint32 -> 0 <= b_cb_counter (fst (req_run b ops)) < uint32.
Proof.
  induction ops as [|o ops IH]; intros b H; [exact H|]. cbn [req_run]. pose proof (cb_counter_step b o H) as Hs.
  destruct (req_step b o) as [[b1 a] e]. specialize (IH b1 Hs). destruct (req_run b1 ops). exact IH.
Qed.
Lemma cb_counter_reach : forall b, req_reachable b -> 0 <= b_cb_counter b < uint32.
Proof. intros b R. induction R as [ct Hct|b o R IH Ho Hl]; [cbn; unfold uint32; lia|]. apply cb_counter_step. exact IH. Qed.
End P.
