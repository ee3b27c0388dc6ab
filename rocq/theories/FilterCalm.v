(** * Proofs about the message filter: no message is stranded in calm histories *)
From Coq Require Import ZArith Bool List String Lia Permutation.
From Verif Require Import RosTime Scalar LinearMath Cache SpecCache BufferCore SpecCore CoreInv CoreSet LookupTheorems Requests SpecRequests RequestProofs RequestHistory
  MessageFilter SpecFilter FilterProofs.
Import ListNotations.
Open Scope list_scope.
Open Scope Z_scope.
Local Opaque MAX_GRAPH_DEPTH.

(** ** counting *)
Definition cnt (out hs : list Z) : nat := List.length (filter (fun h => existsb (Z.eqb h) out) hs).
Lemma existsb_In : forall h l, existsb (Z.eqb h) l = true <-> In h l.
Proof.
  intros h l. rewrite existsb_exists. split; [intros (x & Hx & E); apply Z.eqb_eq in E; congruence|]. intros H. exists h. split; [assumption|apply Z.eqb_refl].
Qed.
Lemma existsb_ext_in : forall h l l', (In h l <-> In h l') -> existsb (Z.eqb h) l = existsb (Z.eqb h) l'.
Proof.
  intros h l l' H. destruct (existsb (Z.eqb h) l) eqn:E; destruct (existsb (Z.eqb h) l') eqn:E'; auto.
  - apply existsb_In in E. apply H in E. apply existsb_In in E. congruence.
  - apply existsb_In in E'. apply H in E'. apply existsb_In in E'. congruence.
Qed.
Lemma cnt_ext : forall out out' hs, (forall h, In h hs -> (In h out <-> In h out')) -> cnt out hs = cnt out' hs.
Proof.
  intros out out' hs H. unfold cnt. f_equal. apply filter_ext_in. intros h Hh. apply existsb_ext_in, H, Hh.
Qed.
Lemma cnt_all : forall out hs, (forall h, In h hs -> In h out) -> cnt out hs = List.length hs.
Proof.
  intros out hs H. unfold cnt. induction hs as [|h hs IH]; [reflexivity|]. cbn. rewrite (proj2 (existsb_In h out)) by (apply H; left; reflexivity).
  cbn. f_equal. apply IH. intros k Hk. apply H. right. assumption.
Qed.
Lemma cnt_none : forall out hs, (forall h, In h hs -> ~ In h out) -> cnt out hs = 0%nat.
Proof.
  intros out hs H. unfold cnt. induction hs as [|h hs IH]; [reflexivity|]. cbn. destruct (existsb (Z.eqb h) out) eqn:E.
  - apply existsb_In in E. exfalso. apply (H h); [left; reflexivity|assumption].
  - apply IH. intros k Hk. apply H. right. assumption.
Qed.
Lemma cnt_pos : forall out hs, (0 < cnt out hs)%nat -> exists h, In h hs /\ In h out.
Proof.
  intros out hs H. unfold cnt in H. destruct (filter (fun h => existsb (Z.eqb h) out) hs) as [|h l] eqn:E; [cbn in H; lia|].
  assert (Hin : In h (filter (fun h => existsb (Z.eqb h) out) hs)) by (rewrite E; left; reflexivity).
  apply filter_In in Hin as [H1 H2]. apply existsb_In in H2. eauto.
Qed.
Lemma cnt_hs : forall out k hs, cnt out (k :: hs) = ((if existsb (Z.eqb k) out then 1 else 0) + cnt out hs)%nat.
Proof. intros. unfold cnt. cbn [filter]. destruct (existsb (Z.eqb k) out); reflexivity. Qed.
Lemma cnt_cons_in : forall h out hs, NoDup hs -> In h hs -> ~ In h out -> cnt (h :: out) hs = Datatypes.S (cnt out hs).
Proof.
  intros h out hs N. induction N as [|k hs Nk N IH]; intros Hh Ho; [destruct Hh|]. rewrite !cnt_hs. destruct Hh as [->|Hh].
  - rewrite (proj2 (existsb_In h (h :: out))) by (left; reflexivity). destruct (existsb (Z.eqb h) out) eqn:E; [apply existsb_In in E; contradiction|]. cbn [Nat.add]. f_equal.
    apply (cnt_ext (h :: out) out hs). intros x Hx. split; [intros [<-|X]; [contradiction|assumption]|intros X; right; assumption].
  - rewrite IH by assumption. rewrite (existsb_ext_in k (h :: out) out); [lia|]. split; [intros [<-|X]; [contradiction|assumption]|intros X; right; assumption].
Qed.
Lemma cnt_cons_out : forall h out hs, ~ In h hs -> cnt (h :: out) hs = cnt out hs.
Proof.
  intros h out hs N. apply cnt_ext. intros x Hx. split; [intros [<-|X]; [contradiction|assumption]|intros X; right; assumption].
Qed.

Section P.
Context {S : Scalar}.
Notation filt := (filt S).
Implicit Types (f : filt) (i j : minfo) (o : mf_op S) (b : buf S) (p : preq).

(** ** requests of one add() *)
Lemma add_one : forall b cb tgt src t, binv b -> 0 <= cb < uint32 -> b_rq_counter b + 1 < uint64 - 1 -> valid_time t -> t + c_cache_time (b_core b) < time_bound ->
  exists b' h news, addTransformableRequest b cb tgt src t = (b', Ok h) /\ binv b' /\ b_core b' = b_core b /\ b_cbs b' = b_cbs b /\ b_cb_counter b' = b_cb_counter b /\
    b_rq_counter b <= b_rq_counter b' <= b_rq_counter b + 1 /\ pending b' = pending b ++ news /\
    (h = NEVER_TRANSFORMABLE /\ news = [] \/ h = 0 /\ news = [] \/
     1 <= h < NEVER_TRANSFORMABLE /\ b_rq_counter b < h <= b_rq_counter b' /\ news = [mkPreq h cb tgt src t] /\ tgt <> src).
Proof.
  intros b cb tgt src t I Hcb Hc Ht Hr. pose proof (add_answers b cb tgt src t I Hc Ht Hr) as A. cbn zeta in A.
  assert (Cc : b_cb_counter (fst (addTransformableRequest b cb tgt src t)) = b_cb_counter b).
  { unfold addTransformableRequest. destruct (add_check _ _ _ _) as [[h|x y]| |]; reflexivity. }
  destruct (String.eqb_spec tgt src) as [E|E]; cbn [orb] in A.
  { exists b, 0, []. rewrite app_nil_r. split; [exact A|]. split; [assumption|]. repeat split; auto; try lia. }
  destruct (available (b_core b) tgt src t).
  { exists b, 0, []. rewrite app_nil_r. split; [exact A|]. split; [assumption|]. repeat split; auto; try lia. }
  destruct (expired _ _).
  { exists b, NEVER_TRANSFORMABLE, []. rewrite app_nil_r. split; [exact A|]. split; [assumption|]. repeat split; auto; try lia. }
  destruct A as (b' & A & A1 & A2 & A3). pose proof (bi_counter b I) as C0.
  destruct (step_fact b (RAddRequest cb tgt src t) b' (AHandle (Ok (b_rq_counter b + 1))) [] I) as [F1 F2 _ _ _ _ F3]; [split; assumption|assumption|cbn [req_step]; rewrite A; reflexivity|].
  destruct (F3 cb tgt src t (b_rq_counter b + 1) eq_refl eq_refl) as (_ & _ & F4); [lia|].
  exists b', (b_rq_counter b + 1), [mkPreq (b_rq_counter b + 1) cb tgt src t]. rewrite A in Cc. cbn [fst] in Cc.
  split; [exact A|]. split; [assumption|]. split; [assumption|]. split; [assumption|]. split; [assumption|]. split; [lia|]. split; [assumption|].
  right. right. unfold NEVER_TRANSFORMABLE. split; [lia|]. split; [lia|]. auto.
Qed.

Definition of_message (cb : Z) (targets : list string) (src : string) (tol : duration) (st : time) p : Prop :=
  p_cb p = cb /\ In (p_target p) targets /\ p_source p = src /\ needed_times tol st (p_time p) /\ p_target p <> p_source p.

Lemma add_requests_calm : forall targets b cb src st tol acc, binv b -> 0 <= cb < uint32 ->
  b_rq_counter b + 2 * Z.of_nat (List.length targets) < uint64 - 1 -> 0 <= st -> 0 <= tol -> st + tol + c_cache_time (b_core b) < time_bound ->
  exists b' r news, add_requests b cb src st tol targets acc = (b', Ok r) /\ binv b' /\ b_core b' = b_core b /\ b_cbs b' = b_cbs b /\ b_cb_counter b' = b_cb_counter b /\
    b_rq_counter b <= b_rq_counter b' <= b_rq_counter b + 2 * Z.of_nat (List.length targets) /\ pending b' = pending b ++ news /\
    Forall (fun p => of_message cb targets src tol st p /\ b_rq_counter b < p_handle p <= b_rq_counter b' /\ p_time p <= st + tol) news /\
    (r = None \/ exists n, r = Some (n, snd acc ++ map p_handle news) /\ (n + List.length news = fst acc + List.length targets * per_target tol)%nat).
Proof.
  induction targets as [|tgt rest IH]; intros b cb src st tol acc I Hcb Hc H0 Htol Hr.
  - exists b, (Some acc), []. rewrite app_nil_r. split; [reflexivity|]. split; [assumption|]. cbn. repeat split; auto; try lia. right. exists (fst acc). rewrite app_nil_r. destruct acc. split; [reflexivity|]. cbn. lia.
  - cbn [List.length] in Hc. rewrite Nat2Z.inj_succ in Hc.
    pose proof (wf_ct _ (reachable_wf _ (bi_core b I))) as Ct.
    destruct (add_one b cb tgt src st) as (b1 & h & nw & E1 & I1 & C1 & Cb1 & Cc1 & Ct1 & P1 & D1); [assumption|assumption|lia|split; lia|lia|].
    cbn [add_requests]. rewrite E1.
    assert (F1 : Forall (fun p => of_message cb (tgt :: rest) src tol st p /\ b_rq_counter b < p_handle p <= b_rq_counter b1 /\ p_time p <= st + tol) nw).
    { destruct D1 as [[_ ->]|[[_ ->]|(D1 & D2 & -> & D3)]]; [constructor|constructor|]. constructor; [|constructor]. cbn. split; [|split; lia].
      repeat split; cbn; auto. left. reflexivity. }
    assert (A1 : note_answer h acc = None \/ exists a1, note_answer h acc = Some a1 /\ snd a1 = snd acc ++ map p_handle nw /\ (fst a1 + List.length nw = fst acc + 1)%nat).
    { unfold note_answer. destruct D1 as [[-> ->]|[[-> ->]|(D1 & D2 & -> & D3)]].
      - left. rewrite Z.eqb_refl. reflexivity.
      - right. exists (Datatypes.S (fst acc), snd acc). split; [reflexivity|]. cbn. rewrite app_nil_r. split; [reflexivity|lia].
      - right. rewrite (proj2 (Z.eqb_neq _ _)) by lia. rewrite (proj2 (Z.eqb_neq _ _)) by lia. eexists. split; [reflexivity|]. cbn. split; [reflexivity|lia]. }
    destruct A1 as [->|(a1 & -> & A1s & A1n)].
    { exists b1, None, nw. split; [reflexivity|]. cbn [List.length]. rewrite Nat2Z.inj_succ. split; [assumption|]. split; [assumption|]. split; [assumption|]. split; [assumption|]. split; [lia|]. auto. }
    unfold per_target in *. destruct (Z.eqb_spec tol 0) as [T|T].
    + destruct (IH b1 cb src st tol a1) as (b' & r & news & E & I' & C' & Cb' & Cc' & Ct' & P' & F' & R'); [assumption|assumption|lia|lia|lia|rewrite C1; lia|].
      exists b', r, (nw ++ news). split; [exact E|]. split; [assumption|]. split; [congruence|]. split; [congruence|]. split; [congruence|]. cbn [List.length]. rewrite Nat2Z.inj_succ. split; [lia|].
      split; [rewrite P', P1, app_assoc; reflexivity|]. split.
      * apply Forall_app. split; [eapply Forall_impl; [|exact F1]; cbn; intros p (X1 & X2 & X3); split; [exact X1|split; [lia|exact X3]]|].
        eapply Forall_impl; [|exact F']. cbn. intros p ((X1 & X2 & X3) & X4 & X5). split; [|split; [lia|exact X5]]. split; [exact X1|]. split; [right; exact X2|exact X3].
      * destruct R' as [->|(n & -> & Rn)]; [left; reflexivity|]. right. exists n. rewrite A1s, map_app, app_assoc. split; [reflexivity|]. rewrite app_length. rewrite (proj2 (Z.eqb_eq tol 0) T) in Rn. lia.
    + unfold time_add, valid_timeb. rewrite (proj2 (Z.leb_le 0 (st + tol))) by lia. rewrite (proj2 (Z.ltb_lt (st + tol) time_bound)) by lia. cbn [andb].
      destruct (add_one b1 cb tgt src (st + tol)) as (b2 & h2 & nw2 & E2 & I2 & C2 & Cb2 & Cc2 & Ct2 & P2 & D2); [assumption|assumption|lia|split; lia|rewrite C1; lia|].
      rewrite E2.
      assert (F2 : Forall (fun p => of_message cb (tgt :: rest) src tol st p /\ b_rq_counter b < p_handle p <= b_rq_counter b2 /\ p_time p <= st + tol) nw2).
      { destruct D2 as [[_ ->]|[[_ ->]|(D2 & D3 & -> & D4)]]; [constructor|constructor|]. constructor; [|constructor]. cbn. split; [|split; lia].
        repeat split; cbn; auto. right. split; [assumption|]. unfold time_add, valid_timeb. rewrite (proj2 (Z.leb_le 0 (st + tol))) by lia. rewrite (proj2 (Z.ltb_lt (st + tol) time_bound)) by lia. reflexivity. }
      assert (F1' : Forall (fun p => of_message cb (tgt :: rest) src tol st p /\ b_rq_counter b < p_handle p <= b_rq_counter b2 /\ p_time p <= st + tol) (nw ++ nw2)).
      { apply Forall_app. split; [|exact F2]. eapply Forall_impl; [|exact F1]. cbn. intros p (X1 & X2 & X3). split; [exact X1|split; [lia|exact X3]]. }
      assert (A2 : note_answer h2 a1 = None \/ exists a2, note_answer h2 a1 = Some a2 /\ snd a2 = snd a1 ++ map p_handle nw2 /\ (fst a2 + List.length nw2 = fst a1 + 1)%nat).
      { unfold note_answer. destruct D2 as [[-> ->]|[[-> ->]|(D2 & D3 & -> & D4)]].
        - left. rewrite Z.eqb_refl. reflexivity.
        - right. exists (Datatypes.S (fst a1), snd a1). split; [reflexivity|]. cbn. rewrite app_nil_r. split; [reflexivity|lia].
        - right. rewrite (proj2 (Z.eqb_neq _ _)) by lia. rewrite (proj2 (Z.eqb_neq _ _)) by lia. eexists. split; [reflexivity|]. cbn. split; [reflexivity|lia]. }
      destruct A2 as [->|(a2 & -> & A2s & A2n)].
      { exists b2, None, (nw ++ nw2). split; [reflexivity|]. cbn [List.length]. rewrite Nat2Z.inj_succ. split; [assumption|]. split; [congruence|]. split; [congruence|]. split; [congruence|]. split; [lia|].
        split; [rewrite P2, P1, app_assoc; reflexivity|]. auto. }
      destruct (IH b2 cb src st tol a2) as (b' & r & news & E & I' & C' & Cb' & Cc' & Ct' & P' & F' & R'); [assumption|assumption|lia|lia|lia|rewrite C2, C1; lia|].
      exists b', r, ((nw ++ nw2) ++ news). split; [exact E|]. split; [assumption|]. split; [congruence|]. split; [congruence|]. split; [congruence|]. cbn [List.length]. rewrite Nat2Z.inj_succ. split; [lia|].
      split; [rewrite P', P2, P1, !app_assoc; reflexivity|]. split.
      * apply Forall_app. split; [eapply Forall_impl; [|exact F1']; cbn; intros p (X1 & X2 & X3); split; [exact X1|split; [lia|exact X3]]|].
        eapply Forall_impl; [|exact F']. cbn. intros p ((X1 & X2 & X3) & X4 & X5). split; [|split; [lia|exact X5]]. split; [exact X1|]. split; [right; exact X2|exact X3].
      * destruct R' as [->|(n & -> & Rn)]; [left; reflexivity|]. right. exists n. rewrite A2s, A1s, !map_app, !app_assoc. split; [reflexivity|]. rewrite !app_length. rewrite (proj2 (Z.eqb_neq tol 0) T) in Rn. lia.
Qed.

(** ** callbacks *)
Record flow f (out : list Z) : Prop := {
  fl_nodup : NoDup (flat_map mi_handles (f_msgs f));
  fl_count : forall i, In i (f_msgs f) -> (mi_success i + cnt out (mi_handles i) = f_expected f)%nat /\ (mi_success i < f_expected f)%nat
}.
Definition same_msg i j : Prop := mi_seq i = mi_seq j /\ mi_frame i = mi_frame j /\ mi_stamp i = mi_stamp j /\ mi_handles i = mi_handles j.
Lemma same_refl : forall i, same_msg i i.
Proof. intros i. repeat split. Qed.
Lemma same_trans : forall i j k, same_msg i j -> same_msg j k -> same_msg i k.
Proof. intros i j k (A1 & A2 & A3 & A4) (B1 & B2 & B3 & B4). unfold same_msg. intuition congruence. Qed.

Lemma flat_map_mid : forall l1 i l2, flat_map mi_handles (l1 ++ i :: l2) = flat_map mi_handles l1 ++ mi_handles i ++ flat_map mi_handles l2.
Proof. intros. rewrite flat_map_app. reflexivity. Qed.
Lemma others_lack : forall l1 i l2 h j, NoDup (flat_map mi_handles (l1 ++ i :: l2)) -> In h (mi_handles i) -> In j (l1 ++ l2) -> ~ In h (mi_handles j).
Proof.
  intros l1 i l2 h j N Hh Hj Hhj. rewrite flat_map_mid in N. apply in_app_iff in Hj as [Hj|Hj].
  - apply (NoDup_app_disj _ _ h N); [apply in_flat_map; eauto|]. apply in_app_iff. auto.
  - apply NoDup_app_r in N. apply (NoDup_app_disj _ _ h N Hh). apply in_flat_map. eauto.
Qed.
Lemma mid_nodup : forall l1 i l2, NoDup (flat_map mi_handles (l1 ++ i :: l2)) -> NoDup (mi_handles i) /\ NoDup (flat_map mi_handles (l1 ++ l2)).
Proof.
  intros l1 i l2 N. rewrite flat_map_mid in N. split.
  - apply NoDup_app_r in N. apply RequestProofs.NoDup_app_l in N. assumption.
  - rewrite flat_map_app. apply (Permutation_NoDup (Permutation_app_comm _ _)) in N. rewrite <- app_assoc in N.
    apply NoDup_app_r in N. apply (Permutation_NoDup (Permutation_app_comm _ _)) in N. assumption.
Qed.

Definition asks f i : res bool := still_can (b_core (f_buf f)) (f_targets f) (stripSlash (mi_frame i)) (mi_stamp i) (f_tol f).

Lemma transformable_flow : forall f h out r, flow f (h :: out) -> ~ In h out -> (forall i, In i (f_msgs f) -> exists v, asks f i = Ok v) ->
  exists f', mf_transformable f h r = (f', Ok tt) /\ flow f' out /\
    f_buf f' = f_buf f /\ f_cb f' = f_cb f /\ f_targets f' = f_targets f /\ f_tol f' = f_tol f /\ f_expected f' = f_expected f /\ f_qsize f' = f_qsize f /\
    (forall j, In j (f_msgs f') -> exists i, In i (f_msgs f) /\ same_msg i j) /\
    (exists new, f_emitted f' = f_emitted f ++ new) /\
    (forall i, In i (f_msgs f) -> (exists j, In j (f_msgs f') /\ same_msg i j) \/
       (In h (mi_handles i) /\ cnt out (mi_handles i) = 0%nat /\
        exists v, In (verdict i v) (f_emitted f') /\ (v = Ready <-> r = TransformAvailable /\ asks f i = Ok true))).
Proof.
  intros f h out r [N C] Ho Ha. unfold mf_transformable. destruct (find_info h (f_msgs f)) as [[[l1 i0] l2]|] eqn:E.
  - apply find_info_split in E as (E & Hh & _). rewrite E in *. pose proof (C i0 (in_elt _ _ _)) as [C1 C2]. destruct (mid_nodup _ _ _ N) as [N1 N2].
    rewrite (cnt_cons_in h out (mi_handles i0) N1 Hh Ho) in C1.
    assert (Co : forall j, In j (l1 ++ l2) -> (mi_success j + cnt out (mi_handles j) = f_expected f)%nat /\ (mi_success j < f_expected f)%nat).
    { intros j Hj. rewrite <- (cnt_cons_out h out) by (eapply others_lack; eassumption). apply C. rewrite in_app_iff in *. cbn. tauto. }
    cbn [mi_success bump]. destruct (Nat.ltb_spec (Datatypes.S (mi_success i0)) (f_expected f)) as [L|L].
    + eexists. split; [reflexivity|]. split.
      { constructor; cbn [f_msgs with_msgs f_expected].
        - rewrite flat_map_mid. rewrite flat_map_mid in N. exact N.
        - intros j Hj. apply in_app_iff in Hj as [Hj|[<-|Hj]]; [apply Co, in_app_iff; auto| |apply Co, in_app_iff; auto]. cbn [mi_success mi_handles bump]. lia. }
      cbn [f_buf f_cb f_targets f_tol f_expected f_qsize f_msgs f_emitted with_msgs]. do 6 (split; [reflexivity|]). split; [|split].
      * intros j Hj. apply in_app_iff in Hj as [Hj|[<-|Hj]]; [exists j|exists i0|exists j]; (split; [rewrite in_app_iff; cbn; tauto|repeat split]).
      * exists []. rewrite app_nil_r. reflexivity.
      * intros i Hi. left. apply in_app_iff in Hi as [Hi|[<-|Hi]]; [exists i|exists (bump i0)|exists i]; (split; [rewrite in_app_iff; cbn; tauto|repeat split]).
    + assert (Z : cnt out (mi_handles i0) = 0%nat) by lia.
      destruct (Ha i0 (in_elt _ _ _)) as [v Hv]. unfold asks in Hv.
      set (can := match r with TransformAvailable => _ | TransformFailure => _ end).
      assert (Hc : exists w, can = Ok w /\ (w = true <-> r = TransformAvailable /\ v = true)).
      { subst can. destruct r.
        - exists v. split; [exact Hv|]. tauto.
        - exists false. split; [reflexivity|]. split; [discriminate|intros [X _]; discriminate]. }
      destruct Hc as (w & -> & Hw).
      exists (with_msgs (emit (with_msgs f (l1 ++ bump i0 :: l2)) (verdict (bump i0) (if w then Ready else Dropped Unknown))) (l1 ++ l2)).
      split; [destruct w; reflexivity|]. split; [constructor; cbn [f_msgs with_msgs f_expected emit]; assumption|].
      cbn [f_buf f_cb f_targets f_tol f_expected f_qsize f_msgs f_emitted with_msgs emit]. do 6 (split; [reflexivity|]). split; [|split].
      * intros j Hj. exists j. split; [rewrite in_app_iff in *; cbn; tauto|repeat split].
      * eauto.
      * intros i Hi. apply in_app_iff in Hi as [Hi|[<-|Hi]]; [left; exists i; split; [apply in_app_iff; auto|repeat split]| |left; exists i; split; [apply in_app_iff; auto|repeat split]].
        right. split; [assumption|]. split; [assumption|]. exists (if w then Ready else Dropped Unknown). split; [apply in_app_iff; right; left; reflexivity|].
        unfold asks. rewrite Hv. destruct w; split; intros X; try discriminate; try reflexivity.
        -- destruct (proj1 Hw eq_refl) as [-> ->]. auto.
        -- destruct X as [X1 X2]. assert (false = true) by (apply Hw; split; [assumption|congruence]). discriminate.
  - pose proof (find_info_none _ _ E) as E'. exists f. split; [reflexivity|]. split.
    { constructor; [assumption|]. intros i Hi. rewrite <- (cnt_cons_out h out) by (apply E'; assumption). apply C. assumption. }
    do 6 (split; [reflexivity|]). split; [|split].
    + intros j Hj. exists j. split; [assumption|apply same_refl].
    + exists []. rewrite app_nil_r. reflexivity.
    + intros i Hi. left. exists i. split; [assumption|apply same_refl].
Qed.

Lemma fire_flow : forall evs f rest read, flow f (map ev_handle evs ++ rest) -> NoDup (map ev_handle evs ++ rest) ->
  (forall i, In i (f_msgs f) -> exists v, asks f i = Ok v) ->
  (forall e i, In e evs -> In i (f_msgs f) -> In (ev_handle e) (mi_handles i) -> ev_cb e = f_cb f) ->
  exists f', fire f evs read = (f', Ok tt) /\ flow f' rest /\
    f_buf f' = f_buf f /\ f_cb f' = f_cb f /\ f_targets f' = f_targets f /\ f_tol f' = f_tol f /\ f_expected f' = f_expected f /\ f_qsize f' = f_qsize f /\
    (forall j, In j (f_msgs f') -> exists i, In i (f_msgs f) /\ same_msg i j) /\
    (exists new, f_emitted f' = f_emitted f ++ new) /\
    (forall i, In i (f_msgs f) -> (exists j, In j (f_msgs f') /\ same_msg i j) \/
       (exists k e v, nth_error evs k = Some e /\ In (ev_handle e) (mi_handles i) /\ cnt rest (mi_handles i) = 0%nat /\
        In (verdict i v) (f_emitted f') /\ (v = Ready <-> read k = TransformAvailable /\ asks f i = Ok true))).
Proof.
  induction evs as [|e evs IH]; intros f rest read F N Ha Hcb.
  - exists f. split; [reflexivity|]. split; [exact F|]. do 6 (split; [reflexivity|]). split; [|split].
    + intros j Hj. exists j. split; [assumption|apply same_refl].
    + exists []. rewrite app_nil_r. reflexivity.
    + intros i Hi. left. exists i. split; [assumption|apply same_refl].
  - cbn [map app] in F, N. inversion N as [|? ? Nh N']; subst. cbn [fire].
    destruct (Z.eqb_spec (ev_cb e) (f_cb f)) as [Ecb|Ecb].
    + destruct (transformable_flow f (ev_handle e) _ (read O) F Nh Ha) as (f1 & -> & F1 & B1 & B2 & B3 & B4 & B5 & B6 & B7 & (nw & B8) & B9).
      assert (As : forall i j, same_msg i j -> asks f1 j = asks f i).
      { intros i j (_ & S2 & S3 & _). unfold asks. rewrite B1, B3, B4, S2, S3. reflexivity. }
      destruct (IH f1 rest (fun k => read (Datatypes.S k)) F1 N') as (f' & -> & F' & D1 & D2 & D3 & D4 & D5 & D6 & D7 & (nw' & D8) & D9).
      { intros j Hj. destruct (B7 j Hj) as (i & Hi & Sm). rewrite (As i j Sm). auto. }
      { intros e' j He' Hj Hh. destruct (B7 j Hj) as (i & Hi & (_ & _ & _ & S4)). rewrite B2. apply (Hcb e' i); [right; assumption|assumption|congruence]. }
      exists f'. split; [reflexivity|]. split; [exact F'|]. do 6 (split; [congruence|]). split; [|split].
      * intros k Hk. destruct (D7 k Hk) as (j & Hj & Sj). destruct (B7 j Hj) as (i & Hi & Si). exists i. split; [assumption|eapply same_trans; eassumption].
      * exists (nw ++ nw'). rewrite D8, B8, app_assoc. reflexivity.
      * intros i Hi. destruct (B9 i Hi) as [(j & Hj & Sj)|(Hh & Hc & v & Hv & Iv)].
        -- destruct (D9 j Hj) as [(k & Hk & Sk)|(k & e' & v & K1 & K2 & K3 & K4 & K5)].
           ++ left. exists k. split; [assumption|eapply same_trans; eassumption].
           ++ right. exists (Datatypes.S k), e', v. rewrite (As i j Sj) in K5. destruct Sj as (S1 & S2 & S3 & S4). rewrite S4. split; [exact K1|]. split; [assumption|]. split; [assumption|].
              split; [|exact K5]. replace (verdict i v) with (verdict j v) by (unfold verdict; congruence). assumption.
        -- right. exists O, e, v. split; [reflexivity|]. split; [assumption|]. split.
           ++ destruct (cnt rest (mi_handles i)) eqn:Z; [reflexivity|]. destruct (cnt_pos rest (mi_handles i)) as (x & X1 & X2); [lia|].
              exfalso. assert (P : (0 < cnt (map ev_handle evs ++ rest) (mi_handles i))%nat); [|lia].
              unfold cnt. destruct (filter _ _) as [|y l] eqn:Ef; [|cbn; lia]. exfalso.
              assert (Y : In x (filter (fun h => existsb (Z.eqb h) (map ev_handle evs ++ rest)) (mi_handles i))) by (apply filter_In; split; [assumption|apply existsb_In, in_app_iff; auto]).
              rewrite Ef in Y. destruct Y.
           ++ split; [rewrite D8; apply in_app_iff; left; exact Hv|exact Iv].
    + assert (Fo : flow f (map ev_handle evs ++ rest)).
      { destruct F as [Fn Fc]. constructor; [assumption|]. intros i Hi. rewrite <- (cnt_cons_out (ev_handle e)); [apply Fc; assumption|].
        intros Hh. apply Ecb. apply (Hcb e i); [left; reflexivity|assumption|assumption]. }
      destruct (IH f rest (fun k => read (Datatypes.S k)) Fo N' Ha) as (f' & -> & F' & D1 & D2 & D3 & D4 & D5 & D6 & D7 & D8 & D9).
      { intros e' j He' Hj Hh. apply (Hcb e' j); [right; assumption|assumption|assumption]. }
      exists f'. split; [reflexivity|]. split; [exact F'|]. do 6 (split; [assumption|]). split; [assumption|]. split; [assumption|].
      intros i Hi. destruct (D9 i Hi) as [L|(k & e' & v & K)]; [left; exact L|]. right. exists (Datatypes.S k), e', v. exact K.
Qed.

(** ** the invariant *)
Definition p2_32 : Z := 2 ^ 32.
Record quiet (T : duration) f : Prop := {
  q_T : 0 <= T;
  q_inv : binv (f_buf f);
  q_times : times_in_range (f_buf f);
  q_ctr : b_rq_counter (f_buf f) < p2_32;
  q_len : Z.of_nat (List.length (b_cbs (f_buf f))) < p2_32;
  q_cbc : 0 <= b_cb_counter (f_buf f) < uint32;
  q_cb : In (f_cb f) (b_cbs (f_buf f));
  q_tol : 0 <= f_tol f <= T;
  q_targets : Z.of_nat (List.length (f_targets f)) < 2 ^ 16;
  q_exp : f_expected f = expected_count (f_targets f) (f_tol f);
  q_stamp : forall i, In i (f_msgs f) -> 0 <= mi_stamp i /\ mi_stamp i + T + c_cache_time (b_core (f_buf f)) < time_bound;
  q_nodup : NoDup (flat_map mi_handles (f_msgs f));
  q_handles : forall i h, In i (f_msgs f) -> In h (mi_handles i) -> 1 <= h <= b_rq_counter (f_buf f);
  q_mine : forall i p, In i (f_msgs f) -> In p (pending (f_buf f)) -> In (p_handle p) (mi_handles i) ->
    of_message (f_cb f) (f_targets f) (stripSlash (mi_frame i)) (f_tol f) (mi_stamp i) p;
  q_count : forall i, In i (f_msgs f) -> (mi_success i + cnt (map p_handle (pending (f_buf f))) (mi_handles i) = f_expected f)%nat /\ (mi_success i < f_expected f)%nat
}.
Lemma q_cb_range : forall T f, quiet T f -> 0 <= f_cb f < uint32.
Proof. intros T f Q. pose proof (bi_cbs_range _ (q_inv T f Q)) as R. rewrite Forall_forall in R. apply R, (q_cb T f Q). Qed.
Lemma q_flow : forall T f, quiet T f -> flow f (map p_handle (pending (f_buf f))).
Proof. intros T f Q. constructor; [apply (q_nodup T f Q)|apply (q_count T f Q)]. Qed.

Lemma with_buf_quiet : forall T f b, quiet T f -> binv b -> times_in_range b -> b_rq_counter b < p2_32 -> Z.of_nat (List.length (b_cbs b)) < p2_32 ->
  0 <= b_cb_counter b < uint32 -> In (f_cb f) (b_cbs b) -> b_rq_counter (f_buf f) <= b_rq_counter b -> c_cache_time (b_core b) = c_cache_time (b_core (f_buf f)) ->
  (forall p, In p (pending b) -> In p (pending (f_buf f)) \/ b_rq_counter (f_buf f) < p_handle p) ->
  (forall i p, In i (f_msgs f) -> In p (pending (f_buf f)) -> In (p_handle p) (mi_handles i) -> In p (pending b)) ->
  quiet T (with_buf f b).
Proof.
  intros T f b Q I Ti Hc Hl Hcc Hcb Hle Ct New Keep. destruct Q. constructor; cbn [with_buf f_buf f_cb f_tol f_targets f_expected f_msgs]; try assumption.
  - rewrite Ct. assumption.
  - intros i h Hi Hh. pose proof (q_handles0 i h Hi Hh). lia.
  - intros i p Hi Hp Hh. destruct (New p Hp) as [Ho|Hn]; [apply q_mine0; assumption|]. pose proof (q_handles0 i _ Hi Hh). lia.
  - intros i Hi. rewrite (cnt_ext _ (map p_handle (pending (f_buf f)))); [apply q_count0; assumption|]. intros h Hh. split; intros Hin; apply in_map_iff in Hin as (p & <- & Hp).
    + destruct (New p Hp) as [Ho|Hn]; [apply in_map; assumption|]. pose proof (q_handles0 i _ Hi Hh). lia.
    + apply in_map. eapply Keep; eassumption.
Qed.
Lemma emit_quiet : forall T f x, quiet T f -> quiet T (emit f x).
Proof. intros T f x Q. destruct Q. constructor; assumption. Qed.
Lemma note_quiet : forall T f fr st, quiet T f -> quiet T (note_added f fr st).
Proof. intros T f fr st Q. destruct Q. constructor; assumption. Qed.
Lemma drop_quiet : forall T f i l, quiet T f -> f_msgs f = i :: l -> quiet T (with_msgs f l).
Proof.
  intros T f i l Q E. destruct Q. rewrite E in *. constructor; cbn [with_msgs f_buf f_cb f_tol f_targets f_expected f_msgs]; try assumption.
  - intros j Hj. apply q_stamp0. right. assumption.
  - cbn [flat_map] in q_nodup0. apply NoDup_app_r in q_nodup0. assumption.
  - intros j h Hj. apply q_handles0. right. assumption.
  - intros j p Hj. apply q_mine0. right. assumption.
  - intros j Hj. apply q_count0. right. assumption.
Qed.
Lemma push_quiet : forall T f i, quiet T f -> 0 <= mi_stamp i -> mi_stamp i + T + c_cache_time (b_core (f_buf f)) < time_bound ->
  NoDup (mi_handles i) -> (forall j h, In j (f_msgs f) -> In h (mi_handles j) -> ~ In h (mi_handles i)) ->
  (forall h, In h (mi_handles i) -> 1 <= h <= b_rq_counter (f_buf f)) ->
  (forall p, In p (pending (f_buf f)) -> In (p_handle p) (mi_handles i) -> of_message (f_cb f) (f_targets f) (stripSlash (mi_frame i)) (f_tol f) (mi_stamp i) p) ->
  (mi_success i + cnt (map p_handle (pending (f_buf f))) (mi_handles i) = f_expected f)%nat -> (mi_success i < f_expected f)%nat ->
  quiet T (with_msgs f (f_msgs f ++ [i])).
Proof.
  intros T f i Q H0 H1 H2 H3 H4 H5 H6 H7. destruct Q. constructor; cbn [with_msgs f_buf f_cb f_tol f_targets f_expected f_msgs]; try assumption.
  - intros j Hj. apply in_app_iff in Hj as [Hj|[<-|[]]]; auto.
  - rewrite flat_map_app. cbn [flat_map]. rewrite app_nil_r. clear - q_nodup0 H2 H3.
    assert (D : forall h, In h (flat_map mi_handles (f_msgs f)) -> ~ In h (mi_handles i)) by (intros h Hh; apply in_flat_map in Hh as (j & Hj & Hh); eauto).
    revert D. induction (flat_map mi_handles (f_msgs f)) as [|h l IH]; intros D; [exact H2|]. inversion q_nodup0; subst. cbn. constructor.
    + rewrite in_app_iff. intros [X|X]; [contradiction|]. apply (D h); [left; reflexivity|assumption].
    + apply IH; [assumption|]. intros k Hk. apply D. right. assumption.
  - intros j h Hj. apply in_app_iff in Hj as [Hj|[<-|[]]]; eauto.
  - intros j p Hj. apply in_app_iff in Hj as [Hj|[<-|[]]]; eauto.
  - intros j Hj. apply in_app_iff in Hj as [Hj|[<-|[]]]; eauto.
Qed.

(** cancelling *)
Lemma cancel_all : forall hs b, binv b -> b_rq_counter b < p2_32 -> (forall h, In h hs -> 1 <= h <= b_rq_counter b) ->
  let b' := fold_left cancelTransformableRequest hs b in
  binv b' /\ b_core b' = b_core b /\ b_cbs b' = b_cbs b /\ b_cb_counter b' = b_cb_counter b /\ b_rq_counter b' = b_rq_counter b /\
  (forall p, In p (pending b') <-> In p (pending b) /\ ~ In (p_handle p) hs).
Proof.
  induction hs as [|h hs IH]; intros b I Hc Hh; cbn [fold_left].
  - cbn zeta. do 5 (split; [auto|]). intros p. cbn. tauto.
  - assert (I1 : binv (cancelTransformableRequest b h)).
    { apply (binv_sub b); [assumption| |apply filter_reqs_sub]. pose proof (bi_ok b I) as F. apply Forall_forall. intros r Hr. apply filter_In in Hr. rewrite Forall_forall in F. apply F, Hr. }
    assert (Hh1 : 1 <= h <= b_rq_counter b) by (apply Hh; left; reflexivity).
    destruct (IH (cancelTransformableRequest b h) I1) as (J1 & J2 & J3 & J4 & J5 & J6); [exact Hc|intros k Hk; apply Hh; right; assumption|].
    cbn zeta. split; [exact J1|]. split; [exact J2|]. split; [exact J3|]. split; [exact J4|]. split; [exact J5|]. intros p. rewrite J6. unfold pending. cbn [cancelTransformableRequest b_core b_reqs].
    rewrite !in_map_iff. split.
    + intros ((r & <- & Hr) & Np). apply filter_In in Hr as [Hr E]. split; [exists r; auto|]. cbn [In]. intros [X|X]; [|contradiction].
      rewrite Z.mod_small in E by (unfold uint32, p2_32 in *; lia). cbn in X. rewrite X, Z.eqb_refl in E. discriminate.
    + intros ((r & <- & Hr) & Np). split; [|intros X; apply Np; right; assumption]. exists r. split; [reflexivity|]. apply filter_In. split; [assumption|].
      rewrite Z.mod_small by (unfold uint32, p2_32 in *; lia). apply negb_true_iff, Z.eqb_neq. intros X. apply Np. left. symmetry. exact X.
Qed.

Lemma handle_inj : forall (l : list preq) p q, NoDup (map p_handle l) -> In p l -> In q l -> p_handle p = p_handle q -> p = q.
Proof.
  induction l as [|x l IH]; intros p q N Hp Hq E; [destruct Hp|]. cbn in N. inversion N as [|? ? Nx N']; subst. destruct Hp as [->|Hp], Hq as [->|Hq]; auto.
  - exfalso. apply Nx. rewrite E. apply in_map. assumption.
  - exfalso. apply Nx. rewrite <- E. apply in_map. assumption.
Qed.

(** add *)
Lemma add_quiet : forall T f fr st, quiet T f -> 0 <= st -> st + T + c_cache_time (b_core (f_buf f)) < time_bound ->
  b_rq_counter (f_buf (fst (mf_add f fr st))) < p2_32 -> quiet T (fst (mf_add f fr st)) /\ exists u, snd (mf_add f fr st) = Ok u.
Proof.
  intros T f fr st Q H0 H1 Hc. unfold mf_add, add_begin in *. change (f_targets (note_added f fr st)) with (f_targets f) in *. change (f_tol (note_added f fr st)) with (f_tol f) in *.
  change (f_buf (note_added f fr st)) with (f_buf f) in *. change (f_cb (note_added f fr st)) with (f_cb f) in *.
  pose proof (note_quiet T f fr st Q) as Qn. revert Hc. destruct (f_targets f) as [|t0 ts] eqn:Et; intros Hc; [split; [exact Qn|exists tt; reflexivity]|]. rewrite <- Et in Hc |- *. clear Et t0 ts.
  unfold mf_stripSlash in *. destruct (String.eqb (stripSlash fr) ""); [split; [apply emit_quiet; exact Qn|exists tt; reflexivity]|].
  pose proof (q_ctr T f Q) as Qc. pose proof (q_targets T f Q) as Qt. pose proof (q_tol T f Q) as Qtol.
  destruct (add_requests_calm (f_targets f) (f_buf f) (f_cb f) (stripSlash fr) st (f_tol f) (0%nat, [])) as (b & r & news & E & I & C1 & C2 & C3 & C4 & P & F & R);
    [apply (q_inv T f Q)|apply (q_cb_range T f Q)|unfold uint64, p2_32 in *; lia|assumption|lia|lia|].
  rewrite E in *. clear E.
  assert (Cnt : b_rq_counter b < p2_32 -> quiet T (with_buf (note_added f fr st) b)).
  { intros Hb. apply with_buf_quiet; try assumption.
    - intros p Hp. rewrite P in Hp. rewrite C1. apply in_app_iff in Hp as [Hp|Hp]; [apply (q_times T f Q p Hp)|].
      rewrite Forall_forall in F. destruct (F p Hp) as (_ & _ & X). lia.
    - rewrite C2. apply (q_len T f Q).
    - rewrite C3. apply (q_cbc T f Q).
    - rewrite C2. apply (q_cb T f Q).
    - cbn. lia.
    - cbn. congruence.
    - intros p Hp. rewrite P in Hp. apply in_app_iff in Hp as [Hp|Hp]; [left; exact Hp|]. right. rewrite Forall_forall in F. cbn. apply (F p Hp).
    - intros i p _ Hp _. rewrite P. apply in_app_iff. left. exact Hp. }
  destruct R as [->|(n & -> & Rn)].
  { split; [|exists tt; reflexivity]. apply emit_quiet, Cnt. exact Hc. }
  cbn [fst snd app] in *. split; [|exists tt; reflexivity].
  set (i := {| mi_seq := List.length (f_added f); mi_frame := fr; mi_stamp := st; mi_handles := map p_handle news; mi_success := n |}) in *.
  set (g := with_buf (note_added f fr st) b) in *.
  assert (Hb : b_rq_counter b < p2_32).
  { unfold add_finish in Hc. destruct (Nat.eqb _ _); [exact Hc|]. destruct (_ && _)%bool; [|exact Hc]. destruct (f_msgs g) eqn:Em; [exact Hc|].
    cbn [with_msgs emit with_buf f_buf] in Hc. change (f_buf g) with b in Hc. clear - Hc. revert b Hc. induction (mi_handles m) as [|h hs IH]; intros b Hc; [exact Hc|]. cbn in Hc. apply IH in Hc. exact Hc. }
  specialize (Cnt Hb). clear Hc.
  assert (Nh : NoDup (map p_handle news)) by (pose proof (bi_nodup b I) as N; rewrite P, map_app in N; apply NoDup_app_r in N; exact N).
  assert (Fr : forall j h, In j (f_msgs f) -> In h (mi_handles j) -> ~ In h (mi_handles i)).
  { intros j h Hj Hh Hi. pose proof (q_handles T f Q j h Hj Hh). cbn in Hi. apply in_map_iff in Hi as (p & <- & Hp). rewrite Forall_forall in F. destruct (F p Hp) as (_ & X & _). lia. }
  assert (Hp : forall h, In h (mi_handles i) -> In h (map p_handle (pending b))) by (intros h Hh; rewrite P, map_app; apply in_app_iff; right; exact Hh).
  assert (Hm : forall p, In p (pending b) -> In (p_handle p) (mi_handles i) -> of_message (f_cb f) (f_targets f) (stripSlash fr) (f_tol f) st p).
  { intros p Hpb Hpi. cbn in Hpi. apply in_map_iff in Hpi as (q & Eq & Hq). assert (p = q); [|subst p].
    - apply (handle_inj (pending b)); [apply (bi_nodup b I)|assumption|rewrite P; apply in_app_iff; right; assumption|congruence].
    - rewrite Forall_forall in F. apply (F q Hq). }
  assert (Hr : forall h, In h (mi_handles i) -> 1 <= h <= b_rq_counter b).
  { intros h Hh. cbn in Hh. apply in_map_iff in Hh as (p & <- & Hpn). rewrite Forall_forall in F. destruct (F p Hpn) as (_ & X & _). pose proof (bi_counter _ (q_inv T f Q)). lia. }
  assert (En : (n + List.length (map p_handle news) = f_expected f)%nat) by (rewrite map_length, (q_exp T f Q); exact Rn).
  unfold add_finish. change (mi_success i) with n. change (f_expected g) with (f_expected f). destruct (Nat.eqb_spec n (f_expected f)) as [Ee|Ee]; [apply emit_quiet; exact Cnt|].
  assert (Hlt : (n < f_expected f)%nat) by lia.
  destruct (_ && _)%bool.
  - destruct (f_msgs g) as [|front rest] eqn:Em.
    + apply push_quiet; try assumption.
      * cbn. rewrite C1. exact H1.
      * change (mi_handles i) with (map p_handle news) in *. change (f_buf g) with b. rewrite (cnt_all _ _ Hp). exact En.
    + change (f_msgs g) with (f_msgs f) in Em.
      destruct (cancel_all (mi_handles front) b I Hb) as (J1 & J2 & J3 & J4 & J5 & J6).
      { intros h Hh. pose proof (q_handles T f Q front h) as X. rewrite Em in X. specialize (X (or_introl eq_refl) Hh). lia. }
      set (b2 := fold_left cancelTransformableRequest (mi_handles front) b) in *.
      change (f_buf g) with b. fold b2.
      assert (Qd : quiet T (with_buf (with_msgs g rest) b2)).
      { apply with_buf_quiet; try assumption.
        - eapply drop_quiet; [exact Cnt|exact Em].
        - intros p Hpp. apply J6 in Hpp as [Hpp _]. rewrite J2. apply (q_times T g Cnt p Hpp).
        - lia.
        - rewrite J3. apply (q_len T g Cnt).
        - rewrite J4. apply (q_cbc T g Cnt).
        - rewrite J3. apply (q_cb T g Cnt).
        - cbn. lia.
        - cbn. congruence.
        - intros p Hpp. apply J6 in Hpp as [Hpp _]. left. exact Hpp.
        - intros j p Hj Hpp Hh. apply J6. split; [exact Hpp|]. intros Hf. pose proof (q_nodup T f Q) as N. rewrite Em in N. cbn in N.
          apply (NoDup_app_disj _ _ (p_handle p) N Hf). apply in_flat_map. exists j. auto. }
      change (quiet T (with_msgs (emit (with_buf (with_msgs g rest) b2) (verdict front (Dropped Unknown))) (rest ++ [i]))).
      apply (push_quiet T (emit (with_buf (with_msgs g rest) b2) (verdict front (Dropped Unknown))) i); try assumption.
      * apply emit_quiet. exact Qd.
      * cbn. rewrite J2, C1. exact H1.
      * intros j h Hj. apply Fr. rewrite Em. right. exact Hj.
      * cbn. rewrite J5. exact Hr.
      * intros p Hpp. apply J6 in Hpp as [Hpp _]. apply Hm. exact Hpp.
      * change (f_buf (emit (with_buf (with_msgs g rest) b2) (verdict front (Dropped Unknown)))) with b2. rewrite cnt_all; [exact En|].
        intros h Hh. cbn [mi_handles i] in Hh. apply in_map_iff in Hh as (p & <- & Hpn). apply in_map. apply J6. split; [rewrite P; apply in_app_iff; right; exact Hpn|].
        intros Hf. apply (Fr front (p_handle p)); [rewrite Em; left; reflexivity|exact Hf|]. cbn. apply in_map. exact Hpn.
  - apply push_quiet; try assumption.
    + cbn. rewrite C1. exact H1.
    + change (mi_handles i) with (map p_handle news) in *. change (f_buf g) with b. rewrite (cnt_all _ _ Hp). exact En.
Qed.

(** ** transforms *)
Lemma still_can_total : forall targets (s : core S) src st tol, wf s -> (tol = 0 \/ exists t, time_add st tol = Some t) -> exists v, still_can s targets src st tol = Ok v.
Proof.
  induction targets as [|tgt rest IH]; intros s src st tol W H; [cbn; eauto|]. cbn [still_can].
  destruct (can_total s tgt src st W) as [c ->]. cbn [bind]. destruct c; [|eauto]. destruct (Z.eqb_spec tol 0) as [E|E]; [apply IH; auto|].
  destruct H as [H|(t & Ht)]; [congruence|]. rewrite Ht. cbn [lift_time bind]. destruct (can_total s tgt src t W) as [c ->]. cbn [bind]. destruct c; [|eauto]. apply IH; [assumption|]. right. eauto.
Qed.
Lemma time_add_ok : forall a d, 0 <= a -> 0 <= d -> a + d < time_bound -> time_add a d = Some (a + d).
Proof. intros a d H1 H2 H3. unfold time_add, valid_timeb. rewrite (proj2 (Z.leb_le 0 (a + d))) by lia. rewrite (proj2 (Z.ltb_lt _ _)) by lia. reflexivity. Qed.
Lemma owed_handles : forall (s : core S) cbs p x, In x (owed s cbs p) -> n_handle x = p_handle p /\ n_cb x = p_cb p /\ (exists r, due s p = Some r /\ n_result x = r) /\ registered cbs (p_cb p) = true.
Proof. intros s cbs p x H. unfold owed in H. destruct (due s p) as [r|]; [|destruct H]. destruct (registered cbs (p_cb p)) eqn:E; [|destruct H]. destruct H as [<-|[]]. cbn. eauto 6. Qed.

Lemma transform_quiet : forall T f m a st read, quiet T f -> valid_time (tm_stamp m) ->
  let f' := fst (mf_set_transform f m a st read) in
  quiet T f' /\ (exists new, f_emitted f' = f_emitted f ++ new) /\
  snd (mf_set_transform f m a st read) = snd (setTransform (b_core (f_buf f)) m a st) /\
  b_core (f_buf f') = fst (setTransform (b_core (f_buf f)) m a st) /\
  (snd (setTransform (b_core (f_buf f)) m a st) = Ok true ->
   (forall p, In p (pending (f_buf f')) -> due (b_core (f_buf f')) p = None) /\
   exists evs, snd (set_transform (f_buf f) m a st) = Ok (true, evs) /\
   forall i, In i (f_msgs f) -> (exists j, In j (f_msgs f') /\ same_msg i j) \/
     (exists k e v p, nth_error evs k = Some e /\ In p (pending (f_buf f)) /\ In (p_handle p) (mi_handles i) /\ due (b_core (f_buf f')) p = Some (ev_result e) /\
        In (verdict i v) (f_emitted f') /\ (v = Ready <-> read k = TransformAvailable /\ asks f' i = Ok true))).
Proof.
  intros T f m a st read Q Hm. pose proof (q_inv T f Q) as I. pose proof (reachable_wf _ (bi_core _ I)) as W.
  destruct (setTransform (b_core (f_buf f)) m a st) as [s' r] eqn:Es. cbn [fst snd].
  assert (Ecore : step (b_core (f_buf f)) (OSet m a st) = s') by (cbn; rewrite Es; reflexivity).
  pose proof (step_ct (b_core (f_buf f)) (OSet m a st) W Hm) as Ct. rewrite Ecore in Ct.
  unfold mf_set_transform.
  destruct (set_transform (f_buf f) m a st) as [b out] eqn:Eb.
  assert (Sf : step_ok (f_buf f) (RSet m a st) b (ABool (' (v, _) <- out ;; Ok v)) match out with Ok (_, evs) => evs | _ => [] end).
  { apply step_fact; [assumption|exact Hm|pose proof (q_ctr T f Q); unfold uint64, p2_32 in *; lia|]. cbn [req_step]. rewrite Eb. reflexivity. }
  assert (Cc : b_cb_counter b = b_cb_counter (f_buf f) /\ b_rq_counter b = b_rq_counter (f_buf f)).
  { unfold set_transform in Eb. rewrite Es in Eb. destruct r as [[|]|c e|]; try (inversion Eb; subst; auto).
    unfold testTransformableRequests in Eb. destruct (test_loop _ _ _ _ _ _) as [fl rr]. inversion Eb; subst. auto. }
  destruct Cc as [Cc Cr].
  assert (Dec : r = Ok true \/ r <> Ok true) by (destruct r as [[|]|c e|]; auto; right; discriminate).
  destruct Dec as [->|Nr].
  - destruct (set_settles (f_buf f) m a st s' I (q_times T f Q) Hm Es) as (b' & evs & Eb' & B1 & B2 & B3 & B4). rewrite Eb in Eb'. inversion Eb'; subst b' out. clear Eb'.
    cbn [bind] in Sf. destruct Sf as [I' Hctr Src Once Gone New _].
    assert (Res : forall e, In e evs -> exists p, In p (pending (f_buf f)) /\ ev_handle e = p_handle p /\ ev_cb e = p_cb p /\ due s' p = Some (ev_result e)).
    { intros e He. assert (Hn : In (notice_of e) (flat_map (owed s' (b_cbs (f_buf f))) (pending (f_buf f)))) by (eapply Permutation_in; [exact B4|apply in_map; assumption]).
      apply in_flat_map in Hn as (p & Hp & Hn). apply owed_handles in Hn as (E1 & E2 & (x & E3 & E4) & _). exists p. cbn in *. subst x. auto. }
    assert (Mem : forall i h, In i (f_msgs f) -> In h (mi_handles i) -> (In h (map p_handle (pending (f_buf f))) <-> In h (map ev_handle evs ++ map p_handle (pending b)))).
    { intros i h Hi Hh. rewrite in_app_iff. split; intros Hx.
      - apply in_map_iff in Hx as (p & <- & Hp). destruct (due s' p) as [x|] eqn:Ed.
        + left. assert (Hn : In (mkNotice (p_cb p) (p_handle p) (p_target p) (p_source p) x) (map notice_of evs)).
          { eapply Permutation_in; [symmetry; exact B4|]. apply in_flat_map. exists p. split; [assumption|]. unfold owed. rewrite Ed.
            destruct (q_mine T f Q i p Hi Hp Hh) as (-> & _). rewrite (proj2 (registered_In _ _) (q_cb T f Q)). left. reflexivity. }
          apply in_map_iff in Hn as (e & E1 & E2). apply in_map_iff. exists e. split; [|assumption]. inversion E1. reflexivity.
        + right. apply in_map. eapply Permutation_in; [symmetry; exact B3|]. apply filter_In. split; [assumption|]. unfold not_due. rewrite Ed. reflexivity.
      - destruct Hx as [Hx|Hx]; apply in_map_iff in Hx as (x & <- & Hx).
        + destruct (Res x Hx) as (p & Hp & -> & _). apply in_map. assumption.
        + apply in_map. eapply Permutation_in in Hx; [|exact B3]. apply filter_In in Hx. apply Hx. }
    assert (Fl : flow (with_buf f b) (map ev_handle evs ++ map p_handle (pending b))).
    { constructor; cbn [with_buf f_msgs f_expected]; [apply (q_nodup T f Q)|]. intros i Hi. rewrite <- (cnt_ext (map p_handle (pending (f_buf f)))); [apply (q_count T f Q i Hi)|]. intros h Hh. apply (Mem i h Hi Hh). }
    assert (Nd : NoDup (map ev_handle evs ++ map p_handle (pending b))).
    { clear - Once Gone I'. pose proof (bi_nodup b I') as N. induction evs as [|e evs IH]; [exact N|]. cbn in *. inversion Once; subst. constructor.
      - rewrite in_app_iff. intros [X|X]; [contradiction|]. apply in_map_iff in X as (p & E & Hp). apply (Gone e p); auto.
      - apply IH; [assumption|]. intros e' p He'. apply Gone. right. assumption. }
    pose proof (reachable_wf _ (bi_core _ I')) as W'.
    destruct (fire_flow evs (with_buf f b) (map p_handle (pending b)) read Fl Nd) as (f' & -> & F' & D1 & D2 & D3 & D4 & D5 & D6 & D7 & D8 & D9).
    { intros i Hi. apply still_can_total; [exact W'|]. right. pose proof (q_stamp T f Q i Hi). pose proof (q_tol T f Q). pose proof (wf_ct _ W). eexists. apply time_add_ok; cbn [with_buf f_tol]; lia. }
    { intros e i He Hi Hh. destruct (Res e He) as (p & Hp & E1 & E2 & _). rewrite E2. cbn. rewrite E1 in Hh. apply (q_mine T f Q i p Hi Hp Hh). }
    cbn [fst snd with_buf f_buf f_cb f_targets f_tol f_expected f_msgs f_emitted] in *.
    split; [|split; [exact D8|split; [reflexivity|split; [rewrite D1; exact B1|]]]].
    + destruct Q. destruct F' as [Fn Fc]. constructor; rewrite ?D1, ?D2, ?D3, ?D4, ?D5; try assumption.
      * intros p Hp. rewrite B1, Ct. apply q_times0. destruct (New p Hp) as [X|(X & _)]; [exact X|discriminate].
      * lia.
      * rewrite B2. assumption.
      * rewrite Cc. assumption.
      * rewrite B2. assumption.
      * rewrite B1, Ct. intros j Hj. destruct (D7 j Hj) as (i & Hi & (_ & _ & S3 & _)). rewrite <- S3. auto.
      * rewrite Cr. intros j h Hj Hh. destruct (D7 j Hj) as (i & Hi & (_ & _ & _ & S4)). rewrite <- S4 in Hh. eauto.
      * intros j p Hj Hp Hh. destruct (D7 j Hj) as (i & Hi & (_ & S2 & S3 & S4)). rewrite <- S4 in Hh. rewrite <- S2, <- S3. apply q_mine0; [assumption| |assumption].
        destruct (New p Hp) as [X|(X & _)]; [exact X|discriminate].
      * rewrite <- D5. exact Fc.
    + intros _. split.
      * intros p Hp. rewrite D1, B1. rewrite D1 in Hp. eapply Permutation_in in Hp; [|exact B3]. apply filter_In in Hp as [_ Hp]. unfold not_due in Hp. destruct (due s' p); [discriminate|reflexivity].
      * exists evs. split; [reflexivity|]. intros i Hi. destruct (D9 i Hi) as [L|(k & e & v & K1 & K2 & K3 & K4 & K5)]; [left; exact L|]. right.
        destruct (Res e (nth_error_In _ _ K1)) as (p & Hp & E1 & E2 & E3). exists k, e, v, p. split; [assumption|]. split; [assumption|]. split; [congruence|]. split; [rewrite D1, B1; assumption|]. split; [assumption|].
        unfold asks in *. cbn [with_buf f_buf f_targets f_tol] in K5. rewrite D1, D3, D4. exact K5.
  - destruct (set_rejected (f_buf f) m a st s' r b out I Hm Es Nr Eb) as (P & B2 & B1 & Ev).
    assert (Qb : quiet T (with_buf f b)).
    { destruct Sf as [I' Hctr _ _ _ _ _]. apply with_buf_quiet; try assumption.
      - intros p Hp. rewrite B1, Ct. apply (q_times T f Q). rewrite P in Hp. exact Hp.
      - pose proof (q_ctr T f Q). lia.
      - rewrite B2. apply (q_len T f Q).
      - rewrite Cc. apply (q_cbc T f Q).
      - rewrite B2. apply (q_cb T f Q).
      - lia.
      - congruence.
      - intros p Hp. rewrite P in Hp. left. exact Hp.
      - intros i p _ Hp _. rewrite P. exact Hp. }
    assert (Eo : out = (' v <- r ;; Ok (v, []))).
    { unfold set_transform in Eb. rewrite Es in Eb. destruct r as [[|]|c e|]; [congruence| | |]; inversion Eb; reflexivity. }
    assert (El : forall x : filt * res bool, x = (with_buf f b, r) -> (quiet T (fst x) /\ (exists new, f_emitted (fst x) = f_emitted f ++ new) /\ snd x = r /\ b_core (f_buf (fst x)) = s' /\
      (r = Ok true -> (forall p, In p (pending (f_buf (fst x))) -> due (b_core (f_buf (fst x))) p = None) /\ exists evs, snd (b, out) = Ok (true, evs) /\
       forall i, In i (f_msgs f) -> (exists j, In j (f_msgs (fst x)) /\ same_msg i j) \/
       (exists k e v p, nth_error evs k = Some e /\ In p (pending (f_buf f)) /\ In (p_handle p) (mi_handles i) /\ due (b_core (f_buf (fst x))) p = Some (ev_result e) /\
        In (verdict i v) (f_emitted (fst x)) /\ (v = Ready <-> read k = TransformAvailable /\ asks (fst x) i = Ok true))))).
    { intros x ->. cbn [fst snd]. split; [exact Qb|]. split; [exists []; rewrite app_nil_r; reflexivity|]. split; [reflexivity|]. split; [exact B1|]. intros X. congruence. }
    apply El. rewrite Eo. destruct r as [[|]|c e|]; [congruence| | |]; reflexivity.
Qed.

(** ** the other calls *)
Lemma other_quiet : forall T f (o : req_op S), quiet T f -> polite f o = true -> req_op_ok o ->
  match o with RAddRequest _ _ _ t => t + c_cache_time (b_core (f_buf f)) < time_bound | _ => True end ->
  b_rq_counter (fst (fst (req_step (f_buf f) o))) < p2_32 -> Z.of_nat (List.length (b_cbs (fst (fst (req_step (f_buf f) o))))) < p2_32 ->
  quiet T (with_buf f (fst (fst (req_step (f_buf f) o)))).
Proof.
  intros T f o Q Po Ho Hr Hc Hl. pose proof (q_inv T f Q) as I. pose proof (reachable_wf _ (bi_core _ I)) as W.
  destruct (req_step (f_buf f) o) as [[b a] evs] eqn:E. cbn [fst] in *.
  assert (Sf : step_ok (f_buf f) o b a evs) by (apply step_fact; [assumption|assumption|pose proof (q_ctr T f Q); unfold uint64, p2_32 in *; lia|assumption]).
  assert (Cc : 0 <= b_cb_counter b < uint32) by (pose proof (cb_counter_step (f_buf f) o (q_cbc T f Q)) as X; rewrite E in X; exact X).
  assert (Ct : c_cache_time (b_core b) = c_cache_time (b_core (f_buf f))).
  { destruct o as [m au st| | |c|c tgt src t|h]; cbn [polite] in Po; [discriminate| | | | |]; cbn [req_step] in E.
    - inversion E; subst. reflexivity.
    - unfold addTransformableCallback in E. destruct (next_cb_handle _ _ _); inversion E; subst; reflexivity.
    - inversion E; subst. reflexivity.
    - pose proof (add_request_core (f_buf f) c tgt src t) as X. destruct (addTransformableRequest (f_buf f) c tgt src t) as [b1 r]. inversion E; subst. cbn in X. congruence.
    - inversion E; subst. reflexivity. }
  destruct Sf as [I' Hctr _ _ _ New _]. apply with_buf_quiet; try assumption.
  - intros p Hp. rewrite Ct. destruct (New p Hp) as [X|(X & _)]; [apply (q_times T f Q p X)|]. subst o. exact Hr.
  - pose proof (q_cb T f Q) as Hcb. destruct o as [m au st| | |c|c tgt src t|h]; cbn [polite] in Po; [discriminate| | | | |]; cbn [req_step] in E.
    + inversion E; subst. exact Hcb.
    + unfold addTransformableCallback in E. destruct (next_cb_handle _ _ _); inversion E; subst; [right; exact Hcb|exact Hcb].
    + inversion E; subst. cbn. apply filter_In. split; [exact Hcb|]. rewrite Z.eqb_sym. exact Po.
    + unfold addTransformableRequest in E. destruct (add_check _ _ _ _) as [[h|x y]| |]; inversion E; subst; exact Hcb.
    + inversion E; subst. exact Hcb.
  - lia.
  - intros p Hp. destruct (New p Hp) as [X|(_ & _ & X)]; [left; exact X|right; lia].
  - intros i p Hi Hp Hh. destruct (q_mine T f Q i p Hi Hp Hh) as (Pc & _).
    destruct o as [m au st| | |c|c tgt src t|h]; cbn [polite] in Po; [discriminate| | | | |]; cbn [req_step] in E.
    + inversion E; subst. pose proof (pending_core (f_buf f) OClear W Logic.I (bi_ok _ I)) as X. cbn [step] in X. rewrite X. exact Hp.
    + unfold addTransformableCallback in E. destruct (next_cb_handle _ _ _); inversion E; subst; exact Hp.
    + inversion E; subst. unfold pending in *. cbn [removeTransformableCallback b_core b_reqs]. apply in_map_iff in Hp as (r & <- & Hr2). apply in_map_iff. exists r. split; [reflexivity|]. apply filter_In. split; [assumption|].
      cbn in Pc. rewrite Pc. rewrite Z.eqb_sym. exact Po.
    + unfold addTransformableRequest in E. destruct (add_check (b_core (f_buf f)) tgt src t) as [[h|x y]| |]; inversion E; subst; try exact Hp.
      unfold pending. cbn [push_request b_core b_reqs fst]. rewrite map_app. apply in_app_iff. left. exact Hp.
    + inversion E; subst. unfold pending in *. cbn [cancelTransformableRequest b_core b_reqs]. apply in_map_iff in Hp as (r & <- & Hr2). apply in_map_iff. exists r. split; [reflexivity|]. apply filter_In. split; [assumption|].
      apply negb_true_iff in Po. apply negb_true_iff. destruct (Z.eqb_spec (rq_handle r) (h mod uint32)) as [Eh|Eh]; [|reflexivity]. exfalso.
      assert (X : existsb (fun r => (rq_cb r =? f_cb f) && (rq_handle r =? h mod uint32)) (b_reqs (f_buf f)) = true); [|congruence].
      apply existsb_exists. exists r. split; [assumption|]. cbn in Pc. rewrite Pc, Eh, !Z.eqb_refl. reflexivity.
Qed.
Lemma no_msgs_quiet : forall T f, 0 <= T -> binv (f_buf f) -> times_in_range (f_buf f) -> b_rq_counter (f_buf f) < p2_32 -> Z.of_nat (List.length (b_cbs (f_buf f))) < p2_32 ->
  0 <= b_cb_counter (f_buf f) < uint32 -> In (f_cb f) (b_cbs (f_buf f)) -> 0 <= f_tol f <= T -> Z.of_nat (List.length (f_targets f)) < 2 ^ 16 ->
  f_expected f = expected_count (f_targets f) (f_tol f) -> f_msgs f = [] -> quiet T f.
Proof.
  intros T f H0 H1 H2 H3 H4 H5 H6 H7 H8 H9 E. constructor; try assumption; rewrite E; cbn [In flat_map]; try constructor; intros; contradiction.
Qed.
Lemma add_cb_facts : forall b, binv b -> b_rq_counter b < p2_32 -> Z.of_nat (List.length (b_cbs b)) < p2_32 -> 0 <= b_cb_counter b < uint32 ->
  exists b' h, addTransformableCallback b = (b', Some h) /\ binv b' /\ b_cbs b' = h :: b_cbs b /\ b_core b' = b_core b /\ b_reqs b' = b_reqs b /\ b_rq_counter b' = b_rq_counter b /\ 0 <= b_cb_counter b' < uint32.
Proof.
  intros b I Hc Hl Hcc. destruct (next_cb_some (b_cbs b) (Datatypes.S (List.length (b_cbs b))) (b_cb_counter b)) as [h E]; [assumption|lia|unfold uint32, p2_32 in *; lia|].
  assert (Ea : addTransformableCallback b = (mkBuf (b_core b) (h :: b_cbs b) h (b_reqs b) (b_rq_counter b), Some h)) by (unfold addTransformableCallback; rewrite E; reflexivity).
  destruct (next_cb_fresh _ _ _ _ E) as [_ Hh]. exists (mkBuf (b_core b) (h :: b_cbs b) h (b_reqs b) (b_rq_counter b)), h. split; [exact Ea|].
  destruct (step_fact b RAddCallback (mkBuf (b_core b) (h :: b_cbs b) h (b_reqs b) (b_rq_counter b)) (ACallback (Some h)) [] I Logic.I) as [I' _ _ _ _ _ _];
    [unfold uint64, p2_32 in *; lia|cbn [req_step]; rewrite Ea; reflexivity|]. auto 10.
Qed.
Lemma filter_len : forall {A} (g : A -> bool) l, (List.length (filter g l) <= List.length l)%nat.
Proof. intros A g l. induction l as [|x l IH]; [cbn; lia|]. cbn. destruct (g x); cbn; lia. Qed.
Lemma clear_quiet : forall T f, quiet T f -> Z.of_nat (List.length (b_cbs (f_buf (mf_clear f)))) < p2_32 -> quiet T (mf_clear f).
Proof.
  intros T f Q Hl. set (b1 := removeTransformableCallback (f_buf f) (f_cb f)).
  assert (Sf : step_ok (f_buf f) (RRemoveCallback (f_cb f)) b1 AVoid []).
  { apply step_fact; [apply (q_inv T f Q)|apply (q_cb_range T f Q)|pose proof (q_ctr T f Q); unfold uint64, p2_32 in *; lia|reflexivity]. }
  destruct Sf as [I1 _ _ _ _ New _].
  destruct (add_cb_facts b1 I1) as (b' & h & E & I' & C1 & C2 & C3 & C4 & C5).
  - apply (q_ctr T f Q).
  - pose proof (q_len T f Q). pose proof (filter_len (fun k => negb (k =? f_cb f)) (b_cbs (f_buf f))). cbn [b1 removeTransformableCallback b_cbs]. lia.
  - apply (q_cbc T f Q).
  - unfold mf_clear in *. fold b1 in Hl |- *. rewrite E in *. cbn [f_buf] in Hl. apply no_msgs_quiet; cbn [f_buf f_cb f_tol f_targets f_expected f_msgs]; try assumption; try (destruct Q; assumption).
    + intros p Hp. rewrite C2. apply (q_times T f Q). assert (Hp' : In p (pending b1)) by (unfold pending in *; rewrite C2, C3 in Hp; exact Hp).
      destruct (New p Hp') as [X|(X & _)]; [exact X|discriminate].
    + rewrite C4. apply (q_ctr T f Q).
    + rewrite C1. left. reflexivity.
    + reflexivity.
Qed.
Lemma step_quiet : forall T f o, quiet T f -> calm_op T f o -> b_rq_counter (f_buf (mf_step f o)) < p2_32 -> Z.of_nat (List.length (b_cbs (f_buf (mf_step f o)))) < p2_32 ->
  quiet T (mf_step f o).
Proof.
  intros T f o Q H Hc Hl. destruct o as [fr st|l|d|n| | |m a st read|o]; cbn [mf_step calm_op] in *.
  - apply add_quiet; try assumption; apply H.
  - destruct H as [E H]. destruct Q. apply no_msgs_quiet; cbn [setTargetFrames f_buf f_cb f_tol f_targets f_expected f_msgs]; try assumption; [rewrite map_length; assumption|reflexivity].
  - destruct H as [E H]. destruct Q. apply no_msgs_quiet; cbn [setTolerance f_buf f_cb f_tol f_targets f_expected f_msgs]; try assumption. reflexivity.
  - destruct Q. constructor; assumption.
  - apply clear_quiet; assumption.
  - unfold mf_spin in *. destruct (f_outbox f); [assumption|]. destruct Q. constructor; assumption.
  - apply (transform_quiet T f m a st read Q H).
  - destruct (polite f o) eqn:P; [|assumption]. apply other_quiet; try assumption; apply H.
Qed.
Lemma new_quiet : forall T b target q cbq f, 0 <= T -> req_reachable b -> times_in_range b -> b_rq_counter b < p2_32 -> Z.of_nat (List.length (b_cbs b)) < p2_32 - 1 ->
  new_filter b target q cbq = Some f -> quiet T f.
Proof.
  intros T b target q cbq f H0 Hb Ht Hc Hl E. destruct (reach_binv b Hb) as [I _].
  destruct (add_cb_facts b I) as (b' & h & Ea & I' & C1 & C2 & C3 & C4 & C5); [assumption|lia|apply cb_counter_reach; assumption|].
  unfold new_filter in E. rewrite Ea in E. inversion E; subst f. apply no_msgs_quiet; cbn [setTargetFrames f_buf f_cb f_tol f_targets f_expected f_msgs]; try assumption; try lia; try reflexivity.
  - intros p Hp. rewrite C2. apply Ht. unfold pending in *. rewrite C2, C3 in Hp. exact Hp.
  - rewrite C1. cbn [List.length]. lia.
  - rewrite C1. left. reflexivity.
Qed.
Lemma calm_quiet : forall T f, calm T f -> quiet T f.
Proof.
  intros T f C. induction C as [b target q cbq f H0 Hb Ht Hc Hl E|f o _ IH Ho Hc Hl].
  - eapply new_quiet; eassumption.
  - apply step_quiet; assumption.
Qed.

(** ** no message is stranded *)
Lemma waits_on : forall T f i, quiet T f -> In i (f_msgs f) ->
  exists p, In p (pending (f_buf f)) /\ In (p_handle p) (mi_handles i) /\ of_message (f_cb f) (f_targets f) (stripSlash (mi_frame i)) (f_tol f) (mi_stamp i) p.
Proof.
  intros T f i Q Hi. destruct (q_count T f Q i Hi) as [C1 C2]. destruct (cnt_pos (map p_handle (pending (f_buf f))) (mi_handles i)) as (h & H1 & H2); [lia|].
  apply in_map_iff in H2 as (p & <- & Hp). exists p. split; [assumption|]. split; [assumption|]. apply (q_mine T f Q); assumption.
Qed.
End P.
