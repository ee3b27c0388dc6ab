(** * C34: requests made while transforms arrive concurrently *)
From Coq Require Import ZArith Bool List String Lia Permutation.
From Verif Require Import RosTime Scalar LinearMath Cache SpecCache BufferCore SpecCore Instances CoreInv CoreSet Bridge
  LookupBase LookupTheorems History ExampleBuffers Requests SpecRequests RequestProofs RequestHistory Interleaving.
Import ListNotations.
Open Scope list_scope.
Open Scope Z_scope.
Local Opaque MAX_GRAPH_DEPTH.

(** ** Specification *)
Definition action_ok {S} (ct : duration) (a : action S) : Prop :=
  match a with
  | Check cb _ _ t => 0 <= cb < uint32 /\ 0 <= t /\ t + ct < time_bound
  | Insert m _ _ => valid_time (tm_stamp m)
  | RemoveCallback cb => 0 <= cb < uint32
  | Cancel h => 0 <= h < uint64
  | Store _ | Test | AddCallback | Clear => True
  end.
(** Reached by some interleaving of fewer than 2^64 - 2 actions of any number of threads, all
    request times plus the cache time [ct] being representable. *)
Definition conc_reachable {S} (ct : duration) (x : conc S) : Prop :=
  exists l, 0 <= ct < dur_bound /\ Forall (action_ok ct) l /\ Z.of_nat (List.length l) < uint64 - 2 /\ x = fst (acts (init_conc ct) l).
(** No transform is inserted and the buffer is not cleared. *)
Definition no_update {S} (a : action S) : Prop :=
  match a with Insert _ _ _ | Clear => False | _ => True end.

(** ** Proofs *)
Section P.
Context {S : Scalar}.
Implicit Types (x : conc S) (a : action S) (l : list (action S)).

Definition chk_ok (s : core S) ct (k : checked) : Prop :=
  id_ok s (k_tgt_id k) /\ id_ok s (k_src_id k) /\ valid_time (k_time k) /\ k_time k + ct < time_bound /\
  (k_tgt_id k <> 0%nat -> name_of s (k_tgt_id k) = k_tgt k) /\ (k_src_id k <> 0%nat -> name_of s (k_src_id k) = k_src k).
Record cinv ct x : Prop := {
  ci_b : binv (x_buf x);
  ci_k : Forall (chk_ok (b_core (x_buf x)) ct) (x_checked x);
  ci_ct : c_cache_time (b_core (x_buf x)) = ct;
  ci_t : times_in_range (x_buf x)
}.

Lemma chk_step : forall s ct o k, wf s -> op_ok o -> chk_ok s ct k -> chk_ok (step s o) ct k.
Proof.
  intros s ct o k W H (H1 & H2 & H3 & H4 & H5 & H6).
  assert (G : forall i, id_ok s i -> i <> 0%nat -> name_of (step s o) i = name_of s i) by (intros i [->|L] Hz; [congruence|apply live_step; assumption]).
  repeat split; try apply id_ok_step; try assumption; try apply H3; intros N; rewrite G by assumption; auto.
Qed.
Lemma core_step : forall ct x o t', cinv ct x -> op_ok o -> cinv ct (mkConc (with_core (x_buf x) (step (b_core (x_buf x)) o)) (x_checked x) t').
Proof.
  intros ct x o t' [B K C T] H. pose proof (reachable_wf _ (bi_core _ B)) as W. constructor; cbn [x_buf x_checked b_core with_core].
  - apply binv_core; assumption.
  - eapply Forall_impl; [|exact K]. intros k. apply chk_step; assumption.
  - rewrite step_ct by assumption. assumption.
  - intros p Hp. rewrite pending_core in Hp by (assumption || apply B). cbn [b_core with_core]. rewrite step_ct by assumption. apply T. assumption.
Qed.
Lemma remove_nth_incl : forall {A} i (l : list A), incl (remove_nth i l) l.
Proof. intros A. induction i as [|i IH]; intros [|y l] z Hz; cbn in *; try contradiction; auto. destruct Hz as [->|Hz]; auto. right. apply IH. assumption. Qed.

Lemma store_pending : forall (b : buf S) k ct, binv b -> chk_ok (b_core b) ct k -> b_rq_counter b + 1 < uint64 - 1 ->
  let '(b', h) := push_request b (k_cb k) (k_tgt_id k) (k_src_id k) (k_tgt k) (k_src k) (k_time k) in
  h = b_rq_counter b + 1 /\ b_rq_counter b' = h /\ b_core b' = b_core b /\ b_cbs b' = b_cbs b /\ binv b' /\
  pending b' = pending b ++ [mkPreq h (k_cb k) (k_tgt k) (k_src k) (k_time k)].
Proof.
  intros b k ct I (K1 & K2 & K3 & K4 & K5 & K6) H. pose proof (reachable_wf _ (bi_core b I)) as W. pose proof (bi_counter b I) as Hc. unfold push_request.
  rewrite Z.mod_small by (unfold uint64 in *; lia).
  rewrite (proj2 (Z.eqb_neq (b_rq_counter b + 1) 0)) by lia. rewrite (proj2 (Z.eqb_neq (b_rq_counter b + 1) (uint64 - 1))) by lia. cbn [orb].
  set (b' := {| b_core := _; b_cbs := _; b_cb_counter := _; b_reqs := _; b_rq_counter := _ |}).
  assert (Ep : pending b' = pending b ++ [mkPreq (b_rq_counter b + 1) (k_cb k) (k_tgt k) (k_src k) (k_time k)]).
  { unfold b', pending. cbn. rewrite map_app. cbn. f_equal. unfold view. cbn. f_equal. f_equal.
    - destruct (Nat.eqb_spec (k_tgt_id k) 0) as [E|E]; auto.
    - destruct (Nat.eqb_spec (k_src_id k) 0) as [E|E]; auto. }
  split; [reflexivity|]. split; [reflexivity|]. split; [reflexivity|]. split; [reflexivity|]. split; [|exact Ep]. destruct I. constructor; rewrite ?Ep; cbn [b' b_core b_reqs b_rq_counter b_cbs]; try assumption.
  - apply Forall_app. split; [assumption|]. constructor; [|constructor]. split; assumption.
  - apply Forall_app. split; [assumption|]. repeat constructor; apply K3.
  - rewrite map_app. cbn. eapply Permutation_NoDup; [apply Permutation_cons_append|]. constructor; [|assumption].
    intros Hin. apply in_map_iff in Hin as (p & Eh & Hp). rewrite Forall_forall in bi_range. specialize (bi_range p Hp). lia.
  - apply Forall_app. split; [|repeat constructor; cbn; lia]. eapply Forall_impl; [|exact bi_range]. cbn. lia.
  - lia.
Qed.

Lemma test_exact : forall ct x, cinv ct x ->
  exists b' evs, testTransformableRequests (x_buf x) = (b', Ok evs) /\ b_core b' = b_core (x_buf x) /\ b_cbs b' = b_cbs (x_buf x) /\
    b_rq_counter b' = b_rq_counter (x_buf x) /\
    Permutation (pending b') (filter (not_due (b_core (x_buf x))) (pending (x_buf x))) /\
    Permutation (map notice_of evs) (flat_map (owed (b_core (x_buf x)) (b_cbs (x_buf x))) (pending (x_buf x))).
Proof.
  intros ct x [B K C T]. pose proof (reachable_wf _ (bi_core _ B)) as W.
  destruct (test_loop_spec (List.length (b_reqs (x_buf x))) (b_core (x_buf x)) (b_cbs (x_buf x)) [] (b_reqs (x_buf x)) []) as (final & es & E & F1 & F2 & F3); auto.
  - apply B.
  - apply Forall_forall. intros r Hr. pose proof (bi_time _ B) as Tm. rewrite Forall_forall in Tm.
    specialize (Tm _ (in_map (view (b_core (x_buf x))) _ _ Hr)). specialize (T _ (in_map (view (b_core (x_buf x))) _ _ Hr)). split; [apply Tm|exact T].
  - unfold testTransformableRequests. rewrite E. eexists _, es. split; [reflexivity|]. cbn [b_core b_cbs b_rq_counter app]. auto.
Qed.

(** What one action does to the pending requests. *)
Definition new_by a (e : effect) (p : preq) : Prop := exists i, a = Store i /\ e = Stored (p_handle p).
Lemma act_fact : forall ct x a x' e, cinv ct x -> action_ok ct a -> b_rq_counter (x_buf x) + 1 < uint64 - 1 -> act x a = (x', e) ->
  cinv ct x' /\ b_rq_counter (x_buf x') <= b_rq_counter (x_buf x) + 1 /\
  (no_update a -> b_core (x_buf x') = b_core (x_buf x)) /\
  (forall p, In p (pending (x_buf x')) -> In p (pending (x_buf x)) \/ new_by a e p).
Proof.
  intros ct x a x' e I Ha Hc H. pose proof (reachable_wf _ (bi_core _ (ci_b _ _ I))) as W. destruct a as [cb tgt src t|i|m au st| | |cb|h|]; cbn [act] in H.
  - destruct (add_check (b_core (x_buf x)) tgt src t) as [[h|i j]|c e'|] eqn:E; try (inversion H; subst; split; [assumption|]; split; [lia|]; auto).
    apply add_check_push in E as (-> & -> & _ & _). destruct Ha as (_ & Ht & Hr).
    inversion H; subst. split; [|cbn [x_buf]; split; [lia|auto]]. destruct I. constructor; cbn [x_buf x_checked]; try assumption.
    apply Forall_app. split; [assumption|]. constructor; [|constructor]. pose proof (wf_ct _ W). unfold chk_ok. cbn [k_tgt_id k_src_id k_time k_tgt k_src]. split; [apply lfn_id_ok; assumption|]. split; [apply lfn_id_ok; assumption|]. split; [split; lia|]. split; [assumption|]. split; intros Nz; apply lfn_name; assumption.
  - destruct (nth_error (x_checked x) i) as [k|] eqn:E; [|inversion H; subst; split; [assumption|]; split; [lia|]; auto].
    pose proof (ci_k _ _ I) as Fk. rewrite Forall_forall in Fk. pose proof (Fk k (nth_error_In _ _ E)) as Hk.
    pose proof (store_pending (x_buf x) k ct (ci_b _ _ I) Hk Hc) as Sp. destruct (push_request _ _ _ _ _ _ _) as [b' h]. inversion H; subst.
    destruct Sp as (-> & S1 & S2 & S3 & S4 & S5). cbn [x_buf]. split; [|split; [lia|split; [auto|]]].
    + constructor; cbn [x_buf x_checked]; [assumption| | |].
      * rewrite S2. apply Forall_forall. intros k' Hk'. apply Fk. eapply remove_nth_incl; eassumption.
      * rewrite S2. apply I.
      * intros p Hp. rewrite S2. rewrite S5 in Hp. apply in_app_iff in Hp as [Hp|[<-|[]]]; [apply I; assumption|]. cbn. rewrite (ci_ct _ _ I). apply Hk.
    + intros p Hp. rewrite S5 in Hp. apply in_app_iff in Hp as [Hp|[<-|[]]]; [auto|]. right. exists i. auto.
  - destruct (setTransform (b_core (x_buf x)) m au st) as [s' r] eqn:Es. inversion H; subst.
    assert (Ecore : step (b_core (x_buf x)) (OSet m au st) = s') by (cbn; rewrite Es; reflexivity).
    assert (Io : op_ok (OSet m au st)) by exact Ha. split; [|cbn [x_buf]; split; [cbn; lia|split; [intros []|]]].
    + rewrite <- Ecore. apply core_step; assumption.
    + intros p Hp. rewrite <- Ecore in Hp. rewrite pending_core in Hp by (assumption || apply I). auto.
  - destruct (x_tests x) as [|n]; [inversion H; subst; split; [assumption|]; split; [lia|]; auto|].
    destruct (test_exact ct x I) as (b' & evs & Et & T1 & T2 & T3 & T4 & _). rewrite Et in H. inversion H; subst. cbn [x_buf].
    destruct (test_step _ _ _ (ci_b _ _ I) Et) as (Ib & _). 
    assert (Sub : forall p, In p (pending b') -> In p (pending (x_buf x))) by (intros p Hp; eapply Permutation_in in Hp; [|exact T4]; apply filter_In in Hp; tauto).
    split; [|split; [lia|split; [auto|]]].
    + constructor; cbn [x_buf x_checked]; [assumption|rewrite T1; apply I|rewrite T1; apply I|]. intros p Hp. rewrite T1. apply I, Sub. assumption.
    + intros p Hp. left. auto.
  - inversion H; subst. cbn [x_buf]. unfold addTransformableCallback. destruct (next_cb_handle _ _ _) as [h|] eqn:E; cbn [fst].
    + apply next_cb_fresh in E as [E1 E2]. split; [|cbn; split; [lia|split; auto]]. destruct I as [B K C T]. constructor; cbn [x_buf x_checked]; try assumption.
      destruct B. constructor; cbn; try assumption; constructor; assumption.
    + split; [|split; [lia|auto]]. destruct x; cbn in *. destruct I. constructor; assumption.
  - inversion H; subst. cbn [x_buf].
    assert (Sub : forall p, In p (pending (removeTransformableCallback (x_buf x) cb)) -> In p (pending (x_buf x))).
    { intros p Hp. unfold pending in *. cbn in Hp. apply in_map_iff in Hp as (r & <- & Hr). apply in_map. apply filter_In in Hr. apply Hr. }
    split; [|cbn; split; [lia|split; auto]]. destruct I as [B K C T]. constructor; cbn [x_buf x_checked]; try assumption.
    + apply (step_fact (x_buf x) (RRemoveCallback cb) _ AVoid [] B Ha ltac:(lia) eq_refl).
    + intros p Hp. apply T, Sub. assumption.
  - inversion H; subst. cbn [x_buf].
    assert (Sub : forall p, In p (pending (cancelTransformableRequest (x_buf x) h)) -> In p (pending (x_buf x))).
    { intros p Hp. unfold pending in *. cbn in Hp. apply in_map_iff in Hp as (r & <- & Hr). apply in_map. apply filter_In in Hr. apply Hr. }
    split; [|cbn; split; [lia|split; auto]]. destruct I as [B K C T]. constructor; cbn [x_buf x_checked]; try assumption.
    + apply (step_fact (x_buf x) (RCancel h) _ AVoid [] B Ha ltac:(lia) eq_refl).
    + intros p Hp. apply T, Sub. assumption.
  - inversion H; subst. split; [exact (core_step ct x OClear (x_tests x) I Logic.I)|]. cbn [x_buf]. split; [cbn; lia|]. split; [intros []|].
    intros p Hp. pose proof (pending_core (x_buf x) OClear W Logic.I (bi_ok _ (ci_b _ _ I))) as P'. cbn [step] in P'. rewrite P' in Hp. auto.
Qed.

Lemma acts_fact : forall l ct x x' log, cinv ct x -> Forall (action_ok ct) l -> b_rq_counter (x_buf x) + Z.of_nat (List.length l) < uint64 - 1 ->
  acts x l = (x', log) ->
  cinv ct x' /\ b_rq_counter (x_buf x') <= b_rq_counter (x_buf x) + Z.of_nat (List.length l) /\
  (Forall no_update l -> b_core (x_buf x') = b_core (x_buf x)) /\
  (forall p, In p (pending (x_buf x')) -> In p (pending (x_buf x)) \/ exists i, In (Store i, Stored (p_handle p)) log).
Proof.
  induction l as [|a l IH]; intros ct x x' log I F Hc H.
  - cbn in H. inversion H; subst. split; [assumption|]. split; [lia|]. auto.
  - inversion F as [|? ? Ha Fl]; subst. cbn [acts] in H. destruct (act x a) as [x1 e] eqn:Ea. destruct (acts x1 l) as [x2 lg] eqn:El. inversion H; subst.
    cbn [List.length] in *. destruct (act_fact ct x a x1 e I Ha ltac:(lia) Ea) as (I1 & C1 & U1 & N1).
    destruct (IH ct x1 x' lg I1 Fl ltac:(lia) El) as (I2 & C2 & U2 & N2). split; [assumption|]. split; [lia|]. split.
    + intros Fu. inversion Fu; subst. rewrite U2, U1; auto.
    + intros p Hp. destruct (N2 p Hp) as [Hp1|(i & Hi)]; [|right; exists i; right; assumption].
      destruct (N1 p Hp1) as [Hp0|(i & -> & ->)]; [auto|]. right. exists i. left. reflexivity.
Qed.
Lemma cinv_init : forall ct, 0 <= ct < dur_bound -> cinv ct (init_conc ct).
Proof. intros ct H. constructor; cbn; [apply binv_init; assumption|constructor|reflexivity|intros p []]. Qed.
Lemma conc_reach_inv : forall ct x, conc_reachable ct x -> cinv ct x /\ b_rq_counter (x_buf x) < uint64 - 2.
Proof.
  intros ct x (l & Hct & F & Hl & ->). destruct (acts (init_conc ct) l) as [x' log] eqn:E.
  destruct (acts_fact l ct (init_conc ct) x' log (cinv_init ct Hct) F) as (I & Hc & _); [cbn [x_buf init_conc b_rq_counter init_buf]; lia|assumption|].
  cbn [x_buf init_conc b_rq_counter init_buf fst] in *. split; [assumption|lia].
Qed.
Lemma acts_app : forall l1 l2 x, acts x (l1 ++ l2) =
  let '(x1, g1) := acts x l1 in let '(x2, g2) := acts x1 l2 in (x2, g1 ++ g2).
Proof.
  induction l1 as [|a l1 IH]; intros l2 x; cbn.
  - destruct (acts x l2); reflexivity.
  - destruct (act x a) as [x' e]. rewrite IH. destruct (acts x' l1) as [x1 g1]. destruct (acts x1 l2). reflexivity.
Qed.
Lemma acts_split : forall l x x' g1 a e g2, acts x l = (x', g1 ++ (a, e) :: g2) ->
  exists l1 l2 x1 x2, l = l1 ++ a :: l2 /\ acts x l1 = (x1, g1) /\ act x1 a = (x2, e) /\ acts x2 l2 = (x', g2).
Proof.
  induction l as [|a0 l IH]; intros x x' g1 a e g2 H.
  - cbn in H. destruct g1; discriminate.
  - cbn [acts] in H. destruct (act x a0) as [x0 e0] eqn:Es. destruct (acts x0 l) as [xf lg] eqn:Er.
    destruct g1 as [|y g1]; cbn [app] in H.
    + inversion H; subst. exists [], l, x, x0. repeat split; auto.
    + inversion H; subst. destruct (IH x0 x' g1 a e g2 Er) as (o1 & o2 & b1 & b2 & -> & H1 & H2 & H3).
      exists (a0 :: o1), o2, b1, b2. cbn. rewrite Es, H1. repeat split; auto.
Qed.
Lemma acts_actions : forall l x x' g, acts x l = (x', g) -> l = map fst g.
Proof.
  induction l as [|a l IH]; intros x x' g H; cbn in H; [inversion H; reflexivity|].
  destruct (act x a) as [x0 e0]. destruct (acts x0 l) as [xf lg] eqn:E. inversion H; subst. cbn. f_equal. eapply IH; eassumption.
Qed.

Lemma pushed_after_test : forall ct l x g1 r g2, 0 <= ct < dur_bound -> Forall (action_ok ct) l -> Z.of_nat (List.length l) < uint64 - 2 ->
  acts (init_conc ct) l = (x, g1 ++ (Test, Tested r) :: g2) -> Forall no_update (map fst g2) ->
  forall p, In p (pending (x_buf x)) -> due (b_core (x_buf x)) p <> None -> exists i, In (Store i, Stored (p_handle p)) g2.
Proof.
  intros ct l x g1 r g2 Hct F Hl H Nu p Hp Hd.
  destruct (acts_split _ _ _ _ _ _ _ H) as (l1 & l2 & x1 & x2 & -> & H1 & H2 & H3).
  apply Forall_app in F as [F1 F2]. inversion F2 as [|? ? Ha F2']; subst. rewrite app_length in Hl. cbn [List.length] in Hl.
  destruct (acts_fact l1 ct (init_conc ct) x1 g1 (cinv_init ct Hct) F1) as (I1 & C1 & _); [cbn [x_buf init_conc b_rq_counter init_buf]; lia|assumption|].
  cbn [x_buf init_conc b_rq_counter init_buf] in C1.
  destruct (act_fact ct x1 Test x2 _ I1 Ha ltac:(lia) H2) as (I2 & C2 & U2 & _).
  destruct (acts_fact l2 ct x2 x g2 I2 F2' ltac:(lia) H3) as (_ & _ & U3 & N3).
  destruct (N3 p Hp) as [Hp2|Hi]; [|exact Hi]. exfalso. apply Hd.
  rewrite U3 by (rewrite (acts_actions _ _ _ _ H3); assumption). rewrite (U2 Logic.I).
  cbn [act] in H2. destruct (x_tests x1) as [|n]; [discriminate|].
  destruct (test_exact ct x1 I1) as (b' & evs & Et & _ & _ & _ & T4 & _). rewrite Et in H2. inversion H2; subst. cbn [x_buf] in Hp2.
  eapply Permutation_in in Hp2; [|exact T4]. apply filter_In in Hp2 as [_ Hn]. unfold not_due in Hn. destruct (due (b_core (x_buf x1)) p); [discriminate|reflexivity].
Qed.
End P.

(** ** Theorems *)
(** Whatever the interleaving: a request that could be answered but sits in the buffer although
    nothing was inserted since the last test, was stored after that test. *)
Theorem C34_only_requests_stored_after_the_last_test_can_miss_it :
  forall (S : Scalar) ct (l : list (action S)) x before r after,
  0 <= ct < dur_bound -> Forall (action_ok ct) l -> Z.of_nat (List.length l) < 2 ^ 64 - 2 ->
  acts (init_conc ct) l = (x, before ++ (Test, Tested r) :: after) ->
  Forall no_update (map fst after) ->
  forall p, In p (pending (x_buf x)) -> due (b_core (x_buf x)) p <> None ->
  exists i, In (Store i, Stored (p_handle p)) after.
Proof. intros S ct l x g1 r g2 Hct F Hl. apply pushed_after_test; assumption. Qed.
Print Assumptions C34_only_requests_stored_after_the_last_test_can_miss_it.

(** Each thread inside setTransform that has inserted its transform will, when scheduled, settle
    every request then due, whichever thread made it. *)
Theorem C34_every_test_settles_all_due_requests :
  forall (S : Scalar) ct (x : conc S), conc_reachable ct x -> (0 < x_tests x)%nat ->
  exists x' evs, act x Test = (x', Tested (Ok evs)) /\ b_core (x_buf x') = b_core (x_buf x) /\
    Permutation (pending (x_buf x')) (filter (not_due (b_core (x_buf x))) (pending (x_buf x))) /\
    Permutation (map notice_of evs) (flat_map (owed (b_core (x_buf x)) (b_cbs (x_buf x))) (pending (x_buf x))).
Proof.
  intros S ct x R Ht. destruct (conc_reach_inv ct x R) as [I _]. destruct (test_exact ct x I) as (b' & evs & Et & T1 & _ & _ & T4 & T5).
  cbn [act]. destruct (x_tests x) as [|n]; [lia|]. rewrite Et. eexists _, evs. split; [reflexivity|]. auto.
Qed.
Print Assumptions C34_every_test_settles_all_due_requests.

(** An accepted insertion always leaves such a thread; a rejected one does not. *)
Theorem C34_accepted_insertion_will_be_tested :
  forall (S : Scalar) (x : conc S) m authority st x' r, act x (Insert m authority st) = (x', Inserted r) ->
  x_tests x' = (if match r with Ok true => true | _ => false end then Datatypes.S (x_tests x) else x_tests x).
Proof.
  intros S x m au st x' r H. cbn [act] in H. destruct (setTransform (b_core (x_buf x)) m au st) as [s' r']. inversion H; subst.
  destruct r as [[|]| |]; reflexivity.
Qed.
Print Assumptions C34_accepted_insertion_will_be_tested.

(** Run without interruption the pieces are the calls of the sequential model. *)
Theorem C34_uninterrupted_setTransform :
  forall (S : Scalar) (b : buf S) m authority st x g,
  acts (mkConc b [] 0) [Insert m authority st; Test] = (x, g) ->
  x_checked x = [] /\ x_tests x = 0%nat /\
  set_transform b m authority st =
    (x_buf x, match g with
              | [(_, Inserted (Ok true)); (_, Tested r)] => e <- r ;; Ok (true, e)
              | [(_, Inserted (Ok false)); _] => Ok (false, [])
              | [(_, Inserted (Throw c e)); _] => Throw c e
              | _ => UB
              end).
Proof.
  intros S b m au st x g H. cbn [acts act x_buf x_checked x_tests] in H. unfold set_transform.
  destruct (setTransform (b_core b) m au st) as [s' [[|]|c e|]]; cbn [x_buf x_checked x_tests act] in H;
  try (inversion H; subst; auto; fail).
  destruct (testTransformableRequests (with_core b s')) as [b'' r]. inversion H; subst. cbn. auto.
Qed.
Print Assumptions C34_uninterrupted_setTransform.

Theorem C34_uninterrupted_addTransformableRequest :
  forall (S : Scalar) (b : buf S) cb tgt src t x g,
  acts (mkConc b [] 0) [Check cb tgt src t; Store 0] = (x, g) ->
  x_checked x = [] /\ x_tests x = 0%nat /\
  addTransformableRequest b cb tgt src t =
    (x_buf x, match g with [(_, Answered r); _] => r | [_; (_, Stored h)] => Ok h | _ => UB end).
Proof.
  intros S b cb tgt src t x g H. cbn [acts act x_buf x_checked x_tests] in H. unfold addTransformableRequest.
  destruct (add_check (b_core b) tgt src t) as [[h|i j]|c e|]; cbn [act x_buf x_checked x_tests nth_error app k_cb k_tgt_id k_src_id k_tgt k_src k_time] in H;
  try (inversion H; subst; auto; fail).
Qed.
Print Assumptions C34_uninterrupted_addTransformableRequest.

(** The wake-up can be lost: the transform is inserted and tested between the check and the
    storing.  Afterwards no thread is active, the request is pending and could be answered. *)
Open Scope string_scope.
Definition race (store_first : bool) : list (action D64) :=
  [AddCallback; Check 1 "a" "b" 60; Insert (msg "a" "b" 60 (v64 1 0 0) id64) "me" false]
  ++ (if store_first then [Store 0; Test] else [Test; Store 0]).
Theorem C34_lost_wakeup_refuted :
  let x := fst (acts (init_conc 100) (race false)) in
  conc_reachable 100 x /\ x_checked x = [] /\ x_tests x = 0%nat /\
  map (fun p => (p_handle p, due (b_core (x_buf x)) p)) (pending (x_buf x)) = [(1, Some TransformAvailable)].
Proof.
  intros x. split; [|split; [reflexivity|split; [vm_compute; reflexivity|vm_compute; reflexivity]]].
  exists (race false). split; [unfold dur_bound; lia|]. split; [|split; [reflexivity|reflexivity]].
  repeat constructor; cbn; unfold uint32, time_bound; try lia.
Qed.
Print Assumptions C34_lost_wakeup_refuted.

(** In the other order the thread of setTransform notifies it. *)
Example C34_example :
  let x := fst (acts (init_conc 100) (race true)) in
  x_checked x = [] /\ x_tests x = 0%nat /\ List.length (pending (x_buf x)) = 0%nat /\
  map (fun g => match snd g with Tested (Ok evs) => map ev_handle evs | _ => [] end) (snd (acts (init_conc 100) (race true))) = [[]; []; []; []; [1]].
Proof. intros x. repeat split; vm_compute; reflexivity. Qed.
