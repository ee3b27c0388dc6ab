(** * Proofs about BufferServer and BufferClient *)
From Coq Require Import ZArith Bool List String Lia.
From Verif Require Import RosTime Scalar LinearMath Cache BufferCore SpecCore CoreInv Naturality CoreSet WalkSpec LctSpec Bridge WalkMain Sim Forget LookupBase LookupTheorems NoRange TfBuffer SpecWait WaitProofs TfAction SpecAction.
Import ListNotations.
Open Scope Z_scope.

Section P.
Context {S : Scalar}.
Notation server_op := (@server_op S).

Lemma goal_can_question : forall g (c : core S), reachable c ->
  exists b, goal_canTransform g c = Ok b /\ can (goal_question g) c None = Ok (b, None).
Proof.
  intros g c R. destruct (can_u_total (goal_question g) c R) as [b E]. exists b. split; [|exact E].
  unfold goal_canTransform, goal_question in *. destruct (g_advanced g); cbn [negb can] in *; rewrite E; reflexivity.
Qed.
Lemma goal_lookup_question : forall g (c : core S), goal_lookupTransform g c = lookup (goal_question g) c.
Proof. intros g c. unfold goal_lookupTransform, goal_question. destruct (g_advanced g); reflexivity. Qed.

Lemma fill_answers : forall (r : result S) x, fill_result x = Ok r -> answers r x.
Proof. intros r [m|c e|] H; cbn in H |- *; [injection H as <-; cbn; auto| |discriminate]. destruct c; try discriminate; injection H as <-; cbn; repeat split; discriminate. Qed.

Lemma fold_pair : forall A B C (x : A * B * C) a b c, x = (a, b, c) -> fst (fst x) = a /\ snd (fst x) = b /\ snd x = c.
Proof. intros A B C x a b c ->. auto. Qed.

Lemma take_goal_filter : forall id l x (r : list (goal * time)), take_goal id l = Some (x, r) ->
  g_id (fst x) = id /\ forall i, List.length (filter (holds i) l) = (List.length (filter (holds i) [x]) + List.length (filter (holds i) r))%nat.
Proof.
  intros id l. induction l as [|[g e] l IH]; intros x r H; [discriminate|]. cbn [take_goal] in H.
  destruct (Nat.eqb_spec (g_id g) id) as [E|E].
  - injection H as <- <-. split; [exact E|]. intros i. cbn. destruct (holds i (g, e)); reflexivity.
  - destruct (take_goal id l) as [[x' r']|]; [|discriminate]. injection H as -> <-. destruct (IH x r' eq_refl) as [I1 I2].
    split; [exact I1|]. intros i. specialize (I2 i). cbn [filter] in *. destruct (holds i (g, e)); cbn [List.length]; lia.
Qed.

Lemma check_balance : forall id sights goals k goals' evs (x : res unit),
  check_loop (S:=S) k sights goals = (goals', evs, x) ->
  List.length (filter (accepts id) evs) = 0%nat /\
  List.length (filter (holds id) goals) = (List.length (filter (finishes id) evs) + List.length (filter (holds id) goals'))%nat.
Proof.
  intros id sights goals. induction goals as [|[g e] goals IH]; intros k goals' evs x H; cbn [check_loop] in H.
  { injection H as <- <- <-. auto. }
  destruct (goal_canTransform g (v_can (sights k))) as [b| |]; [|injection H as <- <- <-; auto..].
  destruct (b || (e <? v_now (sights k))).
  - destruct (fill_result _) as [r| |]; [|injection H as <- <- <-; auto..].
    destruct (check_loop (k + 1) sights goals) as [[rest evs'] y] eqn:R. injection H as <- <- <-.
    destruct (IH _ _ _ _ R) as [I1 I2]. cbn [filter accepts finishes]. split; [exact I1|].
    unfold holds in *. cbn [fst]. destruct (Nat.eqb (g_id g) id); cbn [List.length]; lia.
  - destruct (check_loop (k + 1) sights goals) as [[rest evs'] y] eqn:R. injection H as <- <- <-.
    destruct (IH _ _ _ _ R) as [I1 I2]. cbn [filter]. split; [exact I1|]. destruct (holds id (g, e)); cbn [List.length]; lia.
Qed.

Definition died_now (id : nat) (o : server_op) (x : res unit) : nat := if died id (o, [], x) then 1%nat else 0%nat.

Lemma step_balance : forall id sv (o : server_op) sv' evs x, server_step sv o = (sv', evs, x) ->
  (List.length (filter (accepts id) evs) + waiting id sv = List.length (filter (finishes id) evs) + waiting id sv' + died_now id o x)%nat.
Proof.
  intros id sv o sv' evs x H. unfold died_now. destruct o as [g now0 o|i|i|sights]; cbn [server_step] in H.
  - unfold goalCB_begin in H. destruct (time_add now0 (g_timeout g)) as [et|].
    + destruct (goal_canTransform g (v_can o)) as [b| |]; [|injection H as <- <- <-; cbn; destruct (Nat.eqb (g_id g) id); cbn; lia..].
      destruct (b || (et <=? v_now o)).
      * destruct (fill_result _) as [r| |]; injection H as <- <- <-; cbn; destruct (Nat.eqb (g_id g) id); cbn; lia.
      * injection H as <- <- <-. unfold waiting. cbn [s_active s_starting]. rewrite filter_app, app_length. cbn [filter accepts finishes died].
        replace (holds id (g, et)) with (Nat.eqb (g_id g) id) by reflexivity. destruct (Nat.eqb (g_id g) id); cbn [List.length]; lia.
    + injection H as <- <- <-. cbn. destruct (Nat.eqb (g_id g) id); cbn; lia.
  - unfold goalCB_push in H. destruct (take_goal i (s_starting sv)) as [[y r]|] eqn:T; injection H as <- <- <-; [|cbn; lia].
    destruct (take_goal_filter _ _ _ _ T) as [_ F]. specialize (F id). unfold waiting. cbn [s_active s_starting].
    rewrite filter_app, app_length. cbn [died]. cbn [filter List.length] in *. destruct (holds id y); cbn [List.length] in *; lia.
  - unfold cancelCB in H. destruct (take_goal i (s_active sv)) as [[y r]|] eqn:T; injection H as <- <- <-; [|cbn; lia].
    destruct (take_goal_filter _ _ _ _ T) as [G F]. specialize (F id). unfold waiting. cbn [s_active s_starting died].
    cbn [filter accepts finishes] in *. unfold holds at 2 in F. rewrite G in F. destruct (Nat.eqb i id); cbn [List.length] in *; lia.
  - unfold checkTransforms in H. destruct (check_loop 0 sights (s_active sv)) as [[a ev] y] eqn:R. injection H as <- <- <-.
    destruct (check_balance id _ _ _ _ _ _ R) as [B1 B2]. unfold waiting. cbn [s_active s_starting died]. lia.
Qed.

Lemma died_ignores : forall id (o : server_op) evs evs' x, died id (o, evs, x) = died id (o, evs', x).
Proof. intros. destruct o; reflexivity. Qed.

Theorem conservation : forall ops sv sv' (log : list (@log_entry S)), server_run sv ops = (sv', log) ->
  forall id, (times_accepted id log + waiting id sv = times_finished id log + waiting id sv' + times_died id log)%nat.
Proof.
  induction ops as [|o ops IH]; intros sv sv' log H id; cbn [server_run] in H.
  { injection H as <- <-. cbn. lia. }
  destruct (server_step sv o) as [[s1 evs] x] eqn:E. destruct (server_run s1 ops) as [s2 l2] eqn:R. injection H as <- <-.
  specialize (IH _ _ _ R id). pose proof (step_balance id _ _ _ _ _ E) as B.
  unfold times_accepted, times_finished, times_died in *. unfold events_in in *. cbn [flat_map snd fst filter].
  rewrite !filter_app, !app_length. rewrite (died_ignores id o evs []). unfold died_now in B.
  destruct (died id (o, [], x)); cbn [List.length]; lia.
Qed.

Lemma accepted_ops : forall ops sv sv' (log : list (@log_entry S)), server_run sv ops = (sv', log) ->
  forall id, times_accepted id log = count_occ Nat.eq_dec (goal_ids ops) id.
Proof.
  induction ops as [|o ops IH]; intros sv sv' log H id; cbn [server_run] in H.
  { injection H as <- <-. reflexivity. }
  destruct (server_step sv o) as [[s1 evs] x] eqn:E. destruct (server_run s1 ops) as [s2 l2] eqn:R. injection H as <- <-.
  specialize (IH _ _ _ R id). unfold times_accepted, events_in in *. cbn [flat_map snd fst goal_ids]. rewrite filter_app, app_length, IH.
  unfold goal_ids. cbn [flat_map]. rewrite count_occ_app. f_equal.
  destruct o as [g now0 o|i|i|sights]; cbn [server_step] in E.
  - assert (X : List.length (filter (accepts id) evs) = if Nat.eqb (g_id g) id then 1%nat else 0%nat).
    { unfold goalCB_begin in E. destruct (time_add now0 (g_timeout g)) as [et|].
      - destruct (goal_canTransform g (v_can o)) as [b| |]; [|injection E as <- <- <-; cbn; destruct (Nat.eqb (g_id g) id); reflexivity..].
        destruct (b || (et <=? v_now o)); [destruct (fill_result _)|]; injection E as <- <- <-; cbn; destruct (Nat.eqb (g_id g) id); reflexivity.
      - injection E as <- <- <-; cbn; destruct (Nat.eqb (g_id g) id); reflexivity. }
    rewrite X. cbn. destruct (Nat.eq_dec (g_id g) id) as [->|N]; [rewrite Nat.eqb_refl; reflexivity|rewrite (proj2 (Nat.eqb_neq _ _) N); reflexivity].
  - unfold goalCB_push in E. destruct (take_goal i (s_starting sv)) as [[y r]|]; injection E as <- <- <-; reflexivity.
  - unfold cancelCB in E. destruct (take_goal i (s_active sv)) as [[y r]|]; injection E as <- <- <-; reflexivity.
  - unfold checkTransforms in E. destruct (check_loop 0 sights (s_active sv)) as [[a ev] y] eqn:R0. injection E as <- <- <-.
    destruct (check_balance id _ _ _ _ _ _ R0) as [B1 _]. rewrite B1. reflexivity.
Qed.

Theorem once : forall ops sv' (log : list (@log_entry S)), NoDup (goal_ids ops) -> server_run empty_server ops = (sv', log) ->
  forall id, In id (goal_ids ops) ->
  times_accepted id log = 1%nat /\ (times_finished id log + waiting id sv' + times_died id log = 1)%nat.
Proof.
  intros ops sv' log N H id I. pose proof (accepted_ops _ _ _ _ H id) as A. pose proof (conservation _ _ _ _ H id) as C.
  rewrite (NoDup_count_occ' Nat.eq_dec) in N. rewrite (N id I) in A. split; [exact A|]. cbn in C. lia.
Qed.
Theorem never_if_unknown : forall ops sv' (log : list (@log_entry S)), server_run empty_server ops = (sv', log) ->
  forall id, ~ In id (goal_ids ops) -> times_finished id log = 0%nat.
Proof.
  intros ops sv' log H id I. pose proof (accepted_ops _ _ _ _ H id) as A. pose proof (conservation _ _ _ _ H id) as C.
  apply (count_occ_not_In Nat.eq_dec) in I. cbn in C. lia.
Qed.

(** ** One tick *)
Definition sight_due (g : goal) (e : time) (o : sight S) : bool :=
  match goal_canTransform g (v_can o) with Ok b => b || (e <? v_now o) | _ => false end.
Lemma sight_due_iff : forall g e (o : sight S), reachable (v_can o) -> (sight_due g e o = true <-> due g e o).
Proof.
  intros g e o R. destruct (goal_can_question g _ R) as (b & E & Q). unfold sight_due, due. rewrite E, Q.
  rewrite orb_true_iff, Z.ltb_lt. split; intros [H|H]; auto; left; [subst b; reflexivity|injection H; auto].
Qed.

Lemma check_exact : forall (sights : nat -> sight S) goals k goals' evs, (forall j, reachable (v_can (sights j))) ->
  check_loop k sights goals = (goals', evs, Ok tt) ->
  goals' = map fst (filter (fun p => negb (sight_due (fst (fst p)) (snd (fst p)) (sights (snd p)))) (combine goals (seq k (List.length goals)))) /\
  exists rs, evs = rs /\
    Forall2 (fun p ev => exists r, ev = Succeeded (g_id (fst (fst p))) r /\
        answers r (lookup (goal_question (fst (fst p))) (v_lookup (sights (snd p)))))
      (filter (fun p => sight_due (fst (fst p)) (snd (fst p)) (sights (snd p))) (combine goals (seq k (List.length goals)))) rs.
Proof.
  intros sights goals. induction goals as [|[g e] goals IH]; intros k goals' evs R H; cbn [check_loop] in H.
  { injection H as <- <-. split; [reflexivity|]. exists []. split; [reflexivity|constructor]. }
  cbn [combine seq List.length filter fst snd].
  assert (D : sight_due g e (sights k) = match goal_canTransform g (v_can (sights k)) with Ok b => b || (e <? v_now (sights k)) | _ => false end) by reflexivity.
  destruct (goal_canTransform g (v_can (sights k))) as [b| |]; [|discriminate..].
  rewrite D. destruct (b || (e <? v_now (sights k))); cbn [negb].
  - destruct (fill_result (goal_lookupTransform g (v_lookup (sights k)))) as [r| |] eqn:F; [|discriminate..].
    destruct (check_loop (k + 1) sights goals) as [[rest evs'] y] eqn:C. injection H as <- <- ->.
    replace (k + 1)%nat with (Datatypes.S k) in C by lia.
    destruct (IH _ _ _ R C) as (-> & rs & -> & F2). split; [reflexivity|]. eexists. split; [reflexivity|]. constructor; [|exact F2].
    exists r. split; [reflexivity|]. cbn [fst snd]. apply fill_answers. rewrite <- goal_lookup_question. exact F.
  - destruct (check_loop (k + 1) sights goals) as [[rest evs'] y] eqn:C. injection H as <- <- ->.
    replace (k + 1)%nat with (Datatypes.S k) in C by lia.
    destruct (IH _ _ _ R C) as (-> & rs & -> & F2). split; [reflexivity|]. eexists. split; [reflexivity|]. exact F2.
Qed.

Lemma combine_seq_nth : forall A (l : list A) k x n, In (x, n) (combine l (seq k (List.length l))) <-> (k <= n)%nat /\ nth_error l (n - k) = Some x.
Proof.
  intros A l. induction l as [|a l IH]; intros k x n; cbn [List.length seq combine].
  - split; [intros []|]. intros [_ H]. destruct (n - k)%nat; discriminate.
  - cbn [In]. rewrite IH. split.
    + intros [H|[H1 H2]].
      * injection H as <- <-. split; [lia|]. rewrite Nat.sub_diag. reflexivity.
      * split; [lia|]. replace (n - k)%nat with (Datatypes.S (n - Datatypes.S k)) by lia. exact H2.
    + intros [H1 H2]. destruct (Nat.eq_dec n k) as [->|N].
      * rewrite Nat.sub_diag in H2. injection H2 as ->. auto.
      * right. split; [lia|]. replace (n - k)%nat with (Datatypes.S (n - Datatypes.S k)) in H2 by lia. exact H2.
Qed.

Lemma Forall2_in_l : forall A B (P : A -> B -> Prop) l l' a, Forall2 P l l' -> In a l -> exists b, In b l' /\ P a b.
Proof. intros A B P l l' a H. induction H; intros []; [subst; eexists; split; [left; reflexivity|assumption]|]. destruct (IHForall2 H1) as (b & ? & ?). exists b. split; [right|]; assumption. Qed.
Lemma Forall2_in_r : forall A B (P : A -> B -> Prop) l l' b, Forall2 P l l' -> In b l' -> exists a, In a l /\ P a b.
Proof. intros A B P l l' a H. induction H; intros []; [subst; eexists; split; [left; reflexivity|assumption]|]. destruct (IHForall2 H1) as (b & ? & ?). exists b. split; [right|]; assumption. Qed.

Theorem tick_exact : forall sv (sights : nat -> sight S) sv' evs, (forall k, good_sight (sights k)) ->
  checkTransforms sv sights = (sv', evs, Ok tt) ->
  s_starting sv' = s_starting sv /\
  (forall g e, In (g, e) (s_active sv') <-> exists k, nth_error (s_active sv) k = Some (g, e) /\ ~ due g e (sights k)) /\
  (forall ev, In ev evs -> exists k g e r, nth_error (s_active sv) k = Some (g, e) /\ due g e (sights k) /\
     ev = Succeeded (g_id g) r /\ answers r (lookup (goal_question g) (v_lookup (sights k)))) /\
  (forall k g e, nth_error (s_active sv) k = Some (g, e) -> due g e (sights k) ->
     exists r, In (Succeeded (g_id g) r) evs /\ answers r (lookup (goal_question g) (v_lookup (sights k)))).
Proof.
  intros sv sights sv' evs G H. unfold checkTransforms in H. destruct (check_loop 0 sights (s_active sv)) as [[a ev] y] eqn:C. injection H as <- <- ->.
  assert (R : forall j, reachable (v_can (sights j))) by (intros j; apply G).
  destruct (check_exact _ _ _ _ _ R C) as (E & rs & -> & F). cbn [s_active s_starting]. split; [reflexivity|].
  split; [|split].
  - intros g e. rewrite E, in_map_iff. split.
    + intros ([[g' e'] k] & X & I). cbn [fst] in X. injection X as -> ->. apply filter_In in I as [I D]. cbn [fst snd] in D.
      apply combine_seq_nth in I as [_ I]. rewrite Nat.sub_0_r in I. exists k. split; [exact I|]. intros Du. apply sight_due_iff in Du; [|apply R]. rewrite Du in D. discriminate.
    + intros (k & I & D). exists ((g, e), k). split; [reflexivity|]. apply filter_In. split.
      * apply combine_seq_nth. rewrite Nat.sub_0_r. split; [lia|exact I].
      * cbn [fst snd]. destruct (sight_due g e (sights k)) eqn:X; [|reflexivity]. apply sight_due_iff in X; [contradiction|apply R].
  - intros ev I. destruct (Forall2_in_r _ _ _ _ _ _ F I) as ([[g e] k] & I' & r & -> & An). cbn [fst snd] in *.
    apply filter_In in I' as [I' D]. cbn [fst snd] in D. apply combine_seq_nth in I' as [_ I']. rewrite Nat.sub_0_r in I'.
    exists k, g, e, r. repeat split; auto. apply sight_due_iff; [apply R|exact D].
  - intros k g e I D. assert (I' : In ((g, e), k) (filter (fun p => sight_due (fst (fst p)) (snd (fst p)) (sights (snd p))) (combine (s_active sv) (seq 0 (List.length (s_active sv)))))).
    { apply filter_In. split; [apply combine_seq_nth; rewrite Nat.sub_0_r; split; [lia|exact I]|]. cbn [fst snd]. apply sight_due_iff; [apply R|exact D]. }
    destruct (Forall2_in_l _ _ _ _ _ _ F I') as (ev & Ie & r & -> & An). cbn [fst snd] in *. eauto.
Qed.

(** ** No exception *)
Lemma lookup_u_no_range : forall u (c : core S), reachable c -> early c -> times_early u ->
  forall e, lookup u c <> Throw RuntimeError e.
Proof.
  intros u c R E T e. destruct u; cbn in T |- *; [apply lookup_no_range; assumption|apply fixed_no_range; tauto].
Qed.
Lemma lookup_not_ub : forall (c : core S) tgt src t, reachable c -> lookupTransform c tgt src t <> UB.
Proof.
  intros s tgt src t R. apply reachable_wf in R as W.
  destruct (lookup_shape s tgt src t W) as [(E & ->)|[(_ & _ & x & ->)|[(_ & _ & _ & x & ->)|[(_ & _ & _ & _ & x & ->)|[(_ & _ & _ & _ & _ & x & ->)|(_ & P1 & K1 & P2 & K2 & ->)]]]]];
    try discriminate.
  destruct (known_live s tgt W K1) as (i & Li & _ & -> & _). destruct (known_live s src W K2) as (j & Lj & _ & -> & _).
  destruct (twalk_cases s t i j (Some EEmpty) W Li Lj) as [[_ H]|(code & a & x & ch & E & Hc & _)].
  - rewrite H. discriminate.
  - rewrite E. cbn. destruct Hc as [->|[->|[->| ->]]]; discriminate.
Qed.
Lemma lookup_u_not_ub : forall u (c : core S), reachable c -> lookup u c <> UB.
Proof.
  intros u c R. destruct u as [tgt src t|tgt t1 src t2 fix_]; cbn [lookup]; [apply lookup_not_ub; exact R|].
  unfold lookupTransformFixed.
  assert (V : forall arg n, validateFrameId c arg n <> UB).
  { intros arg n. unfold validateFrameId. destruct (is_empty n); [discriminate|]. destruct (startsWithSlash n); [discriminate|]. destruct (Nat.eqb _ 0); discriminate. }
  destruct (validateFrameId c _ tgt) as [i1| |] eqn:E1; cbn [bind]; [|discriminate|destruct (V _ _ E1)].
  destruct (validateFrameId c _ src) as [i2| |] eqn:E2; cbn [bind]; [|discriminate|destruct (V _ _ E2)].
  destruct (validateFrameId c _ fix_) as [i3| |] eqn:E3; cbn [bind]; [|discriminate|destruct (V _ _ E3)].
  pose proof (lookup_not_ub c fix_ src t2 R) as L1. destruct (lookupTransform c fix_ src t2); cbn [bind]; [|discriminate|contradiction].
  pose proof (lookup_not_ub c tgt fix_ t1 R) as L2. destruct (lookupTransform c tgt fix_ t1); cbn [bind]; [discriminate|discriminate|contradiction].
Qed.

Lemma fill_total : forall u (c : core S), reachable c -> early c -> times_early u -> exists r, fill_result (lookup u c) = Ok r.
Proof.
  intros u c R E T. pose proof (lookup_u_no_range u c R E T) as N. pose proof (lookup_u_not_ub u c R) as U.
  destruct (lookup u c) as [m|cl e|]; [cbn; eauto| |contradiction]. destruct cl; cbn; eauto. destruct (N e eq_refl).
Qed.

Definition early_goals (l : list (goal * time)) : Prop := Forall (fun x => times_early (goal_question (fst x))) l.
Definition early_server (sv : server) : Prop := early_goals (s_active sv) /\ early_goals (s_starting sv).

Lemma check_ok : forall (sights : nat -> sight S) goals k, (forall j, good_sight (sights j)) -> early_goals goals ->
  exists goals' evs, check_loop k sights goals = (goals', evs, Ok tt) /\ early_goals goals'.
Proof.
  intros sights goals. induction goals as [|[g e] goals IH]; intros k G E; cbn [check_loop].
  { exists [], []. split; [reflexivity|constructor]. }
  inversion E as [|? ? E1 E2]; subst. cbn [fst] in E1. destruct (G k) as (R1 & R2 & Y1 & Y2).
  destruct (goal_can_question g _ R1) as (b & -> & _).
  destruct (IH (k + 1)%nat G E2) as (rest & evs & C & Er). rewrite C.
  destruct (b || (e <? v_now (sights k))).
  - rewrite goal_lookup_question. destruct (fill_total (goal_question g) _ R2 Y2 E1) as [r ->]. eauto.
  - do 2 eexists. split; [reflexivity|]. constructor; assumption.
Qed.

Lemma take_goal_early : forall id l x r, take_goal id l = Some (x, r) -> early_goals l -> times_early (goal_question (fst x)) /\ early_goals r.
Proof.
  intros id l. induction l as [|[g e] l IH]; intros x r H E; [discriminate|]. cbn [take_goal] in H. inversion E; subst.
  destruct (Nat.eqb (g_id g) id).
  - injection H as <- <-. auto.
  - destruct (take_goal id l) as [[x' r']|]; [|discriminate]. injection H as -> <-. destruct (IH _ _ eq_refl H3). split; [assumption|constructor; assumption].
Qed.

Lemma step_ok : forall sv (o : server_op), early_server sv -> op_in_range o ->
  exists sv' evs, server_step sv o = (sv', evs, Ok tt) /\ early_server sv'.
Proof.
  intros sv o [A B] I. destruct o as [g now0 o|i|i|sights]; cbn [server_step op_in_range] in *.
  - destruct I as ((R1 & R2 & Y1 & Y2) & T & V). unfold goalCB_begin. rewrite (time_add_valid _ _ V).
    destruct (goal_can_question g _ R1) as (b & -> & _). destruct (b || _).
    + rewrite goal_lookup_question. destruct (fill_total (goal_question g) _ R2 Y2 T) as [r ->]. do 2 eexists. split; [reflexivity|split; assumption].
    + do 2 eexists. split; [reflexivity|]. split; [exact A|]. apply Forall_app. split; [exact B|]. constructor; [exact T|constructor].
  - unfold goalCB_push. destruct (take_goal i (s_starting sv)) as [[x r]|] eqn:X; do 2 eexists; (split; [reflexivity|]); [|split; assumption].
    destruct (take_goal_early _ _ _ _ X B). split; cbn; [apply Forall_app; split; [exact A|constructor; [assumption|constructor]]|assumption].
  - unfold cancelCB. destruct (take_goal i (s_active sv)) as [[x r]|] eqn:X; do 2 eexists; (split; [reflexivity|]); [|split; assumption].
    destruct (take_goal_early _ _ _ _ X A). split; assumption.
  - unfold checkTransforms. destruct (check_ok sights (s_active sv) 0%nat I A) as (goals' & evs & -> & E). do 2 eexists. split; [reflexivity|]. split; assumption.
Qed.

Theorem run_ok : forall (ops : list server_op) sv, early_server sv -> Forall op_in_range ops ->
  exists sv' log, server_run sv ops = (sv', log) /\ Forall (fun e => snd e = Ok tt) log /\ early_server sv'.
Proof.
  induction ops as [|o ops IH]; intros sv E F; cbn [server_run]; [do 2 eexists; split; [reflexivity|]; split; [constructor|exact E]|].
  inversion F; subst. destruct (step_ok sv o E H1) as (s1 & evs & -> & E1). destruct (IH s1 E1 H2) as (s2 & log & -> & L & E2).
  do 2 eexists. split; [reflexivity|]. split; [constructor; [reflexivity|exact L]|exact E2].
Qed.
Lemma no_deaths : forall (log : list (@log_entry S)) id, Forall (fun e => snd e = Ok tt) log -> times_died id log = 0%nat.
Proof.
  intros log id F. unfold times_died. induction F as [|[[o evs] x] log H F IH]; [reflexivity|]. cbn [snd] in H. subst x.
  cbn [filter]. replace (died id (o, evs, Ok tt)) with false by (destruct o; reflexivity). exact IH.
Qed.

(** ** When errors may be reported *)
Lemma error_needs_reason : forall g e (o : sight S) r, good_sight o -> times_early (goal_question g) ->
  due g e o -> answers r (lookup (goal_question g) (v_lookup o)) -> r_error r <> 0 ->
  e < v_now o \/ v_can o <> v_lookup o.
Proof.
  intros g e o r (R1 & R2 & Y1 & Y2) T D A N. destruct D as [D|D]; [|auto]. right. intros Eq.
  apply (can_u_lookup _ _ R1 Y1 T) in D as [m L]. rewrite Eq in L. rewrite L in A. cbn in A. tauto.
Qed.

(** goalCB *)
Theorem begin_exact : forall sv g now0 (o : sight S) sv' evs, good_sight o ->
  goalCB_begin sv g now0 o = (sv', evs, Ok tt) ->
  s_active sv' = s_active sv /\ valid_time (now0 + g_timeout g) /\
  ((can (goal_question g) (v_can o) None = Ok (true, None) \/ now0 + g_timeout g <= v_now o) /\
     s_starting sv' = s_starting sv /\
     (exists r, evs = [Accepted (g_id g); Succeeded (g_id g) r] /\ answers r (lookup (goal_question g) (v_lookup o)))
   \/ can (goal_question g) (v_can o) None = Ok (false, None) /\ v_now o < now0 + g_timeout g /\
     s_starting sv' = s_starting sv ++ [(g, now0 + g_timeout g)] /\ evs = [Accepted (g_id g)]).
Proof.
  intros sv g now0 o sv' evs (R1 & R2 & _ & _) H. unfold goalCB_begin in H.
  destruct (time_add now0 (g_timeout g)) as [et|] eqn:T; [|discriminate]. destruct (time_add_some _ _ _ T) as [-> V].
  destruct (goal_can_question g _ R1) as (b & E & Q). rewrite E in H.
  destruct b; cbn [orb] in H.
  - destruct (fill_result _) as [r| |] eqn:F; [|discriminate..]. injection H as <- <-. split; [reflexivity|]. split; [exact V|].
    left. split; [left; exact Q|]. split; [reflexivity|]. exists r. split; [reflexivity|]. rewrite <- goal_lookup_question. apply fill_answers, F.
  - destruct (Z.leb_spec (now0 + g_timeout g) (v_now o)) as [L|L].
    + destruct (fill_result _) as [r| |] eqn:F; [|discriminate..]. injection H as <- <-. split; [reflexivity|]. split; [exact V|].
      left. split; [right; exact L|]. split; [reflexivity|]. exists r. split; [reflexivity|]. rewrite <- goal_lookup_question. apply fill_answers, F.
    + injection H as <- <-. split; [reflexivity|]. split; [exact V|]. right. auto.
Qed.

(** every active or starting goal carries the deadline computed when it came *)
Definition came (ops : list server_op) (x : goal * time) : Prop :=
  exists now0 o, In (SGoal (fst x) now0 o) ops /\ snd x = now0 + g_timeout (fst x).

Lemma take_goal_in : forall id l x (r : list (goal * time)), take_goal id l = Some (x, r) -> In x l /\ incl r l.
Proof.
  intros id l. induction l as [|[g e] l IH]; intros x r H; [discriminate|]. cbn [take_goal] in H.
  destruct (Nat.eqb (g_id g) id).
  - injection H as <- <-. split; [left; reflexivity|]. intros y Hy. right. exact Hy.
  - destruct (take_goal id l) as [[x' r']|]; [|discriminate]. injection H as -> <-. destruct (IH _ _ eq_refl) as [I1 I2].
    split; [right; exact I1|]. intros y [<-|Hy]; [left; reflexivity|right; apply I2, Hy].
Qed.
Lemma check_incl : forall (sights : nat -> sight S) goals k goals' evs x, check_loop k sights goals = (goals', evs, x) ->
  incl goals' goals /\ forall ev, In ev evs -> exists g e r n, In (g, e) goals /\ ev = Succeeded (g_id g) r /\
    answers r (lookup (goal_question g) (v_lookup (sights n))).
Proof.
  intros sights goals. induction goals as [|[g e] goals IH]; intros k goals' evs x H; cbn [check_loop] in H.
  { injection H as <- <- <-. split; [intros y Hy; exact Hy|intros ev []]. }
  destruct (goal_canTransform g (v_can (sights k))) as [b| |]; [|injection H as <- <- <-; split; [intros y Hy; exact Hy|intros ev []]..].
  destruct (b || (e <? v_now (sights k))).
  - destruct (fill_result (goal_lookupTransform g (v_lookup (sights k)))) as [r| |] eqn:F; [|injection H as <- <- <-; split; [intros y Hy; exact Hy|intros ev []]..].
    destruct (check_loop (k + 1) sights goals) as [[rest evs'] y] eqn:C. injection H as <- <- <-. destruct (IH _ _ _ _ C) as [I1 I2].
    split; [intros z Hz; right; apply I1, Hz|]. intros ev [<-|I].
    + exists g, e, r, k. split; [left; reflexivity|]. split; [reflexivity|]. rewrite <- goal_lookup_question. apply fill_answers, F.
    + destruct (I2 ev I) as (g' & e' & r' & n & J & K). exists g', e', r', n. split; [right; exact J|exact K].
  - destruct (check_loop (k + 1) sights goals) as [[rest evs'] y] eqn:C. injection H as <- <- <-. destruct (IH _ _ _ _ C) as [I1 I2].
    split; [intros z [<-|Hz]; [left; reflexivity|right; apply I1, Hz]|]. intros ev I.
    destruct (I2 ev I) as (g' & e' & r' & n & J & K). exists g', e', r', n. split; [right; exact J|exact K].
Qed.

Lemma step_came : forall sv (o : server_op) sv' evs x pre, server_step sv o = (sv', evs, x) ->
  Forall (came pre) (s_active sv) -> Forall (came pre) (s_starting sv) ->
  (Forall (came (pre ++ [o])) (s_active sv') /\ Forall (came (pre ++ [o])) (s_starting sv')) /\
  forall ev id r, In ev evs -> ev = Succeeded id r ->
    exists g c, g_id g = id /\ (exists now0 s0, In (SGoal g now0 s0) (pre ++ [o])) /\ looked_in o c /\ answers r (lookup (goal_question g) c).
Proof.
  intros sv o sv' evs x pre H A B.
  assert (W : forall l, Forall (came pre) l -> Forall (came (pre ++ [o])) l).
  { intros l F. eapply Forall_impl; [|exact F]. intros y (n & s0 & I & E). exists n, s0. split; [apply in_or_app; left; exact I|exact E]. }
  destruct o as [g now0 o|i|i|sights]; cbn [server_step] in H.
  - assert (Here : In (SGoal g now0 o) (pre ++ [SGoal g now0 o])) by (apply in_or_app; right; left; reflexivity).
    unfold goalCB_begin in H. destruct (time_add now0 (g_timeout g)) as [et|] eqn:T.
    2:{ injection H as <- <- <-. split; [split; apply W; assumption|]. intros ev id r [<-|[]] E. discriminate. }
    destruct (time_add_some _ _ _ T) as [-> V].
    destruct (goal_canTransform g (v_can o)) as [b| |]; [|injection H as <- <- <-; split; [split; apply W; assumption|]; intros ev id r [<-|[]] E; discriminate..].
    destruct (b || _).
    + destruct (fill_result (goal_lookupTransform g (v_lookup o))) as [r| |] eqn:F; injection H as <- <- <-; (split; [split; apply W; assumption|]);
        intros ev id r' I E; [|destruct I as [<-|[]]; discriminate..].
      destruct I as [<-|[<-|[]]]; [discriminate|]. injection E as <- <-. exists g, (v_lookup o). split; [reflexivity|]. split; [eauto|]. split; [reflexivity|].
      rewrite <- goal_lookup_question. apply fill_answers, F.
    + injection H as <- <- <-. cbn [s_active s_starting]. split.
      * split; [apply W, A|]. apply Forall_app. split; [apply W, B|]. constructor; [|constructor]. exists now0, o. split; [exact Here|reflexivity].
      * intros ev id r [<-|[]] E. discriminate.
  - unfold goalCB_push in H. destruct (take_goal i (s_starting sv)) as [[y r]|] eqn:X; injection H as <- <- <-; (split; [|intros ev id r' []]).
    + destruct (take_goal_in _ _ _ _ X) as [I1 I2]. cbn [s_active s_starting]. split.
      * apply Forall_app. split; [apply W, A|]. constructor; [|constructor]. apply W in B. rewrite Forall_forall in B. apply B, I1.
      * apply W in B. rewrite Forall_forall in *. intros z Hz. apply B, I2, Hz.
    + split; apply W; assumption.
  - unfold cancelCB in H. destruct (take_goal i (s_active sv)) as [[y r]|] eqn:X; injection H as <- <- <-.
    + destruct (take_goal_in _ _ _ _ X) as [I1 I2]. cbn [s_active s_starting]. split.
      * split; [|apply W, B]. apply W in A. rewrite Forall_forall in *. intros z Hz. apply A, I2, Hz.
      * intros ev id r' [<-|[]] E. discriminate.
    + split; [split; apply W; assumption|intros ev id r' []].
  - unfold checkTransforms in H. destruct (check_loop 0 sights (s_active sv)) as [[a ev] y] eqn:C. injection H as <- <- <-.
    destruct (check_incl _ _ _ _ _ _ C) as [I1 I2]. cbn [s_active s_starting]. split.
    + split; [|apply W, B]. apply W in A. rewrite Forall_forall in *. intros z Hz. apply A, I1, Hz.
    + intros ev' id r I E. destruct (I2 _ I) as (g & e & r' & n & J & K & An). rewrite K in E. injection E as <- <-.
      apply W in A. rewrite Forall_forall in A. destruct (A _ J) as (now0 & s0 & Q & _). cbn [fst] in Q.
      exists g, (v_lookup (sights n)). split; [reflexivity|]. split; [eauto|]. split; [exists n; reflexivity|exact An].
Qed.

Lemma run_came : forall (ops : list server_op) pre sv sv' log, server_run sv ops = (sv', log) ->
  Forall (came pre) (s_active sv) -> Forall (came pre) (s_starting sv) ->
  (Forall (came (pre ++ ops)) (s_active sv') /\ Forall (came (pre ++ ops)) (s_starting sv')) /\
  forall id r, In (Succeeded id r) (events_in log) ->
    exists g c o, g_id g = id /\ (exists now0 s0, In (SGoal g now0 s0) (pre ++ ops)) /\ In o ops /\ looked_in o c /\ answers r (lookup (goal_question g) c).
Proof.
  induction ops as [|o ops IH]; intros pre sv sv' log H A B; cbn [server_run] in H.
  { injection H as <- <-. rewrite app_nil_r. split; [split; assumption|]. intros id r []. }
  destruct (server_step sv o) as [[s1 evs] x] eqn:E. destruct (server_run s1 ops) as [s2 l2] eqn:R. injection H as <- <-.
  destruct (step_came _ _ _ _ _ pre E A B) as [[A1 B1] S1]. destruct (IH _ _ _ _ R A1 B1) as [AB S2].
  rewrite <- app_assoc in AB, S2. cbn [app] in AB, S2. split; [exact AB|].
  intros id r I. unfold events_in in I. cbn [flat_map fst snd] in I. apply in_app_or in I as [I|I].
  - destruct (S1 _ _ _ I eq_refl) as (g & c & G & (n & s0 & In0) & L & An). exists g, c, o. split; [exact G|]. split.
    + exists n, s0. apply in_app_or in In0 as [In0|[In0|[]]]; apply in_or_app; [left; exact In0|right; left; exact In0].
    + split; [left; reflexivity|]. split; assumption.
  - destruct (S2 _ _ I) as (g & c & o' & G & Q & Io & L & An). exists g, c, o'. split; [exact G|]. split; [exact Q|]. split; [right; exact Io|]. split; assumption.
Qed.

(** ** The client *)
Lemma processResult_answers : forall (r : result S) x, answers r x -> processResult r = x.
Proof.
  intros r [m|c e|] A; cbn in A; [| |destruct A]; unfold processResult.
  - destruct A as [-> <-]. reflexivity.
  - destruct A as (_ & <- & -> & N & _). destruct c; try reflexivity. contradiction.
Qed.
Lemma client_lookup_goal : forall id padding answer (u : question) timeout,
  client_lookup (S:=S) id padding answer u timeout =
  processGoal (match u with Simple tgt src t => simple_goal id tgt src t timeout | Advanced tgt t1 src t2 f => advanced_goal id tgt t1 src t2 f timeout end) padding answer.
Proof. intros. destruct u; reflexivity. Qed.
Lemma client_goal_question : forall id u timeout, goal_question (client_goal id u timeout) = u /\ g_timeout (client_goal id u timeout) = timeout /\ g_id (client_goal id u timeout) = id.
Proof. intros id u timeout. destruct u; auto. Qed.

Lemma goal_unique : forall (ops : list server_op) g g' n n' s0 s0', NoDup (goal_ids ops) ->
  In (SGoal g n s0) ops -> In (SGoal g' n' s0') ops -> g_id g = g_id g' -> g = g'.
Proof.
  assert (M : forall (ops : list server_op) g n s0, In (SGoal g n s0) ops -> In (g_id g) (goal_ids ops)).
  { intros ops g n s0 I. unfold goal_ids. apply in_flat_map. eexists. split; [exact I|left; reflexivity]. }
  induction ops as [|o ops IH]; intros g g' n n' s0 s0' N I I' E; [destruct I|].
  unfold goal_ids in N. cbn [flat_map] in N. fold (goal_ids ops) in N.
  destruct I as [->|I], I' as [E'|I'].
  - congruence.
  - cbn [app] in N. inversion N as [|? ? N1 N2]; subst. destruct N1. rewrite E. eapply M, I'.
  - subst o. cbn [app] in N. inversion N as [|? ? N1 N2]; subst. destruct N1. rewrite <- E. eapply M, I.
  - eapply IH; eauto. clear -N. induction (match o with SGoal g _ _ => [g_id g] | _ => [] end) as [|a l IHl]; [exact N|]. inversion N; auto.
Qed.

Theorem remote_local : forall (ops : list server_op) sv log id padding answer u timeout,
  NoDup (goal_ids ops) -> server_run empty_server ops = (sv, log) -> served ops log answer ->
  - dur_bound <= timeout + padding < dur_bound ->
  match answer (client_goal id u timeout) with
  | Success _ => exists o c, In o ops /\ looked_in o c /\ client_lookup (S:=S) id padding answer u timeout = lookup u c
  | _ => exists e, client_lookup (S:=S) id padding answer u timeout = Throw TimeoutException e
  end.
Proof.
  intros ops sv log id padding answer u timeout N H Sv V. rewrite client_lookup_goal. fold (client_goal id u timeout).
  destruct (client_goal_question id u timeout) as (Q & T & I). unfold processGoal. rewrite T.
  replace (dur_add timeout padding) with (Some (timeout + padding)).
  2:{ unfold dur_add, valid_durb. destruct V as [V1 V2]. rewrite (proj2 (Z.leb_le _ _) V1), (proj2 (Z.ltb_lt _ _) V2). reflexivity. }
  cbn [lift_time bind]. destruct (answer (client_goal id u timeout)) as [| |r] eqn:A; [eauto|eauto|].
  destruct (Sv _ _ A) as ((n & s0 & In0) & Ev).
  destruct (run_came ops [] empty_server sv log H (Forall_nil _) (Forall_nil _)) as [_ R].
  destruct (R _ _ Ev) as (g & c & o & G & (n' & s0' & In') & Io & L & An). cbn [app] in In'.
  assert (g = client_goal id u timeout) by (eapply goal_unique; eauto). subst g. rewrite Q in An.
  exists o, c. split; [exact Io|]. split; [exact L|]. apply processResult_answers, An.
Qed.

Lemma client_can_lookup : forall id padding answer u timeout errstr,
  client_can (S:=S) id padding answer u timeout errstr = caught (client_lookup id padding answer u timeout) errstr.
Proof. intros. destruct u; reflexivity. Qed.
End P.
