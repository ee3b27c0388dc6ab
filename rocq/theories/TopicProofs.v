(** * Broadcasters and TransformListener: lemmas *)
From Coq Require Import ZArith Bool List String Lia Arith Permutation.
From Verif Require Import RosTime Scalar LinearMath Cache SpecCache BufferCore SpecCore CoreInv CoreSet Sim Forget History Answers
  Malformed NoRange CoreTheorems Requests SpecRequests RequestProofs RequestHistory TfTopics SpecTopics.
Import ListNotations.
Open Scope Z_scope.
Local Opaque MAX_GRAPH_DEPTH.

Section P.
Context {S : Scalar}.
Notation tmsg := (tmsg S).
Implicit Types (m x : tmsg) (net sent : list tmsg) (calls : list (list tmsg)).

(** ** StaticTransformBroadcaster *)
Lemma rop_children : forall net m, map (@tm_child S) (replace_or_push net m) =
  if existsb (fun x => String.eqb (tm_child m) (tm_child x)) net then map (@tm_child S) net else map (@tm_child S) net ++ [tm_child m].
Proof.
  induction net as [|x net IH]; intros m; cbn; [reflexivity|].
  destruct (String.eqb_spec (tm_child m) (tm_child x)) as [E|E]; cbn; [congruence|]. rewrite IH. destruct (existsb _ net); reflexivity.
Qed.
Lemma rop_nodup : forall net m, NoDup (map (@tm_child S) net) -> NoDup (map (@tm_child S) (replace_or_push net m)).
Proof.
  intros net m N. rewrite rop_children. destruct (existsb _ net) eqn:E; [assumption|].
  apply Permutation_NoDup with (tm_child m :: map (@tm_child S) net); [apply Permutation_cons_append|].
  constructor; [|assumption]. intros H. apply in_map_iff in H as (x & E1 & H1).
  rewrite <- not_true_iff_false in E. apply E. apply existsb_exists. exists x. split; [assumption|]. apply String.eqb_eq. congruence.
Qed.
Lemma rop_in : forall net m x, NoDup (map (@tm_child S) net) ->
  (In x (replace_or_push net m) <-> x = m \/ (In x net /\ tm_child x <> tm_child m)).
Proof.
  induction net as [|y net IH]; intros m x N; cbn [replace_or_push].
  - cbn. split; [intros [H|[]]; auto|intros [H|[[] _]]; auto].
  - cbn [map] in N. inversion N as [|c cs N1 N2]; subst. destruct (String.eqb_spec (tm_child m) (tm_child y)) as [E|E]; cbn [In].
    + split; [intros [H|H]; [auto|]|intros [H|[[H|H] H']]; [auto| |auto]].
      * right. split; [auto|]. intros E'. apply N1. rewrite <- E, <- E'. apply in_map. assumption.
      * subst. congruence.
    + rewrite IH by assumption. split; [intros [H|[H|[H H']]]; [|auto|auto]|intros [H|[[H|H] H']]; auto].
      subst. right. split; [auto|congruence].
Qed.
Lemma send_nodup : forall sent net, NoDup (map (@tm_child S) net) -> NoDup (map (@tm_child S) (static_sendTransform net sent)).
Proof. induction sent as [|m sent IH]; intros net N; [assumption|]. cbn. apply IH, rop_nodup, N. Qed.
Lemma send_snoc : forall net sent m, static_sendTransform net (sent ++ [m]) = replace_or_push (static_sendTransform net sent) m.
Proof. intros. unfold static_sendTransform. rewrite fold_left_app. reflexivity. Qed.
Lemma send_app : forall net s1 s2, static_sendTransform net (s1 ++ s2) = static_sendTransform (static_sendTransform net s1) s2.
Proof. intros. unfold static_sendTransform. apply fold_left_app. Qed.

Lemma latest_snoc : forall sent m x, latest_for_child (sent ++ [m]) x <-> x = m \/ (latest_for_child sent x /\ tm_child x <> tm_child m).
Proof.
  intros sent m x. split.
  - intros (b & a & E & H). destruct (exists_last (l := x :: a)) as (l' & z & El); [discriminate|].
    rewrite El in E. rewrite app_assoc in E. apply app_inj_tail in E as [E1 E2]. subst z.
    destruct l' as [|y l']; cbn in El; inversion El; subst; [auto|]. right. split.
    + exists b, l'. split; [congruence|]. intros m' Hm. apply H. apply in_app_iff. auto.
    + intros E. apply (H m); [apply in_app_iff; cbn; auto|congruence].
  - intros [->|[(b & a & -> & H) N]].
    + exists sent, []. split; [reflexivity|]. intros m' [].
    + exists b, (a ++ [m]). split; [rewrite <- app_assoc; reflexivity|]. intros m' Hm. apply in_app_iff in Hm as [Hm|[<-|[]]]; [auto|congruence].
Qed.
Lemma send_latest : forall sent x, In x (static_sendTransform [] sent) <-> latest_for_child sent x.
Proof.
  intros sent. induction sent as [|m sent IH] using rev_ind; intros x.
  - cbn. split; [intros []|intros (b & a & E & _); destruct b; discriminate].
  - rewrite send_snoc, rop_in by (apply send_nodup; constructor). rewrite IH, latest_snoc. reflexivity.
Qed.
Lemma send_covers : forall sent net m, In m sent \/ In (tm_child m) (map (@tm_child S) net) -> In (tm_child m) (map (@tm_child S) (static_sendTransform net sent)).
Proof.
  assert (G : forall net y c, In c (map (@tm_child S) net) -> In c (map (@tm_child S) (replace_or_push net y))).
  { intros net y c H. rewrite rop_children. destruct (existsb _ net); [assumption|apply in_app_iff; auto]. }
  assert (G' : forall net y, In (tm_child y) (map (@tm_child S) (replace_or_push net y))).
  { intros net y. rewrite rop_children. destruct (existsb _ net) eqn:E; [|apply in_app_iff; cbn; auto].
    apply existsb_exists in E as (z & Hz & E). apply String.eqb_eq in E. rewrite E. apply in_map. assumption. }
  induction sent as [|y sent IH]; intros net m [H|H]; cbn; try contradiction; try assumption.
  - apply IH. destruct H as [->|H]; [right; apply G'|auto].
  - apply IH. right. apply G. assumption.
Qed.

Lemma published_nth : forall calls net k msg, nth_error (static_published net calls) k = Some msg ->
  msg = static_sendTransform net (List.concat (firstn (Datatypes.S k) calls)).
Proof.
  induction calls as [|c calls IH]; intros net k msg H; [destruct k; discriminate|].
  cbn [static_published] in H. destruct k as [|k]; cbn [nth_error] in H.
  - inversion H. cbn. rewrite app_nil_r. reflexivity.
  - apply IH in H. rewrite H. cbn [firstn List.concat]. rewrite send_app. reflexivity.
Qed.
Lemma published_length : forall calls net, List.length (static_published net calls) = List.length calls.
Proof. induction calls as [|c calls IH]; intros net; cbn; [reflexivity|]. rewrite IH. reflexivity. Qed.

Lemma one_latest_per_child : forall calls k msg, nth_error (static_published [] calls) k = Some msg ->
  let sent := List.concat (firstn (Datatypes.S k) calls) in
  NoDup (map (@tm_child S) msg) /\ (forall m, In m msg <-> latest_for_child sent m) /\
  (forall m, In m sent -> exists m', In m' msg /\ tm_child m' = tm_child m).
Proof.
  intros calls k msg H sent. apply published_nth in H. fold sent in H. subst msg. split; [apply send_nodup; constructor|].
  split; [intros m; apply send_latest|]. intros m Hm.
  pose proof (send_covers sent [] m (or_introl Hm)) as H. apply in_map_iff in H as (m' & E & H). eauto.
Qed.

(** messages published later cover the children published before *)
Lemma published_nth_sent : forall calls k, (k < List.length calls)%nat ->
  nth_error (static_published [] calls) k = Some (static_sendTransform [] (List.concat (firstn (Datatypes.S k) calls))).
Proof.
  intros calls k H. destruct (nth_error (static_published [] calls) k) eqn:E.
  - f_equal. apply published_nth, E.
  - apply nth_error_None in E. rewrite published_length in E. lia.
Qed.
Lemma firstn_more : forall {A} (l : list A) i j, (i <= j)%nat -> exists r, firstn j l = firstn i l ++ r.
Proof.
  intros A l i j H. exists (skipn i (firstn j l)). rewrite <- (firstn_skipn i (firstn j l)) at 1. f_equal. rewrite firstn_firstn. f_equal. lia.
Qed.
Lemma published_grow : forall calls i j mi mj x, (i <= j)%nat ->
  nth_error (static_published [] calls) i = Some mi -> nth_error (static_published [] calls) j = Some mj ->
  In x mi -> In (tm_child x) (map (@tm_child S) mj).
Proof.
  intros calls i j mi mj x H Hi Hj Hx. apply published_nth in Hi, Hj. subst mi mj.
  destruct (firstn_more calls (Datatypes.S i) (Datatypes.S j) ltac:(lia)) as [r ->]. rewrite concat_app, send_app.
  apply send_covers. right. apply in_map. assumption.
Qed.
Lemma published_sent : forall calls k msg m, nth_error (static_published [] calls) k = Some msg -> In m msg -> exists c, In c calls /\ In m c.
Proof.
  intros calls k msg m H Hm. apply published_nth in H. subst msg. apply send_latest in Hm as (b & a & E & _).
  assert (H : In m (List.concat (firstn (Datatypes.S k) calls))) by (rewrite E; apply in_app_iff; cbn; auto).
  apply in_concat in H as (c & Hc & Hm). exists c. split; [|assumption].
  rewrite <- (firstn_skipn (Datatypes.S k) calls). apply in_app_iff. auto.
Qed.

(** ** what static subscribers end up with *)
Definition last_named (n : string) net : option tmsg := find (fun m => String.eqb (stripSlash (tm_child m)) n) (rev net).
Lemma fold_static : forall ct n net h, Forall (fun m => setTransform_error (strip_msg m) = false) net ->
  (h = None \/ exists o, h = Some (Static o)) ->
  fold_left (frame_step ct n) (map (fun m => OSet m "publisher" true) net) h =
  match last_named n net with Some m => Some (Static (Some (sample_of (strip_msg m)))) | None => h end.
Proof.
  intros ct n net h F. revert h. induction net as [|m net IH] using rev_ind; intros h Hh; [reflexivity|].
  apply Forall_app in F as [F1 F2]. inversion F2 as [|m0 l0 Fm _]; subst.
  rewrite map_app, fold_left_app, (IH F1 h Hh). unfold last_named. rewrite rev_app_distr. cbn [rev app map fold_left find frame_step].
  unfold bad_message. rewrite Fm. change (tm_child (strip_msg m)) with (stripSlash (tm_child m)).
  destruct (String.eqb (stripSlash (tm_child m)) n); [|reflexivity].
  fold (last_named n net). destruct (last_named n net) as [x|]; [reflexivity|]. destruct Hh as [->|[o ->]]; reflexivity.
Qed.
Lemma fold_static_all : forall ct n pubs h, Forall (Forall (fun m => setTransform_error (strip_msg m) = false)) pubs ->
  (h = None \/ exists o, h = Some (Static o)) ->
  let r := fold_left (frame_step ct n) (receive_static pubs) h in
  (r = None \/ exists o, r = Some (Static o)) /\
  ((forall net, In net pubs -> last_named n net = None) -> r = h).
Proof.
  intros ct n pubs. induction pubs as [|p pubs IH]; intros h F Hh; [split; auto|].
  inversion F as [|p0 l0 Fp Fr]; subst. cbn [receive_static flat_map]. fold (receive_static pubs). cbv zeta.
  rewrite fold_left_app, (fold_static ct n p h Fp Hh).
  assert (Hh' : (match last_named n p with Some m => Some (Static (Some (sample_of (strip_msg m)))) | None => h end) = None \/
     exists o, (match last_named n p with Some m => Some (Static (Some (sample_of (strip_msg m)))) | None => h end) = Some (Static o)).
  { destruct (last_named n p); [right; eauto|assumption]. }
  destruct (IH _ Fr Hh') as [R1 R2]. split; [exact R1|]. intros Hn. rewrite R2 by (intros net Hnet; apply Hn; right; assumption).
  rewrite (Hn p (or_introl eq_refl)). reflexivity.
Qed.
Lemma last_named_none : forall n net, last_named n net = None -> forall m, In m net -> stripSlash (tm_child m) <> n.
Proof.
  intros n net H m Hm E. unfold last_named in H. apply in_rev in Hm. pose proof (find_none _ _ H m Hm) as Hf.
  cbn beta in Hf. apply String.eqb_neq in Hf. congruence.
Qed.
Lemma none_last_named : forall n net, (forall m, In m net -> stripSlash (tm_child m) <> n) -> last_named n net = None.
Proof.
  intros n net H. unfold last_named. destruct (find _ (rev net)) eqn:E; [|reflexivity].
  apply find_some in E as [E1 E2]. apply in_rev in E1. apply String.eqb_eq in E2. destruct (H _ E1 E2).
Qed.

Lemma skipn_split_last : forall {A} (l : list A) j z, nth_error l (List.length l - 1) = Some z -> (j < List.length l)%nat ->
  exists front, skipn j l = front ++ [z] /\ incl front l.
Proof.
  intros A l j z Hz Hj. destruct (exists_last (l := skipn j l)) as (front & y & E).
  { intros E. apply (f_equal (@List.length A)) in E. rewrite skipn_length in E. cbn in E. lia. }
  exists front. split.
  - rewrite E. f_equal. f_equal. pose proof (firstn_skipn j l) as Fs. rewrite E in Fs.
    rewrite <- Fs in Hz at 1. rewrite app_assoc in Hz. rewrite nth_error_app2 in Hz.
    + assert (L : List.length l = (List.length (firstn j l ++ front) + 1)%nat) by (rewrite <- Fs at 1; rewrite !app_length; cbn; lia).
      rewrite L in Hz. replace (_ - _)%nat with 0%nat in Hz by lia. cbn in Hz. congruence.
    + assert (L : List.length l = (List.length (firstn j l ++ front) + 1)%nat) by (rewrite <- Fs at 1; rewrite !app_length; cbn; lia). lia.
  - intros a Ha. rewrite <- (firstn_skipn j l), E. rewrite !in_app_iff. auto.
Qed.

Lemma mentions_incl : forall n (ops ops' : list (core_op S)), incl ops ops' -> Exists (mentions n) ops -> Exists (mentions n) ops'.
Proof. intros n ops ops' I H. apply Exists_exists in H as (o & Ho & H). apply Exists_exists. eauto. Qed.

Lemma late_subscriber : forall ct calls j, 0 <= ct < dur_bound -> (j < List.length calls)%nat ->
  (forall c m, In c calls -> In m c -> valid_time (tm_stamp m) /\ ~ malformed m) ->
  let early := run (init_core ct) (receive_static (static_published [] calls)) in
  let late := run (init_core ct) (receive_static (skipn j (static_published [] calls))) in
  (forall n, hist late n = hist early n) /\
  (forall n, known late n -> known early n) /\
  (forall tgt src t, known late tgt -> known late src ->
     same_answer (lookupTransform late tgt src t) (lookupTransform early tgt src t) /\
     canTransform late tgt src t None = canTransform early tgt src t None /\
     latest_common_time late tgt src = latest_common_time early tgt src).
Proof.
  intros ct calls j Hct Hj Hm early late.
  set (pubs := static_published [] calls) in *.
  assert (Good : forall net, In net pubs -> Forall (fun m => setTransform_error (strip_msg m) = false) net /\ Forall (fun m => valid_time (tm_stamp m)) net).
  { intros net Hn. apply In_nth_error in Hn as (k & Hk). split; apply Forall_forall; intros m H;
    destruct (published_sent calls k net m Hk H) as (c & Hc & Hc'); destruct (Hm c m Hc Hc') as [V M]; [apply not_malformed, M|exact V]. }
  assert (Ops : forall ps, incl ps pubs -> Forall op_ok (receive_static ps)).
  { intros ps I. unfold receive_static. apply Forall_flat_map, Forall_forall. intros net Hn. apply Forall_map.
    destruct (Good net (I net Hn)) as [_ G]. exact G. }
  assert (Isk : incl (skipn j pubs) pubs).
  { intros a Ha. rewrite <- (firstn_skipn j pubs). apply in_app_iff. auto. }
  assert (Oe : Forall op_ok (receive_static pubs)) by (apply Ops; intros a; auto).
  assert (Ol : Forall op_ok (receive_static (skipn j pubs))) by (apply Ops, Isk).
  assert (Lp : List.length pubs = List.length calls) by apply published_length.
  destruct (nth_error pubs (List.length pubs - 1)) as [final|] eqn:Ef.
  2:{ apply nth_error_None in Ef. lia. }
  destruct (skipn_split_last pubs j final Ef ltac:(lia)) as (f1 & E1 & I1).
  destruct (skipn_split_last pubs 0 final Ef ltac:(lia)) as (f0 & E0 & I0). cbn [skipn] in E0.
  assert (Hfin : In final pubs) by (eapply nth_error_In; exact Ef).
  assert (Same : forall n front, n <> NO_PARENT -> incl front pubs ->
    fold_left (frame_step ct n) (receive_static (front ++ [final])) None =
    match last_named n final with Some m => Some (Static (Some (sample_of (strip_msg m)))) | None => None end).
  { intros n front Hn I. unfold receive_static. rewrite flat_map_app, fold_left_app. cbn [flat_map]. rewrite app_nil_r.
    fold (receive_static front).
    assert (Ff : Forall (Forall (fun m => setTransform_error (strip_msg m) = false)) front).
    { apply Forall_forall. intros net Hnet. apply (Good net (I net Hnet)). }
    destruct (fold_static_all ct n front None Ff (or_introl eq_refl)) as [Q1 Q2].
    rewrite fold_static; [|apply (Good final Hfin)|exact Q1].
    destruct (last_named n final) eqn:El; [reflexivity|]. apply Q2. intros net Hnet. apply none_last_named. intros m Hmn.
    apply In_nth_error in Hnet as Hk. destruct Hk as (k0 & Hk0). apply I in Hnet. apply In_nth_error in Hnet as (k & Hk).
    assert (k <= List.length pubs - 1)%nat by (assert (nth_error pubs k <> None) by congruence; apply nth_error_Some in H; lia).
    pose proof (published_grow calls k _ net final m H Hk Ef Hmn) as G. apply in_map_iff in G as (m' & Ec & Hm').
    rewrite <- Ec. apply (last_named_none n final El m' Hm'). }
  assert (H : forall n, hist late n = hist early n).
  { intros n. destruct (string_dec n NO_PARENT) as [->|Hn].
    - unfold late, early. rewrite !hist_NO_PARENT; [reflexivity|apply wf_run; [apply wf_init|]; assumption..].
    - unfold late, early. rewrite !hist_run by assumption. rewrite E1, E0 at 1. rewrite !Same by assumption. reflexivity. }
  assert (K : forall n, known late n -> known early n).
  { intros n. unfold late, early. rewrite !known_run by assumption. intros [Hn He]. split; [assumption|].
    revert He. apply mentions_incl. intros o Ho. unfold receive_static in *. apply in_flat_map in Ho as (net & Hn1 & Hn2).
    apply in_flat_map. exists net. auto. }
  split; [exact H|]. split; [exact K|]. intros tgt src t K1 K2.
  assert (R1 : reachable late) by (exists ct, (receive_static (skipn j pubs)); auto).
  assert (R2 : reachable early) by (exists ct, (receive_static pubs); auto).
  apply reachable_wf in R1 as W1. apply reachable_wf in R2 as W2.
  assert (Cl : forall u, closed late (known late) u) by (intros u; apply known_closed; assumption).
  split; [|split].
  - apply (agree_lookup late early W1 W2 (known late)); auto; [intros n Hn; split; auto|split; auto].
  - apply (agree_can late early W1 W2 (known late)); auto; [intros n Hn; split; auto|split; auto].
  - apply (agree_latest late early W1 W2 (known late)); auto. intros n Hn; split; auto.
Qed.

Lemma latched_last : forall (pubs : list (list tmsg)), latched pubs = skipn (List.length pubs - 1) pubs.
Proof.
  intros pubs. destruct pubs as [|p pubs] using rev_ind; [reflexivity|]. unfold latched. rewrite rev_app_distr. cbn [rev app].
  rewrite app_length. cbn [List.length]. replace (_ + 1 - 1)%nat with (List.length pubs) by lia.
  rewrite skipn_app, skipn_all, Nat.sub_diag. reflexivity.
Qed.

Lemma plain_broadcast : forall net, sendTransform net = net.
Proof.
  intros net. unfold sendTransform. assert (G : forall acc, fold_left (fun message it => message ++ [it]) net acc = acc ++ net).
  { induction net as [|m net IH]; intros acc; cbn; [rewrite app_nil_r; reflexivity|]. rewrite IH, <- app_assoc. reflexivity. }
  apply G.
Qed.

(** ** TransformListener *)
Lemma set_all_calls : forall msgs b a st b' evs, set_all b msgs a st = (b', evs, Ok tt) ->
  exists log, req_run b (map (fun m => RSet m a st) msgs) = (b', log) /\ events_of log = evs.
Proof.
  induction msgs as [|m msgs IH]; intros b a st b' evs H.
  - cbn in H. inversion H; subst. exists []. split; reflexivity.
  - cbn [set_all] in H. cbn [map req_run req_step]. destruct (set_transform b m a st) as [b1 r] eqn:E.
    destruct r as [[v e]|c x|].
    + destruct (set_all b1 msgs a st) as [[b2 e2] r2] eqn:E2. inversion H; subst.
      destruct (IH _ _ _ _ _ E2) as (log & -> & <-). eexists. split; [reflexivity|]. reflexivity.
    + destruct c; try discriminate; (destruct (IH _ _ _ _ _ H) as (log & -> & <-); eexists; split; reflexivity).
    + discriminate.
Qed.

Lemma listen_calls : forall warn l (a : arrival S) l' evs, listen warn l a = (l', evs, Ok tt) ->
  l_last l' = a_now a /\ exists log, req_run (l_buf l) (calls_for (l_last l) a) = (l_buf l', log) /\ events_of log = evs.
Proof.
  intros warn l a l' evs H. unfold listen, subscription_callback in H. cbv zeta in H.
  destruct (if (a_now a <? l_last l) && warn then lift_time (time_sub (l_last l) (a_now a)) else Ok 0); try discriminate.
  destruct (set_all _ (a_msg a) (a_who a) (a_static a)) as [[b' e'] r] eqn:E. inversion H; subst. cbn [l_last l_buf]. split; [reflexivity|].
  apply set_all_calls in E as (log & E & Ev). unfold calls_for. destruct (a_now a <? l_last l).
  - cbn [app req_run req_step]. rewrite E. eexists. split; [reflexivity|]. exact Ev.
  - cbn [app]. exists log. split; assumption.
Qed.

Lemma events_app : forall (l1 l2 : list (entry (S := S))), events_of (l1 ++ l2) = events_of l1 ++ events_of l2.
Proof. intros. unfold events_of. apply flat_map_app. Qed.

Lemma listen_all_calls : forall (h : list (arrival S)) warn l l' evs, listen_all warn l h = (l', evs, Ok tt) ->
  l_last l' = last_clock (l_last l) h /\
  exists log, req_run (l_buf l) (calls_for_all (l_last l) h) = (l_buf l', log) /\ events_of log = evs.
Proof.
  induction h as [|a h IH]; intros warn l l' evs H.
  - cbn in H. inversion H; subst. split; [reflexivity|]. exists []. split; reflexivity.
  - cbn [listen_all] in H. destruct (listen warn l a) as [[l1 e1] r1] eqn:E1. destruct r1 as [[]|c x|]; try discriminate.
    destruct (listen_all warn l1 h) as [[l2 e2] r2] eqn:E2. inversion H; subst.
    destruct (listen_calls _ _ _ _ _ E1) as (L1 & log1 & R1 & V1). destruct (IH _ _ _ _ E2) as (L2 & log2 & R2 & V2).
    split; [unfold last_clock; cbn [fold_left]; rewrite <- L1; exact L2|].
    cbn [calls_for_all]. rewrite req_run_app, R1, <- L1, R2. eexists. split; [reflexivity|]. rewrite events_app. congruence.
Qed.

(** the buffer side of a run of calls *)
Definition core_calls (o : req_op S) : list (core_op S) :=
  match o with RSet m a st => [OSet m a st] | RClear => [OClear] | _ => [] end.
Lemma set_transform_core : forall (b : buf S) m a st, b_core (fst (set_transform b m a st)) = step (b_core b) (OSet m a st).
Proof.
  intros b m a st. unfold set_transform. cbn [step]. destruct (setTransform (b_core b) m a st) as [s' r]. destruct r as [[|]|c e|]; try reflexivity.
  unfold testTransformableRequests. destruct (test_loop _ _ _ _ _ _) as [q e]. reflexivity.
Qed.
Lemma add_request_core : forall (b : buf S) cb tgt src t, b_core (fst (addTransformableRequest b cb tgt src t)) = b_core b.
Proof.
  intros b cb tgt src t. unfold addTransformableRequest, push_request. destruct (add_check (b_core b) tgt src t) as [[h|i j]|c e|]; reflexivity.
Qed.
Lemma req_step_core : forall (b : buf S) o, b_core (fst (fst (req_step b o))) = run (b_core b) (core_calls o).
Proof.
  intros b o. destruct o as [m a st| | |cb|cb tgt src t|h]; cbn [req_step core_calls run fold_left fst].
  - pose proof (set_transform_core b m a st) as H. destruct (set_transform b m a st) as [b' r]. exact H.
  - reflexivity.
  - unfold addTransformableCallback. destruct (next_cb_handle _ _ _); reflexivity.
  - reflexivity.
  - pose proof (add_request_core b cb tgt src t) as H. destruct (addTransformableRequest b cb tgt src t). exact H.
  - reflexivity.
Qed.
Lemma req_run_core : forall ops (b : buf S) b' log, req_run b ops = (b', log) -> b_core b' = run (b_core b) (flat_map core_calls ops).
Proof.
  induction ops as [|o ops IH]; intros b b' log H.
  - cbn in H. inversion H; subst. reflexivity.
  - cbn [req_run] in H. pose proof (req_step_core b o) as E. destruct (req_step b o) as [[b1 a1] e1]. cbn [fst] in E.
    destruct (req_run b1 ops) as [b2 log2] eqn:E2. inversion H; subst. cbn [flat_map]. rewrite run_app, <- E. eapply IH, E2.
Qed.

(** ** it returns *)
Lemma insert_not_ub : forall {F} (c : cache S F) y, snd (insertData c y) <> UB.
Proof.
  intros F c y. destruct c as [mx [|f l]|o]; [| |discriminate].
  - unfold insertData. destruct (insert_sorted _ _); [|discriminate]. destruct (pruneList _ _) as [r b]. destruct b; discriminate.
  - unfold insertData. destruct (time_add _ _); [|discriminate]. destruct (_ <? _); [discriminate|].
    destruct (insert_sorted _ _); [|discriminate]. destruct (pruneList _ _) as [r b]. destruct b; discriminate.
Qed.
Lemma set_not_ub : forall (s : core S) m a st, snd (setTransform s m a st) <> UB.
Proof.
  intros s m a st. unfold setTransform. cbv zeta. destruct (setTransform_error _); [discriminate|].
  destruct (lookupOrInsertFrameNumber s _) as [s1 ci]. destruct (match getFrame s1 ci with Some c => _ | None => _ end) as [s2 c].
  destruct (lookupOrInsertFrameNumber s2 _) as [s3 pi]. pose proof (insert_not_ub c (mk_storage (strip_msg m) pi ci)) as N.
  destruct (insertData _ _) as [c' r]. cbn [snd] in N. destruct r as [[|e]|cl e|]; try discriminate. congruence.
Qed.
Lemma set_true_or_false : forall (s : core S) m a st, reachable s -> in_range (c_cache_time s) m ->
  exists b, snd (setTransform s m a st) = Ok b.
Proof.
  intros s m a st R [V1 V2]. pose proof (set_not_ub s m a st) as N.
  pose proof (set_no_throw s m a st) as T. destruct (snd (setTransform s m a st)) as [b|c e|]; [eauto| |congruence].
  exfalso. eapply (T c e); auto. apply reachable_wf, R.
Qed.

Lemma set_ok_step : forall (b : buf S) m a st, binv b -> times_in_range b -> b_rq_counter b + 1 < uint64 - 1 ->
  in_range (c_cache_time (b_core b)) m ->
  exists b' v evs, set_transform b m a st = (b', Ok (v, evs)) /\ binv b' /\ times_in_range b' /\
    b_rq_counter b' = b_rq_counter b /\ c_cache_time (b_core b') = c_cache_time (b_core b).
Proof.
  intros b m a st I T C V. destruct (set_true_or_false (b_core b) m a st (bi_core b I) V) as (v & Ev).
  assert (Ho : req_op_ok (RSet m a st)) by exact (proj1 V).
  assert (Ct : c_cache_time (b_core (fst (set_transform b m a st))) = c_cache_time (b_core b)).
  { rewrite set_transform_core. apply step_ct; [apply reachable_wf, (bi_core b I)|exact (proj1 V)]. }
  assert (Q : exists b' evs, set_transform b m a st = (b', Ok (v, evs)) /\ (forall p, In p (pending b') -> In p (pending b)) /\ b_rq_counter b' = b_rq_counter b).
  { destruct (setTransform (b_core b) m a st) as [s' r] eqn:Es. cbn [snd] in Ev. subst r. destruct v.
    - destruct (set_settles b m a st s' I T (proj1 V) Es) as (b' & evs & E & _ & _ & P & _). exists b', evs. split; [exact E|]. split.
      + intros p Hp. eapply Permutation_in in Hp; [|exact P]. apply filter_In in Hp. apply Hp.
      + unfold set_transform in E. rewrite Es in E. unfold testTransformableRequests in E. destruct (test_loop _ _ _ _ _ _) as [q e]. inversion E. reflexivity.
    - exists (with_core b s'), []. unfold set_transform. rewrite Es. split; [reflexivity|]. split; [|reflexivity].
      intros p Hp. destruct (set_rejected b m a st s' (Ok false) (with_core b s') (Ok (false, [])) I (proj1 V) Es) as (P & _); [discriminate|unfold set_transform; rewrite Es; reflexivity|].
      rewrite P in Hp. exact Hp. }
  destruct Q as (b' & evs & E & P & Cn). rewrite E in Ct. cbn [fst] in Ct.
  assert (Es : req_step b (RSet m a st) = (b', ABool (Ok v), evs)) by (cbn [req_step]; rewrite E; reflexivity).
  destruct (step_fact b _ _ _ _ I Ho C Es) as [I' _ _ _ _ _ _].
  exists b', v, evs. split; [exact E|]. split; [exact I'|]. split; [|split; assumption].
  intros p Hp. rewrite Ct. apply T, P, Hp.
Qed.

Lemma set_all_ok : forall msgs (b : buf S) a st, binv b -> times_in_range b -> b_rq_counter b + 1 < uint64 - 1 ->
  Forall (in_range (c_cache_time (b_core b))) msgs ->
  exists b' evs, set_all b msgs a st = (b', evs, Ok tt) /\ binv b' /\ times_in_range b' /\
    b_rq_counter b' = b_rq_counter b /\ c_cache_time (b_core b') = c_cache_time (b_core b).
Proof.
  induction msgs as [|m msgs IH]; intros b a st I T C F.
  - exists b, []. repeat split; auto; apply I.
  - inversion F as [|m0 l0 Fm Fr]; subst. destruct (set_ok_step b m a st I T C Fm) as (b1 & v & e1 & E1 & I1 & T1 & C1 & Ct1).
    rewrite <- Ct1 in Fr. rewrite <- C1 in C. destruct (IH b1 a st I1 T1 C Fr) as (b2 & e2 & E2 & I2 & T2 & C2 & Ct2).
    exists b2, (e1 ++ e2). cbn [set_all]. rewrite E1, E2. split; [reflexivity|]. split; [exact I2|]. split; [exact T2|]. split; congruence.
Qed.

Lemma listen_ok : forall warn (l : listener S) (a : arrival S), binv (l_buf l) -> times_in_range (l_buf l) -> b_rq_counter (l_buf l) + 1 < uint64 - 1 ->
  valid_time (l_last l) -> arrival_ok (c_cache_time (b_core (l_buf l))) a -> l_last l - a_now a < dur_bound ->
  exists l' evs, listen warn l a = (l', evs, Ok tt) /\ l_last l' = a_now a /\ binv (l_buf l') /\ times_in_range (l_buf l') /\
    b_rq_counter (l_buf l') = b_rq_counter (l_buf l) /\ c_cache_time (b_core (l_buf l')) = c_cache_time (b_core (l_buf l)).
Proof.
  intros warn l a I T C Vl [Va F] J. unfold listen, subscription_callback. cbv zeta.
  assert (Q : exists d, (if (a_now a <? l_last l) && warn then lift_time (time_sub (l_last l) (a_now a)) else Ok 0) = Ok d).
  { destruct (Z.ltb_spec (a_now a) (l_last l)) as [Lt|Le]; [|eexists; reflexivity]. destruct warn; [|eexists; reflexivity].
    unfold time_sub, valid_durb. cbn [andb].
    replace (- dur_bound <=? l_last l - a_now a) with true by (symmetry; apply Z.leb_le; unfold dur_bound in *; lia).
    replace (l_last l - a_now a <? dur_bound) with true by (symmetry; apply Z.ltb_lt; exact J). eexists; reflexivity. }
  destruct Q as (d & ->).
  assert (Q : let b := if a_now a <? l_last l then with_core (l_buf l) (clear (b_core (l_buf l))) else l_buf l in
    binv b /\ times_in_range b /\ b_rq_counter b = b_rq_counter (l_buf l) /\ c_cache_time (b_core b) = c_cache_time (b_core (l_buf l))).
  { cbv zeta. destruct (a_now a <? l_last l); [|auto]. pose proof (binv_core (l_buf l) OClear I Logic.I) as I'. cbn [step] in I'.
    split; [exact I'|]. split; [|split; reflexivity].
    pose proof (pending_core (l_buf l) OClear (reachable_wf _ (bi_core _ I)) Logic.I (bi_ok _ I)) as P. cbn [step] in P.
    intros p Hp. rewrite P in Hp. cbn [b_core with_core clear c_cache_time]. apply T, Hp. }
  cbv zeta in Q. destruct Q as (I' & T' & C' & Ct').
  destruct (set_all_ok (a_msg a) _ (a_who a) (a_static a) I' T' ltac:(rewrite C'; exact C) ltac:(rewrite Ct'; exact F)) as (b' & evs & E & I2 & T2 & C2 & Ct2).
  rewrite E. eexists _, evs. split; [reflexivity|]. cbn [l_last l_buf]. split; [reflexivity|]. split; [exact I2|]. split; [exact T2|]. split; congruence.
Qed.

Lemma listen_all_ok : forall (h : list (arrival S)) warn (l : listener S), binv (l_buf l) -> times_in_range (l_buf l) -> b_rq_counter (l_buf l) + 1 < uint64 - 1 ->
  valid_time (l_last l) -> Forall (arrival_ok (c_cache_time (b_core (l_buf l)))) h -> short_jumps (l_last l) h ->
  exists l' evs, listen_all warn l h = (l', evs, Ok tt).
Proof.
  induction h as [|a h IH]; intros warn l I T C V F J; [cbn; eauto|].
  inversion F as [|a0 l0 Fa Fr]; subst. destruct J as [J1 J2].
  destruct (listen_ok warn l a I T C V Fa J1) as (l1 & e1 & E1 & L1 & I1 & T1 & C1 & Ct1).
  rewrite <- Ct1 in Fr. rewrite <- L1 in J2. rewrite <- C1 in C.
  assert (V1 : valid_time (l_last l1)) by (rewrite L1; apply Fa).
  destruct (IH warn l1 I1 T1 C V1 Fr J2) as (l2 & e2 & E2). cbn [listen_all]. rewrite E1, E2. eauto.
Qed.

(** ** what a backward jump leaves *)
Lemma insert_sorted_sub : forall {F} (l : list (storage S F)) y l', insert_sorted l y = Some l' -> forall z, In z l' -> z = y \/ In z l.
Proof.
  induction l as [|w l IH]; intros y l' H z Hz; cbn [insert_sorted] in H.
  - inversion H; subst. destruct Hz as [Hz|[]]; auto.
  - destruct (st_stamp w <=? st_stamp y).
    + destruct (st_stamp w =? st_stamp y); [discriminate|]. inversion H; subst. destruct Hz as [Hz|Hz]; auto.
    + destruct (insert_sorted l y) as [l1|] eqn:E; [|discriminate]. inversion H; subst. destruct Hz as [Hz|Hz]; [right; left; assumption|].
      destruct (IH _ _ E z Hz); auto. right. right. assumption.
Qed.
Lemma insert_sub : forall {F} (c : cache S F) y z, In z (samples (fst (insertData c y))) -> z = y \/ In z (samples c).
Proof.
  intros F c y z H. destruct c as [mx l|o]; [|cbn in H; destruct H as [H|[]]; auto].
  assert (G : forall r, (r = match insert_sorted l y with
     | None => (Dynamic mx l, Ok (Rejected ERepeatedData))
     | Some l' => let '(l'', thrown) := pruneList l' mx in (Dynamic mx l'', if thrown then Throw RuntimeError ETimeRange else Ok Inserted)
     end) -> In z (samples (fst r)) -> z = y \/ In z (samples (Dynamic mx l))).
  { intros r -> Hz. destruct (insert_sorted l y) as [l'|] eqn:E; [|auto].
    destruct (CacheProofs.pruneList_prefix l' mx) as [l2 E2]. destruct (pruneList l' mx) as [l'' th]. cbn [fst samples] in *.
    apply (insert_sorted_sub l y l' E). rewrite E2. apply in_app_iff. auto. }
  unfold insertData in H. destruct l as [|f l]; [eapply G; [reflexivity|exact H]|].
  destruct (time_add (st_stamp y) mx) as [z0|]; [|auto]. destruct (z0 <? st_stamp f); [auto|]. eapply G; [reflexivity|exact H].
Qed.
Lemma fold_sets_sub : forall ct n msgs a st h c z,
  fold_left (frame_step ct n) (map (fun m => OSet m a st) msgs) h = Some c -> In z (samples c) ->
  (exists m, In m msgs /\ stripSlash (tm_child m) = n /\ z = sample_of (strip_msg m)) \/ (exists c0, h = Some c0 /\ In z (samples c0)).
Proof.
  intros ct n msgs a st. induction msgs as [|m msgs IH]; intros h c z H Hz; [right; eauto|].
  cbn [map fold_left] in H. destruct (IH _ _ _ H Hz) as [(m' & H1 & H2)|(c0 & H1 & H2)]; [left; exists m'; cbn; auto|].
  cbn [frame_step] in H1. destruct (bad_message (strip_msg m)); [right; eauto|].
  change (tm_child (strip_msg m)) with (stripSlash (tm_child m)) in H1.
  destruct (String.eqb_spec (stripSlash (tm_child m)) n) as [E|E]; [|right; eauto].
  inversion H1; subst c0. apply insert_sub in H2 as [->|H2]; [left; exists m; cbn; auto|].
  destruct h as [c0|]; [right; eauto|]. destruct st; destruct H2.
Qed.
Lemma after_jump : forall warn l (a : arrival S) l' evs, listen warn l a = (l', evs, Ok tt) -> a_now a < l_last l ->
  reachable (b_core (l_buf l)) -> Forall (fun m => valid_time (tm_stamp m)) (a_msg a) ->
  forall n mx samples_ z, hist (b_core (l_buf l')) n = Some (Dynamic mx samples_) -> In z samples_ ->
  exists m, In m (a_msg a) /\ stripSlash (tm_child m) = n /\ z = sample_of (strip_msg m).
Proof.
  intros warn l a l' evs H Lt R F n mx sl z Hh Hz. apply listen_calls in H as (_ & log & H & _). apply req_run_core in H.
  unfold calls_for in H. rewrite (proj2 (Z.ltb_lt _ _) Lt) in H. cbn [app flat_map core_calls] in H. rewrite flat_map_concat_map, map_map in H. cbn [core_calls] in H.
  rewrite <- (map_map (fun m => OSet m (a_who a) (a_static a)) (fun o => [o])) in H. rewrite <- flat_map_concat_map in H.
  assert (Fl : forall (ops : list (core_op S)), flat_map (fun o => [o]) ops = ops) by (induction ops; cbn; congruence). rewrite Fl in H.
  set (s := b_core (l_buf l)) in *. apply reachable_wf in R as W.
  assert (Fo : Forall op_ok (map (fun m => OSet m (a_who a) (a_static a)) (a_msg a))) by (apply Forall_map; exact F).
  destruct (string_dec n NO_PARENT) as [->|Hn].
  { rewrite hist_NO_PARENT in Hh; [discriminate|]. rewrite H. apply wf_run; [assumption|]. constructor; [exact I|assumption]. }
  change (OClear :: ?x) with ([OClear] ++ x) in H. rewrite run_app in H. rewrite H in Hh.
  assert (Wc : wf (run s [OClear])) by (apply wf_run; [assumption|repeat constructor]).
  rewrite hist_run_from in Hh by assumption.
  rewrite (hist_run_from [OClear] s n W) in Hh by (try assumption; repeat constructor). cbn [fold_left frame_step] in Hh.
  destruct (fold_sets_sub _ _ _ _ _ _ _ _ Hh Hz) as [Q|(c0 & Hc & Hz0)]; [exact Q|]. exfalso.
  rewrite Hc in Hh. destruct (hist s n) as [c|]; [|discriminate]. cbn [option_map] in Hc. injection Hc as Hc.
  destruct c as [mx0 l0|o]; cbn [clearList] in Hc; subst c0; [destruct Hz0|].
  clear - Hh. revert Hh. generalize (c_cache_time (run s [OClear])) as ct, (a_msg a) as msgs. intros ct msgs. revert o.
  induction msgs as [|m msgs IH]; intros o H; [discriminate|]. cbn [map fold_left frame_step] in H.
  destruct (bad_message _); [eapply IH, H|]. destruct (String.eqb _ n); eapply IH, H.
Qed.
Lemma clears_iff : forall (h : list (arrival S)) last, In RClear (calls_for_all last h) <-> goes_back last h.
Proof.
  induction h as [|a h IH]; intros last; [reflexivity|]. cbn [calls_for_all goes_back]. rewrite in_app_iff, IH. unfold calls_for.
  rewrite in_app_iff, in_map_iff. destruct (Z.ltb_spec (a_now a) last) as [Lt|Le]; cbn [In].
  - split; [auto|]. intros _. left. left. left. reflexivity.
  - split; [intros [[[]|(m & E & _)]|H]; [discriminate|auto]|intros [H|H]; [lia|auto]].
Qed.
Lemma malformed_skipped : forall warn (l : listener S) now (m1 : list tmsg) m (m2 : list tmsg) a st, malformed m ->
  subscription_callback warn l now (m1 ++ m :: m2) a st = subscription_callback warn l now (m1 ++ m2) a st.
Proof.
  intros warn l now m1 m m2 a st M. unfold subscription_callback. cbv zeta. destruct (if (now <? l_last l) && warn then _ else _); try reflexivity.
  assert (E : forall b, set_all b (m1 ++ m :: m2) a st = set_all b (m1 ++ m2) a st).
  { induction m1 as [|y m1 IH]; intros b; cbn [app set_all].
    - unfold set_transform. rewrite malformed_rejected by exact M.
      replace (with_core b (b_core b)) with b by (destruct b; reflexivity). destruct (set_all b m2 a st) as [[b' e] r]. reflexivity.
    - destruct (set_transform b y a st) as [b' r]. destruct r as [[v e]|c e|]; try reflexivity; [rewrite IH; reflexivity|]. destruct c; try reflexivity; apply IH. }
  rewrite E. reflexivity.
Qed.
End P.
