(** * Proofs about tf2_ros::Buffer's waiting calls *)
From Coq Require Import ZArith Bool List String Lia.
From Verif Require Import RosTime Scalar LinearMath Cache BufferCore SpecCore CoreInv CoreSet WalkSpec Bridge LookupBase LookupTheorems NoRange TfBuffer SpecWait.
Import ListNotations.
Open Scope Z_scope.

Section P.
Context {S : Scalar}.

Lemma time_add_some : forall t d x, time_add t d = Some x -> x = t + d /\ valid_time (t + d).
Proof.
  intros t d x H. unfold time_add, valid_timeb in H. destruct ((0 <=? t + d) && (t + d <? time_bound)) eqn:E; [|discriminate].
  injection H as <-. apply andb_prop in E as [E1 E2]. apply Z.leb_le in E1. apply Z.ltb_lt in E2. split; [reflexivity|split; assumption].
Qed.
Lemma time_add_valid : forall t d, valid_time (t + d) -> time_add t d = Some (t + d).
Proof.
  intros t d [H1 H2]. unfold time_add, valid_timeb. rewrite (proj2 (Z.leb_le _ _) H1), (proj2 (Z.ltb_lt _ _) H2). reflexivity.
Qed.

(** what the loop saw in one round that did not leave it *)
Definition keeps_waiting (q : query S) (w : world S) (k : nat) (start timeout : Z) : Prop :=
  w_now (w k) < start + timeout /\ (exists e, q (w_core (w (k + 1)%nat)) None = Ok (false, e)) /\
  start <= w_now (w (k + 2)%nat) + three_seconds /\ w_ok (w (k + 3)%nat) = true.
(** why it left, [k] the start of the last round, [j] the next instant *)
Inductive leaves (q : query S) (w : world S) (start timeout : Z) (k : nat) : nat -> Prop :=
| leave_deadline : start + timeout <= w_now (w k) -> leaves q w start timeout k (k + 1)
| leave_available : forall e, w_now (w k) < start + timeout -> q (w_core (w (k + 1)%nat)) None = Ok (true, e) -> leaves q w start timeout k (k + 2)
| leave_loop : forall e, w_now (w k) < start + timeout -> q (w_core (w (k + 1)%nat)) None = Ok (false, e) ->
    w_now (w (k + 2)%nat) + three_seconds < start -> leaves q w start timeout k (k + 3)
| leave_stop : forall e, w_now (w k) < start + timeout -> q (w_core (w (k + 1)%nat)) None = Ok (false, e) ->
    start <= w_now (w (k + 2)%nat) + three_seconds -> w_ok (w (k + 3)%nat) = false -> leaves q w start timeout k (k + 4).

Lemma poll_leaves : forall fuel (q : query S) w i start timeout j n,
  poll fuel q w i start timeout = Some (Ok (j, n)) ->
  (forall m, (m < n)%nat -> keeps_waiting q w (i + 4 * m) start timeout) /\
  leaves q w start timeout (i + 4 * n) j /\ valid_time (start + timeout).
Proof.
  induction fuel as [|fuel IH]; intros q w i start timeout j n H; cbn [poll] in H;
    destruct (time_add start timeout) as [dl|] eqn:D; try discriminate;
    destruct (time_add_some _ _ _ D) as [-> V];
    destruct (w_now (w i) <? start + timeout) eqn:E1; cbn [negb] in H.
  2,4: injection H as <- <-; apply Z.ltb_ge in E1; split; [intros m Hm; lia|]; split; [|exact V]; rewrite Nat.mul_0_r, Nat.add_0_r; apply leave_deadline; exact E1.
  all: apply Z.ltb_lt in E1; destruct (q (w_core (w (i + 1)%nat)) None) as [[[|] e]| |] eqn:E2; try discriminate.
  1,3: injection H as <- <-; split; [intros m Hm; lia|]; split; [|exact V]; rewrite Nat.mul_0_r, Nat.add_0_r; eapply leave_available; eassumption.
  all: destruct (time_add (w_now (w (i + 2)%nat)) three_seconds) as [later|] eqn:D2; try discriminate; destruct (time_add_some _ _ _ D2) as [-> V2];
    destruct (start <=? w_now (w (i + 2)%nat) + three_seconds) eqn:E3; cbn [negb] in H.
  2,4: injection H as <- <-; apply Z.leb_gt in E3; split; [intros m Hm; lia|]; split; [|exact V]; rewrite Nat.mul_0_r, Nat.add_0_r; eapply leave_loop; eassumption.
  all: apply Z.leb_le in E3; destruct (w_ok (w (i + 3)%nat)) eqn:E4; cbn [negb] in H.
  2,4: injection H as <- <-; split; [intros m Hm; lia|]; split; [|exact V]; rewrite Nat.mul_0_r, Nat.add_0_r; eapply leave_stop; eassumption.
  - discriminate.
  - destruct (poll fuel q w (i + 4)%nat start timeout) as [[[j' n']| |]|] eqn:R; try discriminate. injection H as <- <-.
    destruct (IH _ _ _ _ _ _ _ R) as (I1 & I2 & _). split; [|split; [|exact V]].
    + intros m Hm. destruct m as [|m].
      * rewrite Nat.mul_0_r, Nat.add_0_r. repeat split; eauto.
      * replace (i + 4 * Datatypes.S m)%nat with (i + 4 + 4 * m)%nat by lia. apply I1. lia.
    + replace (i + 4 * (n' + 1))%nat with (i + 4 + 4 * n')%nat by lia. exact I2.
Qed.

(** a query that always answers: true of both overloads *)
Definition total_query (q : query S) (w : world S) : Prop := forall k, exists b, q (w_core (w k)) None = Ok (b, None).

Lemma poll_step : forall fuel (q : query S) w i start timeout, total_query q w -> valid_time (start + timeout) ->
  (forall k, valid_time (w_now (w k) + three_seconds)) ->
  (exists j, poll fuel q w i start timeout = Some (Ok (j, 0%nat)) /\ leaves q w start timeout i j) \/
  (keeps_waiting q w i start timeout /\
   poll fuel q w i start timeout =
     match fuel with
     | O => None
     | Datatypes.S f => match poll f q w (i + 4) start timeout with Some (Ok (j, n)) => Some (Ok (j, n + 1)%nat) | r => r end
     end).
Proof.
  intros fuel q w i start timeout T V C.
  assert (U : forall P : Prop, P -> P) by auto.
  destruct (T (i + 1)%nat) as [b E2].
  assert (R : poll fuel q w i start timeout =
    if negb (w_now (w i) <? start + timeout) then Some (Ok (i + 1, 0)%nat)
    else if b then Some (Ok (i + 2, 0)%nat)
    else if negb (start <=? w_now (w (i + 2)%nat) + three_seconds) then Some (Ok (i + 3, 0)%nat)
    else if negb (w_ok (w (i + 3)%nat)) then Some (Ok (i + 4, 0)%nat)
    else match fuel with
     | O => None
     | Datatypes.S f => match poll f q w (i + 4) start timeout with Some (Ok (j, n)) => Some (Ok (j, n + 1)%nat) | r => r end
     end).
  { destruct fuel; cbn [poll]; rewrite (time_add_valid _ _ V), (time_add_valid _ _ (C (i + 2)%nat)), E2;
      destruct (w_now (w i) <? start + timeout); destruct b; cbn [negb];
      destruct (start <=? w_now (w (i + 2)%nat) + three_seconds); cbn [negb]; destruct (w_ok (w (i + 3)%nat)); reflexivity. }
  rewrite R. clear R.
  destruct (Z.ltb_spec (w_now (w i)) (start + timeout)) as [E1|E1]; cbn [negb].
  2:{ left. eexists. split; [reflexivity|]. apply leave_deadline. exact E1. }
  destruct b. { left. eexists. split; [reflexivity|]. eapply leave_available; eassumption. }
  destruct (Z.leb_spec start (w_now (w (i + 2)%nat) + three_seconds)) as [E3|E3]; cbn [negb].
  2:{ left. eexists. split; [reflexivity|]. eapply leave_loop; eassumption. }
  destruct (w_ok (w (i + 3)%nat)) eqn:E4; cbn [negb].
  2:{ left. eexists. split; [reflexivity|]. eapply leave_stop; eassumption. }
  right. split; [|reflexivity]. repeat split; eauto.
Qed.

(** If some round cannot keep waiting, the loop ends there at the latest. *)
Lemma poll_ends : forall m fuel (q : query S) w i start timeout, total_query q w -> valid_time (start + timeout) ->
  (forall k, valid_time (w_now (w k) + three_seconds)) ->
  (m <= fuel)%nat -> ~ keeps_waiting q w (i + 4 * m) start timeout ->
  exists j n, poll fuel q w i start timeout = Some (Ok (j, n)) /\ (n <= m)%nat.
Proof.
  induction m as [|m IH]; intros fuel q w i start timeout T V C F N;
    destruct (poll_step fuel q w i start timeout T V C) as [(j & E & _)|(K & E)].
  - eauto.
  - rewrite Nat.mul_0_r, Nat.add_0_r in N. contradiction.
  - exists j, 0%nat. split; [exact E|lia].
  - destruct fuel as [|fuel]; [lia|]. destruct (IH fuel q w (i + 4)%nat start timeout T V C) as (j & n & E' & Hn); [lia|replace (i + 4 + 4 * m)%nat with (i + 4 * Datatypes.S m)%nat by lia; exact N|].
    rewrite E, E'. exists j, (n + 1)%nat. split; [reflexivity|lia].
Qed.

(** If every round keeps waiting, it never ends. *)
Lemma poll_forever : forall fuel (q : query S) w i start timeout, total_query q w -> valid_time (start + timeout) ->
  (forall k, valid_time (w_now (w k) + three_seconds)) ->
  (forall m, keeps_waiting q w (i + 4 * m) start timeout) -> poll fuel q w i start timeout = None.
Proof.
  induction fuel as [|fuel IH]; intros q w i start timeout T V C K;
    [destruct (poll_step 0 q w i start timeout T V C) as [(j & E & L)|(_ & E)]|destruct (poll_step (Datatypes.S fuel) q w i start timeout T V C) as [(j & E & L)|(_ & E)]].
  1,3: exfalso; specialize (K 0%nat); rewrite Nat.mul_0_r, Nat.add_0_r in K; destruct K as (K1 & (e & K2) & K3 & K4); inversion L; subst; try lia; congruence.
  - exact E.
  - rewrite E, (IH q w (i + 4)%nat start timeout T V C); [reflexivity|]. intros m. replace (i + 4 + 4 * m)%nat with (i + 4 * Datatypes.S m)%nat by lia. apply K.
Qed.

(** ** The public calls *)
Lemma can_wait_for : forall fuel d (w : world S) i u timeout errstr,
  can_wait fuel d w i u timeout errstr = wait_for fuel d (fun c e => can u c e) w i timeout errstr.
Proof. intros. destruct u; reflexivity. Qed.
Lemma lookup_wait_for : forall fuel d (w : world S) i u timeout,
  lookup_wait fuel d w i u timeout = then_lookup (can_wait fuel d w i u timeout None) w (fun c => lookup u c).
Proof. intros. destruct u; reflexivity. Qed.

Lemma fixed_total : forall (s : core S) tgt t1 src t2 fix_, wf s -> exists b, canTransformFixed s tgt t1 src t2 fix_ None = Ok (b, None).
Proof.
  intros s tgt t1 src t2 fix_ W. unfold canTransformFixed.
  destruct (warnFrameId tgt) eqn:P1; [eauto|]. destruct (warnFrameId src) eqn:P2; [eauto|]. destruct (warnFrameId fix_) eqn:P3; [eauto|].
  apply plain_warn in P1, P2, P3.
  destruct (known_dec s tgt) as [K1|K1].
  2:{ rewrite (lookupFrameNumber_unknown s tgt W K1). cbn [Nat.eqb orb missing_err append_err].
      destruct (lookupFrameNumber s src =? 0)%nat; destruct (lookupFrameNumber s fix_ =? 0)%nat; unfold missing_err; cbn; eauto;
      destruct (lookupFrameNumber s src =? 0)%nat; eauto. }
  destruct (known_dec s src) as [K2|K2].
  2:{ rewrite (lookupFrameNumber_unknown s src W K2). cbn [Nat.eqb]. rewrite orb_true_r. cbn [orb].
      unfold missing_err. destruct (lookupFrameNumber s tgt =? 0)%nat; destruct (lookupFrameNumber s fix_ =? 0)%nat; cbn; eauto. }
  destruct (known_dec s fix_) as [K3|K3].
  2:{ rewrite (lookupFrameNumber_unknown s fix_ W K3). cbn [Nat.eqb]. rewrite !orb_true_r.
      unfold missing_err. destruct (lookupFrameNumber s tgt =? 0)%nat; destruct (lookupFrameNumber s src =? 0)%nat; cbn; eauto. }
  pose proof (canNoLock s tgt fix_ t1 None W P1 P3 K1 K3) as N1. pose proof (canNoLock s fix_ src t2 None W P3 P2 K3 K2) as N2.
  destruct (lookupFrameNumber_known s tgt W K1) as (i & Ei & Hi & _). destruct (lookupFrameNumber_known s src W K2) as (j & Ej & Hj & _).
  destruct (lookupFrameNumber_known s fix_ W K3) as (k & Ek & Hk & _). rewrite Ei, Ek in N1. rewrite Ek, Ej in N2. rewrite Ei, Ej, Ek.
  rewrite (proj2 (Nat.eqb_neq _ _) Hi), (proj2 (Nat.eqb_neq _ _) Hj), (proj2 (Nat.eqb_neq _ _) Hk). cbn [orb].
  destruct (can_total s tgt fix_ t1 W) as [b1 E1]. destruct (can_total s fix_ src t2 W) as [b2 E2]. rewrite N1, E1. cbn [bind].
  destruct b1; [rewrite N2; eauto|eauto].
Qed.

Lemma can_u_total : forall u (s : core S), reachable s -> exists b, can u s None = Ok (b, None).
Proof.
  intros u s R. apply reachable_wf in R as W. destruct u; cbn [can]; [apply can_total; exact W|apply fixed_total; exact W].
Qed.
Lemma real_total : forall u (w : world S), real_world w -> total_query (fun c e => can u c e) w.
Proof. intros u w R k. apply can_u_total, R. Qed.

Lemma can_u_lookup : forall u (s : core S), reachable s -> early s -> times_early u ->
  (can u s None = Ok (true, None) <-> exists m, lookup u s = Ok m).
Proof.
  intros u s R E T. destruct u; cbn in T |- *; [apply can_iff_lookup; assumption|apply can_iff_lookup_fixed; tauto].
Qed.

(** the shape of a returning call *)
Lemma wait_inv : forall fuel (w : world S) i u timeout errstr o,
  can_wait fuel true w i u timeout errstr = Some (Ok o) ->
  exists j n err, poll fuel (fun c e => can u c e) w (i + 1) (w_now (w i)) timeout = Some (Ok (j, n)) /\
    can u (w_core (w j)) (emptied errstr) = Ok (o_value o, err) /\ o_sleeps o = n /\
    (err = None -> o_err o = None /\ o_next o = (j + 1)%nat) /\
    (forall e, err = Some e -> o_err o = Some (EAppend e (EReturnedAfter (w_now (w (j + 1)%nat) - w_now (w i)) timeout)) /\ o_next o = (j + 2)%nat).
Proof.
  intros fuel w i u timeout errstr o H. rewrite can_wait_for in H. unfold wait_for in H. cbn [negb] in H.
  destruct (poll fuel (fun c e => can u c e) w (i + 1) (w_now (w i)) timeout) as [[[j n]| |]|] eqn:P; try discriminate.
  exists j, n. injection H as H.
  change (match errstr with Some _ => Some EEmpty | None => None end) with (emptied errstr) in H.
  destruct (can u (w_core (w j)) (emptied errstr)) as [[b err]| |] eqn:Q; cbn [bind] in H; try discriminate.
  exists err. split; [reflexivity|]. destruct err as [e|].
  - unfold lift_time, time_sub in H. destruct (valid_durb (w_now (w (j + 1)%nat) - w_now (w i))); cbn [bind] in H; [|discriminate].
    injection H as <-. cbn. split; [reflexivity|]. split; [reflexivity|]. split; [discriminate|]. intros e' E. injection E as <-. split; reflexivity.
  - injection H as <-. cbn. split; [reflexivity|]. split; [reflexivity|]. split; [intros _; split; reflexivity|discriminate].
Qed.

Lemma leaves_bounds : forall (q : query S) w start timeout k j, leaves q w start timeout k j -> (k < j <= k + 4)%nat.
Proof. intros q w start timeout k j H. inversion H; lia. Qed.

(** the call returns whenever the loop does *)
Lemma wait_returns : forall fuel (w : world S) i u timeout j n, real_world w ->
  poll fuel (fun c e => can u c e) w (i + 1) (w_now (w i)) timeout = Some (Ok (j, n)) ->
  exists b, can u (w_core (w j)) None = Ok (b, None) /\
    can_wait fuel true w i u timeout None = Some (Ok (mkOutcome b None (j + 1)%nat n)).
Proof.
  intros fuel w i u timeout j n R P. destruct (can_u_total u _ (R j)) as [b E]. exists b. split; [exact E|].
  rewrite can_wait_for. unfold wait_for. cbn [negb]. rewrite P, E. reflexivity.
Qed.

Theorem wait_answer : forall fuel (w : world S) i u timeout errstr o,
  can_wait fuel true w i u timeout errstr = Some (Ok o) ->
  exists j err, (i < j < o_next o)%nat /\ can u (w_core (w j)) (emptied errstr) = Ok (o_value o, err).
Proof.
  intros fuel w i u timeout errstr o H. destruct (wait_inv _ _ _ _ _ _ _ H) as (j & n & err & P & Q & _ & N & E).
  exists j, err. split; [|exact Q]. apply poll_leaves in P as (_ & L & _). apply leaves_bounds in L.
  destruct err as [e|]; [destruct (E e eq_refl) as [_ ->]|destruct (N eq_refl) as [_ ->]]; lia.
Qed.

Lemma can_none : forall u (s : core S) b e, reachable s -> can u s None = Ok (b, e) -> e = None.
Proof. intros u s b e R H. destruct (can_u_total u s R) as [b' E]. congruence. Qed.

Theorem wait_false : forall fuel (w : world S) i u timeout errstr o, real_world w ->
  can_wait fuel true w i u timeout errstr = Some (Ok o) -> o_value o = false ->
  exists j err, (i < j < o_next o)%nat /\ can u (w_core (w j)) (emptied errstr) = Ok (false, err) /\
  exists k, (i < k < j)%nat /\
    (w_now (w i) + timeout <= w_now (w k) \/ w_now (w k) + three_seconds < w_now (w i) \/ w_ok (w k) = false \/
     available u w k).
Proof.
  intros fuel w i u timeout errstr o R H F. destruct (wait_inv _ _ _ _ _ _ _ H) as (j & n & err & P & Q & _ & N & E).
  exists j, err. apply poll_leaves in P as (_ & L & _). pose proof (leaves_bounds _ _ _ _ _ _ L) as B.
  split. { destruct err as [e|]; [destruct (E e eq_refl) as [_ ->]|destruct (N eq_refl) as [_ ->]]; lia. }
  split. { rewrite Q, F. reflexivity. }
  inversion L as [L1 X|e L1 L2 X|e L1 L2 L3 X|e L1 L2 L3 L4 X]; subst j.
  - exists (i + 1 + 4 * n)%nat. split; [lia|]. auto.
  - exists (i + 1 + 4 * n + 1)%nat. split; [lia|]. right. right. right. unfold available.
    cbv beta in L2. rewrite L2. f_equal. f_equal. eapply can_none; [apply R|exact L2].
  - exists (i + 1 + 4 * n + 2)%nat. split; [lia|]. auto.
  - exists (i + 1 + 4 * n + 3)%nat. split; [lia|]. auto.
Qed.

(** every sleep was preceded by an observation that the transform was missing and the deadline ahead *)
Theorem wait_sleeps : forall fuel (w : world S) i u timeout errstr o, real_world w ->
  can_wait fuel true w i u timeout errstr = Some (Ok o) ->
  forall m, (m < o_sleeps o)%nat ->
  w_now (w (i + 1 + 4 * m)%nat) < w_now (w i) + timeout /\ ~ available u w (i + 1 + 4 * m + 1)%nat /\
  w_now (w i) <= w_now (w (i + 1 + 4 * m + 2)%nat) + three_seconds /\ w_ok (w (i + 1 + 4 * m + 3)%nat) = true.
Proof.
  intros fuel w i u timeout errstr o R H m Hm. destruct (wait_inv _ _ _ _ _ _ _ H) as (j & n & err & P & Q & E & _). rewrite E in Hm.
  apply poll_leaves in P as (K & _ & _). destruct (K m Hm) as (K1 & (e & K2) & K3 & K4). repeat split; auto.
  unfold available. cbv beta in K2. rewrite K2. discriminate.
Qed.

(** a world whose clock stays within ros::Time's range for the additions the loop makes *)
Theorem wait_ends : forall m fuel (w : world S) i u timeout, real_world w -> valid_time (w_now (w i) + timeout) ->
  (forall k, valid_time (w_now (w k) + three_seconds)) -> (m <= fuel)%nat ->
  (w_now (w i) + timeout <= w_now (w (i + 1 + 4 * m)%nat) \/ available u w (i + 1 + 4 * m + 1)%nat \/
   w_now (w (i + 1 + 4 * m + 2)%nat) + three_seconds < w_now (w i) \/ w_ok (w (i + 1 + 4 * m + 3)%nat) = false) ->
  exists o, can_wait fuel true w i u timeout None = Some (Ok o) /\ (o_sleeps o <= m)%nat /\ (o_next o <= i + 4 * m + 6)%nat.
Proof.
  intros m fuel w i u timeout R V C F H.
  destruct (poll_ends m fuel (fun c e => can u c e) w (i + 1) (w_now (w i)) timeout) as (j & n & P & N); [apply real_total; exact R|exact V|exact C|exact F| |].
  - intros (K1 & (e & K2) & K3 & K4). destruct H as [H|[H|[H|H]]]; try lia; try congruence.
  - destruct (wait_returns fuel w i u timeout j n R P) as (b & _ & E). eexists. split; [exact E|]. cbn.
    split; [exact N|]. apply poll_leaves in P as (_ & L & _). apply leaves_bounds in L. lia.
Qed.

(** As soon as it stays available the call returns true, after at most one more sleep. *)
Theorem wait_prompt : forall k fuel (w : world S) i u timeout, real_world w -> valid_time (w_now (w i) + timeout) ->
  (forall k, valid_time (w_now (w k) + three_seconds)) -> (k <= fuel)%nat ->
  (forall k', (i + k <= k')%nat -> available u w k') ->
  exists o, can_wait fuel true w i u timeout None = Some (Ok o) /\ (o_next o <= i + k + 9)%nat /\
    ((exists j, (i + k <= j)%nat /\ o_next o = (j + 1)%nat /\ o_value o = true) \/ (o_next o <= i + k)%nat).
Proof.
  intros k fuel w i u timeout R V C F A.
  destruct (wait_ends ((k + 3) / 4) fuel w i u timeout R V C) as (o & E & N & B).
  - pose proof (Nat.div_mod (k + 3) 4). pose proof (Nat.mod_upper_bound (k + 3) 4). lia.
  - right. left. apply A. pose proof (Nat.div_mod (k + 3) 4). pose proof (Nat.mod_upper_bound (k + 3) 4). lia.
  - exists o. split; [exact E|]. pose proof (Nat.div_mod (k + 3) 4). pose proof (Nat.mod_upper_bound (k + 3) 4). split; [lia|].
    destruct (wait_inv _ _ _ _ _ _ _ E) as (j & n & err & P & Q & _ & Nx & Ex). cbn [emptied] in Q.
    rewrite (can_none u _ _ _ (R j) Q) in *. destruct (Nx eq_refl) as [_ Nj]. rewrite Nj.
    destruct (le_lt_dec (i + k) j) as [L|L]; [left|right; lia]. exists j. repeat split; auto. pose proof (A j L) as Aj. unfold available in Aj. congruence.
Qed.

(** The clock bounds the number of sleeps. *)
Theorem wait_sleep_bound : forall m d (w : world S) i u timeout fuel, real_world w -> valid_time (w_now (w i) + timeout) ->
  (forall k, valid_time (w_now (w k) + three_seconds)) -> (m <= fuel)%nat ->
  (forall k, (k < m)%nat -> w_now (w (i + 1 + 4 * k)%nat) + d <= w_now (w (i + 1 + 4 * (k + 1))%nat)) -> w_now (w i) <= w_now (w (i + 1)%nat) ->
  timeout <= Z.of_nat m * d ->
  exists o, can_wait fuel true w i u timeout None = Some (Ok o) /\ (o_sleeps o <= m)%nat.
Proof.
  intros m d w i u timeout fuel R V C F A B T.
  destruct (wait_ends m fuel w i u timeout R V C F) as (o & E & N & _); [|eauto].
  left. enough (forall k, (k <= m)%nat -> w_now (w (i + 1)%nat) + Z.of_nat k * d <= w_now (w (i + 1 + 4 * k)%nat)) as G by (specialize (G m (le_n m)); lia).
  induction k as [|k IH]; intros Hk; [rewrite Nat.mul_0_r, Nat.add_0_r; lia|]. specialize (A k ltac:(lia)). specialize (IH ltac:(lia)). replace (k + 1)%nat with (Datatypes.S k) in A by lia. rewrite Nat2Z.inj_succ, Z.mul_succ_l. lia.
Qed.

(** Only rostime's range error can escape. *)
Theorem wait_no_throw : forall fuel (w : world S) i u timeout c e, real_world w -> valid_time (w_now (w i) + timeout) ->
  (forall k, valid_time (w_now (w k) + three_seconds)) ->
  can_wait fuel true w i u timeout None <> Some (Throw c e) /\ can_wait fuel true w i u timeout None <> Some UB.
Proof.
  intros fuel w i u timeout c e R V C. rewrite can_wait_for. unfold wait_for. cbn [negb].
  assert (T := real_total u w R).
  assert (P : forall f k r, poll f (fun c e => can u c e) w k (w_now (w i)) timeout = Some r -> exists p, r = Ok p).
  { induction f as [|f IH]; intros k r H;
      [destruct (poll_step 0 _ w k (w_now (w i)) timeout T V C) as [(j & E & _)|(_ & E)]|destruct (poll_step (Datatypes.S f) _ w k (w_now (w i)) timeout T V C) as [(j & E & _)|(_ & E)]];
      rewrite E in H; try (injection H as <-; eauto).
    - discriminate.
    - destruct (poll f (fun c e => can u c e) w (k + 4) (w_now (w i)) timeout) as [[[j n]| |]|] eqn:D; try discriminate.
      + injection H as <-. eauto.
      + destruct (IH _ _ D); discriminate.
      + destruct (IH _ _ D); discriminate. }
  destruct (poll fuel (fun c e => can u c e) w (i + 1) (w_now (w i)) timeout) as [r|] eqn:D; [|split; discriminate].
  destruct (P _ _ _ D) as [[j n] ->]. destruct (can_u_total u _ (R j)) as [b ->]. split; discriminate.
Qed.

Theorem wait_frozen : forall fuel (w : world S) i u timeout, real_world w -> valid_time (w_now (w i) + timeout) ->
  (forall k, valid_time (w_now (w k) + three_seconds)) -> 0 < timeout ->
  (forall k, w_now (w k) = w_now (w i) /\ w_ok (w k) = true /\ ~ available u w k) ->
  forall errstr, can_wait fuel true w i u timeout errstr = None.
Proof.
  intros fuel w i u timeout R V C P H errstr. rewrite can_wait_for. unfold wait_for. cbn [negb].
  rewrite poll_forever; [reflexivity|apply real_total; exact R|exact V|exact C|].
  intros m. destruct (H (i + 1 + 4 * m)%nat) as (A1 & _). destruct (H (i + 1 + 4 * m + 1)%nat) as (_ & _ & A2).
  destruct (H (i + 1 + 4 * m + 2)%nat) as (A3 & _). destruct (H (i + 1 + 4 * m + 3)%nat) as (_ & A4 & _).
  split; [lia|]. split; [|split; [unfold three_seconds; lia|exact A4]].
  destruct (can_u_total u _ (R (i + 1 + 4 * m + 1)%nat)) as [[|] E]; [unfold available in A2; contradiction|eauto].
Qed.

Theorem wait_no_thread : forall fuel (w : world S) i u timeout errstr,
  can_wait fuel false w i u timeout errstr =
    Some (Ok (mkOutcome false (match errstr with Some _ => Some threading_error | None => None end) i 0%nat)).
Proof. intros. rewrite can_wait_for. reflexivity. Qed.

(** ** lookupTransform with a timeout *)
Theorem lookup_wait_current : forall fuel d (w : world S) i u timeout r,
  lookup_wait fuel d w i u timeout = Some (Ok r) -> exists k, (i <= k)%nat /\ lookup u (w_core (w k)) = Ok r.
Proof.
  intros fuel d w i u timeout r H. rewrite lookup_wait_for in H. unfold then_lookup in H.
  destruct (can_wait fuel d w i u timeout None) as [[o| |]|] eqn:E; try discriminate. injection H as H.
  exists (o_next o). split; [|exact H]. destruct d.
  - destruct (wait_answer _ _ _ _ _ _ _ E) as (j & err & B & _). lia.
  - rewrite wait_no_thread in E. injection E as <-. cbn. lia.
Qed.
Theorem lookup_wait_is : forall fuel d (w : world S) i u timeout o,
  can_wait fuel d w i u timeout None = Some (Ok o) ->
  lookup_wait fuel d w i u timeout = Some (lookup u (w_core (w (o_next o)))).
Proof. intros fuel d w i u timeout o H. rewrite lookup_wait_for, H. reflexivity. Qed.

Theorem lookup_after_wait : forall fuel (w : world S) i u timeout o, real_world w -> times_early u ->
  can_wait fuel true w i u timeout None = Some (Ok o) ->
  (forall j, (j + 1 = o_next o)%nat -> w_core (w j) = w_core (w (o_next o)) /\ early (w_core (w j))) ->
  (o_value o = true <-> exists m, lookup_wait fuel true w i u timeout = Some (Ok m)).
Proof.
  intros fuel w i u timeout o R T H U. rewrite (lookup_wait_is _ _ _ _ _ _ _ H).
  destruct (wait_inv _ _ _ _ _ _ _ H) as (j & n & err & _ & Q & _ & N & _). cbn [emptied] in Q.
  pose proof (can_none u _ _ _ (R j) Q) as En. subst err. destruct (N eq_refl) as [_ Nj]. destruct (U j (eq_sym Nj)) as [Ej Ee].
  rewrite <- Ej. pose proof (can_u_lookup u _ (R j) Ee T) as C. rewrite Q in C.
  split.
  - intros V. rewrite V in C. destruct (proj1 C eq_refl) as [m ->]. eauto.
  - intros [m E]. injection E as E. assert (X : exists m, lookup u (w_core (w j)) = Ok m) by eauto. apply C in X. congruence.
Qed.

End P.
