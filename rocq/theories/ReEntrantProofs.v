(** * Proofs about user code called from inside setTransform *)
From Coq Require Import ZArith Bool List String Lia Arith Permutation.
From Verif Require Import RosTime Scalar LinearMath Cache BufferCore SpecCore Requests SpecRequests RequestHistory ReEntrant SpecReEntrant.
Import ListNotations.
Open Scope Z_scope.
Open Scope list_scope.

Section P.
Context {S : Scalar}.
Notation item := (item S).
Notation world := (world S).
Notation act := (act S).
Notation todo := (todo S).
Notation user := (list item -> who -> list act).
Implicit Types (u : user) (w : world) (l : list item).

(** ** one call *)
Lemma loop_registered : forall n (s : core S) cbs kept rest evs final out, test_loop n s cbs kept rest evs = (final, Ok out) ->
  Forall (fun e => registered cbs (ev_cb e) = true) evs -> Forall (fun e => registered cbs (ev_cb e) = true) out.
Proof.
  induction n as [|n IH]; intros s cbs kept rest evs final out H F; cbn [test_loop] in H; [injection H as _ <-; exact F|].
  destruct rest as [|r rest]; [injection H as _ <-; exact F|]. destruct (decide s (resolve s r)) as [[x|]|c e|] eqn:D; try discriminate H.
  - destruct (make_event s cbs (resolve s r) (List.length kept) x) as [es|c e|] eqn:E; try discriminate H. eapply IH; [exact H|]. apply Forall_app. split; [exact F|].
    unfold make_event in E. destruct (registered cbs (rq_cb (resolve s r))) eqn:R; [|injection E as <-; constructor].
    destruct (lookupFrameString s (rq_target (resolve s r))); cbn [bind] in E; try discriminate E. destruct (lookupFrameString s (rq_source (resolve s r))); cbn [bind] in E; try discriminate E.
    injection E as <-. constructor; [exact R|constructor].
  - eapply IH; [exact H|exact F].
Qed.
Lemma call_cbs : forall (b : buf S) o b' a evs, req_step b o = (b', a, evs) ->
  (accepted o a = false -> evs = []) /\ Forall (fun e => registered (b_cbs b') (ev_cb e) = true) evs /\
  forall h, registered (b_cbs b) h = true -> registered (b_cbs b') h = true \/ o = RRemoveCallback h.
Proof.
  intros b o b' a evs H. destruct o as [m au st| | |cb|cb tgt src t|h0]; cbn [req_step] in H.
  - unfold set_transform in H. destruct (setTransform (b_core b) m au st) as [s' r] eqn:E. destruct r as [[|]|c e|].
    + destruct (testTransformableRequests (with_core b s')) as [b2 out] eqn:T. unfold testTransformableRequests in T.
      destruct (test_loop _ _ _ _ _ _) as [final out'] eqn:L. injection T as <- <-. destruct out' as [out|c e|]; cbn [bind] in H; injection H as <- <- <-.
      * split; [intros X; discriminate X|]. cbn [b_cbs with_core]. split; [eapply loop_registered; [exact L|constructor]|auto].
      * split; [reflexivity|]. split; [constructor|auto].
      * split; [reflexivity|]. split; [constructor|auto].
    + cbn [bind] in H. injection H as <- <- <-. split; [reflexivity|]. split; [constructor|auto].
    + cbn [bind] in H. injection H as <- <- <-. split; [reflexivity|]. split; [constructor|auto].
    + cbn [bind] in H. injection H as <- <- <-. split; [reflexivity|]. split; [constructor|auto].
  - injection H as <- <- <-. split; [reflexivity|]. split; [constructor|auto].
  - unfold addTransformableCallback in H. destruct (next_cb_handle _ _ _) as [h|]; injection H as <- <- <-; (split; [reflexivity|]; split; [constructor|]); cbn [b_cbs]; auto.
    intros k Hk. left. unfold registered in *. cbn [existsb]. rewrite Hk. apply orb_true_r.
  - injection H as <- <- <-. split; [reflexivity|]. split; [constructor|]. intros h Hh. destruct (Z.eq_dec h cb) as [->|N]; [right; reflexivity|left].
    unfold registered in *. cbn [b_cbs removeTransformableCallback]. apply existsb_exists in Hh as (k & Hk & E). apply Z.eqb_eq in E. subst k. apply existsb_exists. exists h.
    split; [apply filter_In; split; [exact Hk|apply negb_true_iff, Z.eqb_neq, N]|apply Z.eqb_refl].
  - unfold addTransformableRequest in H. destruct (add_check _ _ _ _) as [[k|ti si]|c e|]; try (injection H as <- <- <-; split; [reflexivity|]; split; [constructor|auto]).
  - injection H as <- <- <-. split; [reflexivity|]. split; [constructor|auto].
Qed.

(** ** what a step adds to the log *)
Lemma calls_app : forall l1 l2, calls (l1 ++ l2) = calls l1 ++ calls l2.
Proof. intros. apply flat_map_app. Qed.
Lemma ops_app : forall l1 l2, ops (l1 ++ l2) = ops l1 ++ ops l2.
Proof. intros. unfold ops. rewrite calls_app. apply map_app. Qed.
Lemma notified_app : forall l1 l2, notified (l1 ++ l2) = notified l1 ++ notified l2.
Proof. intros. apply flat_map_app. Qed.
Lemma told_app : forall i l1 l2, times_told i (l1 ++ l2) = (times_told i l1 + times_told i l2)%nat.
Proof. intros. unfold times_told. rewrite filter_app, app_length. reflexivity. Qed.
Lemma acc_app : forall l1 l2, times_accepted (l1 ++ l2) = (times_accepted l1 + times_accepted l2)%nat.
Proof. intros. unfold times_accepted. rewrite filter_app, app_length. reflexivity. Qed.
Lemma no_exc_app : forall l1 l2, no_exception (l1 ++ l2) <-> no_exception l1 /\ no_exception l2.
Proof. intros. unfold no_exception. split; [intros H; split; intros x Hx; apply H, in_app_iff; auto|intros (H1 & H2) x Hx; apply in_app_iff in Hx as [Hx|Hx]; auto]. Qed.

Ltac stepinv H :=
  unfold step in H; match type of H with (if w_ub ?w then _ else _) = _ => let U := fresh "U" in destruct (w_ub w) eqn:U; [discriminate H|] end;
  match type of H with match w_stack ?w with _ => _ end = _ => let K := fresh "K" in destruct (w_stack w) as [|[[o| |k|]|e| |k] rest] eqn:K; [discriminate H|..] end.

Lemma step_log : forall u w w', step u w = Some w' -> exists x, w_log w' = w_log w ++ x.
Proof.
  intros u w w' H. stepinv H.
  - destruct (req_step (w_buf w) o) as [[b' a] evs]. injection H as <-. eexists. reflexivity.
  - injection H as <-. eexists. reflexivity.
  - injection H as <-. eexists. reflexivity.
  - injection H as <-. eexists. reflexivity.
  - destruct (registered _ _); injection H as <-; [eexists; reflexivity|exists []; cbn; rewrite app_nil_r; reflexivity].
  - injection H as <-. eexists. reflexivity.
  - destruct (existsb _ _); injection H as <-; [eexists; reflexivity|exists []; cbn; rewrite app_nil_r; reflexivity].
Qed.
Lemma follow_log : forall u w w', can_follow u w w' -> exists x, w_log w' = w_log w ++ x.
Proof.
  intros u w w' H. induction H as [|w1 a H (x & IH) K U A|w1 w2 H (x & IH) St]; [exists []; rewrite app_nil_r; reflexivity|exists x; exact IH|].
  destruct (step_log _ _ _ St) as (y & E). exists (x ++ y). rewrite E, IH, app_assoc. reflexivity.
Qed.

(** ** the buffer sees an ordinary history *)
Definition flat (ct : duration) w : Prop := req_run (init_buf ct) (ops (w_log w)) = (w_buf w, calls (w_log w)).
Lemma flat_more : forall ct w w', flat ct w -> ops (w_log w') = ops (w_log w) -> calls (w_log w') = calls (w_log w) -> w_buf w' = w_buf w -> flat ct w'.
Proof. intros ct w w' H E1 E2 E3. unfold flat. rewrite E1, E2, E3. exact H. Qed.
Lemma flat_step : forall u ct w w', flat ct w -> step u w = Some w' -> flat ct w'.
Proof.
  intros u ct w w' F H. stepinv H.
  - destruct (req_step (w_buf w) o) as [[b' a] evs] eqn:E. injection H as <-. unfold flat. cbn [w_log w_buf]. rewrite ops_app, calls_app. change (ops [Called o a evs]) with [o]. change (calls [Called o a evs]) with [(o, a, evs)].
    rewrite req_run_app. rewrite F. cbn [req_run]. rewrite E. reflexivity.
  - injection H as <-. apply (flat_more ct w); [exact F| | |reflexivity]; cbn [w_log]; rewrite ?ops_app, ?calls_app, app_nil_r; reflexivity.
  - injection H as <-. apply (flat_more ct w); [exact F| | |reflexivity]; cbn [w_log]; rewrite ?ops_app, ?calls_app, app_nil_r; reflexivity.
  - injection H as <-. apply (flat_more ct w); [exact F| | |reflexivity]; cbn [w_log]; rewrite ?ops_app, ?calls_app, app_nil_r; reflexivity.
  - destruct (registered _ _); injection H as <-; (apply (flat_more ct w); [exact F| | |reflexivity]); cbn [w_log]; rewrite ?ops_app, ?calls_app, ?app_nil_r; reflexivity.
  - injection H as <-. apply (flat_more ct w); [exact F| | |reflexivity]; cbn [w_log]; rewrite ?ops_app, ?calls_app, app_nil_r; reflexivity.
  - destruct (existsb _ _); injection H as <-; (apply (flat_more ct w); [exact F| | |reflexivity]); cbn [w_log]; rewrite ?ops_app, ?calls_app, ?app_nil_r; reflexivity.
Qed.
Theorem flattened : forall u ct w, can_happen u ct w -> req_run (init_buf ct) (ops (w_log w)) = (w_buf w, calls (w_log w)).
Proof.
  intros u ct w H. change (flat ct w). induction H as [|w1 a H IH K U A|w1 w2 H IH St]; [reflexivity|exact IH|]. eapply flat_step; eassumption.
Qed.
Definition stack_ok (st : list todo) : Prop := forall a, In (Act a) st -> act_ok a.
Theorem calls_ok : forall u ct w, (forall l x a, In a (u l x) -> act_ok a) -> can_happen u ct w -> Forall req_op_ok (ops (w_log w)).
Proof.
  intros u ct w P H. enough (Forall req_op_ok (ops (w_log w)) /\ stack_ok (w_stack w)) by tauto.
  induction H as [|w1 a H (IH & IS) K U A|w1 w2 H (IH & IS) St].
  - split; [constructor|intros a []].
  - split; [exact IH|]. intros x [E|[]]. injection E as <-. exact A.
  - clear H. rename St into H.
    assert (Q : forall (x : item), match x with Called _ _ _ => False | _ => True end -> Forall req_op_ok (ops (w_log w1 ++ [x]))).
    { intros x Hx. rewrite ops_app. apply Forall_app. split; [exact IH|]. destruct x; try contradiction; constructor. }
    stepinv H.
    + destruct (req_step (w_buf w1) o) as [[b' a] evs]. injection H as <-. cbn [w_log w_stack]. split.
      * rewrite ops_app. apply Forall_app. split; [exact IH|]. constructor; [|constructor]. apply (IS (Call o)). left. reflexivity.
      * intros x Hx. destruct (thrown a); [destruct Hx|]. destruct (accepted o a); [|apply IS; right; exact Hx]. apply in_app_iff in Hx as [Hx|[Hx|Hx]]; [apply in_map_iff in Hx as (e & X & _); discriminate X|discriminate Hx|apply IS; right; exact Hx].
    + injection H as <-. split; [apply Q; exact I|intros x Hx; apply IS; right; exact Hx].
    + injection H as <-. split; [apply Q; exact I|intros x Hx; apply IS; right; exact Hx].
    + injection H as <-. split; [apply Q; exact I|intros x []].
    + destruct (registered _ _); injection H as <-; (split; [try (apply Q; exact I); exact IH|]); intros x Hx; cbn [w_stack] in Hx; [|apply IS; right; exact Hx].
      apply in_app_iff in Hx as [Hx|Hx]; [apply in_map_iff in Hx as (y & X & Y); injection X as ->; eapply P; exact Y|apply IS; right; exact Hx].
    + injection H as <-. split; [apply Q; exact I|]. intros x Hx. cbn [w_stack] in Hx. apply in_app_iff in Hx as [Hx|Hx]; [apply in_map_iff in Hx as (y & X & _); discriminate X|apply IS; right; exact Hx].
    + destruct (existsb _ _); injection H as <-; (split; [try (apply Q; exact I); exact IH|]); intros x Hx; cbn [w_stack] in Hx; [|apply IS; right; exact Hx].
      apply in_app_iff in Hx as [Hx|Hx]; [apply in_map_iff in Hx as (y & X & Y); injection X as ->; eapply P; exact Y|apply IS; right; exact Hx].
Qed.

(** ** the shape of the log *)
Fixpoint steps u (n : nat) w : option world :=
  match n with O => Some w | Datatypes.S n' => match step u w with Some w1 => steps u n' w1 | None => None end end.
Lemma steps_snoc : forall u n w w1 w2, steps u n w = Some w1 -> step u w1 = Some w2 -> steps u (Datatypes.S n) w = Some w2.
Proof.
  intros u. induction n as [|n IH]; intros w w1 w2 H St; cbn [steps] in *; [injection H as ->; rewrite St; reflexivity|].
  destruct (step u w) as [w'|]; [|discriminate H]. exact (IH w' w1 w2 H St).
Qed.
Lemma steps_log : forall u n w w', steps u n w = Some w' -> exists x, w_log w' = w_log w ++ x.
Proof.
  intros u. induction n as [|n IH]; intros w w' H; cbn [steps] in H; [injection H as ->; exists []; rewrite app_nil_r; reflexivity|].
  destruct (step u w) as [w1|] eqn:St; [|discriminate H]. destruct (IH w1 w' H) as (x & E). destruct (step_log _ _ _ St) as (y & Ey). exists (y ++ x). rewrite E, Ey, app_assoc. reflexivity.
Qed.
Inductive fin : list todo -> list item -> Prop :=
| fin_nil : fin [] []
| fin_plain : forall a x rest l, plain x -> fin rest l -> fin (Act a :: rest) (x :: l)
| fin_set : forall o a evs rest l, accepted o a = true -> fin (map Deliver evs ++ Signal :: rest) l -> fin (Act (Call o) :: rest) (Called o a evs :: l)
| fin_deliver : forall e d acts rest l, fin (map Act acts ++ rest) l -> fin (Deliver e :: rest) (Notified e d :: l)
| fin_signal : forall ls rest l, fin (map Tell ls ++ rest) l -> fin (Signal :: rest) (Signalled ls :: l)
| fin_tell : forall i acts rest l, fin (map Act acts ++ rest) l -> fin (Tell i :: rest) (Changed i :: l)
| fin_gone : forall i rest l, fin rest l -> fin (Tell i :: rest) l.
Lemma app_cancel : forall {A} (a b c : list A), a ++ b = a ++ c -> b = c.
Proof. intros. eapply app_inv_head. eassumption. Qed.
Lemma steps_fin : forall u n w w' l, steps u n w = Some w' -> idle w' -> w_log w' = w_log w ++ l -> no_exception l -> fin (w_stack w) l.
Proof.
  intros u. induction n as [|n IH]; intros w w' l H (K0 & U0) E NE; cbn [steps] in H.
  - injection H as ->. rewrite <- (app_nil_r (w_log w')) in E at 1. apply app_cancel in E. subst l. rewrite K0. constructor.
  - destruct (step u w) as [w1|] eqn:St; [|discriminate H]. destruct (steps_log _ _ _ _ H) as (y & Ey).
    assert (G : forall x, w_log w1 = w_log w ++ x -> l = x ++ y /\ fin (w_stack w1) y).
    { intros x Ex. assert (El : l = x ++ y) by (rewrite Ey, Ex, <- app_assoc in E; apply app_cancel in E; symmetry; exact E). split; [exact El|].
      apply (IH w1 w' y H (conj K0 U0) Ey). subst l. apply no_exc_app in NE. tauto. }
    rename St into Q. stepinv Q.
    + destruct (req_step (w_buf w) o) as [[b' a] evs] eqn:R. injection Q as <-. cbn [w_log w_stack] in G. destruct (G [Called o a evs] eq_refl) as (-> & F). cbn [app].
      assert (Th : thrown a = false) by (exact (NE (Called o a evs) (or_introl eq_refl))). rewrite Th in F. destruct (accepted o a) eqn:A.
      * apply fin_set; assumption.
      * apply fin_plain; [|exact F]. split; [exact A|]. exact (proj1 (call_cbs _ _ _ _ _ R) A).
    + injection Q as <-. destruct (G _ eq_refl) as (-> & F). apply fin_plain; [exact I|exact F].
    + injection Q as <-. destruct (G _ eq_refl) as (-> & F). apply fin_plain; [exact I|exact F].
    + injection Q as <-. destruct (G _ eq_refl) as (-> & F). specialize (NE Raised (or_introl eq_refl)). discriminate NE.
    + destruct (registered _ _).
      * injection Q as <-. destruct (G _ eq_refl) as (-> & F). eapply fin_deliver. exact F.
      * injection Q as <-. destruct n; cbn [steps] in H; [injection H as <-; discriminate U0|discriminate H].
    + injection Q as <-. destruct (G _ eq_refl) as (-> & F). apply fin_signal. exact F.
    + destruct (existsb _ _).
      * injection Q as <-. destruct (G _ eq_refl) as (-> & F). eapply fin_tell. exact F.
      * injection Q as <-. cbn [w_log] in G. destruct (G [] ltac:(rewrite app_nil_r; reflexivity)) as (-> & F). apply fin_gone. exact F.
Qed.
Lemma fin_split : forall st l, fin st l -> forall p q, st = p ++ q -> exists l1 l2, l = l1 ++ l2 /\ fin p l1 /\ fin q l2.
Proof.
  intros st l F. induction F as [|a x rest l Px F IH|o a evs rest l A F IH|e d acts rest l F IH|ls rest l F IH|i acts rest l F IH|i rest l F IH]; intros [|y p] q E; cbn [app] in E.
  - subst q. exists [], []. repeat split; constructor.
  - discriminate E.
  - subst q. exists [], (x :: l). split; [reflexivity|]. split; [constructor|]. constructor; assumption.
  - injection E as <- ->. destruct (IH p q eq_refl) as (l1 & l2 & -> & F1 & F2). exists (x :: l1), l2. split; [reflexivity|]. split; [constructor; assumption|exact F2].
  - subst q. exists [], (Called o a evs :: l). split; [reflexivity|]. split; [constructor|]. apply fin_set; assumption.
  - injection E as <- ->. destruct (IH (map Deliver evs ++ Signal :: p) q ltac:(rewrite <- app_assoc; reflexivity)) as (l1 & l2 & -> & F1 & F2).
    exists (Called o a evs :: l1), l2. split; [reflexivity|]. split; [apply fin_set; assumption|exact F2].
  - subst q. exists [], (Notified e d :: l). split; [reflexivity|]. split; [constructor|]. eapply fin_deliver. exact F.
  - injection E as <- ->. destruct (IH (map Act acts ++ p) q ltac:(rewrite <- app_assoc; reflexivity)) as (l1 & l2 & -> & F1 & F2).
    exists (Notified e d :: l1), l2. split; [reflexivity|]. split; [eapply fin_deliver; exact F1|exact F2].
  - subst q. exists [], (Signalled ls :: l). split; [reflexivity|]. split; [constructor|]. apply fin_signal; assumption.
  - injection E as <- ->. destruct (IH (map Tell ls ++ p) q ltac:(rewrite <- app_assoc; reflexivity)) as (l1 & l2 & -> & F1 & F2).
    exists (Signalled ls :: l1), l2. split; [reflexivity|]. split; [apply fin_signal; exact F1|exact F2].
  - subst q. exists [], (Changed i :: l). split; [reflexivity|]. split; [constructor|]. eapply fin_tell. exact F.
  - injection E as <- ->. destruct (IH (map Act acts ++ p) q ltac:(rewrite <- app_assoc; reflexivity)) as (l1 & l2 & -> & F1 & F2).
    exists (Changed i :: l1), l2. split; [reflexivity|]. split; [eapply fin_tell; exact F1|exact F2].
  - subst q. exists [], l. split; [reflexivity|]. split; [constructor|]. apply fin_gone. exact F.
  - injection E as <- ->. destruct (IH p q eq_refl) as (l1 & l2 & -> & F1 & F2). exists l1, l2. split; [reflexivity|]. split; [apply fin_gone; exact F1|exact F2].
Qed.
Lemma stretch_app : forall l1 l2, stretch l1 -> stretch l2 -> stretch (l1 ++ l2).
Proof.
  intros l1 l2 H1 H2. induction H1 as [|x l Px H IH|o a evs la ls lb l A An Te H IH]; [exact H2|cbn [app]; constructor; assumption|].
  cbn [app]. rewrite <- app_assoc. cbn [app]. rewrite <- app_assoc. eapply st_set; eassumption.
Qed.
Lemma fin_shape : forall n l, (List.length l <= n)%nat ->
  (forall acts, fin (map Act acts) l -> stretch l) /\ (forall evs, fin (map Deliver evs) l -> answers evs l) /\ (forall ls, fin (map Tell ls) l -> tellings ls l).
Proof.
  induction n as [|n IH]; intros l Hn.
  - destruct l; [|cbn in Hn; lia]. split; [constructor|]. split.
    + intros [|e evs] F; [constructor|]. inversion F.
    + intros ls. induction ls as [|i ls IHl]; intros F; [constructor|]. inversion F; subst. apply te_gone. apply IHl. assumption.
  - split; [|split].
    + intros [|a acts] F; [inversion F; constructor|]. cbn [map] in F. inversion F; subst.
      * constructor; [assumption|]. cbn [List.length] in Hn. match goal with X : fin (map Act acts) ?l0 |- _ => exact (proj1 (IH l0 ltac:(lia)) acts X) end.
      * match goal with X : fin (map Deliver _ ++ _) _ |- _ => destruct (fin_split _ _ X _ _ eq_refl) as (l1 & l2 & -> & F1 & F2) end.
        inversion F2; subst. match goal with X : fin (map Tell _ ++ _) _ |- _ => destruct (fin_split _ _ X _ _ eq_refl) as (l3 & l4 & -> & F3 & F4) end.
        cbn [List.length] in Hn. rewrite app_length in Hn. cbn [List.length] in Hn. rewrite app_length in Hn.
        eapply st_set; [assumption|apply (proj1 (proj2 (IH l1 ltac:(lia)))); exact F1|apply (proj2 (proj2 (IH l3 ltac:(lia)))); exact F3|apply (proj1 (IH l4 ltac:(lia)) acts); exact F4].
    + intros [|e evs] F; [inversion F; constructor|]. cbn [map] in F. inversion F; subst.
      match goal with X : fin (map Act _ ++ _) _ |- _ => destruct (fin_split _ _ X _ _ eq_refl) as (l1 & l2 & -> & F1 & F2) end.
      cbn [List.length] in Hn. rewrite app_length in Hn. apply an_one; [apply (proj1 (IH l1 ltac:(lia)) acts); exact F1|apply (proj1 (proj2 (IH l2 ltac:(lia)))); exact F2].
    + intros ls. induction ls as [|i ls IHl]; intros F; [inversion F; constructor|]. cbn [map] in F. inversion F; subst.
      * match goal with X : fin (map Act _ ++ _) _ |- _ => destruct (fin_split _ _ X _ _ eq_refl) as (l1 & l2 & -> & F1 & F2) end.
        cbn [List.length] in Hn. rewrite app_length in Hn. apply te_told; [apply (proj1 (IH l1 ltac:(lia)) acts); exact F1|apply (proj2 (proj2 (IH l2 ltac:(lia)))); exact F2].
      * apply te_gone. apply IHl. assumption.
Qed.
Theorem shape : forall u w w' l, idle w -> can_follow u w w' -> idle w' -> w_log w' = w_log w ++ l -> no_exception l -> stretch l.
Proof.
  intros u w w' l Iw H Iw' E NE.
  assert (G : no_exception l -> exists wm l0, w_stack wm = [] /\ w_ub wm = false /\ w_log wm = w_log w ++ l0 /\ stretch l0 /\
    (w' = wm \/ exists n a, steps u n (begin wm a) = Some w')).
  { clear Iw' NE. revert l E. induction H as [|w1 a H IH K U A|w1 w2 H IH St]; intros l E NE.
    - exists w, []. destruct Iw as (K & U). rewrite app_nil_r. repeat split; try assumption; try constructor. reflexivity.
    - destruct (IH l E NE) as (wm & l0 & Km & Um & Em & S0 & [->|(n & a' & Hn)]).
      + exists wm, l0. repeat split; try assumption. right. exists 0%nat, a. reflexivity.
      + destruct (steps_log _ _ _ _ Hn) as (y & Ey). cbn [begin w_log] in Ey. assert (El : l = l0 ++ y) by (cbn [begin w_log] in E; rewrite Ey, Em, <- app_assoc in E; apply app_cancel in E; symmetry; exact E).
        exists w1, l. split; [exact K|]. split; [exact U|]. split; [exact E|]. split; [|right; exists 0%nat, a; reflexivity].
        subst l. apply no_exc_app in NE as (_ & NE). apply stretch_app; [exact S0|]. pose proof (steps_fin u n _ w1 y Hn (conj K U) Ey NE) as F. cbn [begin w_stack] in F.
        exact (proj1 (fin_shape _ y (le_n _)) [a'] F).
    - destruct (step_log _ _ _ St) as (y & Ey). destruct (follow_log _ _ _ H) as (x & Ex).
      assert (El : l = x ++ y) by (rewrite Ey, Ex, <- app_assoc in E; apply app_cancel in E; symmetry; exact E). subst l. apply no_exc_app in NE as (NE & _).
      destruct (IH x Ex NE) as (wm & l0 & Km & Um & Em & S0 & [->|(n & a' & Hn)]).
      + exfalso. unfold step in St. rewrite Um, Km in St. discriminate St.
      + exists wm, l0. repeat split; try assumption. right. exists (Datatypes.S n), a'. eapply steps_snoc; eassumption. }
  destruct (G NE) as (wm & l0 & Km & Um & Em & S0 & [->|(n & a & Hn)]).
  - rewrite Em in E. apply app_cancel in E. subst l0. exact S0.
  - destruct (steps_log _ _ _ _ Hn) as (y & Ey). cbn [begin w_log] in Ey. assert (El : l = l0 ++ y) by (rewrite Ey, Em, <- app_assoc in E; apply app_cancel in E; symmetry; exact E).
    subst l. apply no_exc_app in NE as (_ & NE). apply stretch_app; [exact S0|]. pose proof (steps_fin u n _ w' y Hn Iw' Ey NE) as F. cbn [begin w_stack] in F.
    exact (proj1 (fin_shape _ y (le_n _)) [a] F).
Qed.

(** ** everyone is told *)
Definition fresh w : Prop := NoDup (w_listeners w) /\ forall k, In k (w_listeners w) -> (k < w_next w)%nat.
Lemma NoDup_snoc : forall {A} (l : list A) x, NoDup l -> ~ In x l -> NoDup (l ++ [x]).
Proof. intros A l x N H. apply (Permutation_NoDup (Permutation_cons_append l x)). constructor; assumption. Qed.
Lemma fresh_step : forall u w w', fresh w -> step u w = Some w' -> fresh w'.
Proof.
  intros u w w' (N & F) H. stepinv H.
  - destruct (req_step (w_buf w) o) as [[b' a] evs]. injection H as <-. split; assumption.
  - injection H as <-. split; cbn [w_listeners w_next].
    + apply NoDup_snoc; [exact N|]. intros C. apply F in C. lia.
    + intros k Hk. apply in_app_iff in Hk as [Hk|[<-|[]]]; [apply F in Hk|]; lia.
  - injection H as <-. split; cbn [w_listeners w_next]; [apply NoDup_filter, N|]. intros j Hj. apply filter_In in Hj as (Hj & _). apply F, Hj.
  - injection H as <-. split; assumption.
  - destruct (registered _ _); injection H as <-; split; assumption.
  - injection H as <-. split; assumption.
  - destruct (existsb _ _); injection H as <-; split; assumption.
Qed.
Lemma fresh_happen : forall u ct w, can_happen u ct w -> fresh w.
Proof. intros u ct w H. induction H as [|w1 a H IH K U A|w1 w2 H IH St]; [split; [constructor|intros k []]|exact IH|eapply fresh_step; eassumption]. Qed.
Definition waiting (i : nat) (st : list todo) : nat :=
  List.length (filter (fun x => match x with Tell k => Nat.eqb k i | Signal => true | _ => false end) st).
Lemma waiting_app : forall i a b, waiting i (a ++ b) = (waiting i a + waiting i b)%nat.
Proof. intros. unfold waiting. rewrite filter_app, app_length. reflexivity. Qed.
Lemma waiting_acts : forall i acts, waiting i (map Act acts) = 0%nat.
Proof. intros i acts. induction acts as [|a acts IH]; [reflexivity|exact IH]. Qed.
Lemma waiting_delivers : forall i evs, waiting i (map Deliver evs) = 0%nat.
Proof. intros i evs. induction evs as [|a evs IH]; [reflexivity|exact IH]. Qed.
Lemma waiting_tells : forall i ls, NoDup ls -> In i ls -> waiting i (map Tell ls) = 1%nat.
Proof.
  intros i ls N. induction N as [|x ls Nx N IH]; intros H; [destruct H|]. unfold waiting in *. cbn [map filter]. destruct H as [->|H].
  - rewrite Nat.eqb_refl. cbn [List.length]. f_equal. clear - Nx. induction ls as [|y ls IH]; [reflexivity|]. cbn [map filter]. destruct (Nat.eqb_spec y i) as [->|]; [exfalso; apply Nx; left; reflexivity|]. apply IH. intros C. apply Nx. right. exact C.
  - destruct (Nat.eqb_spec x i) as [->|]; [contradiction|]. apply IH, H.
Qed.
Theorem everyone_told : forall u ct w w' i l, can_happen u ct w -> idle w -> In i (w_listeners w) -> can_follow u w w' -> w_log w' = w_log w ++ l -> no_exception l -> ~ In (Unlistened i) l ->
  (times_told i l + waiting i (w_stack w'))%nat = times_accepted l.
Proof.
  intros u ct w w' i l R (K0 & U0) Hi H.
  assert (F0 : fresh w) by (eapply fresh_happen; exact R). clear R.
  enough (G : fresh w' /\ forall l, w_log w' = w_log w ++ l -> no_exception l -> ~ In (Unlistened i) l -> In i (w_listeners w') /\ (times_told i l + waiting i (w_stack w'))%nat = times_accepted l)
    by (intros E NE NU; apply (proj2 G l E NE NU)). revert l.
  induction H as [|w1 a H IH K U A|w1 w2 H IH St]; intros _.
  - split; [exact F0|]. intros l E _ _. rewrite <- (app_nil_r (w_log w)) in E at 1. apply app_cancel in E. subst l. rewrite K0. split; [exact Hi|reflexivity].
  - destruct (IH []) as (F & G). split; [exact F|]. intros l E NE NU. destruct (G l E NE NU) as (G1 & G2). split; [exact G1|]. cbn [begin w_stack]. rewrite K in G2. exact G2.
  - destruct (IH []) as (F & G). split; [eapply fresh_step; eassumption|]. intros l E NE NU. destruct (follow_log _ _ _ H) as (x & Ex).
    assert (Q : forall y, w_log w2 = w_log w1 ++ y -> l = x ++ y /\ In i (w_listeners w1) /\ (times_told i x + waiting i (w_stack w1))%nat = times_accepted x /\ no_exception y /\ ~ In (Unlistened i) y).
    { intros y Ey. assert (El : l = x ++ y) by (rewrite Ey, Ex, <- app_assoc in E; apply app_cancel in E; symmetry; exact E). split; [exact El|]. subst l. apply no_exc_app in NE as (NE1 & NE2).
      destruct (G x Ex NE1 ltac:(intros C; apply NU, in_app_iff; left; exact C)) as (G1 & G2). repeat split; try assumption. intros C. apply NU, in_app_iff. right. exact C. }
    clear IH G E NE NU H. rename St into P. stepinv P.
    + destruct (req_step (w_buf w1) o) as [[b' a] evs]. injection P as <-. cbn [w_listeners w_stack w_log] in *. destruct (Q _ eq_refl) as (-> & G1 & G2 & NE & NU). split; [exact G1|].
      assert (Th : thrown a = false) by exact (NE (Called o a evs) (or_introl eq_refl)). rewrite told_app, acc_app, Th. change (times_told i [Called o a evs]) with 0%nat.
      unfold times_accepted at 2. cbn [filter List.length]. change (took o a) with (accepted o a). destruct (accepted o a).
      * rewrite waiting_app, waiting_delivers. cbn [List.length Nat.add]. change (waiting i (Signal :: rest)) with (Datatypes.S (waiting i rest)). change (waiting i (Act (Call o) :: rest)) with (waiting i rest) in G2. lia.
      * cbn [List.length]. change (waiting i (Act (Call o) :: rest)) with (waiting i rest) in G2. lia.
    + injection P as <-. cbn [w_listeners w_stack w_log] in *. destruct (Q _ eq_refl) as (-> & G1 & G2 & NE & NU). split; [apply in_app_iff; left; exact G1|].
      rewrite told_app, acc_app. change (waiting i (Act Listen :: rest)) with (waiting i rest) in G2. cbn. lia.
    + injection P as <-. cbn [w_listeners w_stack w_log] in *. destruct (Q _ eq_refl) as (-> & G1 & G2 & NE & NU). split.
      * apply filter_In. split; [exact G1|]. apply negb_true_iff, Nat.eqb_neq. intros ->. apply NU. left. reflexivity.
      * rewrite told_app, acc_app. change (waiting i (Act (Unlisten k) :: rest)) with (waiting i rest) in G2. cbn. lia.
    + injection P as <-. destruct (Q _ eq_refl) as (_ & _ & _ & NE & _). specialize (NE Raised (or_introl eq_refl)). discriminate NE.
    + destruct (registered _ _); injection P as <-; cbn [w_listeners w_stack w_log] in *.
      * destruct (Q _ eq_refl) as (-> & G1 & G2 & NE & NU). split; [exact G1|]. rewrite told_app, acc_app, waiting_app, waiting_acts. change (waiting i (Deliver e :: rest)) with (waiting i rest) in G2. cbn. lia.
      * destruct (Q [] ltac:(rewrite app_nil_r; reflexivity)) as (-> & G1 & G2 & NE & NU). split; [exact G1|]. rewrite app_nil_r. change (waiting i (Deliver e :: rest)) with (waiting i rest) in G2. lia.
    + injection P as <-. cbn [w_listeners w_stack w_log] in *. destruct (Q _ eq_refl) as (-> & G1 & G2 & NE & NU). split; [exact G1|]. rewrite told_app, acc_app, waiting_app, waiting_tells by (apply F || exact G1).
      change (waiting i (Signal :: rest)) with (Datatypes.S (waiting i rest)) in G2. cbn. lia.
    + destruct (existsb (Nat.eqb k) (w_listeners w1)) eqn:Ek; injection P as <-; cbn [w_listeners w_stack w_log] in *.
      * destruct (Q _ eq_refl) as (-> & G1 & G2 & NE & NU). split; [exact G1|]. rewrite told_app, acc_app, waiting_app, waiting_acts. unfold times_told at 2. unfold waiting in G2 at 1. cbn [filter] in *.
        destruct (Nat.eqb k i); cbn [List.length] in *; unfold waiting; cbn; lia.
      * destruct (Q [] ltac:(rewrite app_nil_r; reflexivity)) as (-> & G1 & G2 & NE & NU). split; [exact G1|]. rewrite app_nil_r. unfold waiting in G2. cbn [filter] in G2. destruct (Nat.eqb_spec k i) as [->|]; [|exact G2].
        exfalso. apply not_true_iff_false in Ek. apply Ek, existsb_exists. exists i. split; [exact G1|apply Nat.eqb_refl].
Qed.

(** ** every notification is made once *)
Definition undelivered (st : list todo) : list event := flat_map (fun x => match x with Deliver e => [e] | _ => [] end) st.
Lemma undelivered_app : forall a b, undelivered (a ++ b) = undelivered a ++ undelivered b.
Proof. intros. apply flat_map_app. Qed.
Lemma undelivered_acts : forall acts, undelivered (map Act acts) = [].
Proof. intros acts. induction acts as [|a acts IH]; [reflexivity|exact IH]. Qed.
Lemma undelivered_tells : forall ls, undelivered (map Tell ls) = [].
Proof. intros acts. induction acts as [|a acts IH]; [reflexivity|exact IH]. Qed.
Lemma undelivered_evs : forall evs, undelivered (map Deliver evs) = evs.
Proof. intros evs. induction evs as [|a acts IH]; [reflexivity|]. cbn. f_equal. exact IH. Qed.
Lemma events_snoc : forall l o a evs, events_of (calls (l ++ [Called o a evs])) = events_of (calls l) ++ evs.
Proof. intros. rewrite calls_app. unfold events_of. rewrite flat_map_app. cbn. rewrite app_nil_r. reflexivity. Qed.
Theorem notified_once : forall u ct w, can_happen u ct w -> w_ub w = false -> no_exception (w_log w) -> Permutation (notified (w_log w) ++ undelivered (w_stack w)) (events_of (calls (w_log w))).
Proof.
  intros u ct w H. induction H as [|w1 a H IH K U A|w1 w2 H IH St]; intros Ub NE.
  - constructor.
  - cbn [begin w_log w_stack w_ub] in *. specialize (IH U NE). rewrite K in IH. exact IH.
  - destruct (step_log _ _ _ St) as (y & Ey). assert (NE1 : no_exception (w_log w1)) by (rewrite Ey in NE; apply no_exc_app in NE; tauto).
    assert (Pl : forall x, match x with Called _ _ _ | Notified _ _ => False | _ => True end -> forall rest', undelivered rest' = undelivered (w_stack w1) -> w_ub w1 = false -> Permutation (notified (w_log w1 ++ [x]) ++ undelivered rest') (events_of (calls (w_log w1 ++ [x])))).
    { intros x Hx rest' Er Ub1. rewrite notified_app, calls_app, Er. destruct x; try contradiction; cbn [notified calls flat_map]; rewrite !app_nil_r; apply IH; assumption. }
    rename St into P. stepinv P.
    + destruct (req_step (w_buf w1) o) as [[b' a] evs] eqn:E. injection P as <-. cbn [w_log w_stack] in *. assert (Th : thrown a = false) by (apply (NE (Called o a evs)), in_app_iff; right; left; reflexivity). rewrite Th.
      rewrite events_snoc, notified_app. cbn [notified flat_map]. rewrite app_nil_r. specialize (IH eq_refl NE1). change (undelivered (Act (Call o) :: rest)) with (undelivered rest) in IH. destruct (accepted o a) eqn:A.
      * rewrite undelivered_app, undelivered_evs. change (undelivered (Signal :: rest)) with (undelivered rest). rewrite <- IH. rewrite <- app_assoc. apply Permutation_app_head, Permutation_app_comm.
      * rewrite (proj1 (call_cbs _ _ _ _ _ E) A), app_nil_r. exact IH.
    + injection P as <-. apply Pl; [exact I|rewrite ?K; reflexivity|reflexivity].
    + injection P as <-. apply Pl; [exact I|rewrite ?K; reflexivity|reflexivity].
    + injection P as <-. cbn [w_log] in NE. exfalso. assert (X : is_exception (Raised : item) = false) by (apply NE, in_app_iff; right; left; reflexivity). discriminate X.
    + destruct (registered _ _); injection P as <-; [|discriminate Ub]. cbn [w_log w_stack]. rewrite notified_app, calls_app, undelivered_app, undelivered_acts. cbn [notified calls flat_map app]. rewrite app_nil_r. specialize (IH eq_refl NE1).
      change (undelivered (Deliver e :: rest)) with (e :: undelivered rest) in IH. rewrite <- app_assoc. exact IH.
    + injection P as <-. cbn [w_log w_stack] in *. apply Pl; [exact I|rewrite undelivered_app, undelivered_tells; reflexivity|reflexivity].
    + destruct (existsb _ _); injection P as <-.
      * cbn [w_log w_stack] in *. apply Pl; [exact I|rewrite undelivered_app, undelivered_acts; reflexivity|reflexivity].
      * exact (IH eq_refl NE1).
Qed.

(** ** when a callback reference dangles *)
Definition owed_event l e : Prop := exists l1 o a evs l2, l = l1 ++ Called o a evs :: l2 /\ In e evs.
Lemma owed_more : forall l x e, owed_event l e -> owed_event (l ++ x) e.
Proof. intros l x e (l1 & o & a & evs & l2 & -> & H). exists l1, o, a, evs, (l2 ++ x). rewrite <- app_assoc. split; [reflexivity|exact H]. Qed.
Lemma removed_more : forall l x e, removed_since l e -> removed_since (l ++ x) e.
Proof. intros l x e (l1 & o & a & evs & l2 & a' & evs' & -> & H & H'). exists l1, o, a, evs, (l2 ++ x), a', evs'. rewrite <- app_assoc. split; [reflexivity|]. split; [exact H|]. apply in_app_iff. left. exact H'. Qed.
Definition cb_fine w : Prop := (forall e, In (Deliver e) (w_stack w) -> owed_event (w_log w) e /\ (registered (b_cbs (w_buf w)) (ev_cb e) = true \/ removed_since (w_log w) e)) /\
  (w_ub w = true -> exists e, removed_since (w_log w) e).
Lemma cb_fine_step : forall u w w', cb_fine w -> step u w = Some w' -> cb_fine w'.
Proof.
  intros u w w' (D & UB) H.
  assert (Pl : forall x ls nx st b ub, b = w_buf w -> ub = false -> (forall e, In (Deliver e) st -> In (Deliver e) (w_stack w)) -> cb_fine (mkWorld b ls nx st (w_log w ++ x) ub)).
  { intros x ls nx st b ub -> -> Sub. split; [|intros X; discriminate X]. cbn [w_stack w_log w_buf]. intros e He. destruct (D e (Sub e He)) as (O & [R|R]); (split; [apply owed_more, O|]); [left; exact R|right; apply removed_more, R]. }
  stepinv H.
  - destruct (req_step (w_buf w) o) as [[b' a] evs] eqn:E. injection H as <-. destruct (call_cbs _ _ _ _ _ E) as (_ & C1 & C2). split; [|intros X; discriminate X]. cbn [w_stack w_log w_buf].
    assert (Old : forall e, In (Deliver e) rest -> owed_event (w_log w ++ [Called o a evs]) e /\ (registered (b_cbs b') (ev_cb e) = true \/ removed_since (w_log w ++ [Called o a evs]) e)).
    { intros e He. destruct (D e (or_intror He)) as (O & R). split; [apply owed_more, O|]. destruct R as [R|R]; [|right; apply removed_more, R]. destruct (C2 _ R) as [R'| ->]; [left; exact R'|right].
      destruct O as (l1 & o' & a' & evs' & l2 & El & Ie). exists l1, o', a', evs', (l2 ++ [Called (RRemoveCallback (ev_cb e)) a evs]), a, evs. rewrite El, <- app_assoc. split; [reflexivity|]. split; [exact Ie|]. apply in_app_iff. right. left. reflexivity. }
    intros e He. destruct (thrown a); [destruct He|]. destruct (accepted o a); [|apply Old, He]. apply in_app_iff in He as [He|[He|He]]; [|discriminate He|apply Old, He].
    apply in_map_iff in He as (e' & X & He). injection X as ->. split; [exists (w_log w), o, a, evs, []; split; [reflexivity|exact He]|]. left. rewrite Forall_forall in C1. apply C1, He.
  - injection H as <-. apply Pl; [reflexivity..|]. intros e He. right. exact He.
  - injection H as <-. apply Pl; [reflexivity..|]. intros e He. right. exact He.
  - injection H as <-. apply Pl; [reflexivity..|]. intros e [].
  - destruct (registered (b_cbs (w_buf w)) (ev_cb e)) eqn:R; injection H as <-.
    + apply Pl; [reflexivity..|]. intros e' He. apply in_app_iff in He as [He|He]; [apply in_map_iff in He as (y & X & _); discriminate X|right; exact He].
    + destruct (D e (or_introl eq_refl)) as (O & [R'|R']); [congruence|]. split; [intros e' He; apply D; right; exact He|]. intros _. exists e. exact R'.
  - injection H as <-. apply Pl; [reflexivity..|]. intros e' He. apply in_app_iff in He as [He|He]; [apply in_map_iff in He as (y & X & _); discriminate X|right; exact He].
  - destruct (existsb _ _); injection H as <-.
    + apply Pl; [reflexivity..|]. intros e' He. apply in_app_iff in He as [He|He]; [apply in_map_iff in He as (y & X & _); discriminate X|right; exact He].
    + rewrite <- (app_nil_r (w_log w)). apply Pl; [reflexivity..|]. intros e' He. right. exact He.
Qed.
Theorem dangling_only_after_removal : forall u ct w, can_happen u ct w -> w_ub w = true -> exists e, removed_since (w_log w) e.
Proof.
  intros u ct w H. enough (cb_fine w) as (_ & X) by exact X. induction H as [|w1 a H IH K U A|w1 w2 H IH St].
  - split; [intros e []|intros X; discriminate X].
  - destruct IH as (D & UB). split; [intros e [X|[]]; discriminate X|exact UB].
  - eapply cb_fine_step; eassumption.
Qed.

(** ** with exceptions too: never twice, and only while connected *)
Theorem notified_sub : forall u ct w, can_happen u ct w -> exists lost, Permutation (notified (w_log w) ++ undelivered (w_stack w) ++ lost) (events_of (calls (w_log w))).
Proof.
  intros u ct w H. induction H as [|w1 a H IH K U A|w1 w2 H IH St].
  - exists []. constructor.
  - destruct IH as (lost & P). exists lost. rewrite K in P. exact P.
  - destruct IH as (lost & P0).
    assert (Pl : forall x, match x with Called _ _ _ | Notified _ _ => False | _ => True end -> forall rest', undelivered rest' = undelivered (w_stack w1) -> exists lost, Permutation (notified (w_log w1 ++ [x]) ++ undelivered rest' ++ lost) (events_of (calls (w_log w1 ++ [x])))).
    { intros x Hx rest' Er. exists lost. rewrite notified_app, calls_app, Er. destruct x; try contradiction; cbn [notified calls flat_map]; rewrite !app_nil_r; exact P0. }
    rename St into P. stepinv P.
    + destruct (req_step (w_buf w1) o) as [[b' a] evs] eqn:E. injection P as <-. cbn [w_log w_stack] in *. change (undelivered (Act (Call o) :: rest)) with (undelivered rest) in P0.
      rewrite events_snoc, notified_app. cbn [notified flat_map]. rewrite app_nil_r. destruct (thrown a); [|destruct (accepted o a) eqn:A].
      * exists ((undelivered rest ++ lost) ++ evs). rewrite <- P0. cbn [undelivered flat_map app]. rewrite !app_assoc. reflexivity.
      * exists lost. rewrite undelivered_app, undelivered_evs. change (undelivered (Signal :: rest)) with (undelivered rest). rewrite <- P0. rewrite <- !app_assoc. apply Permutation_app_head. rewrite (app_assoc (undelivered rest)). apply Permutation_app_comm.
      * exists lost. rewrite (proj1 (call_cbs _ _ _ _ _ E) A), app_nil_r. exact P0.
    + injection P as <-. cbn [w_log w_stack] in *. apply Pl; [exact I|reflexivity].
    + injection P as <-. cbn [w_log w_stack] in *. apply Pl; [exact I|reflexivity].
    + injection P as <-. cbn [w_log w_stack] in *. exists (undelivered rest ++ lost). rewrite notified_app, calls_app. cbn [notified calls flat_map]. rewrite !app_nil_r. exact P0.
    + destruct (registered _ _); injection P as <-; cbn [w_log w_stack] in *; change (undelivered (Deliver e :: rest)) with (e :: undelivered rest) in P0.
      * exists lost. rewrite notified_app, calls_app, undelivered_app, undelivered_acts. cbn [notified calls flat_map app]. rewrite app_nil_r, <- app_assoc. exact P0.
      * exists (e :: lost). rewrite <- P0. apply Permutation_app_head. cbn [app]. symmetry. apply Permutation_middle.
    + injection P as <-. cbn [w_log w_stack] in *. apply Pl; [exact I|rewrite undelivered_app, undelivered_tells; reflexivity].
    + destruct (existsb _ _); injection P as <-; cbn [w_log w_stack] in *.
      * apply Pl; [exact I|rewrite undelivered_app, undelivered_acts; reflexivity].
      * exists lost. exact P0.
Qed.
Lemma waiting_tells_le : forall i ls, NoDup ls -> (waiting i (map Tell ls) <= 1)%nat.
Proof.
  intros i ls N. destruct (in_dec Nat.eq_dec i ls) as [H|H]; [rewrite waiting_tells by assumption; lia|].
  enough (E : waiting i (map Tell ls) = 0%nat) by lia. clear N. induction ls as [|y ls IH]; [reflexivity|]. unfold waiting in *. cbn [map filter]. destruct (Nat.eqb_spec y i) as [->|]; [exfalso; apply H; left; reflexivity|]. apply IH. intros C. apply H. right. exact C.
Qed.
Theorem told_at_most : forall u ct w i, can_happen u ct w -> (times_told i (w_log w) + waiting i (w_stack w) <= times_accepted (w_log w))%nat.
Proof.
  intros u ct w i H. induction H as [|w1 a H IH K U A|w1 w2 H IH St].
  - cbn. lia.
  - cbn [begin w_log w_stack]. rewrite K in IH. exact IH.
  - pose proof (fresh_happen u ct w1 H) as (F & _). rename St into P. stepinv P.
    + destruct (req_step (w_buf w1) o) as [[b' a] evs]. injection P as <-. cbn [w_stack w_log] in *. change (waiting i (Act (Call o) :: rest)) with (waiting i rest) in IH. rewrite told_app, acc_app. change (times_told i [Called o a evs]) with 0%nat.
      unfold times_accepted at 2. cbn [filter]. change (took o a) with (accepted o a). destruct (thrown a); [change (waiting i []) with 0%nat; lia|]. destruct (accepted o a); cbn [List.length]; [|lia].
      rewrite waiting_app, waiting_delivers. change (waiting i (Signal :: rest)) with (Datatypes.S (waiting i rest)). lia.
    + injection P as <-. cbn [w_stack w_log] in *. rewrite told_app, acc_app. change (waiting i (Act Listen :: rest)) with (waiting i rest) in IH. cbn. lia.
    + injection P as <-. cbn [w_stack w_log] in *. rewrite told_app, acc_app. change (waiting i (Act (Unlisten k) :: rest)) with (waiting i rest) in IH. cbn. lia.
    + injection P as <-. cbn [w_stack w_log] in *. rewrite told_app, acc_app. change (waiting i (@nil todo)) with 0%nat. cbn. lia.
    + destruct (registered _ _); injection P as <-; cbn [w_stack w_log] in *; change (waiting i (Deliver e :: rest)) with (waiting i rest) in IH; [|lia].
      rewrite told_app, acc_app, waiting_app, waiting_acts. cbn. lia.
    + injection P as <-. cbn [w_stack w_log] in *. rewrite told_app, acc_app, waiting_app. pose proof (waiting_tells_le i _ F). change (waiting i (Signal :: rest)) with (Datatypes.S (waiting i rest)) in IH. cbn. lia.
    + destruct (existsb _ _); injection P as <-; cbn [w_stack w_log] in *; unfold waiting in IH at 1; cbn [filter] in IH.
      * rewrite told_app, acc_app, waiting_app, waiting_acts. unfold times_told at 2. cbn [filter]. unfold waiting. destruct (Nat.eqb k i); cbn [List.length] in *; cbn; lia.
      * unfold waiting. destruct (Nat.eqb k i); cbn [List.length] in *; lia.
Qed.
Lemma connected_more : forall l x i, connected l i -> ~ In (Unlistened i) x -> connected (l ++ x) i.
Proof. intros l x i (l1 & l2 & -> & N) Nx. exists l1, (l2 ++ x). rewrite <- app_assoc. split; [reflexivity|]. intros C. apply in_app_iff in C as [C|C]; auto. Qed.
Theorem told_while_connected : forall u ct w, can_happen u ct w ->
  (forall i, In i (w_listeners w) -> connected (w_log w) i) /\ forall l1 i l2, w_log w = l1 ++ Changed i :: l2 -> connected l1 i.
Proof.
  intros u ct w H. induction H as [|w1 a H IH K U A|w1 w2 H (IH & IC) St].
  - split; [intros i []|intros l1 i l2 E; destruct l1; discriminate E].
  - exact IH.
  - assert (Ap : forall x, (forall i, x <> Changed i) -> forall l1 i l2, w_log w1 ++ [x] = l1 ++ Changed i :: l2 -> connected l1 i).
    { intros x Nx l1 i l2 E. destruct l2 as [|y l2] using rev_ind; [apply app_inj_tail in E as (_ & E); exfalso; exact (Nx i E)|]. rewrite app_comm_cons, app_assoc in E. apply app_inj_tail in E as (E & _). exact (IC l1 i l2 E). }
    assert (Li : forall x, (forall i, x <> Unlistened i) -> forall i, In i (w_listeners w1) -> connected (w_log w1 ++ [x]) i).
    { intros x Nx i Hi. apply connected_more; [apply IH, Hi|]. intros [C|[]]. exact (Nx i C). }
    rename St into P. stepinv P.
    + destruct (req_step (w_buf w1) o) as [[b' a] evs]. injection P as <-. cbn [w_log w_listeners]. split; [apply Li; discriminate|apply Ap; discriminate].
    + injection P as <-. cbn [w_log w_listeners]. split; [|apply Ap; discriminate]. intros i Hi. apply in_app_iff in Hi as [Hi|[<-|[]]]; [apply Li; [discriminate|exact Hi]|].
      exists (w_log w1), []. split; [reflexivity|intros []].
    + injection P as <-. cbn [w_log w_listeners]. split; [|apply Ap; discriminate]. intros i Hi. apply filter_In in Hi as (Hi & Ni). apply connected_more; [apply IH, Hi|]. intros [C|[]]. injection C as ->. rewrite Nat.eqb_refl in Ni. discriminate Ni.
    + injection P as <-. cbn [w_log w_listeners]. split; [apply Li; discriminate|apply Ap; discriminate].
    + destruct (registered _ _); injection P as <-; cbn [w_log w_listeners]; [split; [apply Li; discriminate|apply Ap; discriminate]|split; assumption].
    + injection P as <-. cbn [w_log w_listeners]. split; [apply Li; discriminate|apply Ap; discriminate].
    + destruct (existsb _ _) eqn:Ek; injection P as <-; cbn [w_log w_listeners]; [|split; assumption]. split; [apply Li; discriminate|].
      intros l1 i l2 E. destruct l2 as [|y l2] using rev_ind.
      * apply app_inj_tail in E as (<- & E). injection E as <-. apply existsb_exists in Ek as (j & Hj & E). apply Nat.eqb_eq in E. subst j. apply IH, Hj.
      * rewrite app_comm_cons, app_assoc in E. apply app_inj_tail in E as (E & _). exact (IC l1 i l2 E).
Qed.

Lemma connected_less : forall l x i, connected (l ++ [x]) i -> x = Listened i \/ (connected l i /\ x <> Unlistened i).
Proof.
  intros l x i (l1 & l2 & E & N). destruct l2 as [|y l2] using rev_ind.
  - apply app_inj_tail in E as (_ & E). left. exact E.
  - right. rewrite app_comm_cons, app_assoc in E. apply app_inj_tail in E as (E & <-). split; [exists l1, l2; split; [exact E|intros C; apply N, in_app_iff; left; exact C]|].
    intros ->. apply N, in_app_iff. right. left. reflexivity.
Qed.
Theorem connected_listener : forall u ct w i, can_happen u ct w -> connected (w_log w) i -> In i (w_listeners w).
Proof.
  intros u ct w i H. induction H as [|w1 a H IH K U A|w1 w2 H IH St].
  - intros (l1 & l2 & E & _). destruct l1; discriminate E.
  - exact IH.
  - assert (Li : forall x, (forall i, x <> Listened i) -> connected (w_log w1 ++ [x]) i -> In i (w_listeners w1)).
    { intros x Nx C. apply connected_less in C as [->|(C & _)]; [exfalso; exact (Nx i eq_refl)|apply IH, C]. }
    rename St into P. stepinv P.
    + destruct (req_step (w_buf w1) o) as [[b' a] evs]. injection P as <-. cbn [w_log w_listeners]. apply Li. discriminate.
    + injection P as <-. cbn [w_log w_listeners]. intros C. apply in_app_iff. apply connected_less in C as [E|(C & _)]; [injection E as ->; right; left; reflexivity|left; apply IH, C].
    + injection P as <-. cbn [w_log w_listeners]. intros C. apply connected_less in C as [E|(C & N)]; [discriminate E|]. apply filter_In. split; [apply IH, C|]. apply negb_true_iff, Nat.eqb_neq. intros ->. apply N. reflexivity.
    + injection P as <-. cbn [w_log w_listeners]. apply Li. discriminate.
    + destruct (registered _ _); injection P as <-; cbn [w_log w_listeners]; [apply Li; discriminate|exact IH].
    + injection P as <-. cbn [w_log w_listeners]. apply Li. discriminate.
    + destruct (existsb _ _) eqn:Ek; injection P as <-; cbn [w_log w_listeners]; [apply Li; discriminate|exact IH].
Qed.

(** ** nobody removes callbacks while notifications are owed *)
Definition removes (a : act) : Prop := exists cb, a = Call (RRemoveCallback cb).
Definition safe w : Prop := w_ub w = false /\
  ((forall e, In (Deliver e) (w_stack w) -> registered (b_cbs (w_buf w)) (ev_cb e) = true) /\ (forall a, In (Act a) (w_stack w) -> ~ removes a) \/ exists cb, w_stack w = [Act (Call (RRemoveCallback cb))]).
Lemma safe_step : forall u w w', (forall l x a, In a (u l x) -> ~ removes a) -> safe w -> step u w = Some w' -> safe w'.
Proof.
  intros u w w' Pu (_ & Sf) H. unfold safe.
  assert (Pl : forall st, (forall e, In (Deliver e) st -> In (Deliver e) (w_stack w)) -> (forall a, In (Act a) st -> In (Act a) (w_stack w) \/ ~ removes a) ->
    (exists x rest, w_stack w = x :: rest /\ (forall cb, x <> Act (Call (RRemoveCallback cb)))) ->
    (forall e, In (Deliver e) st -> registered (b_cbs (w_buf w)) (ev_cb e) = true) /\ (forall a, In (Act a) st -> ~ removes a) \/ exists cb, st = [Act (Call (RRemoveCallback cb))]).
  { intros st Sd Sa (x & rest & E & Nx). destruct Sf as [(D & A)|(cb & E')]; [|exfalso; rewrite E' in E; injection E as E _; exact (Nx cb (eq_sym E))]. left. split; [intros e He; apply D, Sd, He|]. intros a Ha. destruct (Sa a Ha) as [Ha'|Ha']; [apply A, Ha'|exact Ha']. }
  assert (Ac : forall l x rest, forall a, In (Act a) (map Act (u l x) ++ rest) -> In a (u l x) \/ In (Act a) rest).
  { intros l x rest a Ha. apply in_app_iff in Ha as [Ha|Ha]; [|right; exact Ha]. apply in_map_iff in Ha as (b & E & Hb). injection E as ->. left. exact Hb. }
  assert (De : forall l x rest e, In (Deliver e) (map Act (u l x) ++ rest) -> In (Deliver e) rest).
  { intros l x rest e Ha. apply in_app_iff in Ha as [Ha|Ha]; [|exact Ha]. apply in_map_iff in Ha as (b & E & Hb). discriminate E. }
  stepinv H.
  - destruct (req_step (w_buf w) o) as [[b' a] evs] eqn:E. injection H as <-. cbn [w_ub w_stack w_buf]. split; [reflexivity|]. destruct (call_cbs _ _ _ _ _ E) as (_ & C1 & C2). left.
    destruct Sf as [(D & A)|(cb & E')].
    + assert (No : forall h, o <> RRemoveCallback h) by (intros h ->; apply (A (Call (RRemoveCallback h)) (or_introl eq_refl)); exists h; reflexivity).
      assert (D' : forall e, In (Deliver e) rest -> registered (b_cbs b') (ev_cb e) = true) by (intros e He; destruct (C2 _ (D e (or_intror He))) as [X|X]; [exact X|exfalso; exact (No _ X)]).
      destruct (thrown a); [split; [intros e []|intros x []]|]. destruct (accepted o a); [|split; [exact D'|intros x Hx; apply A; right; exact Hx]]. split.
      * intros e He. apply in_app_iff in He as [He|[He|He]]; [|discriminate He|apply D', He]. apply in_map_iff in He as (e' & X & He). injection X as ->. rewrite Forall_forall in C1. apply C1, He.
      * intros x He. apply in_app_iff in He as [He|[He|He]]; [apply in_map_iff in He as (e' & X & _); discriminate X|discriminate He|apply A; right; exact He].
    + injection E' as -> ->. cbn [req_step] in E. injection E as <- <- <-. cbn [thrown accepted]. split; [intros e []|intros x []].
  - injection H as <-. cbn [w_ub w_stack w_buf]. split; [reflexivity|]. apply Pl; [intros e He; right; exact He|intros a Ha; left; right; exact Ha|exists (Act Listen), rest; split; [reflexivity|discriminate]].
  - injection H as <-. cbn [w_ub w_stack w_buf]. split; [reflexivity|]. apply Pl; [intros e He; right; exact He|intros a Ha; left; right; exact Ha|eexists _, rest; split; [reflexivity|discriminate]].
  - injection H as <-. cbn [w_ub w_stack w_buf]. split; [reflexivity|]. left. split; [intros e []|intros a []].
  - destruct (registered (b_cbs (w_buf w)) (ev_cb e)) eqn:R; injection H as <-; cbn [w_ub w_stack w_buf].
    + split; [reflexivity|]. apply Pl; [intros e' He; right; apply De in He; exact He|intros a Ha; apply Ac in Ha as [Ha|Ha]; [right; exact (Pu _ _ _ Ha)|left; right; exact Ha]|eexists _, rest; split; [reflexivity|discriminate]].
    + exfalso. destruct Sf as [(D & _)|(cb & E')]; [|discriminate E']. rewrite (D e (or_introl eq_refl)) in R. discriminate R.
  - injection H as <-. cbn [w_ub w_stack w_buf]. split; [reflexivity|].
    apply Pl; [intros e He|intros a He|eexists _, rest; split; [reflexivity|discriminate]]; (apply in_app_iff in He as [He|He]; [apply in_map_iff in He as (y & X & _); discriminate X|]); [right; exact He|left; right; exact He].
  - destruct (existsb _ _); injection H as <-; cbn [w_ub w_stack w_buf]; (split; [reflexivity|]).
    + apply Pl; [intros e' He; right; apply De in He; exact He|intros a Ha; apply Ac in Ha as [Ha|Ha]; [right; exact (Pu _ _ _ Ha)|left; right; exact Ha]|eexists _, rest; split; [reflexivity|discriminate]].
    + apply Pl; [intros e He; right; exact He|intros a Ha; left; right; exact Ha|eexists _, rest; split; [reflexivity|discriminate]].
Qed.
Theorem safe_happen : forall u ct w, (forall l x a, In a (u l x) -> ~ removes a) -> can_happen u ct w -> safe w.
Proof.
  intros u ct w Pu H. induction H as [|w1 a H IH K U A|w1 w2 H IH St].
  - split; [reflexivity|]. left. split; [intros e []|intros a []].
  - split; [exact U|]. cbn [begin w_stack w_buf].
    assert (Q : removes a \/ ~ removes a). { destruct a as [o| | |]; try (right; intros (cc0 & X); discriminate X). destruct o; try (right; intros (hh0 & X); discriminate X). left. eexists. reflexivity. }
    destruct Q as [(cb & ->)|Q]; [right; exists cb; reflexivity|]. left. split; [intros e [X|[]]; discriminate X|intros x [X|[]]; injection X as <-; exact Q].
  - eapply safe_step; eassumption.
Qed.
End P.
