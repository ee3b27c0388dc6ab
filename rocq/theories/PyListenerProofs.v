(** * Proofs about the Python listener *)
From Coq Require Import ZArith Bool List String Lia.
From Verif Require Import RosTime Scalar LinearMath Cache BufferCore SpecCore CoreInv CoreSet History CoreTheorems TopicProofs SpecTopics PyTime PyTimeProofs PyCore SpecPy PyCoreProofs
  PyListener SpecPyTopics.
Import ListNotations.
Open Scope Z_scope.

Section P.
Context {S : Scalar}.
Notation py_op := (@py_op S).

Lemma acts_app : forall (h1 h2 : list (action S)) l, acts l (h1 ++ h2) = match acts l h1 with Some l' => acts l' h2 | None => None end.
Proof. induction h1 as [|a h1 IH]; intros h2 l; [reflexivity|]. cbn [app acts]. destruct (act l a); [apply IH|reflexivity]. Qed.
Lemma acts_snoc : forall (h : list (action S)) a l, acts l (h ++ [a]) = match acts l h with Some l' => act l' a | None => None end.
Proof. intros h a l. rewrite acts_app. destruct (acts l h) as [l'|]; [|reflexivity]. cbn [acts]. destruct (act l' a); reflexivity. Qed.
Lemma delivered_app : forall h1 h2 : list (action S), delivered (h1 ++ h2) = delivered h1 ++ delivered h2.
Proof. induction h1 as [|[who st ms|k now|k] h1 IH]; intros h2; cbn [app delivered]; rewrite ?IH; reflexivity. Qed.
Lemma readings_app : forall h1 h2 : list (action S), readings (h1 ++ h2) = readings h1 ++ readings h2.
Proof. induction h1 as [|[who st ms|k now|k] h1 IH]; intros h2; cbn [app readings]; rewrite ?IH; reflexivity. Qed.
Lemma backward_snoc : forall l last t, backward_steps last (l ++ [t]) = (backward_steps last l + (if (t <? List.last l last)%Z then 1 else 0))%nat.
Proof.
  induction l as [|a l IH]; intros last t; [cbn; lia|]. cbn [app backward_steps]. rewrite IH.
  replace (List.last (a :: l) last) with (List.last l a); [lia|]. destruct l as [|b l]; [reflexivity|]. cbn [List.last]. clear IH. revert b. induction l as [|c l IHl]; intros b; [reflexivity|]. apply (IHl c).
Qed.
Lemma last_snoc : forall (l : list time) d t, List.last (l ++ [t]) d = t.
Proof. intros. apply last_last. Qed.
Lemma py_run_app : forall (a b : list py_op) s, py_run s (a ++ b) = match py_run s a with Some s' => py_run s' b | None => None end.
Proof. induction a as [|o a IH]; intros b s; [reflexivity|]. cbn [app py_run]. destruct (py_step s o) as [s' [ | | | | ]]; try reflexivity. apply IH. Qed.
Lemma calls_app : forall k (a b : list (option nat * py_op)), calls_of k (a ++ b) = calls_of k a ++ calls_of k b.
Proof. intros. unfold calls_of. rewrite filter_app, map_app. reflexivity. Qed.
Lemma resets_app : forall (a b : list (option nat * py_op)), resets (a ++ b) = resets a ++ resets b.
Proof. intros. unfold resets. rewrite filter_app, map_app. reflexivity. Qed.

Lemma update_length : forall A (l : list A) k a, List.length (update l k a) = List.length l.
Proof. induction l as [|x l IH]; intros [|k] a; cbn; auto. Qed.
Lemma update_same : forall A (l : list A) k a x, nth_error l k = Some x -> nth_error (update l k a) k = Some a.
Proof. induction l as [|y l IH]; intros [|k] a x H; cbn in *; try discriminate; [reflexivity|eauto]. Qed.
Lemma update_other : forall A (l : list A) k j a, j <> k -> nth_error (update l k a) j = nth_error l j.
Proof. induction l as [|y l IH]; intros [|k] [|j] a H; cbn in *; try reflexivity; try lia. apply IH. lia. Qed.

Definition left_of (r : running S) : list py_op := map (due (r_who r) (r_static r)) (r_todo r).
Definition progress (c0 : core S) (now0 : time) (h : list (action S)) (l : plistener S) (log : list (option nat * py_op)) : Prop :=
  py_run c0 (map snd log) = Some (pl_core l) /\
  List.length (pl_running l) = List.length (delivered h) /\
  (forall k r, nth_error (pl_running l) k = Some r -> nth_error (delivered h) k = Some (calls_of k log ++ left_of r) /\ (r_checked r = false -> calls_of k log = [])) /\
  (forall e, In e log -> match fst e with Some k => (k < List.length (delivered h))%nat | None => snd e = PClear end) /\
  List.length (resets log) = backward_steps now0 (readings h) /\
  pl_last l = List.last (readings h) now0.

Lemma calls_none : forall k (log : list (option nat * py_op)) n, (forall e, In e log -> match fst e with Some j => (j < n)%nat | None => snd e = PClear end) -> (n <= k)%nat -> calls_of k log = [].
Proof.
  intros k log n H L. unfold calls_of. replace (filter _ log) with (@nil (option nat * py_op)); [reflexivity|]. symmetry.
  induction log as [|e log IH]; [reflexivity|]. cbn [filter]. assert (He := H e (or_introl eq_refl)). rewrite IH by (intros; apply H; right; assumption).
  destruct e as [[j|] o]; cbn [fst] in *; [|reflexivity]. destruct (Nat.eqb_spec j k); [lia|reflexivity].
Qed.

Lemma progress_ok : forall c0 now0 h l, acts (new_listener c0 now0) h = Some l -> exists log, progress c0 now0 h l log.
Proof.
  intros c0 now0 h. induction h as [|a h IH] using rev_ind; intros l H.
  - injection H as <-. exists []. unfold progress, new_listener. cbn. split; [reflexivity|]. split; [reflexivity|]. split; [intros [|k] r E; discriminate|]. split; [intros e []|]. auto.
  - rewrite acts_snoc in H. destruct (acts (new_listener c0 now0) h) as [l1|]; [|discriminate]. destruct (IH l1 eq_refl) as (log & P1 & P2 & P3 & P4 & P5 & P6). clear IH.
    destruct a as [who st ms|k now|k]; cbn [act] in H.
    + injection H as <-. exists log. unfold progress. cbn [pl_core pl_running pl_last]. rewrite delivered_app, readings_app. cbn [delivered readings]. rewrite app_nil_r.
      split; [exact P1|]. split; [rewrite !app_length, P2; reflexivity|]. split; [|split; [|auto]].
      * intros k r E. destruct (Nat.lt_ge_cases k (List.length (pl_running l1))) as [L|L].
        -- rewrite nth_error_app1 in E by exact L. rewrite nth_error_app1 by lia. apply P3. exact E.
        -- rewrite nth_error_app2 in E by exact L. destruct (k - List.length (pl_running l1))%nat as [|j] eqn:D; cbn in E; [|destruct j; discriminate].
           injection E as <-. assert (k = List.length (delivered h)) by lia. subst k. rewrite nth_error_app2, Nat.sub_diag by lia. cbn [nth_error].
           rewrite (calls_none _ log _ P4 (le_n _)). split; reflexivity.
      * intros e He. specialize (P4 e He). rewrite app_length. destruct (fst e); [cbn; lia|exact P4].
    + destruct (nth_error (pl_running l1) k) as [[who st ck ms]|] eqn:E; [|discriminate]. destruct ck; [discriminate|]. injection H as <-.
      exists (log ++ if now <? pl_last l1 then [(None, PClear)] else []). unfold progress. cbn [pl_core pl_running pl_last]. rewrite delivered_app, readings_app. cbn [delivered readings]. rewrite app_nil_r.
      assert (Ec : forall j, calls_of j (log ++ if now <? pl_last l1 then [(None, PClear)] else []) = calls_of j log)
        by (intros j; rewrite calls_app; destruct (now <? pl_last l1); cbn; apply app_nil_r).
      split; [|split; [|split; [|split; [|split]]]].
      * rewrite map_app, py_run_app, P1. destruct (now <? pl_last l1); reflexivity.
      * rewrite update_length. exact P2.
      * intros j r Ej. rewrite Ec. destruct (Nat.eq_dec j k) as [->|Nj].
        -- rewrite (update_same _ _ _ _ _ E) in Ej. injection Ej as <-. destruct (P3 k _ E) as [Q1 Q2]. split; [exact Q1|discriminate].
        -- rewrite update_other in Ej by exact Nj. apply P3. exact Ej.
      * intros e He. apply in_app_or in He as [He|He]; [exact (P4 e He)|]. destruct (now <? pl_last l1); [|destruct He]. destruct He as [<-|[]]. reflexivity.
      * rewrite resets_app, app_length, P5, backward_snoc, <- P6. destruct (now <? pl_last l1); reflexivity.
      * rewrite last_snoc. reflexivity.
    + destruct (nth_error (pl_running l1) k) as [[who st ck ms]|] eqn:E; [|discriminate]. destruct ck; [|discriminate]. destruct ms as [|m ms]; [discriminate|].
      destruct (py_set st (pl_core l1) m who) as [c [u| | | | ]] eqn:E1; try discriminate. injection H as <-.
      exists (log ++ [(Some k, due who st m)]). unfold progress. cbn [pl_core pl_running pl_last]. rewrite delivered_app, readings_app. cbn [delivered readings]. rewrite !app_nil_r.
      split; [|split; [|split; [|split; [|split]]]].
      * rewrite map_app, py_run_app, P1. cbn [map snd py_run]. unfold due. destruct st; cbn [py_step]; rewrite E1; reflexivity.
      * rewrite update_length. exact P2.
      * intros j r Ej. rewrite calls_app. destruct (Nat.eq_dec j k) as [->|Nj].
        -- rewrite (update_same _ _ _ _ _ E) in Ej. injection Ej as <-. destruct (P3 k _ E) as [Q1 Q2]. split; [|discriminate]. rewrite Q1. unfold left_of, calls_of. cbn [r_who r_static r_todo map filter fst snd]. rewrite Nat.eqb_refl. cbn [map snd].
           rewrite <- app_assoc. reflexivity.
        -- rewrite update_other in Ej by exact Nj. replace (calls_of j [(Some k, due who st m)]) with (@nil py_op); [rewrite app_nil_r; apply P3; exact Ej|].
           unfold calls_of. cbn [filter fst]. destruct (Nat.eqb_spec k j); [lia|reflexivity].
      * intros e He. apply in_app_or in He as [He|He]; [exact (P4 e He)|]. destruct He as [<-|[]]. cbn [fst]. rewrite <- P2. apply nth_error_Some. congruence.
      * rewrite resets_app, app_length, P5. cbn. lia.
      * exact P6.
Qed.

Lemma resets_clears : forall log : list (option nat * py_op), (forall e, In e log -> fst e = None -> snd e = PClear) -> resets log = repeat PClear (List.length (resets log)).
Proof.
  intros log H. unfold resets in *. induction log as [|e log IH]; [reflexivity|]. assert (He := H e (or_introl eq_refl)). cbn [filter] in *.
  destruct (fst e) as [k|]; [apply IH; intros; apply H; [right|]; assumption|]. cbn [map List.length repeat]. rewrite (He eq_refl). f_equal. apply IH. intros; apply H; [right|]; assumption.
Qed.

(** ** the actions a callback still has to make are always possible *)
Definition todo_soon (l : plistener S) : Prop := Forall (fun r => Forall (fun m => 0 <= tm_stamp m < year_2038) (r_todo r)) (pl_running l).
Lemma update_forall : forall A (P : A -> Prop) l k a, Forall P l -> P a -> Forall P (update l k a).
Proof. induction l as [|x l IH]; intros [|k] a H Ha; cbn; [constructor|constructor|inversion H; subst; constructor; auto|]. inversion H; subst. constructor; [assumption|]. apply IH; assumption. Qed.
Lemma nth_forall : forall A (P : A -> Prop) l k a, Forall P l -> nth_error l k = Some a -> P a.
Proof. intros A P l k a H E. apply nth_error_In in E. revert H E. rewrite Forall_forall. auto. Qed.
Lemma act_soon : forall l a l', act l a = Some l' -> soon_messages [a] -> todo_soon l -> todo_soon l'.
Proof.
  intros l a l' H B T. unfold todo_soon in *. destruct a as [who st ms|k now|k]; cbn [act] in H.
  - injection H as <-. cbn [pl_running]. apply Forall_app. split; [exact T|]. constructor; [|constructor]. inversion B. subst. assumption.
  - destruct (nth_error (pl_running l) k) as [[who st ck ms]|] eqn:E; [|discriminate]. destruct ck; [discriminate|]. injection H as <-. cbn [pl_running].
    apply update_forall; [exact T|]. exact (nth_forall _ _ _ _ _ T E).
  - destruct (nth_error (pl_running l) k) as [[who st ck ms]|] eqn:E; [|discriminate]. destruct ck; [|discriminate]. destruct ms as [|m ms]; [discriminate|].
    destruct (py_set st (pl_core l) m who) as [c [u| | | | ]] eqn:E1; try discriminate. injection H as <-. cbn [pl_running]. apply update_forall; [exact T|].
    pose proof (nth_forall _ _ _ _ _ T E) as X. cbn [r_todo] in *. inversion X; subst; assumption.
Qed.
Lemma acts_soon : forall h l l', acts l h = Some l' -> soon_messages h -> todo_soon l -> todo_soon l'.
Proof.
  induction h as [|a h IH]; intros l l' H B T; cbn [acts] in H; [injection H as <-; exact T|]. destruct (act l a) as [l1|] eqn:E; [|discriminate].
  inversion B; subst. apply (IH l1); [exact H|assumption|]. apply (act_soon l a); auto. constructor; [assumption|constructor].
Qed.

Lemma delivered_soon : forall h : list (action S), soon_messages h -> Forall (stamps_below year_2038) (delivered h).
Proof.
  induction h as [|[who st ms|k now|k] h IH]; intros B; inversion B; subst; cbn [delivered]; auto. constructor; [|auto].
  unfold stamps_below. apply Forall_map. revert H1. apply Forall_impl. intros m Hm. unfold due. destruct st; exact Hm.
Qed.
Lemma log_soon : forall c0 now0 h l log, soon_messages h -> progress c0 now0 h l log -> stamps_below year_2038 (map snd log).
Proof.
  intros c0 now0 h l log B (P1 & P2 & P3 & P4 & _). unfold stamps_below. apply Forall_map. apply Forall_forall. intros [[k|] o] He.
  - specialize (P4 _ He). cbn [fst snd] in *. destruct (nth_error (pl_running l) k) as [r|] eqn:E; [|apply nth_error_None in E; lia].
    destruct (P3 k r E) as [Q _]. pose proof (nth_forall _ _ _ _ _ (delivered_soon h B) Q) as X. apply Forall_app in X as [X _].
    rewrite Forall_forall in X. apply X. unfold calls_of. apply in_map_iff. exists (Some k, o). split; [reflexivity|]. apply filter_In. split; [exact He|]. cbn. apply Nat.eqb_refl.
  - specialize (P4 _ He). cbn [fst snd] in *. subst o. exact I.
Qed.
Lemma listener_buffer : forall (c0 : core S) now0 h l, py_buffer year_2038 c0 -> soon_messages h -> acts (new_listener c0 now0) h = Some l -> py_buffer year_2038 (pl_core l).
Proof.
  intros c0 now0 h l (ct & ops & C & B & R) M H. destruct (progress_ok c0 now0 h l H) as [log P]. pose proof (log_soon _ _ _ _ _ M P) as B'.
  destruct P as (P1 & _). exists ct, (ops ++ map snd log). split; [exact C|]. split; [apply Forall_app; auto|]. rewrite py_run_app, R. exact P1.
Qed.
Lemma can_go_on : forall (c0 : core S) now0 h l k r, py_buffer year_2038 c0 -> soon_messages h -> acts (new_listener c0 now0) h = Some l -> nth_error (pl_running l) k = Some r ->
  (r_checked r = false -> forall now, exists l', act l (Check k now) = Some l') /\
  (r_checked r = true -> r_todo r <> [] -> exists l', act l (SetNext k) = Some l').
Proof.
  intros c0 now0 h l k [who st ck ms] B M H E. cbn [act r_checked r_todo]. rewrite E. split.
  - intros -> now. eexists. reflexivity.
  - intros -> Ne. destruct ms as [|m ms]; [contradiction|].
    assert (W : wf (pl_core l)) by (apply reachable_wf; apply (buffer_soon (pl_core l)); exact (listener_buffer c0 now0 h l B M H)).
    assert (T : todo_soon l) by (apply (acts_soon h (new_listener c0 now0)); [exact H|exact M|constructor]).
    pose proof (nth_forall _ _ _ _ _ T E) as X. cbn [r_todo] in X. inversion X; subst.
    destruct (run_survives [due who st m] (pl_core l) W) as [s' R]. { constructor; [|constructor]. unfold due. destruct st; assumption. }
    cbn [py_run] in R. unfold due in R. destruct st; cbn [py_step] in R; destruct (py_set _ (pl_core l) m who) as [c [u| | | | ]]; try discriminate; eexists; reflexivity.
Qed.

(** ** one message after the other *)
Lemma nth_snoc : forall A (l : list A) a, nth_error (l ++ [a]) (List.length l) = Some a.
Proof. intros. rewrite nth_error_app2, Nat.sub_diag by lia. reflexivity. Qed.
Lemma update_snoc : forall A (l : list A) a b, update (l ++ [a]) (List.length l) b = l ++ [b].
Proof. induction l as [|x l IH]; intros a b; cbn; [reflexivity|]. rewrite IH. reflexivity. Qed.
Lemma sets_alone : forall who st ms (c : core S) last rs c', py_run c (map (due who st) ms) = Some c' ->
  acts (mkPlistener c last (rs ++ [mkRunning who st true ms])) (repeat (SetNext (List.length rs)) (List.length ms)) =
    Some (mkPlistener c' last (rs ++ [mkRunning who st true []])).
Proof.
  intros who st. induction ms as [|m ms IH]; intros c last rs c' H; [cbn [map py_run] in H; injection H as <-; reflexivity|].
  cbn [map py_run] in H. cbn [List.length repeat acts act pl_running]. rewrite nth_snoc. cbn [pl_core pl_last].
  unfold due in H at 1. destruct st; cbn [py_step] in H; destruct (py_set _ c m who) as [c1 [u| | | | ]]; try discriminate; rewrite update_snoc; apply IH; exact H.
Qed.
Lemma sequential : forall h (c0 : core S) now0 rs c', py_run c0 (py_calls now0 h) = Some c' ->
  exists l, acts (mkPlistener c0 now0 rs) (one_by_one (List.length rs) h) = Some l /\ pl_core l = c' /\ pl_last l = last_clock now0 h.
Proof.
  induction h as [|a h IH]; intros c0 now0 rs c' H; [cbn [py_calls py_run] in H; injection H as <-; eexists; split; [reflexivity|auto]|].
  cbn [py_calls] in H. rewrite py_run_app in H. cbn [one_by_one]. rewrite acts_app. unfold one_by_one_at. cbn [acts act pl_core pl_last pl_running]. rewrite nth_snoc, update_snoc.
  assert (E : py_run c0 (if a_now a <? now0 then [PClear] else []) = Some (if a_now a <? now0 then clear c0 else c0)) by (destruct (a_now a <? now0); reflexivity).
  rewrite E, py_run_app in H. destruct (py_run (if a_now a <? now0 then clear c0 else c0) (map (due (a_who a) (a_static a)) (a_msg a))) as [c1|] eqn:E1; [|discriminate].
  rewrite (sets_alone _ _ _ _ _ _ _ E1). destruct (IH c1 (a_now a) (rs ++ [mkRunning (a_who a) (a_static a) true []]) c' H) as (l & R1 & R2 & R3).
  rewrite app_length in R1. exists l. auto.
Qed.

(** ** after a jump *)
Lemma fold_forget : forall (Q : storage S string -> Prop) ct n (ops : list (core_op S)),
  (forall m a st, In (OSet m a st) ops -> stripSlash (tm_child m) = n -> Q (sample_of (strip_msg m))) ->
  forall h, match h with Some (Dynamic _ l) => Forall Q l | _ => True end ->
  match fold_left (frame_step ct n) ops h with Some (Dynamic _ l) => Forall Q l | _ => True end.
Proof.
  intros Q ct n. induction ops as [|o ops IH]; intros HQ h Hh; [exact Hh|]. cbn [fold_left]. apply IH; [intros; eapply HQ; [right|]; eassumption|].
  destruct o as [m a st|]; cbn [frame_step].
  - destruct (bad_message (strip_msg m)); [exact Hh|]. change (tm_child (strip_msg m)) with (stripSlash (tm_child m)).
    destruct (String.eqb_spec (stripSlash (tm_child m)) n) as [E|E]; [|exact Hh]. pose proof (HQ m a st (or_introl eq_refl) E) as Qm.
    assert (K : forall c, match c with Dynamic _ l => Forall Q l | _ => True end -> match fst (insertData c (sample_of (strip_msg m))) with Dynamic _ l => Forall Q l | _ => True end).
    { intros c Hc. pose proof (@insert_sub S string c (sample_of (strip_msg m))) as I. destruct (fst (insertData c (sample_of (strip_msg m)))) as [mx l|o] eqn:Ei; [|exact Logic.I].
      apply Forall_forall. intros z Hz. destruct (I z Hz) as [->|Hz']; [exact Qm|]. destruct c as [mx0 l0|o]; [rewrite Forall_forall in Hc; auto|]. cbn in Ei. discriminate. }
    destruct h as [c|]; [apply K; exact Hh|]. destruct st; apply K; [exact Logic.I|constructor].
  - destruct h as [[mx l|o]|]; cbn [option_map clearList]; try exact Logic.I. constructor.
Qed.
Lemma run_after_clear : forall (s : core S) ops n mx kept x, wf s -> Forall op_ok ops -> hist (run (clear s) ops) n = Some (Dynamic mx kept) -> In x kept ->
  exists m a st, In (OSet m a st) ops /\ stripSlash (tm_child m) = n /\ x = sample_of (strip_msg m).
Proof.
  intros s ops n mx kept x W F H Hx. assert (Wc : wf (clear s)) by (apply wf_clear; exact W).
  destruct (string_dec n NO_PARENT) as [->|Hn].
  { rewrite hist_NO_PARENT in H; [discriminate|]. apply wf_run; assumption. }
  rewrite hist_run_from in H by assumption. change (clear s) with (run s [OClear]) in H at 2. rewrite hist_run_from in H by (try assumption; repeat constructor).
  pose proof (fold_forget (fun z => exists m a st, In (OSet m a st) ops /\ stripSlash (tm_child m) = n /\ z = sample_of (strip_msg m)) (c_cache_time (clear s)) n ops) as G.
  specialize (G ltac:(intros m a st Hi Hc; exists m, a, st; auto) (fold_left (frame_step (c_cache_time s) n) [OClear] (hist s n))).
  rewrite H in G. assert (Z : Forall (fun z => exists m a st, In (OSet m a st) ops /\ stripSlash (tm_child m) = n /\ z = sample_of (strip_msg m)) kept); [|rewrite Forall_forall in Z; exact (Z x Hx)].
  apply G. cbn [fold_left frame_step]. destruct (hist s n) as [[mx0 l0|o]|]; cbn [option_map clearList]; try exact Logic.I. constructor.
Qed.
(** the same for Python calls *)
Lemma py_after_clear : forall (s s' : core S) ops n mx kept x, wf s -> stamps_below year_2038 ops -> py_run (clear s) ops = Some s' ->
  hist s' n = Some (Dynamic mx kept) -> In x kept ->
  exists m t a st, In (due a st m) ops /\ py_time (tm_stamp m) = Ok t /\ stripSlash (tm_child m) = n /\
    x = sample_of (strip_msg (mkTmsg t (tm_frame m) (tm_child m) (tm_trans m) (tm_rot m))).
Proof.
  intros s s' ops n mx kept x W B R H Hx. destruct (run_restamped year_2038 ops _ s' ltac:(unfold year_2038; lia) B R) as (ops' & F & V & ->).
  destruct (run_after_clear s ops' n mx kept x W V H Hx) as (m' & a & st & Hi & Hc & ->).
  assert (G : exists o, In o ops /\ restamped o (OSet m' a st)).
  { clear - F Hi. induction F as [|o o' ops ops' Ho F IH]; [destruct Hi|]. destruct Hi as [<-|Hi]; [exists o; cbn; auto|]. destruct (IH Hi) as (o1 & I1 & R1). exists o1. cbn. auto. }
  destruct G as (o & Io & Ro). destruct o as [m au|m au|]; cbn [restamped] in Ro; [| |destruct Ro];
    destruct Ro as (-> & -> & Et & E1 & E2 & E3 & E4); exists m, (tm_stamp m'), au; [exists false|exists true]; (split; [exact Io|]);
    (split; [exact Et|]); rewrite <- E2; (split; [exact Hc|]); destruct m' as [t' f' c' v' q']; cbn in *; subst; reflexivity.
Qed.

Lemma in_update : forall A (l : list A) k a x, In x (update l k a) -> x = a \/ In x l.
Proof.
  induction l as [|y l IH]; intros [|k] a x H; cbn in H; try (destruct H; fail); [destruct H as [<-|H]; cbn; auto|].
  destruct H as [<-|H]; [cbn; auto|]. destruct (IH _ _ _ H); cbn; auto.
Qed.
Lemma acts_source : forall h (l l' : plistener S), acts l h = Some l' ->
  exists ops, py_run (pl_core l) ops = Some (pl_core l') /\ forall who st m, In (due who st m) ops -> source l h who st m.
Proof.
  assert (D : forall who st m who' st' m', due who st m = due who' st' (m' : tmsg S) -> who = who' /\ st = st' /\ m = m')
    by (intros who [|] m who' [|] m' E; cbn in E; try discriminate; injection E; auto).
  assert (D0 : forall who st (m : tmsg S), due who st m <> PClear) by (intros who [|] m; discriminate).
  induction h as [|a h IH]; intros l l' H; cbn [acts] in H; [injection H as <-; exists []; split; [reflexivity|intros who st m []]|].
  destruct (act l a) as [l1|] eqn:E; [|discriminate]. destruct (IH l1 l' H) as (ops & R & Q). destruct a as [who st ms|k now|k]; cbn [act] in E.
  - injection E as <-. exists ops. split; [exact R|]. intros who' st' m' Hi. destruct (Q _ _ _ Hi) as [(r & I & E1 & E2 & E3)|(ms' & I & E3)].
    + cbn [pl_running] in I. apply in_app_or in I as [I|[<-|[]]]; [left; eauto|]. cbn in E1, E2, E3. subst. right. exists ms. cbn. auto.
    + right. exists ms'. cbn. auto.
  - destruct (nth_error (pl_running l) k) as [[who st ck ms]|] eqn:En; [|discriminate]. destruct ck; [discriminate|]. injection E as <-. cbn [pl_core] in R.
    exists ((if now <? pl_last l then [PClear] else []) ++ ops). split; [rewrite py_run_app; destruct (now <? pl_last l); exact R|].
    intros who' st' m' Hi. apply in_app_or in Hi as [Hi|Hi]; [destruct (now <? pl_last l); [|destruct Hi]; destruct Hi as [Hi|[]]; symmetry in Hi; destruct (D0 _ _ _ Hi)|].
    destruct (Q _ _ _ Hi) as [(r & I & E1 & E2 & E3)|(ms' & I & E3)]; [|right; exists ms'; cbn; auto].
    cbn [pl_running] in I. apply in_update in I as [->|I]; [|left; eauto]. left. exists (mkRunning who st false ms). apply nth_error_In in En. auto.
  - destruct (nth_error (pl_running l) k) as [[who st ck ms]|] eqn:En; [|discriminate]. destruct ck; [|discriminate]. destruct ms as [|m ms]; [discriminate|].
    destruct (py_set st (pl_core l) m who) as [c [u| | | | ]] eqn:E1; try discriminate. injection E as <-. cbn [pl_core] in R. apply nth_error_In in En.
    exists (due who st m :: ops). split; [cbn [py_run]; unfold due; destruct st; cbn [py_step]; rewrite E1; exact R|].
    intros who' st' m' [Hi|Hi].
    + apply D in Hi as (<- & <- & <-). left. exists (mkRunning who st true (m :: ms)). cbn. auto.
    + destruct (Q _ _ _ Hi) as [(r & I & F1 & F2 & F3)|(ms' & I & F3)]; [|right; exists ms'; cbn; auto].
      cbn [pl_running] in I. apply in_update in I as [->|I]; [|left; eauto]. left. exists (mkRunning who st true (m :: ms)). cbn in *. auto.
Qed.
Lemma ops_soon : forall h (l : plistener S) ops, todo_soon l -> soon_messages h -> (forall who st m, In (due who st m) ops -> source l h who st m) -> stamps_below year_2038 ops.
Proof.
  intros h l ops T M Q. apply Forall_forall. intros o Ho.
  assert (K : forall who st m, source l h who st m -> 0 <= tm_stamp m < year_2038).
  { intros who st m [(r & I & _ & _ & Hm)|(ms & I & Hm)].
    - unfold todo_soon in T. rewrite Forall_forall in T. specialize (T r I). rewrite Forall_forall in T. auto.
    - unfold soon_messages in M. rewrite Forall_forall in M. specialize (M _ I). cbn in M. rewrite Forall_forall in M. auto. }
  destruct o as [m a|m a|]; [apply (K a false m), Q, Ho|apply (K a true m), Q, Ho|exact I].
Qed.
Lemma jump_forgets : forall (c0 : core S) now0 h1 k now h2 l1 l2 n mx kept x, py_buffer year_2038 c0 -> soon_messages (h1 ++ Check k now :: h2) ->
  acts (new_listener c0 now0) h1 = Some l1 -> now < pl_last l1 -> acts l1 (Check k now :: h2) = Some l2 ->
  hist (pl_core l2) n = Some (Dynamic mx kept) -> In x kept ->
  exists who st m t, source l1 h2 who st m /\ py_time (tm_stamp m) = Ok t /\ stripSlash (tm_child m) = n /\
    x = sample_of (strip_msg (mkTmsg t (tm_frame m) (tm_child m) (tm_trans m) (tm_rot m))).
Proof.
  intros c0 now0 h1 k now h2 l1 l2 n mx kept x B M H1 J H2 Hh Hx. apply Forall_app in M as [M1 M2]. inversion M2 as [|? ? _ M3]; subst.
  assert (W : wf (pl_core l1)) by (apply reachable_wf; apply (buffer_soon (pl_core l1)); exact (listener_buffer c0 now0 h1 l1 B M1 H1)).
  assert (T : todo_soon l1) by (apply (acts_soon h1 (new_listener c0 now0)); [exact H1|exact M1|constructor]).
  cbn [acts] in H2. destruct (act l1 (Check k now)) as [l|] eqn:E; [|discriminate].
  assert (Tl : todo_soon l) by (apply (act_soon l1 (Check k now)); [exact E|repeat constructor|exact T]).
  destruct (acts_source h2 l l2 H2) as (ops & R & Q). pose proof (ops_soon h2 l ops Tl M3 Q) as Bo.
  cbn [act] in E. destruct (nth_error (pl_running l1) k) as [[who st ck ms]|] eqn:En; [|discriminate]. destruct ck; [discriminate|]. injection E as <-.
  rewrite (proj2 (Z.ltb_lt _ _) J) in R, Q. cbn [pl_core] in R.
  destruct (py_after_clear _ _ _ _ _ _ _ W Bo R Hh Hx) as (m & t & a & st' & Hi & Et & Hc & Ex).
  exists a, st', m, t. split; [|auto]. destruct (Q _ _ _ Hi) as [(r & I & E1 & E2 & E3)|X]; [|right; exact X].
  cbn [pl_running] in I. apply in_update in I as [->|I]; [|left; eauto]. left. exists (mkRunning who st false ms). apply nth_error_In in En. auto.
Qed.
End P.
