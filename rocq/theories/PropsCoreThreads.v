(** * C82: concurrent calls of one BufferCore behave as if made one after the other *)
From Coq Require Import ZArith Bool List String Lia Arith Floats.SpecFloat.
From Verif Require Import RosTime Scalar LinearMath Cache SpecCache BufferCore Introspection SpecCore SpecPast PropsPast Instances ExampleBuffers
  CoreThreads CoreLive SpecCoreThreads CoreThreadProofs CoreThreadMain.
Import ListNotations.
Open Scope Z_scope.
Open Scope list_scope.

(** ** Accounting for a history *)
(** Whatever calls threads make and however their steps are interleaved: every call except the
    fixed-frame lookup takes effect at one moment between its invocation and its return; the
    answers are those of the calls made one after the other in the order of these moments; a
    fixed-frame lookup is answered from two such states, both of them current during the call; and
    whenever the mutex is free the buffer is what the effects so far make it. *)
Theorem C82_every_execution_is_accounted_for :
  forall (S : Scalar) ct (l : list (move S)) e h, execute (start ct) l = (e, h) ->
  exists x, accounts (init_core ct) h x /\ fixed_in_halves (init_core ct) x /\
            (k_holder e = None -> k_core e = after (init_core ct) x).
Proof.
  intros S ct l e h E. destruct (execute_inv (init_core ct) l (start ct) [] (start_inv ct)) as (x & V & I). rewrite E in *. cbn [fst snd visible flat_map app] in *.
  exists x. split; [|split; [exact (i_fixed _ _ _ I)|exact (i_free _ _ _ I)]]. split; [exact V|]. split; [exact (i_legal _ _ _ I)|].
  intros i. pose proof (i_thread _ _ _ I i) as T. unfold thread_ok in T. cbv zeta in T. destruct (k_thread e i) as [[p|b]|].
  - destruct T as [(c & a & O & _)|[(c & b & O & _)|(tg & u & sr & w & fx & before & during & O & _)]]; eexists; exact O.
  - destruct T as (_ & _ & [(c & b0 & O & _)|(tg & u & sr & w & fx & before & during & b0 & O & _)]); eexists; exact O.
  - eexists; exact T.
Qed.
Print Assumptions C82_every_execution_is_accounted_for.

(** Without fixed-frame lookups: linearizability. *)
Theorem C82_linearizable :
  forall (S : Scalar) ct (l : list (move S)) e h, execute (start ct) l = (e, h) ->
  (forall i c, In (Called i c) h -> ~ is_fixed_lookup c) -> linearizable (init_core ct) h.
Proof.
  intros S ct l e h E N. destruct (C82_every_execution_is_accounted_for S ct l e h E) as (x & A & _). split; [exact N|]. exists x. exact A.
Qed.
Print Assumptions C82_linearizable.

(** ** The states calls are answered from *)
Section R.
Context {S : Scalar}.
Implicit Types (x : list (happening S)) (s : core S).
Lemma after_run : forall x s, after s x = run s (changes x).
Proof.
  induction x as [|y x IH]; intros s; [reflexivity|]. destruct y as [v|i c a]; [exact (IH s)|].
  destruct c; try exact (IH s).
  - unfold after, changes, run in *. cbn [fold_left flat_map app alone fst]. rewrite (IH (fst (let '(s', r) := setTransform s m authority is_static in (s', IsSet r)))).
    cbn [step]. destruct (setTransform s m authority is_static). reflexivity.
  - exact (IH (clear s)).
Qed.
Lemma changes_app : forall x y, changes (x ++ y) = changes x ++ changes y.
Proof. intros x y. apply flat_map_app. Qed.
Lemma effect_called : forall i x d, orderly i x d ->
  (forall c, d = Waiting c -> In (Seen (Called i c)) x) /\ (forall c a, In (Effect i c a) x -> In (Seen (Called i c)) x).
Proof.
  intros i x d O. induction O as [|x c O [IH1 IH2]|x c a O [IH1 IH2] F|x c a O [IH1 IH2]|x c a O [IH1 IH2] F]; split; intros c'.
  - discriminate.
  - intros a [].
  - intros E. injection E as <-. apply in_or_app. right. left. reflexivity.
  - intros a' H. apply in_or_app. left. apply (IH2 c' a'). apply in_app_or in H as [H|[H|[]]]; [exact H|discriminate].
  - discriminate.
  - intros a' H. apply in_or_app. left. apply in_app_or in H as [H|[H|[]]]; [exact (IH2 c' a' H)|]. injection H as <- <-. apply IH1. reflexivity.
  - discriminate.
  - intros a' H. apply in_or_app. left. apply (IH2 c' a'). apply in_app_or in H as [H|[H|[]]]; [exact H|discriminate].
  - discriminate.
  - intros a' H. apply in_or_app. left. apply (IH2 c' a'). apply in_app_or in H as [H|[H|[]]]; [exact H|discriminate].
Qed.
Lemma effect_was_called : forall s h x i c a, accounts s h x -> In (Effect i c a) x -> In (Called i c) h.
Proof.
  intros s h x i c a (V & _ & O) H. destruct (O i) as [d Oi].
  assert (H' : In (Effect i c a) (thread_of i x)) by (apply filter_In; split; [exact H|cbn; apply Nat.eqb_refl]).
  apply (proj2 (effect_called i _ d Oi)) in H'. apply filter_In in H' as [H' _]. rewrite <- V. unfold visible. apply in_flat_map. eexists. split; [exact H'|]. left. reflexivity.
Qed.
End R.

(** They are states of the sequential model: everything proved about [reachable] buffers (C08-C29,
    C54, C79, C81 ...) holds of every answer any thread gets. *)
Theorem C82_states_are_reachable :
  forall (S : Scalar) ct h (x : list (happening S)), 0 <= ct < dur_bound -> accounts (init_core ct) h x ->
  (forall i c, In (Called i c) h -> well_timed c) ->
  forall before rest, x = before ++ rest -> reachable (after (init_core ct) before).
Proof.
  intros S ct h x Hct A W before rest E. exists ct, (changes before). split; [exact Hct|]. split; [|apply after_run].
  apply Forall_forall. intros o Ho. unfold changes in Ho. apply in_flat_map in Ho as (y & Hy & Ho). destruct y as [v|i c a]; [destruct Ho|].
  assert (Hc : In (Called i c) h) by (eapply effect_was_called; [exact A|]; rewrite E; apply in_or_app; left; exact Hy).
  apply W in Hc. destruct c; cbn in Ho; try contradiction; destruct Ho as [<-|[]]; [exact Hc|exact I].
Qed.
Print Assumptions C82_states_are_reachable.

(** A completed call that is not a fixed-frame lookup: its effect lies between invocation and
    return, and its answer is that of the call made alone in that state. *)
Theorem C82_answer_of_a_moment :
  forall (S : Scalar) s h (x : list (happening S)) i c a before during rest, accounts s h x -> ~ is_fixed_lookup c ->
  x = before ++ Seen (Called i c) :: during ++ Seen (Returned i a) :: rest ->
  (forall c', ~ In (Seen (Called i c')) during) ->
  exists m1 m2, during = m1 ++ Effect i c a :: m2 /\ a = snd (alone (after s (before ++ m1)) c).
Proof.
  intros S s h x i c a before during rest (V & L & O) F E N. destruct (O i) as [d Oi].
  assert (P : exists d', orderly i (thread_of i before ++ Seen (Called i c) :: thread_of i during ++ [Seen (Returned i a)]) d').
  { assert (Pre : forall (l1 l2 : list (happening S)) d, orderly i (l1 ++ l2) d -> exists d', orderly i l1 d').
    { intros l1 l2. revert l1. induction l2 as [|z l2 IH] using rev_ind; intros l1 d0 H; [rewrite app_nil_r in H; eauto|].
      rewrite app_assoc in H. remember ((l1 ++ l2) ++ [z]) as q eqn:Q.
      destruct H as [|q c0 H|q c0 a0 H H0|q c0 a0 H|q c0 a0 H H0]; [destruct (l1 ++ l2); discriminate|apply app_inj_tail in Q as [-> _]; eapply IH; exact H..]. }
    apply (Pre _ (thread_of i rest) d). rewrite E in Oi. revert Oi. unfold thread_of. rewrite filter_app. cbn [filter of_thread]. rewrite Nat.eqb_refl, filter_app. cbn [filter of_thread]. rewrite Nat.eqb_refl.
    rewrite <- app_assoc. cbn [app]. rewrite <- app_assoc. cbn [app]. auto. }
  destruct P as [d' P]. clear d Oi.
  assert (T : thread_of i during = [Effect i c a]).
  { assert (N' : forall c', ~ In (Seen (Called i c')) (thread_of i during)) by (intros c' H; apply filter_In in H as [H _]; exact (N c' H)).
    revert P N'. generalize (thread_of i before) (thread_of i during). intros lb ld P N'.
    assert (W : forall l d0, orderly i l d0 -> forall l1 l2, l = l1 ++ Seen (Called i c) :: l2 -> (forall c', ~ In (Seen (Called i c')) l2) ->
       (forall w, d0 = Waiting w -> w = c /\ l2 = []) /\ (forall w b, d0 = Done w b -> w = c /\ l2 = [Effect i c b]) /\
       (d0 = Idle -> exists b, l2 = [Effect i c b; Seen (Returned i b)])).
    { intros l d0 H. induction H as [|l c0 H IH|l c0 a0 H IH H0|l c0 a0 H IH|l c0 a0 H IH H0]; intros l1 l2 El Nl.
      - destruct l1; discriminate.
      - destruct (@exists_last _ (Seen (Called i c) :: l2)) as (q & z & Eq); [discriminate|]. rewrite Eq, app_assoc in El. apply app_inj_tail in El as [El Z]. subst z.
        destruct q as [|z q]; cbn in Eq; injection Eq as Eq1 Eq2.
        + subst. split; [intros w Ew; injection Ew as <-; auto|]. split; [discriminate|discriminate].
        + exfalso. apply (Nl c0). rewrite Eq2. apply in_or_app. right. left. reflexivity.
      - destruct (@exists_last _ (Seen (Called i c) :: l2)) as (q & z & Eq); [discriminate|]. rewrite Eq, app_assoc in El. apply app_inj_tail in El as [El Z]. subst z.
        destruct q as [|z q]; cbn in Eq; [discriminate|]. injection Eq as <- Eq2.
        destruct (IH l1 q El) as (I1 & _); [intros c' Hc; apply (Nl c'); rewrite Eq2; apply in_or_app; left; exact Hc|]. destruct (I1 _ eq_refl) as [-> ->].
        split; [discriminate|]. split; [|discriminate]. intros w b Ew. injection Ew as <- <-. split; [reflexivity|exact Eq2].
      - destruct (@exists_last _ (Seen (Called i c) :: l2)) as (q & z & Eq); [discriminate|]. rewrite Eq, app_assoc in El. apply app_inj_tail in El as [El Z]. subst z.
        destruct q as [|z q]; cbn in Eq; [discriminate|]. injection Eq as <- Eq2.
        destruct (IH l1 q El) as (_ & I2 & _); [intros c' Hc; apply (Nl c'); rewrite Eq2; apply in_or_app; left; exact Hc|]. destruct (I2 _ _ eq_refl) as [-> ->].
        split; [discriminate|]. split; [discriminate|]. intros _. exists a0. exact Eq2.
      - destruct (@exists_last _ (Seen (Called i c) :: l2)) as (q & z & Eq); [discriminate|]. rewrite Eq, app_assoc in El. apply app_inj_tail in El as [El Z]. subst z.
        destruct q as [|z q]; cbn in Eq; [discriminate|]. injection Eq as <- Eq2.
        destruct (IH l1 q El) as (I1 & _); [intros c' Hc; apply (Nl c'); rewrite Eq2; apply in_or_app; left; exact Hc|]. destruct (I1 _ eq_refl) as [-> ->]. contradiction. }
    destruct (W _ _ P lb (ld ++ [Seen (Returned i a)]) eq_refl) as (W1 & W2 & W3).
    { intros c' Hc. apply in_app_or in Hc as [Hc|[Hc|[]]]; [exact (N' c' Hc)|discriminate]. }
    destruct d' as [|w|w b].
    - destruct (W3 eq_refl) as [b Eb]. change [Effect i c b; Seen (Returned i b)] with ([Effect i c b] ++ [Seen (Returned i b)]) in Eb.
      apply app_inj_tail in Eb as [-> Eb]. injection Eb as ->. reflexivity.
    - destruct (W1 _ eq_refl) as [_ X]. destruct ld; discriminate.
    - destruct (W2 _ _ eq_refl) as [_ X]. change [Effect i c b] with ([] ++ [Effect i c b]) in X. apply app_inj_tail in X as [_ X]. discriminate. }
  assert (H : In (Effect i c a) during) by (assert (X : In (Effect i c a) (thread_of i during)) by (rewrite T; left; reflexivity); apply filter_In in X; tauto).
  apply in_split in H as (m1 & m2 & Ed). exists m1, m2. split; [exact Ed|].
  assert (E2 : x = (before ++ Seen (Called i c) :: m1) ++ Effect i c a :: m2 ++ Seen (Returned i a) :: rest).
  { rewrite E, Ed. rewrite <- !app_assoc. cbn [app]. rewrite <- ?app_assoc. reflexivity. }
  rewrite (L _ _ _ _ _ E2), sp_split. reflexivity.
Qed.
Print Assumptions C82_answer_of_a_moment.

(** ** The fixed-frame lookup *)
(** If what arrives while the call runs is only newer data, as in C81, the two halves fit together:
    the answer is the one of the whole call made alone at the moment of the second half. *)
Theorem C82_fixed_lookup_of_a_moment :
  forall (S : Scalar) ct h (x : list (happening S)) i target target_time source source_time fixed m before during rest,
  0 <= ct < dur_bound -> accounts (init_core ct) h x -> fixed_in_halves (init_core ct) x -> (forall i c, In (Called i c) h -> well_timed c) ->
  x = before ++ Seen (Called i (LookupTransformFixed target target_time source source_time fixed))
      :: during ++ Seen (Returned i (Transform (Ok m))) :: rest ->
  (forall y, In y during -> of_thread i y = false) -> 0 < source_time < dur_bound ->
  (forall m1 m2 m3, during = m1 ++ m2 ++ m3 ->
     let s := after (init_core ct) (before ++ m1) in
     early s /\ between_samples s source_time /\ later_traffic s source_time (changes m2) /\
     none_behind s source_time (changes m2) /\ none_expires s source_time (changes m2)) ->
  exists m1 m2, during = m1 ++ m2 /\
    lookupTransformFixed (after (init_core ct) (before ++ m1)) target target_time source source_time fixed = Ok m.
Proof.
  intros S ct h x i tg u sr w fx m before during rest Hct A Fx W E Q Ht Tr.
  destruct (Fx _ _ _ _ _ _ _ _ _ _ E Q) as [(m1 & m2 & m3 & Ed & Ea)|(r & Ea & (arg & n & cl & er & _ & _ & Er))]; [|subst r; discriminate].
  injection Ea as Ea. exists (m1 ++ m2), m3. split; [rewrite <- app_assoc; exact Ed|].
  destruct (Tr m1 m2 m3 Ed) as (He & B & Lt & Nb & Ne). cbv zeta in *. set (s1 := after (init_core ct) (before ++ m1)) in *.
  assert (E2 : after (init_core ct) (before ++ m1 ++ m2) = run s1 (changes m2)) by (rewrite app_assoc, after_app, after_run; reflexivity).
  assert (R : reachable s1).
  { unfold s1. replace (after (init_core ct) (before ++ m1)) with (after (init_core ct) (before ++ Seen (Called i (LookupTransformFixed tg u sr w fx)) :: m1)) by apply sp_split.
    eapply (C82_states_are_reachable S ct h x Hct A W) with (rest := (m2 ++ m3) ++ Seen (Returned i (Transform (Ok m))) :: rest).
    rewrite E, Ed, <- !app_assoc. cbn [app]. rewrite <- ?app_assoc. reflexivity. }
  rewrite E2 in *. symmetry in Ea. unfold in_two_halves in Ea. unfold lookupTransformFixed.
  assert (G : grow s1 (run s1 (changes m2))) by (rewrite <- after_run; apply after_grow; unfold s1; apply after_range, in_range_init).
  destruct (validateFrameId s1 "lookupTransform argument target_frame" tg) as [i1|cl er|] eqn:V1; cbn [bind] in Ea; try discriminate.
  destruct (validateFrameId s1 "lookupTransform argument source_frame" sr) as [i2|cl er|] eqn:V2; cbn [bind] in Ea; try discriminate.
  destruct (validateFrameId s1 "lookupTransform argument fixed_frame" fx) as [i3|cl er|] eqn:V3; cbn [bind] in Ea; try discriminate.
  destruct (valid_grow _ _ _ _ G (ex_intro _ _ V1)) as [j1 ->]. destruct (valid_grow _ _ _ _ G (ex_intro _ _ V2)) as [j2 ->]. destruct (valid_grow _ _ _ _ G (ex_intro _ _ V3)) as [j3 ->]. cbn [bind].
  destruct (lookupTransform s1 fx sr w) as [t1|cl er|] eqn:L1; cbn [bind] in Ea; try discriminate.
  destruct (C81_answers_stay S s1 w (changes m2) fx sr R He Ht B Lt Nb Ne) as [Ag _]. apply Ag in L1. rewrite L1. cbn [bind]. exact Ea.
Qed.
Print Assumptions C82_fixed_lookup_of_a_moment.

(** ** Concrete executions *)
Open Scope string_scope.
Open Scope list_scope.
Definition whole (i : nat) (c : call D64) : list (move D64) := Invoke i c :: repeat (Go i) 12.
Definition put_static (child : string) (x : Z) : call D64 := SetTransform (msg "map" child 1 (v64 x 0 0) id64) "me" true.
(** Two frames are placed at 1; while thread 1 is between the halves of a fixed-frame lookup, thread
    0 moves both to 2. *)
Definition torn : list (move D64) :=
  whole 0 (put_static "src" 1) ++ whole 0 (put_static "tgt" 1) ++
  Invoke 1 (LookupTransformFixed "tgt" 5 "src" 5 "map") :: repeat (Go 1) 8 ++
  whole 0 (put_static "src" 2) ++ whole 0 (put_static "tgt" 2) ++ repeat (Go 1) 10.
Definition x_of (r : res (tmsg D64)) : option D64 := match r with Ok m => Some (vx (tm_trans m)) | _ => None end.
Definition is_x (z : Z) (o : option D64) : bool := match o with Some d => seqb d (f64_of_Z z : D64) | None => false end.
Definition last_transform (h : list (event D64)) : option (tmsg D64) :=
  match rev h with Returned 1 (Transform (Ok m)) :: _ => Some m | _ => None end.
Lemma last_transform_in : forall h m, last_transform h = Some m -> In (Returned 1 (Transform (Ok m))) h.
Proof.
  intros h m H. apply in_rev. unfold last_transform in H. destruct (rev h) as [|[i c|i a] r]; try discriminate.
  destruct i as [|[|i]]; try discriminate. destruct a as [| |[m'|cl er|]| | | | | | | | |]; try discriminate. injection H as ->. left. reflexivity.
Qed.
(** The states the buffer goes through, after every prefix of the moves *)
Fixpoint states (e : machine D64) (l : list (move D64)) : list (core D64) :=
  k_core e :: match l with [] => [] | v :: l' => states (fst (advance e v)) l' end.
Lemma states_all : forall l e l1 l2, l = l1 ++ l2 -> In (k_core (fst (execute e l1))) (states e l).
Proof.
  induction l as [|v l IH]; intros e [|w l1] l2 E; try discriminate; [left; reflexivity|left; reflexivity|]. cbn in E. injection E as <- E.
  cbn [states execute]. right. destruct (advance e v) as [e' h']. cbn [fst]. specialize (IH e' l1 l2 E). destruct (execute e' l1). exact IH.
Qed.
Theorem C82_fixed_lookup_refuted :
  exists (l : list (move D64)) e h m, execute (start 100) l = (e, h) /\ In (Returned 1 (Transform (Ok m))) h /\
  forall l1 l2, l = l1 ++ l2 ->
    lookupTransformFixed (k_core (fst (execute (start 100) l1))) "tgt" 5 "src" 5 "map" <> Ok m.
Proof.
  exists torn. destruct (execute (start 100) torn) as [e h] eqn:E. exists e, h.
  assert (X : is_x (-1) (option_map (fun m => vx (tm_trans m)) (last_transform (snd (execute (start 100) torn)))) = true) by vmr.
  assert (Y : forallb (fun s => negb (is_x (-1) (x_of (lookupTransformFixed s "tgt" 5 "src" 5 "map")))) (states (start 100) torn) = true) by vmr.
  rewrite E in X. cbn [snd] in X. clear E. destruct (last_transform h) as [m|] eqn:Em; [|discriminate X]. exists m.
  split; [reflexivity|]. split; [apply last_transform_in; exact Em|]. intros l1 l2 El Hm.
  rewrite forallb_forall in Y. specialize (Y _ (states_all torn (start 100) l1 l2 El)). cbn beta in Y. rewrite Hm in Y. cbn [x_of] in Y. cbn [option_map] in X.
  rewrite X in Y. discriminate Y.
Qed.
Print Assumptions C82_fixed_lookup_refuted.

(** A lookup made while a setTransform is half done waits for the mutex, and finds the transform. *)
Definition kind (v : event D64) : Z * Z :=
  match v with
  | Called i _ => (Z.of_nat i, 0)
  | Returned i (IsSet (Ok true)) => (Z.of_nat i, 1)
  | Returned i (Transform (Ok m)) => (Z.of_nat i, if is_x 7 (Some (vx (tm_trans m))) then 2 else 3)
  | Returned i _ => (Z.of_nat i, 4)
  end.
Definition overlap : list (move D64) :=
  Invoke 0 (put_static "src" 7) :: repeat (Go 0) 4 ++ Invoke 1 (LookupTransform "map" "src" 5) :: repeat (Go 1) 6 ++ repeat (Go 0) 12 ++ repeat (Go 1) 12.
Example C82_overlap :
  map kind (snd (execute (start 100) overlap)) = [(0, 0); (1, 0); (0, 1); (1, 2)] /\
  linearizable (init_core 100) (snd (execute (start 100) overlap)) /\
  (forall i c, In (Called i c) (snd (execute (start 100) overlap)) -> well_timed c).
Proof.
  split; [vmr|]. destruct (execute (start 100) overlap) as [e h] eqn:E. cbn [snd].
  assert (C : forallb (fun v => match v with Called _ (LookupTransformFixed _ _ _ _ _) => false | Called _ (SetTransform m _ _) => valid_timeb (tm_stamp m) | _ => true end)
                (snd (execute (start 100) overlap)) = true) by vmr.
  rewrite E in C. cbn [snd] in C. rewrite forallb_forall in C. split.
  - apply (C82_linearizable D64 100 overlap e h E). intros i c Hin F. specialize (C _ Hin). destruct c; try contradiction. discriminate.
  - intros i c Hin. specialize (C _ Hin). destruct c; try exact I. cbn in C. unfold valid_timeb in C. apply andb_prop in C as [C1 C2]. split; [apply Z.leb_le|apply Z.ltb_lt]; assumption.
Qed.

(** A fixed-frame lookup during which newer data arrives. *)
Section Deeds.
Context {S : Scalar}.
Implicit Types (s : core S) (x : list (happening S)).
(** thread 0 makes these calls, one after the other *)
Fixpoint deeds s (cs : list (call S)) : list (happening S) :=
  match cs with
  | [] => []
  | c :: cs' => let a := snd (alone s c) in [Seen (Called 0 c); Effect 0 c a; Seen (Returned 0 a)] ++ deeds (fst (alone s c)) cs'
  end.
Lemma one_by_one_app : forall s x y, one_by_one s x -> one_by_one (after s x) y -> one_by_one s (x ++ y).
Proof.
  intros s x y A B before i c a rest E. revert before E. induction y as [|z y IH] using rev_ind; intros before E; [rewrite app_nil_r in E; exact (A _ _ _ _ _ E)|].
  assert (By : one_by_one (after s x) y) by (intros b2 i2 c2 a2 r2 E2; apply (B b2 i2 c2 a2 (r2 ++ [z])); rewrite E2, <- app_assoc; reflexivity).
  destruct (@exists_last _ (Effect i c a :: rest)) as (q & z' & Eq); [discriminate|]. rewrite Eq, !app_assoc in E. apply app_inj_tail in E as [E Z]. subst z'.
  destruct q as [|z' q]; cbn in Eq.
  - injection Eq as Eq _. rewrite app_nil_r in E. subst before z. rewrite after_app. apply (B y i c a []). reflexivity.
  - injection Eq as <- Eq. clear IH. revert E. revert before. intros before E.
    destruct (Nat.le_gt_cases (List.length x) (List.length before)) as [L|L].
    + apply (f_equal (firstn (List.length before))) in E as E1. rewrite firstn_app, firstn_app, firstn_all, Nat.sub_diag, app_nil_r in E1. rewrite (firstn_all2 x) in E1 by exact L.
      rewrite <- E1 in E. rewrite <- E1, after_app. rewrite <- app_assoc in E. apply app_inv_head in E. eapply By. exact E.
    + apply (f_equal (firstn (List.length x))) in E as E1. rewrite firstn_app, firstn_all, Nat.sub_diag, app_nil_r in E1.
      rewrite firstn_app, (firstn_all2 before) in E1 by lia. destruct (List.length x - List.length before)%nat as [|k] eqn:K; [lia|]. cbn in E1. eapply A. exact E1.
Qed.
Lemma deeds_legal : forall cs s, one_by_one s (deeds s cs).
Proof.
  induction cs as [|c cs IH]; intros s; [intros before i c a rest E; destruct before; discriminate|]. cbn [deeds]. cbv zeta. apply one_by_one_app; [|exact (IH _)].
  intros before i c' a rest E. destruct before as [|y1 [|y2 [|y3 [|y4 before]]]]; cbn in E; try discriminate.
  injection E as <- <- <- <- _. reflexivity.
Qed.
Lemma deeds_orderly : forall cs s l, Forall (fun c => ~ is_fixed_lookup c) cs -> orderly 0 l Idle -> orderly 0 (l ++ thread_of 0 (deeds s cs)) Idle.
Proof.
  induction cs as [|c cs IH]; intros s l F O; [cbn; rewrite app_nil_r; exact O|]. inversion F as [|? ? Fc Fcs]. subst. cbn [deeds]. cbv zeta. rewrite thread_app.
  cbn [thread_of filter of_thread Nat.eqb]. fold (thread_of 0 (deeds (fst (alone s c)) cs)). rewrite app_assoc. apply IH; [exact Fcs|].
  change [Seen (Called 0 c); Effect 0 c (snd (alone s c)); Seen (Returned 0 (snd (alone s c)))]
    with ([Seen (Called 0 c)] ++ [Effect 0 c (snd (alone s c))] ++ [Seen (Returned 0 (snd (alone s c)))]).
  rewrite !app_assoc. eapply o_return. apply o_effect; [|exact Fc]. apply o_call. exact O.
Qed.
Lemma deeds_other : forall cs s i, i <> 0%nat -> thread_of i (deeds s cs) = [].
Proof.
  induction cs as [|c cs IH]; intros s i N; [reflexivity|]. cbn [deeds]. cbv zeta. rewrite thread_app, IH by exact N. destruct i; [contradiction|reflexivity].
Qed.
Lemma deeds_called : forall cs s i c, In (Called i c) (visible (deeds s cs)) -> In c cs.
Proof.
  induction cs as [|c0 cs IH]; intros s i c H; [destruct H|]. cbn [deeds] in H. cbv zeta in H. rewrite visible_app in H. apply in_app_or in H as [H|H].
  - cbn in H. destruct H as [H|[H|[]]]; [|discriminate]. injection H as _ <-. left. reflexivity.
  - right. eapply IH. exact H.
Qed.
End Deeds.
Definition set_dyn (child : string) (t x : Z) : call D64 := SetTransform (msg "map" child t (v64 x 0 0) id64) "me" false.
Definition setup : list (call D64) := [set_dyn "src" 10 1; set_dyn "src" 20 3; set_dyn "tgt" 10 1; set_dyn "tgt" 20 2].
Definition op_of (c : call D64) : list (core_op D64) := match c with SetTransform m a st => [OSet m a st] | Clear => [OClear] | _ => [] end.
Lemma deeds_run : forall cs (s : core D64), after s (deeds s cs) = run s (flat_map op_of cs).
Proof.
  intros cs s. rewrite after_run. f_equal. revert s. induction cs as [|c cs IH]; intros s; [reflexivity|]. cbn [deeds]. cbv zeta. rewrite changes_app, IH. cbn [flat_map]. f_equal. destruct c; reflexivity.
Qed.
Definition s_before : core D64 := run (init_core 100) (flat_map op_of setup).
Definition s_later : core D64 := run s_before [OSet (msg "map" "src" 40 (v64 9 0 0) id64) "me" false].
Lemma in_between : forall (y1 y2 y3 : happening D64) m1 m2 m3, [y1; y2; y3] = m1 ++ m2 ++ m3 -> changes [y1] = [] -> changes [y3] = [] ->
  (changes m1 = [] /\ changes m2 = changes [y2]) \/ changes m2 = [] /\ (changes m1 = [] \/ changes m1 = changes [y2]).
Proof.
  intros y1 y2 y3 m1 m2 m3 E A B.
  assert (C1 : changes [y1; y2] = changes [y2]) by (change [y1; y2] with ([y1] ++ [y2]); rewrite changes_app, A; reflexivity).
  assert (C2 : changes [y2; y3] = changes [y2]) by (change [y2; y3] with ([y2] ++ [y3]); rewrite changes_app, B, app_nil_r; reflexivity).
  assert (C3 : changes [y1; y2; y3] = changes [y2]) by (change [y1; y2; y3] with ([y1] ++ [y2; y3]); rewrite changes_app, A; exact C2).
  assert (N : changes (@nil (happening D64)) = []) by reflexivity.
  destruct m1 as [|a1 [|a2 [|a3 m1]]]; cbn in E.
  - destruct m2 as [|b1 [|b2 [|b3 m2]]]; cbn in E; [auto| | |]; injection E; intros; subst; auto. destruct m2; [auto|discriminate].
  - injection E as <- E. destruct m2 as [|b1 [|b2 m2]]; cbn in E; [auto| |]; injection E; intros; subst; auto. destruct m2; [auto|discriminate].
  - injection E as <- <- E. destruct m2 as [|b1 m2]; cbn in E; [auto|]. injection E; intros; subst. destruct m2; [auto|discriminate].
  - injection E as <- <- <- E. destruct m1; [|discriminate]. destruct m2; [|discriminate]. auto.
Qed.
Example C82_fixed_case :
  exists h (x before during rest : list (happening D64)) m,
  accounts (init_core 100) h x /\ fixed_in_halves (init_core 100) x /\ (forall i c, In (Called i c) h -> well_timed c) /\
  x = before ++ Seen (Called 1 (LookupTransformFixed "tgt" 12 "src" 15 "map")) :: during ++ Seen (Returned 1 (Transform (Ok m))) :: rest /\
  (forall y, In y during -> of_thread 1 y = false) /\ changes during <> [] /\
  (forall m1 m2 m3, during = m1 ++ m2 ++ m3 ->
     let s := after (init_core 100) (before ++ m1) in
     early s /\ between_samples s 15 /\ later_traffic s 15 (changes m2) /\ none_behind s 15 (changes m2) /\ none_expires s 15 (changes m2)).
Proof.
  destruct (ok_by (in_two_halves s_before s_later "tgt" 12 "src" 15 "map")) as [m Hm]; [vmr|].
  set (F := LookupTransformFixed "tgt" 12 "src" 15 "map"). set (before := deeds (init_core 100) setup). set (during := deeds s_before [set_dyn "src" 40 9]).
  assert (Eb : after (init_core 100) before = s_before) by apply deeds_run.
  assert (Q : forall y, In y during -> of_thread 1 y = false) by (intros y [<-|[<-|[<-|[]]]]; reflexivity).
  exists (visible (before ++ Seen (Called 1 F) :: during ++ [Seen (Returned 1 (Transform (Ok m)))])), (before ++ Seen (Called 1 F) :: during ++ [Seen (Returned 1 (Transform (Ok m)))]), before, during, [], m.
  assert (Lg : one_by_one (init_core 100) (before ++ Seen (Called 1 F) :: during ++ [Seen (Returned 1 (Transform (Ok m)))])).
  { apply one_by_one_app; [apply deeds_legal|]. change (Seen (Called 1 F) :: during ++ [Seen (Returned 1 (Transform (Ok m)))]) with ([Seen (Called 1 F)] ++ during ++ [Seen (Returned 1 (Transform (Ok m)))]).
    apply one_by_one_app; [intros [|? [|]]; discriminate|]. change (after (after (init_core 100) before) [Seen (Called 1 F)]) with (after (init_core 100) before). rewrite Eb.
    apply one_by_one_app; [apply deeds_legal|]. intros [|? [|]]; discriminate. }
  assert (E2 : after (init_core 100) (before ++ during) = s_later) by (rewrite after_app, Eb; unfold during; rewrite deeds_run; reflexivity).
  split; [split; [reflexivity|]; split; [exact Lg|]|split; [|split; [|split; [reflexivity|split; [exact Q|split]]]]].
  - intros i. destruct (Nat.eq_dec i 0) as [->|N0]; [|destruct (Nat.eq_dec i 1) as [->|N1]].
    + exists Idle. rewrite thread_app. change (Seen (Called 1 F) :: during ++ [Seen (Returned 1 (Transform (Ok m)))]) with ([Seen (Called 1 F)] ++ during ++ [Seen (Returned 1 (Transform (Ok m)))]).
      rewrite !thread_app. change (thread_of 0 [Seen (Called 1 F)]) with (@nil (happening D64)). change (thread_of 0 [Seen (Returned 1 (Transform (Ok m)))]) with (@nil (happening D64)).
      rewrite app_nil_l, app_nil_r. apply deeds_orderly; [constructor; [intros []|constructor]|].
      apply (deeds_orderly setup (init_core 100) []); [repeat (constructor; [intros []|]); constructor|apply o_start].
    + exists Idle. rewrite thread_app. change (Seen (Called 1 F) :: during ++ [Seen (Returned 1 (Transform (Ok m)))]) with ([Seen (Called 1 F)] ++ during ++ [Seen (Returned 1 (Transform (Ok m)))]).
      rewrite !thread_app. unfold before, during. rewrite !deeds_other by lia. rewrite thread_call, thread_ret, !app_nil_l. eapply o_fixed with (c := F); [|exact I].
      apply (o_call 1 [] F). apply o_start.
    + exists Idle. rewrite thread_app. change (Seen (Called 1 F) :: during ++ [Seen (Returned 1 (Transform (Ok m)))]) with ([Seen (Called 1 F)] ++ during ++ [Seen (Returned 1 (Transform (Ok m)))]).
      rewrite !thread_app. unfold before, during. rewrite !deeds_other by exact N0. destruct i as [|[|i]]; [contradiction|contradiction|]. apply o_start.
  - intros i tg u sr w fx a before' during' rest E Q'.
    assert (X : rest = [] /\ a = Transform (Ok m) /\ i = 1%nat).
    { assert (C : In (Seen (Called i (LookupTransformFixed tg u sr w fx))) (before ++ Seen (Called 1 F) :: during ++ [Seen (Returned 1 (Transform (Ok m)))])) by (rewrite E; apply in_or_app; right; left; reflexivity).
      assert (i = 1%nat).
      { apply in_app_or in C as [C|[C|C]]; [exfalso|injection C as <- _; reflexivity|exfalso; apply in_app_or in C as [C|[C|[]]]; [|discriminate]].
        - assert (C' : In (Called i (LookupTransformFixed tg u sr w fx)) (visible before)) by (apply in_flat_map; eexists; split; [exact C|left; reflexivity]).
          apply deeds_called in C'. cbn in C'. destruct C' as [C'|[C'|[C'|[C'|[]]]]]; discriminate C'.
        - destruct C as [C|[C|[C|[]]]]; discriminate C. }
      subst i. destruct (@exists_last _ (Seen (Returned 1 a) :: rest)) as (q & z & Eq); [discriminate|]. rewrite Eq in E.
      assert (E3 : (before ++ Seen (Called 1 F) :: during) ++ [Seen (Returned 1 (Transform (Ok m)))] = (before' ++ Seen (Called 1 (LookupTransformFixed tg u sr w fx)) :: during' ++ q) ++ [z]).
      { rewrite <- app_assoc. cbn [app]. rewrite E, <- app_assoc. cbn [app]. rewrite <- app_assoc. reflexivity. }
      apply app_inj_tail in E3 as [E3 Z]. destruct q as [|y q]; cbn in Eq; [injection Eq as Eq1 Eq2; rewrite <- Eq1 in Z; injection Z as Z; split; [exact Eq2|split; [symmetry; exact Z|reflexivity]]|]. injection Eq as Eq1 Eq2.
      exfalso. subst y. assert (R1 : In (Seen (Returned 1 a)) (before ++ Seen (Called 1 F) :: during)) by (rewrite E3; apply in_or_app; right; right; apply in_or_app; right; left; reflexivity).
      assert (T1 : In (Seen (Returned 1 a)) (thread_of 1 (before ++ [Seen (Called 1 F)] ++ during))) by (apply filter_In; split; [exact R1|reflexivity]).
      rewrite !thread_app in T1. unfold before, during in T1. rewrite !deeds_other in T1 by lia. cbn in T1. destruct T1 as [T1|[]]; discriminate T1. }
    destruct X as (-> & -> & ->). assert (E3 : (before ++ Seen (Called 1 F) :: during) ++ [Seen (Returned 1 (Transform (Ok m)))] = (before' ++ Seen (Called 1 (LookupTransformFixed tg u sr w fx)) :: during') ++ [Seen (Returned 1 (Transform (Ok m)))]).
    { rewrite <- !app_assoc. exact E. }
    apply app_inj_tail in E3 as [E3 _]. destruct (last_unique (of_thread 1) _ _ _ _ _ _ E3 eq_refl eq_refl Q Q') as (<- & E4 & <-). unfold F in E4. injection E4 as <- <- <- <- <-.
    left. exists [], during, []. rewrite !app_nil_r. split; [reflexivity|]. rewrite app_nil_l, E2, Eb, Hm. reflexivity.
  - intros i c H. change (Seen (Called 1 F) :: during ++ [Seen (Returned 1 (Transform (Ok m)))]) with ([Seen (Called 1 F)] ++ during ++ [Seen (Returned 1 (Transform (Ok m)))]) in H.
    rewrite !visible_app in H. apply in_app_or in H as [H|H]; [|apply in_app_or in H as [H|H]; [|apply in_app_or in H as [H|H]]].
    + apply deeds_called in H. assert (V : forallb (fun c : call D64 => match c with SetTransform m _ _ => valid_timeb (tm_stamp m) | _ => true end) setup = true) by vmr.
      rewrite forallb_forall in V. specialize (V c H). destruct c; try exact I. cbn in V. unfold valid_timeb in V. apply andb_prop in V as [C1 C2]. split; [apply Z.leb_le|apply Z.ltb_lt]; assumption.
    + destruct H as [H|[]]. injection H as _ <-. exact I.
    + apply deeds_called in H. destruct H as [<-|[]]. split; [|]; cbn; unfold time_bound; lia.
    + destruct H as [H|[]]. discriminate H.
  - intros H. discriminate H.
  - intros m1 m2 m3 E. cbv zeta. unfold during in E. cbn [deeds] in E. cbv zeta in E. rewrite app_nil_r in E.
    assert (A1 : early s_before /\ between_samples s_before 15) by (split; [apply early_by; vmr|apply between_by; vmr]).
    assert (A2 : early s_later /\ between_samples s_later 15) by (split; [apply early_by; vmr|apply between_by; vmr]).
    assert (L0 : forall s : core D64, later_traffic s 15 [] /\ none_behind s 15 [] /\ none_expires s 15 []) by (intros s; split; [constructor|split; intros ? ? ? []]).
    rewrite after_app, Eb, after_run. destruct (in_between _ _ _ _ _ _ E eq_refl eq_refl) as [[-> ->]|[-> [-> | ->]]].
    + split; [apply A1|]. split; [apply A1|]. split; [apply later_by; vmr|]. split; [apply not_behind_by; vmr|apply not_expired_by; vmr].
    + split; [apply A1|]. split; [apply A1|]. apply L0.
    + split; [apply A2|]. split; [apply A2|]. apply L0.
Qed.

(** ** Calls end *)
Definition in_a_call {S : Scalar} (e : machine S) (i : nat) : Prop := k_thread e i <> None.
(** the next thing thread [i] does is to lock the mutex, which somebody holds *)
Definition waits_for_the_lock {S : Scalar} (e : machine S) (i : nat) : Prop := (exists b, k_thread e i = Some (Outside (Acquire b))) /\ k_holder e <> None.
Definition can_go_on {S : Scalar} (e : machine S) (i : nat) : Prop := in_a_call e i /\ ~ waits_for_the_lock e i.

(** No deadlock: as long as a thread is in a call, some thread can go on. *)
Theorem C82_no_deadlock :
  forall (S : Scalar) ct (l : list (move S)) e h, execute (start ct) l = (e, h) -> forall i, in_a_call e i -> exists j, can_go_on e j.
Proof.
  intros S ct l e h E i H. destruct (CoreLive.start_ok (S := S) ct) as (O & F). destruct (CoreLive.run_inv l _ O F) as (O' & _). rewrite E in O'. exact (CoreLive.somebody e i O' H).
Qed.
Print Assumptions C82_no_deadlock.
(** No livelock: however the threads take turns, they cannot go on for ever without new calls being made. *)
Theorem C82_no_livelock :
  forall (S : Scalar) ct (l : list (move S)) e h, execute (start ct) l = (e, h) ->
  ~ exists (turn : nat -> nat) (state : nat -> machine S), state 0%nat = e /\ forall n, can_go_on (state n) (turn n) /\ state (n + 1)%nat = fst (advance (state n) (Go (turn n))).
Proof.
  intros S ct l e h E (turn & state & E0 & H). destruct (CoreLive.start_ok (S := S) ct) as (O & F). destruct (CoreLive.run_inv l _ O F) as (_ & (N & F')). rewrite E in F'.
  apply (no_chain N _ e (acc_l _) eq_refl F'). exists turn, state. split; [exact E0|]. intros n. destruct (H n) as (H1 & H2). rewrite Nat.add_1_r in H2. split; [exact H1|exact H2].
Qed.
Print Assumptions C82_no_livelock.
(** So every execution can be continued, without new calls, until every call has returned. *)
Theorem C82_calls_can_finish :
  forall (S : Scalar) ct (l : list (move S)) e h, execute (start ct) l = (e, h) ->
  exists more, (forall v, In v more -> exists i, v = Go i) /\
    forall i, ~ in_a_call (fst (execute e more)) i /\ (in_a_call e i -> exists a, In (Returned i a) (snd (execute e more))).
Proof.
  intros S ct l e h E. destruct (CoreLive.start_ok (S := S) ct) as (O & F). destruct (CoreLive.run_inv l _ O F) as (O' & (N & F')). rewrite E in O', F'.
  destruct (finish_all N _ e (acc_l _) eq_refl F' O') as (ms & G & M). exists ms. split; [exact G|]. intros i. destruct (M i) as (M1 & M2). split; [intros X; exact (X M1)|exact M2].
Qed.
Print Assumptions C82_calls_can_finish.
(** a state with a thread waiting for another's lock is reached *)
Example C82_waiting_example : exists (l : list (move D64)) e h, execute (start 100) l = (e, h) /\ waits_for_the_lock e 2 /\ can_go_on e 1.
Proof.
  exists [Invoke 1 GetFrameStrings; Go 1; Invoke 2 Clear]. eexists _, _. split; [reflexivity|]. split; [split; [eexists; reflexivity|discriminate]|].
  split; [discriminate|]. intros ((b & X) & _). discriminate X.
Qed.
