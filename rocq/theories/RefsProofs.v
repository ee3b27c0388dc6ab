(** * Proofs about reference counts *)
From Coq Require Import ZArith Bool List String Lia.
From Verif Require Import RosTime Scalar LinearMath Cache BufferCore PyTime PyRefs SpecRefs.
Import ListNotations.
Open Scope string_scope.
Open Scope list_scope.
Open Scope nat_scope.

Section P.
Context {S : Scalar}.
Notation heap := (@heap S).
Notation code := (@code S).

Lemma addr_eqb_refl : forall a, addr_eqb a a = true.
Proof. intros [g|n|k]; cbn [addr_eqb]; [destruct g; reflexivity|apply Nat.eqb_refl|apply Nat.eqb_refl]. Qed.
Lemma addr_eqb_eq : forall a b, addr_eqb a b = true -> a = b.
Proof.
  intros [g|n|k] [g'|n'|k'] H; try discriminate H; cbn [addr_eqb] in H.
  - destruct g, g'; try discriminate H; reflexivity.
  - apply Nat.eqb_eq in H. subst. reflexivity.
  - apply Nat.eqb_eq in H. subst. reflexivity.
Qed.

Lemma nth_put : forall (l : list (option (@obj S))) k o j, k < List.length l -> nth j (put_nth l k o) None = if Nat.eqb j k then o else nth j l None.
Proof.
  induction l as [|x l IH]; intros [|k] o [|j] H; cbn [List.length] in H; try lia; try reflexivity.
  cbn [put_nth nth Nat.eqb]. apply IH. lia.
Qed.
Lemma len_put : forall (l : list (option (@obj S))) k o, List.length (put_nth l k o) = List.length l.
Proof. induction l as [|x l IH]; intros [|k] o; try reflexivity. cbn [put_nth List.length]. f_equal. apply IH. Qed.

Lemma get_put : forall (h : heap) a o b, get h a <> None -> get (put h a o) b = if addr_eqb b a then o else get h b.
Proof.
  intros h [g|n|k] o [g'|n'|k'] H; try reflexivity; cbn [get put addr_eqb h_glob h_old h_new] in *.
  - destruct (h_glob h); destruct g, g'; reflexivity.
  - apply nth_put. destruct (Nat.lt_ge_cases k (List.length (h_new h))) as [L|L]; [exact L|]. rewrite nth_overflow in H by exact L. congruence.
Qed.
Lemma err_put : forall (h : heap) a o, h_err (put h a o) = h_err h.
Proof. intros h [g|n|k] o; reflexivity. Qed.
Lemma get_set_err : forall (h : heap) e a, get (set_err h e) a = get h a.
Proof. intros h e [g|n|k]; reflexivity. Qed.
Lemma get_alloc : forall (h : heap) c sl d b,
  get (fst (alloc h c sl d)) b = if addr_eqb b (New (List.length (h_new h))) then Some (mkObj 1 c sl d) else get h b.
Proof.
  intros h c sl d [g|n|k]; try reflexivity. unfold alloc. cbn [fst get h_new addr_eqb].
  destruct (Nat.eqb_spec k (List.length (h_new h))) as [->|E].
  - rewrite app_nth2, Nat.sub_diag by lia. reflexivity.
  - destruct (Nat.lt_ge_cases k (List.length (h_new h))) as [L|L]; [apply app_nth1; exact L|].
    rewrite app_nth2 by lia. rewrite nth_overflow by (cbn; lia). rewrite nth_overflow by lia. reflexivity.
Qed.
Lemma get_fresh : forall (h : heap), get h (New (List.length (h_new h))) = None.
Proof. intros h. cbn [get]. apply nth_overflow. lia. Qed.

(** ** gained *)
Lemma gained_refl : forall h : heap, gained h h [].
Proof. intros h a. destruct (get h a) as [[r c sl d]|]; [|reflexivity]. cbn [occurrences o_refs o_class o_slots o_data]. rewrite Nat.add_0_r. reflexivity. Qed.
Lemma occ_app : forall a l1 l2, occurrences a (l1 ++ l2) = occurrences a l1 + occurrences a l2.
Proof. intros a l1 l2. induction l1 as [|b l1 IH]; [reflexivity|]. cbn [app occurrences]. rewrite IH. lia. Qed.
Lemma gained_trans : forall (h1 h2 h3 : heap) l1 l2, gained h1 h2 l1 -> gained h2 h3 l2 -> gained h1 h3 (l1 ++ l2).
Proof.
  intros h1 h2 h3 l1 l2 A B a. rewrite B, A. destruct (get h1 a) as [o|]; [|reflexivity]. cbn [o_refs o_class o_slots o_data].
  rewrite occ_app, Nat.add_assoc. reflexivity.
Qed.
Lemma same_gained : forall h h' : heap, same h h' -> gained h h' [].
Proof. intros h h' H a. rewrite H. apply gained_refl. Qed.
Lemma gained_none : forall (h h' : heap) l a, gained h h' l -> get h' a <> None -> get h a <> None.
Proof. intros h h' l a G H E. apply H. rewrite G, E. reflexivity. Qed.
Lemma gained_some : forall (h h' : heap) l a, gained h h' l -> get h a <> None -> get h' a <> None.
Proof. intros h h' l a G H E. rewrite G in E. destruct (get h a); [discriminate E|congruence]. Qed.
Lemma gained_sound : forall (h h' : heap) l, gained h h' l -> sound h -> sound h'.
Proof.
  intros h h' l G Hs a o E. rewrite G in E. destruct (get h a) as [o0|] eqn:E0; [|discriminate E]. injection E as <-.
  destruct (Hs a o0 E0) as [A B]. cbn [o_refs o_slots]. split; [lia|]. intros n v F. exact (gained_some h h' l v G (B n v F)).
Qed.
Lemma gained_holds : forall (h h' : heap) l a n v, gained h h' l -> (holds h' a n v <-> holds h a n v).
Proof.
  intros h h' l a n v G. unfold holds. split; intros (o & E & F).
  - rewrite G in E. destruct (get h a) as [o0|] eqn:E0; [|discriminate E]. injection E as <-. exists o0. split; [reflexivity|exact F].
  - exists (mkObj (o_refs o + occurrences a l) (o_class o) (o_slots o) (o_data o)). split; [rewrite G, E; reflexivity|exact F].
Qed.
Lemma gained_is : forall (h h' : heap) l a d, gained h h' l -> (is h' a d <-> is h a d).
Proof.
  intros h h' l a n G. unfold is. split; intros (o & E & F).
  - rewrite G in E. destruct (get h a) as [o0|] eqn:E0; [|discriminate E]. injection E as <-. exists o0. split; [reflexivity|exact F].
  - exists (mkObj (o_refs o + occurrences a l) (o_class o) (o_slots o) (o_data o)). split; [rewrite G, E; reflexivity|exact F].
Qed.
Lemma gained_modules : forall (h h' : heap) l, gained h h' l -> modules h -> modules h'.
Proof.
  intros h h' l G (A & B & C & D & E1 & E2 & E3 & E4). unfold modules.
  repeat split; try (apply (gained_holds h h' l _ _ _ G); assumption); eapply gained_some; eassumption.
Qed.

(** ** One attribute *)
Lemma decref_many : forall (h : heap) a o, get h a = Some o -> 2 <= o_refs o ->
  decref h a = Some (put h a (Some (with_refs o (o_refs o - 1)))).
Proof.
  intros h a o E L. unfold decref. cbn [drop]. rewrite E. destruct (o_refs o) as [|[|m]] eqn:R; try lia.
  cbn [Nat.sub]. reflexivity.
Qed.
Lemma decref_leaf : forall (h : heap) a o, get h a = Some o -> o_refs o = 1 -> o_slots o = [] -> decref h a = Some (put h a None).
Proof. intros h a o E R L. unfold decref. cbn [drop]. rewrite E, R, L. reflexivity. Qed.

Lemma with_refs_same : forall (o : @obj S) n, o_refs o = n -> with_refs o n = o.
Proof. intros [r c sl d] n E. cbn in E. subst. reflexivity. Qed.

Lemma take_and_give : forall (h : heap) v, sound h -> get h v <> None ->
  exists h1 h2, incref h v = Some h1 /\ decref h1 v = Some h2 /\ same h h2 /\ h_err h1 = h_err h /\ h_err h2 = h_err h.
Proof.
  intros h v Hs Hv. destruct (get h v) as [o|] eqn:E; [|congruence]. unfold incref. rewrite E.
  destruct (Hs v o E) as [R _].
  set (h1 := put h v (Some (with_refs o (Datatypes.S (o_refs o))))).
  assert (E1 : get h1 v = Some (with_refs o (Datatypes.S (o_refs o)))) by (unfold h1; rewrite get_put by congruence; rewrite addr_eqb_refl; reflexivity).
  exists h1. eexists. split; [reflexivity|]. split; [apply (decref_many h1 v _ E1); cbn [with_refs o_refs]; lia|].
  split; [|split; [apply err_put|rewrite err_put; apply err_put]].
  intros b. rewrite get_put by congruence. unfold h1. rewrite get_put by congruence.
  destruct (addr_eqb b v) eqn:B; [|reflexivity]. apply addr_eqb_eq in B. subst b. rewrite E. f_equal.
  destruct o as [r c sl d]. unfold with_refs. cbn [o_refs o_class o_slots o_data] in *. f_equal. lia.
Qed.

Lemma borrow_held : forall (h : heap) a n v, sound h -> holds h a n v ->
  exists h', borrow (Some a) n h = Some (h', Some v) /\ same h h' /\ h_err h' = h_err h.
Proof.
  intros h a n v Hs (o & E & F). destruct (Hs a o E) as [_ Hv]. specialize (Hv n v F).
  destruct (take_and_give h v Hs Hv) as (h1 & h2 & I & D & Sm & E1 & E2).
  exists h2. unfold borrow, bind, GetAttr. rewrite E, F, I. unfold XDECREF, DECREF. rewrite D. split; [reflexivity|]. split; assumption.
Qed.

Lemma alloc_free : forall (h : heap) c d, decref (fst (alloc h c [] d)) (New (List.length (h_new h))) = Some (put (fst (alloc h c [] d)) (New (List.length (h_new h))) None).
Proof.
  intros h c d. apply decref_leaf with (o := mkObj 1 c [] d); [|reflexivity|reflexivity].
  rewrite get_alloc, addr_eqb_refl. reflexivity.
Qed.
Lemma alloc_free_same : forall (h : heap) c d, same h (put (fst (alloc h c [] d)) (New (List.length (h_new h))) None).
Proof.
  intros h c d b. rewrite get_put; [|rewrite get_alloc, addr_eqb_refl; discriminate]. rewrite get_alloc.
  destruct (addr_eqb b (New (List.length (h_new h)))) eqn:B; [|reflexivity]. apply addr_eqb_eq in B. subst b. symmetry. apply get_fresh.
Qed.

(** What a borrowed attribute may be: if it can still be used, the object holds it. *)
Lemma borrow_inv : forall (h : heap) o n h' r, sound h -> borrow o n h = Some (h', r) ->
  same h h' /\ (h_err h' = false -> h_err h = false) /\
  (forall v, r = Some v -> get h v <> None -> exists a, o = Some a /\ holds h a n v).
Proof.
  intros h o n h' r Hs. unfold borrow, bind. unfold GetAttr at 1. destruct o as [a|]; [|discriminate].
  destruct (get h a) as [ob|] eqn:E; [|discriminate]. destruct (find_slot n (o_slots ob)) as [[v|d]|] eqn:F.
  - destruct (Hs a ob E) as [_ Hv]. specialize (Hv n v F). destruct (take_and_give h v Hs Hv) as (h1 & h2 & I & D & Sm & E1 & E2).
    rewrite I. cbn [XDECREF]. unfold DECREF. rewrite D. unfold ret. intros X. injection X as <- <-. split; [exact Sm|]. split; [intros Q; rewrite <- E2; exact Q|].
    intros w W _. injection W as <-. exists a. split; [reflexivity|]. exists ob. split; assumption.
  - pose proof (alloc_free h None d) as D. pose proof (alloc_free_same h None d) as Sm. unfold alloc in *. cbn [fst] in *. cbv zeta.
    cbn [XDECREF]. unfold DECREF. rewrite D. unfold ret. intros X. injection X as <- <-. split; [exact Sm|]. split; [intros Q; exact Q|].
    intros w W G. injection W as <-. exfalso. apply G. apply get_fresh.
  - cbn [XDECREF]. unfold ret. intros X. injection X as <- <-. split; [intros b; apply get_set_err|]. split; [discriminate|]. intros v W. discriminate W.
Qed.

Lemma has_attr_held : forall (h : heap) a n v, sound h -> holds h a n v ->
  exists h', HasAttr (Some a) n h = Some (h', true) /\ same h h' /\ h_err h' = h_err h.
Proof.
  intros h a n v Hs (o & E & F). destruct (Hs a o E) as [_ Hv]. specialize (Hv n v F).
  destruct (take_and_give h v Hs Hv) as (h1 & h2 & I & D & Sm & E1 & E2).
  exists h2. unfold HasAttr, bind, GetAttr. rewrite E, F, I. unfold DECREF. rewrite D. split; [reflexivity|]. split; assumption.
Qed.
Lemma has_attr_inv : forall (h : heap) o n h' b, sound h -> HasAttr o n h = Some (h', b) ->
  same h h' /\ (b = true -> h_err h' = h_err h).
Proof.
  intros h o n h' b Hs. unfold HasAttr, bind. unfold GetAttr at 1. destruct o as [a|]; [|discriminate].
  destruct (get h a) as [ob|] eqn:E; [|discriminate]. destruct (find_slot n (o_slots ob)) as [[v|d]|] eqn:F.
  - destruct (Hs a ob E) as [_ Hv]. specialize (Hv n v F). destruct (take_and_give h v Hs Hv) as (h1 & h2 & I & D & Sm & E1 & E2).
    rewrite I. unfold DECREF. rewrite D. unfold ret. intros X. injection X as <- <-. split; [exact Sm|]. intros _. exact E2.
  - pose proof (alloc_free h None d) as D. pose proof (alloc_free_same h None d) as Sm. unfold alloc in *. cbn [fst] in *. cbv zeta.
    unfold DECREF. rewrite D. unfold ret. intros X. injection X as <- <-. split; [exact Sm|]. intros _. reflexivity.
  - unfold ERR, ret. intros X. injection X as <- <-. split; [intros b; rewrite !get_set_err; reflexivity|]. discriminate.
Qed.

(** ** Values *)
Lemma num_is : forall (h : heap) a x, is h a (DNum x) -> num (Some a) h = Some (h, x).
Proof. intros h a x (o & E & F). unfold num, bind, DATA. rewrite E, F. reflexivity. Qed.
Lemma num_inv : forall (h : heap) o h' x, num o h = Some (h', x) ->
  same h h' /\ (h_err h' = false -> h_err h = false /\ exists a, o = Some a /\ is h a (DNum x)).
Proof.
  intros h [a|] h' x; unfold num, bind, DATA, ERR, ret.
  - destruct (get h a) as [o|] eqn:E; [|discriminate]. destruct (o_data o) eqn:D; intros X; injection X as <- <-;
      try (split; [intros b; apply get_set_err|discriminate]).
    split; [intros b; reflexivity|]. intros Q. split; [exact Q|]. exists a. split; [reflexivity|]. exists o. split; assumption.
  - intros X. injection X as <- <-. split; [intros b; apply get_set_err|discriminate].
Qed.
Lemma text_is : forall (h : heap) a t, is h a (DText t) -> text (Some a) h = Some (h, t).
Proof. intros h a x (o & E & F). unfold text, bind, DATA. rewrite E, F. reflexivity. Qed.
Lemma text_inv : forall (h : heap) o h' t, text o h = Some (h', t) -> h' = h /\ exists a, o = Some a /\ is h a (DText t).
Proof.
  intros h [a|] h' x; unfold text, bind, DATA, die, ret; [|discriminate].
  destruct (get h a) as [o|] eqn:E; [|discriminate]. destruct (o_data o) eqn:D; intros X; try discriminate X. injection X as <- <-.
  split; [reflexivity|]. exists a. split; [reflexivity|]. exists o. split; assumption.
Qed.
Lemma stamp_is : forall (h : heap) a t, is h a (DTime t) ->
  exists h', stamp_of (Some a) h = Some (h', Some (py_time t)) /\ same h h' /\ h_err h' = h_err h.
Proof.
  intros h a t (o & E & F). unfold stamp_of, bind, DATA. rewrite E, F. unfold NEW.
  pose proof (alloc_free h None (DSec (to_sec t))) as D. pose proof (alloc_free_same h None (DSec (to_sec t))) as Sm.
  pose proof (get_alloc h None [] (DSec (to_sec t)) (New (List.length (h_new h)))) as G. rewrite addr_eqb_refl in G.
  unfold alloc in *. cbn [fst] in *. rewrite G. cbn [o_data]. unfold DECREF. rewrite D. unfold ret. eexists. split; [reflexivity|]. split; [exact Sm|]. reflexivity.
Qed.
Lemma stamp_inv : forall (h : heap) o h' r, stamp_of o h = Some (h', r) ->
  same h h' /\ (h_err h' = false -> h_err h = false) /\
  (forall q, r = Some q -> exists a t, o = Some a /\ is h a (DTime t) /\ q = py_time t).
Proof.
  intros h [a|] h' r.
  - unfold stamp_of at 1. unfold bind at 1. unfold DATA at 1. destruct (get h a) as [o|] eqn:E; [|discriminate].
    destruct (o_data o) as [x|x|t|x|] eqn:D; try (unfold bind, ERR, ret; intros X; injection X as <- <-; split; [intros b; apply get_set_err|]; split; [discriminate|]; intros q Q; discriminate Q).
    intros X. assert (I : is h a (DTime t)) by (exists o; split; assumption).
    destruct (stamp_is h a t I) as (h2 & Y & Sm & Er).
    unfold stamp_of at 1 in Y. unfold bind at 1 in Y. unfold DATA at 1 in Y. rewrite E, D in Y. rewrite Y in X. injection X as <- <-.
    split; [exact Sm|]. split; [intros Q; rewrite <- Er; exact Q|]. intros q Q. injection Q as <-. exists a, t. auto.
  - unfold stamp_of, bind, ERR, ret. intros X. injection X as <- <-. split; [intros b; apply get_set_err|]. split; [discriminate|]. intros q Q. discriminate Q.
Qed.

(** ** Types *)
Lemma getattr_held : forall (h : heap) a n v, sound h -> holds h a n v ->
  exists h', GetAttr (Some a) n h = Some (h', Some v) /\ gained h h' [v] /\ h_err h' = h_err h.
Proof.
  intros h a n v Hs (o & E & F). destruct (Hs a o E) as [_ Hv]. specialize (Hv n v F).
  destruct (get h v) as [ov|] eqn:Ev; [|congruence].
  exists (put h v (Some (with_refs ov (Datatypes.S (o_refs ov))))). unfold GetAttr, incref. rewrite E, F, Ev. split; [reflexivity|]. split; [|apply err_put].
  intros b. rewrite get_put by congruence. cbn [occurrences]. destruct (addr_eqb b v) eqn:B.
  - apply addr_eqb_eq in B. subst b. rewrite Ev. unfold with_refs. rewrite Nat.add_0_r, Nat.add_1_r. reflexivity.
  - destruct (get h b) as [[r c sl d]|]; [|reflexivity]. cbn [o_refs o_class o_slots o_data]. rewrite !Nat.add_0_r. reflexivity.
Qed.
Lemma same_sound : forall h h' : heap, same h h' -> sound h -> sound h'.
Proof. intros h h' Sm. apply gained_sound with (l := []). apply same_gained. exact Sm. Qed.
Lemma same_holds : forall (h h' : heap) a n v, same h h' -> (holds h' a n v <-> holds h a n v).
Proof. intros h h' a n v Sm. apply gained_holds with (l := []). apply same_gained. exact Sm. Qed.
Lemma same_trans : forall h1 h2 h3 : heap, same h1 h2 -> same h2 h3 -> same h1 h3.
Proof. intros h1 h2 h3 A B a. rewrite B. apply A. Qed.

Lemma has_all_held : forall l (h : heap) a, sound h -> (forall n, In n l -> exists v, holds h a n v) ->
  exists h', has_all (Some a) l h = Some (h', true) /\ same h h' /\ h_err h' = h_err h.
Proof.
  induction l as [|n l IH]; intros h a Hs H.
  - exists h. split; [reflexivity|]. split; [intros b; reflexivity|reflexivity].
  - destruct (H n (or_introl eq_refl)) as [v Hv]. destruct (has_attr_held h a n v Hs Hv) as (h1 & E1 & S1 & R1).
    destruct (IH h1 a (same_sound _ _ S1 Hs)) as (h2 & E2 & S2 & R2).
    { intros m Hm. destruct (H m (or_intror Hm)) as [w Hw]. exists w. apply (same_holds h h1); assumption. }
    exists h2. cbn [has_all]. unfold bind. rewrite E1. rewrite E2. split; [reflexivity|]. split; [exact (same_trans _ _ _ S1 S2)|congruence].
Qed.
Lemma has_all_inv : forall l (h : heap) o h' b, sound h -> has_all o l h = Some (h', b) -> same h h' /\ (b = true -> h_err h' = h_err h).
Proof.
  induction l as [|n l IH]; intros h o h' b Hs E.
  - injection E as <- <-. split; [intros a; reflexivity|reflexivity].
  - cbn [has_all] in E. unfold bind in E. destruct (HasAttr o n h) as [[h1 b1]|] eqn:E1; [|discriminate E].
    destruct (has_attr_inv h o n h1 b1 Hs E1) as [S1 R1]. destruct b1.
    + destruct (IH h1 o h' b (same_sound _ _ S1 Hs) E) as [S2 R2]. split; [exact (same_trans _ _ _ S1 S2)|]. intros B. rewrite (R2 B). apply R1. reflexivity.
    + injection E as <- <-. split; [exact S1|]. discriminate.
Qed.

Lemma check_held : forall (h : heap) cls k names a n v, sound h -> holds h (Glob GGeometry) cls (Glob k) -> holds h a n v ->
  (forall n, In n names -> exists v, holds h a n v) ->
  exists h', check_type false cls names (Some a) h = Some (h', true) /\ gained h h' [Glob k] /\ h_err h' = h_err h.
Proof.
  intros h cls k names a n v Hs Hc (o & Eo & _) Hn. destruct (getattr_held h _ _ _ Hs Hc) as (h1 & E1 & G1 & R1).
  unfold check_type, bind. rewrite E1. cbv iota beta.
  destruct (get h1 a) as [o1|] eqn:Eo1; [|exfalso; exact (gained_some h h1 _ a G1 ltac:(congruence) Eo1)].
  destruct (has_all_held names h1 a (gained_sound _ _ _ G1 Hs)) as (h2 & E2 & S2 & R2).
  { intros m Hm. destruct (Hn m Hm) as [w Hw]. exists w. apply (gained_holds h h1 _ _ _ _ G1). exact Hw. }
  rewrite E2. rewrite Bool.andb_false_r. unfold ret. exists h2. split; [reflexivity|]. split; [|congruence].
  change [Glob k] with ([Glob k] ++ []). exact (gained_trans _ _ _ _ _ G1 (same_gained _ _ S2)).
Qed.
Lemma check_inv : forall (h : heap) strict cls k names o h' b, sound h -> holds h (Glob GGeometry) cls (Glob k) ->
  check_type strict cls names o h = Some (h', b) ->
  gained h h' [Glob k] /\ (b = true -> h_err h' = false -> h_err h = false).
Proof.
  intros h strict cls k names o h' b Hs Hc. destruct (getattr_held h _ _ _ Hs Hc) as (h1 & E1 & G1 & R1).
  unfold check_type, bind. rewrite E1. cbv iota beta. destruct o as [a|]; [|discriminate].
  destruct (get h1 a) as [o1|] eqn:Eo1; [|discriminate].
  destruct (has_all (Some a) names h1) as [[h2 b2]|] eqn:E2; [|discriminate].
  destruct (has_all_inv names h1 (Some a) h2 b2 (gained_sound _ _ _ G1 Hs) E2) as [S2 R2].
  intros X. change [Glob k] with ([Glob k] ++ []).
  match type of X with context [if ?c then _ else _] => destruct c end; unfold ERR, ret in X; injection X as <- <-.
  - split; [|discriminate]. apply (gained_trans _ _ _ _ _ G1). intros c. rewrite get_set_err. apply (same_gained _ _ S2).
  - split; [exact (gained_trans _ _ _ _ _ G1 (same_gained _ _ S2))|]. intros B Q. rewrite <- R1, <- (R2 B). exact Q.
Qed.
End P.
