(** * Proofs about reference counts: making messages and lists *)
From Coq Require Import ZArith Bool List String Lia.
From Verif Require Import RosTime Scalar LinearMath Cache BufferCore PyTime PyRefs SpecRefs RefsProofs RefsMain.
Import ListNotations.
Open Scope string_scope.
Open Scope list_scope.
Open Scope nat_scope.

Section P.
Context {S : Scalar}.
Notation heap := (@heap S).
Notation code := (@code S).

Lemma some_refs : forall (h : heap) a, sound h -> get h a <> None -> exists n c sl d, get h a = Some (mkObj (Datatypes.S n) c sl d).
Proof.
  intros h a Hs Ha. destruct (get h a) as [[r c sl d]|] eqn:E; [|congruence]. destruct (Hs a _ E) as [L _]. cbn [o_refs] in L.
  destruct r as [|n]; [lia|]. exists n, c, sl, d. reflexivity.
Qed.

Ltac nxt := match goal with |- context [bind ?c ?f ?h] => let v := eval lazy in (c h) in match v with Some (?h1, ?a) => let E := fresh in assert (E : c h = Some (h1, a)) by reflexivity; rewrite (bind_step _ _ _ _ _ _ _ E); clear E end end.

Lemma attr_glob : forall (h : heap) a n v, sound h -> holds h a n v ->
  exists h', attr a n h = Some (h', v) /\ gained h h' [v] /\ h_err h' = h_err h.
Proof.
  intros h a n v Hs H. destruct (getattr_held h a n v Hs H) as (h' & E & G & R). exists h'. split; [|split; assumption].
  unfold attr. rewrite (bind_step _ _ _ _ _ _ _ E). reflexivity.
Qed.

Theorem convert_ok : forall (m : tmsg S) (h : heap), sound h -> modules h -> h_new h = [] -> (tm_stamp m < 2 ^ 31 * 10 ^ 9)%Z ->
  exists h' r, transform_converter m h = Some (h', r) /\
    message h' r m /\ h_err h' = h_err h /\ get h r = None /\ (exists o, get h' r = Some o /\ o_refs o = 1) /\
    (forall a o, get h a = Some o -> get h' a = Some (mkObj (o_refs o + occurrences a [Glob GInt0]) (o_class o) (o_slots o) (o_data o))) /\
    exists h'', decref h' r = Some h'' /\ same h h''.
Proof.
  intros m h Hs M Hn Ht. pose proof M as (_ & _ & MT & MR & M1 & M2 & M3 & M4).
  destruct MT as (ogeo & Egeo & Fgeo). destruct MR as (oros & Eros & Fros).
  assert (Sgeo : get h (Glob GGeometry) <> None) by congruence. assert (Sros : get h (Glob GRospy) <> None) by congruence.
  pose proof (proj2 (Hs _ _ Egeo) _ _ Fgeo) as Sst. pose proof (proj2 (Hs _ _ Eros) _ _ Fros) as Sti.
  destruct (some_refs h _ Hs Sgeo) as (n1 & c1 & sl1 & d1 & X1). destruct (some_refs h _ Hs Sros) as (n2 & c2 & sl2 & d2 & X2).
  destruct (some_refs h _ Hs Sst) as (n3 & c3 & sl3 & d3 & X3). destruct (some_refs h _ Hs Sti) as (n4 & c4 & sl4 & d4 & X4).
  destruct (some_refs h _ Hs M2) as (n5 & c5 & sl5 & d5 & X5). destruct (some_refs h _ Hs M3) as (n6 & c6 & sl6 & d6 & X6). destruct (some_refs h _ Hs M4) as (n7 & c7 & sl7 & d7 & X7).
  rewrite X1 in Egeo. injection Egeo as <-. rewrite X2 in Eros. injection Eros as <-. cbn [o_slots] in Fgeo, Fros.
  clear Hs M M1 M2 M3 M4 Sgeo Sros Sst Sti.
  destruct h as [[g1 g2 g3 g4 g5 g6 g7 g8 g9 g10] od sz nw er]. cbn [get get_glob h_glob g_none g_zero g_empty g_int0 g_rospy g_geometry g_time g_stamped g_vector g_quaternion h_new] in *.
  subst g2 g3 g4 g5 g6 g7 g8 nw.
  apply Z.ltb_lt in Ht.
  unfold transform_converter.
  match goal with |- context [bind (attr (Glob GGeometry) "TransformStamped") ?f ?h] =>
    assert (E : attr (Glob GGeometry) "TransformStamped" h = Some (put h (Glob GStampedClass) (Some (mkObj (Datatypes.S (Datatypes.S n3)) c3 sl3 d3)), Glob GStampedClass))
      by (unfold attr, bind, GetAttr; cbn [get get_glob h_glob g_geometry o_slots]; rewrite Fgeo; reflexivity);
    rewrite (bind_step _ _ _ _ _ _ _ E); clear E end.
  cbn [put put_glob h_glob h_old h_size h_new h_err].
  nxt. nxt. nxt. nxt.
  match goal with |- context [bind (attr (Glob GRospy) "Time") ?f ?h] =>
    assert (E : attr (Glob GRospy) "Time" h = Some (put h (Glob GTimeClass) (Some (mkObj (Datatypes.S (Datatypes.S n4)) c4 sl4 d4)), Glob GTimeClass))
      by (unfold attr, bind, GetAttr; cbn [get get_glob h_glob g_rospy o_slots]; rewrite Fros; reflexivity);
    rewrite (bind_step _ _ _ _ _ _ _ E); clear E end.
  cbn [put put_glob h_glob h_old h_size h_new h_err].
  nxt. nxt. nxt. rewrite Ht. do 22 nxt.
  unfold ret. cbv beta. match goal with |- context [Some (?h, New 6)] => set (hh := h) end.
  assert (GG : h_glob hh = mkGlobals g1 (Some (mkObj (Datatypes.S n5) c5 sl5 d5)) (Some (mkObj (Datatypes.S n6) c6 sl6 d6)) (Some (mkObj (Datatypes.S (Datatypes.S n7)) c7 sl7 d7))
    (Some (mkObj (Datatypes.S n2) c2 sl2 d2)) (Some (mkObj (Datatypes.S n1) c1 sl1 d1)) (Some (mkObj (Datatypes.S n4) c4 sl4 d4)) (Some (mkObj (Datatypes.S n3) c3 sl3 d3)) g9 g10) by reflexivity.
  assert (GO : forall n, h_old hh n = od n) by reflexivity.
  assert (GE : h_err hh = er) by reflexivity.
  let g k := (let v := eval lazy in (get hh (New k)) in let E := fresh "E" in assert (E : get hh (New k) = v) by reflexivity) in
  g 2; g 3; g 4; g 5; g 6; g 10; g 11; g 12; g 13; g 14; g 15; g 16; g 17; g 18; g 19.
  assert (GD : exists h'', decref hh (New 6) = Some h'' /\ h_glob h'' = mkGlobals g1 (Some (mkObj (Datatypes.S n5) c5 sl5 d5)) (Some (mkObj (Datatypes.S n6) c6 sl6 d6)) (Some (mkObj (Datatypes.S n7) c7 sl7 d7))
    (Some (mkObj (Datatypes.S n2) c2 sl2 d2)) (Some (mkObj (Datatypes.S n1) c1 sl1 d1)) (Some (mkObj (Datatypes.S n4) c4 sl4 d4)) (Some (mkObj (Datatypes.S n3) c3 sl3 d3)) g9 g10 /\
    (forall n, h_old h'' n = od n) /\ h_new h'' = repeat None 20).
  { let v := eval lazy in (decref hh (New 6)) in match v with Some ?x => exists x end. split; [lazy; reflexivity|]. repeat split; reflexivity. }
  clearbody hh. exists hh, (New 6). split; [reflexivity|].
  split; [|split; [exact GE|split; [reflexivity|split; [eexists; split; [eassumption|reflexivity]|split]]]].
  - exists (New 2), (New 5), (New 3), (New 4).
    repeat match goal with |- _ /\ _ => split end;
      first [ solve [eexists; split; [eassumption|reflexivity]]
            | solve [eexists; split; [eexists; split; [eassumption|reflexivity]|eexists; split; [eassumption|reflexivity]]] ].
  - intros [g|n|k] o; cbn [get h_glob h_old h_new].
    + rewrite GG. destruct g; cbn [get_glob g_none g_zero g_empty g_int0 g_rospy g_geometry g_time g_stamped g_vector g_quaternion]; intros X;
        try (injection X as <-); cbn [o_refs o_class o_slots o_data occurrences addr_eqb glob_eqb]; rewrite ?Nat.add_0_r, ?Nat.add_1_r; try reflexivity;
        rewrite X; f_equal; destruct o; reflexivity.
    + intros X. rewrite GO, X. cbn [occurrences addr_eqb]. rewrite Nat.add_0_r. destruct o; reflexivity.
    + destruct k; discriminate.
  - destruct GD as (h'' & D & D1 & D2 & D3). exists h''. split; [exact D|]. intros [g|n|k]; cbn [get h_glob h_old h_new].
    + rewrite D1. destruct g; reflexivity.
    + apply D2.
    + rewrite D3. rewrite nth_repeat. destruct k; reflexivity.
Qed.

(** Lists of names. *)
Lemma make_all_run : forall l (h : heap), exists sl, make_all l h = Some (mkHeap (h_glob h) (h_old h) (h_size h) (h_new h ++ map (fun t => Some (mkObj 1 None [] (DText t))) l) (h_err h), sl) /\
  sl = map (fun k => ("item", Held (New k))) (seq (List.length (h_new h)) (List.length l)).
Proof.
  induction l as [|t l IH]; intros h.
  - exists []. split; [|reflexivity]. cbn [make_all map]. unfold ret. rewrite app_nil_r. destruct h; reflexivity.
  - cbn [make_all]. unfold bind, NEW, alloc. 
    destruct (IH (mkHeap (h_glob h) (h_old h) (h_size h) (h_new h ++ [Some (mkObj 1 None [] (DText t))]) (h_err h))) as (sl & E & Es).
    rewrite E. unfold ret. cbn [h_glob h_old h_size h_new h_err]. eexists. split; [rewrite <- app_assoc; reflexivity|].
    rewrite Es. cbn [h_new]. rewrite app_length. cbn [List.length seq map]. rewrite Nat.add_1_r. reflexivity.
Qed.

Definition drops (n : nat) := fix all (h : heap) (l : list (string * @slot S)) : option heap :=
  match l with
  | [] => Some h
  | (_, Held v) :: l => match drop n h v with Some h => all h l | None => None end
  | (_, Made _) :: l => all h l
  end.
Lemma drop_one : forall n (h : heap) a c sl d, get h a = Some (mkObj 1 c sl d) -> drop (Datatypes.S n) h a = drops n (put h a None) sl.
Proof. intros n h a c sl d E. cbn [drop]. rewrite E. reflexivity. Qed.

Lemma free_all : forall n ks (h : heap), NoDup ks -> (forall k, In k ks -> exists d, get h (New k) = Some (mkObj 1 None [] d)) ->
  exists h2, drops (Datatypes.S n) h (map (fun k => ("item", Held (New k))) ks) = Some h2 /\
    (forall k, In k ks -> get h2 (New k) = None) /\ (forall a, ~ In a (map New ks) -> get h2 a = get h a).
Proof.
  intros n ks. induction ks as [|k ks IH]; intros h D H.
  - exists h. split; [reflexivity|]. split; [intros k []|]. reflexivity.
  - destruct (H k (or_introl eq_refl)) as [d E]. cbn [map]. unfold drops. fold (drops (Datatypes.S n)). rewrite (drop_one n h _ _ _ _ E).
    change (drops n (put h (New k) None) []) with (Some (put h (New k) None)). cbv iota.
    pose proof (NoDup_cons_iff k ks) as [DD _]. destruct (DD D) as [Nk D'].
    destruct (IH (put h (New k) None) D') as (h2 & E2 & A & B).
    { intros j Hj. destruct (H j (or_intror Hj)) as [dj Ej]. exists dj. rewrite get_put by congruence. cbn [addr_eqb].
      destruct (Nat.eqb_spec j k) as [->|X]; [exfalso; exact (Nk Hj)|exact Ej]. }
    exists h2. split; [exact E2|]. split.
    + intros j [<-|Hj]; [|exact (A j Hj)]. rewrite B; [|intros Z; apply in_map_iff in Z; destruct Z as (j & Ej & Hj); injection Ej as ->; exact (Nk Hj)].
      rewrite get_put by congruence. rewrite addr_eqb_refl. reflexivity.
    + intros a Ha. rewrite B; [|intros Z; apply Ha; right; exact Z]. rewrite get_put by congruence.
      destruct (addr_eqb a (New k)) eqn:X; [|reflexivity]. apply addr_eqb_eq in X. exfalso. apply Ha. left. symmetry. exact X.
Qed.

Theorem list_ok : forall (l : list string) (h : heap), exists h' r, list_of_strings l h = Some (h', r) /\
  (exists items, get h' r = Some (mkObj 1 None (map (fun v => ("item", Held v)) items) DOther) /\ List.length items = List.length l /\
     forall i t, nth_error l i = Some t -> exists v, nth_error items i = Some v /\ get h' v = Some (mkObj 1 None [] (DText t))) /\
  (forall a, get h a <> None -> get h' a = get h a) /\ get h r = None /\ h_err h' = h_err h /\
  exists h'', decref h' r = Some h'' /\ same h h''.
Proof.
  intros l h. destruct (make_all_run l h) as (sl & E & Es).
  set (b := List.length (h_new h)) in *.
  set (mk := fun t : string => Some (mkObj (S := S) 1 None [] (DText t))) in *.
  set (h1 := mkHeap (h_glob h) (h_old h) (h_size h) (h_new h ++ map mk l) (h_err h)) in *.
  assert (L1 : List.length (h_new h1) = b + List.length l) by (unfold h1; cbn [h_new]; rewrite app_length, map_length; reflexivity).
  set (h' := fst (alloc h1 None sl DOther)). set (r := New (b + List.length l)).
  assert (Er : list_of_strings l h = Some (h', r)).
  { unfold list_of_strings. rewrite (bind_step _ _ _ _ _ _ _ E). unfold NEW. unfold h', r. rewrite <- L1. reflexivity. }
  assert (Gr : get h' r = Some (mkObj 1 None sl DOther)) by (unfold h', r; rewrite get_alloc, L1, addr_eqb_refl; reflexivity).
  assert (Gi : forall i t, nth_error l i = Some t -> get h' (New (b + i)) = Some (mkObj 1 None [] (DText t))).
  { intros i t Ht. assert (Li : i < List.length l) by (apply nth_error_Some; congruence). unfold h'. rewrite get_alloc, L1. cbn [addr_eqb].
    replace (b + i =? b + List.length l) with false by (symmetry; apply Nat.eqb_neq; lia). cbn [get]. unfold h1. cbn [h_new].
    rewrite app_nth2 by lia. replace (b + i - List.length (h_new h)) with i by (unfold b; lia).
    rewrite (nth_indep _ None (mk "")) by (rewrite map_length; exact Li). rewrite map_nth. rewrite (nth_error_nth l i "" Ht). reflexivity. }
  assert (Go : forall a, (forall k, a = New k -> k < b) -> get h' a = get h a).
  { intros [g|n|k] Hk; try reflexivity. specialize (Hk k eq_refl). unfold h'. rewrite get_alloc, L1. cbn [addr_eqb].
    replace (k =? b + List.length l) with false by (symmetry; apply Nat.eqb_neq; lia). cbn [get]. unfold h1. cbn [h_new]. apply app_nth1. exact Hk. }
  exists h', r. split; [exact Er|]. split; [|split; [|split; [|split; [reflexivity|]]]].
  - exists (map New (seq b (List.length l))). split; [rewrite Gr, Es, map_map; reflexivity|]. split; [rewrite map_length, seq_length; reflexivity|].
    intros i t Ht. exists (New (b + i)). split; [|exact (Gi i t Ht)].
    assert (Li : i < List.length l) by (apply nth_error_Some; congruence). rewrite nth_error_map.
    rewrite (nth_error_nth' (seq b (List.length l)) 0) by (rewrite seq_length; exact Li). rewrite seq_nth by exact Li. reflexivity.
  - intros a Ha. apply Go. intros k ->. cbn [get] in Ha. destruct (Nat.lt_ge_cases k b) as [L|L]; [exact L|]. rewrite nth_overflow in Ha by exact L. congruence.
  - unfold r. cbn [get]. apply nth_overflow. unfold b. lia.
  - unfold decref. rewrite (drop_one _ h' r _ _ _ Gr).
    assert (Ln : List.length (h_new h') = Datatypes.S (b + List.length l)) by (unfold h', alloc; cbn [fst h_new]; rewrite app_length, L1; cbn [List.length]; lia).
    rewrite Ln. cbn [Nat.add]. rewrite Es.
    destruct (free_all (b + List.length l + h_size h') (seq b (List.length l)) (put h' r None)) as (h2 & E2 & A & B).
    + apply seq_NoDup.
    + intros k Hk. apply in_seq in Hk. destruct (nth_error l (k - b)) as [t|] eqn:Et; [|apply nth_error_None in Et; lia].
      exists (DText t). rewrite get_put by congruence. unfold r. cbn [addr_eqb].
      replace (k =? b + List.length l) with false by (symmetry; apply Nat.eqb_neq; lia).
      replace k with (b + (k - b)) by lia. apply Gi. exact Et.
    + exists h2. split; [exact E2|]. intros a. destruct (in_dec (fun x y : nat => Nat.eq_dec x y) (match a with New k => k | _ => b + List.length l end) (seq b (List.length l))) as [I|I].
      * destruct a as [g|n|k]; try (apply in_seq in I; lia). rewrite (A k I). symmetry. cbn [get]. apply nth_overflow. apply in_seq in I. unfold b in I. lia.
      * rewrite B; [|intros Z; apply in_map_iff in Z; destruct Z as (k & <- & Hk); exact (I Hk)].
        rewrite get_put by congruence. destruct (addr_eqb a r) eqn:X.
        -- apply addr_eqb_eq in X. subst a. unfold r. cbn [get]. symmetry. apply nth_overflow. unfold b. lia.
        -- destruct a as [g|n|k]; [apply Go; discriminate|apply Go; discriminate|].
           destruct (Nat.lt_ge_cases k b) as [L|L]; [apply Go; intros j Ej; injection Ej as <-; exact L|].
           assert (K : k > b + List.length l).
           { rewrite in_seq in I. unfold r in X. cbn [addr_eqb] in X. apply Nat.eqb_neq in X. lia. }
           cbn [get]. rewrite !nth_overflow; [reflexivity|unfold b in L; lia|rewrite Ln; lia].
Qed.
End P.
