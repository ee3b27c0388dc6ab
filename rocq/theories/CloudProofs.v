(** * Proofs about point clouds *)
From Coq Require Import ZArith Bool String List Arith Lia.
From Verif Require Import RosTime Scalar LinearMath GeomMsgs ForeignGeom SensorMsgs SpecCloud.
Import ListNotations.
Local Open Scope nat_scope.

(** ** Lists *)
Section Lists.
Context {A : Type}.
Lemma list_ext : forall l1 l2 : list A, (forall j, nth_error l1 j = nth_error l2 j) -> l1 = l2.
Proof.
  induction l1 as [|a l1 IH]; intros [|b l2] H.
  - reflexivity.
  - specialize (H 0). discriminate.
  - specialize (H 0). discriminate.
  - pose proof (H 0) as H0. cbn in H0. injection H0 as <-. f_equal. apply IH. intros j. exact (H (S j)).
Qed.
Lemma nth_error_skip : forall (l : list A) p j, nth_error (skipn p l) j = nth_error l (p + j).
Proof.
  induction l as [|a l IH]; intros [|p] j; cbn; try reflexivity; [destruct j; reflexivity|apply IH].
Qed.
Lemma nth_error_first : forall (l : list A) n j, nth_error (firstn n l) j = if j <? n then nth_error l j else None.
Proof.
  induction l as [|a l IH]; intros [|n] [|j]; try reflexivity.
  - cbn [firstn nth_error]. destruct (S j <? S n); reflexivity.
  - cbn [firstn nth_error]. rewrite IH. reflexivity.
Qed.
Lemma cells_eq : forall (l1 l2 : list A) p1 p2, (forall j, j < 4 -> nth_error l1 (p1 + j) = nth_error l2 (p2 + j)) ->
  firstn 4 (skipn p1 l1) = firstn 4 (skipn p2 l2).
Proof.
  intros l1 l2 p1 p2 H. apply list_ext. intros j. rewrite !nth_error_first. destruct (Nat.ltb_spec j 4); [|reflexivity].
  rewrite !nth_error_skip. apply H. assumption.
Qed.
Lemma nth_error_over : forall (d e : list A) p j, p + 4 <= length d -> length e = 4 ->
  nth_error (firstn p d ++ e ++ skipn (p + 4) d) j = if (p <=? j) && (j <? p + 4) then nth_error e (j - p) else nth_error d j.
Proof.
  intros d e p j H E. assert (Lf : length (firstn p d) = p) by (rewrite firstn_length; lia).
  destruct (Nat.leb_spec p j); cbn [andb].
  - rewrite nth_error_app2 by lia. rewrite Lf. destruct (Nat.ltb_spec j (p + 4)).
    + apply nth_error_app1. lia.
    + rewrite nth_error_app2 by lia. rewrite E, nth_error_skip. f_equal. lia.
  - rewrite nth_error_app1 by lia. rewrite nth_error_first. destruct (Nat.ltb_spec j p); [reflexivity|lia].
Qed.
Lemma over_length : forall (d e : list A) p, p + 4 <= length d -> length e = 4 ->
  length (firstn p d ++ e ++ skipn (p + 4) d) = length d.
Proof. intros d e p H E. rewrite !app_length, firstn_length, skipn_length, E. lia. Qed.
End Lists.

Lemma set_field_spec : forall {cell} (c : cloud cell) name o, has_field c name o -> set_field (c_fields c) name = Some o.
Proof.
  intros cell c name o (before & f & after & E & Hn & Ho & Hb). rewrite E. clear E. induction before as [|g before IH].
  - cbn. rewrite Hn, String.eqb_refl, Ho. reflexivity.
  - cbn. destruct (String.eqb_spec (f_name g) name) as [X|X]; [exfalso; exact (Hb g (or_introl eq_refl) X)|].
    apply IH. intros g' Hg. apply Hb. right. exact Hg.
Qed.
Lemma set_field_none : forall fields name, (forall f, In f fields -> f_name f <> name) -> set_field fields name = None.
Proof.
  induction fields as [|f fields IH]; intros name H; [reflexivity|]. cbn.
  destruct (String.eqb_spec (f_name f) name) as [X|X]; [exfalso; exact (H f (or_introl eq_refl) X)|].
  apply IH. intros g Hg. apply H. right. exact Hg.
Qed.

(** ** The loop *)
Section Loop.
Context {cell : Type} {F : Scalar} (dec : list cell -> F) (enc : F -> list cell).
Hypothesis enc4 : forall x, length (enc x) = 4.
Variable t : xform F.
Variables step ox oy oz n : nat.
Variable d0 : list cell.
Hypothesis Hsize : length d0 = n * step.
Hypothesis Hin : ox + 4 <= step /\ oy + 4 <= step /\ oz + 4 <= step.
Hypothesis Hap : (ox + 4 <= oy \/ oy + 4 <= ox) /\ (ox + 4 <= oz \/ oz + 4 <= ox) /\ (oy + 4 <= oz \/ oz + 4 <= oy).

Definition at_ (k o : nat) : F := dec (firstn 4 (skipn (k * step + o) d0)).
Definition image (k : nat) : vec3 F := eig_apply t (V3 (at_ k ox) (at_ k oy) (at_ k oz)).
(** byte [j] once the first [k] points are done *)
Definition expected (k j : nat) : option cell :=
  let p := j / step in let r := j mod step in
  if p <? k then
    if (ox <=? r) && (r <? ox + 4) then nth_error (enc (vx (image p))) (r - ox)
    else if (oy <=? r) && (r <? oy + 4) then nth_error (enc (vy (image p))) (r - oy)
    else if (oz <=? r) && (r <? oz + 4) then nth_error (enc (vz (image p))) (r - oz)
    else nth_error d0 j
  else nth_error d0 j.
Definition state (k : nat) (d : list cell) : Prop :=
  length d = length d0 /\ forall j, j < length d0 -> nth_error d j = expected k j.

Lemma split_pos : forall j, j < length d0 -> j = step * (j / step) + j mod step /\ j mod step < step /\ j / step < n.
Proof.
  intros j Hj. assert (step <> 0) by lia. split; [apply Nat.div_mod; assumption|]. split; [apply Nat.mod_upper_bound; assumption|].
  apply Nat.div_lt_upper_bound; [assumption|lia].
Qed.
Lemma pos_split : forall k o j, o + 4 <= step -> j < 4 -> (k * step + o + j) / step = k /\ (k * step + o + j) mod step = o + j.
Proof.
  intros k o j Ho Hj. replace (k * step + o + j) with ((o + j) + k * step) by lia.
  split; [rewrite Nat.div_add, Nat.div_small by lia; lia|rewrite Nat.mod_add, Nat.mod_small by lia; lia].
Qed.

(** a point not yet done still reads as in the beginning *)
Lemma load_state : forall k d o, state k d -> k < n -> o + 4 <= step -> load dec d (k * step + o) = Some (at_ k o).
Proof.
  intros k d o [L E] Hk Ho. unfold load, at_. assert (k * step + o + 4 <= n * step) by nia.
  replace (k * step + o + 4 <=? length d) with true by (symmetry; apply Nat.leb_le; lia).
  f_equal. f_equal. apply cells_eq. intros j Hj. rewrite E by lia. unfold expected.
  destruct (pos_split k o j Ho Hj) as [-> _]. rewrite Nat.ltb_irrefl. reflexivity.
Qed.

(** writing the three coordinates of point [k] *)
Lemma store_some : forall d o k x, length d = length d0 -> k < n -> o + 4 <= step ->
  exists d', store enc d (k * step + o) x = Some d' /\ length d' = length d0 /\
    forall j, nth_error d' j = if (k * step + o <=? j) && (j <? k * step + o + 4) then nth_error (enc x) (j - (k * step + o)) else nth_error d j.
Proof.
  intros d o k x L Hk Ho. unfold store. assert (k * step + o + 4 <= n * step) by nia.
  replace (k * step + o + 4 <=? length d) with true by (symmetry; apply Nat.leb_le; lia).
  eexists. split; [reflexivity|]. split; [rewrite over_length; [exact L|lia|apply enc4]|].
  intros j. apply nth_error_over; [lia|apply enc4].
Qed.

Lemma range_bool : forall k o j, o + 4 <= step -> j < length d0 ->
  ((k * step + o <=? j) && (j <? k * step + o + 4)) = ((j / step =? k) && ((o <=? j mod step) && (j mod step <? o + 4))).
Proof.
  intros k o j Ho Hj. destruct (split_pos j Hj) as (E & Hr & Hp). set (p := j / step) in *. set (r := j mod step) in *.
  destruct (Nat.eqb_spec p k) as [->|N]; cbn [andb].
  - rewrite E. replace (k * step + o <=? step * k + r) with (o <=? r) by (destruct (Nat.leb_spec o r), (Nat.leb_spec (k * step + o) (step * k + r)); try reflexivity; lia).
    replace (step * k + r <? k * step + o + 4) with (r <? o + 4) by (destruct (Nat.ltb_spec r (o + 4)), (Nat.ltb_spec (step * k + r) (k * step + o + 4)); try reflexivity; lia).
    reflexivity.
  - destruct (Nat.leb_spec (k * step + o) j), (Nat.ltb_spec j (k * step + o + 4)); try reflexivity. exfalso.
    assert (p < k \/ k < p) as [|] by lia; nia.
Qed.

Lemma done_point : forall k d d1 d2 d3, state k d -> k < n ->
  length d3 = length d0 ->
  (forall j, nth_error d1 j = if (k * step + ox <=? j) && (j <? k * step + ox + 4) then nth_error (enc (vx (image k))) (j - (k * step + ox)) else nth_error d j) ->
  (forall j, nth_error d2 j = if (k * step + oy <=? j) && (j <? k * step + oy + 4) then nth_error (enc (vy (image k))) (j - (k * step + oy)) else nth_error d1 j) ->
  (forall j, nth_error d3 j = if (k * step + oz <=? j) && (j <? k * step + oz + 4) then nth_error (enc (vz (image k))) (j - (k * step + oz)) else nth_error d2 j) ->
  state (Datatypes.S k) d3.
Proof.
  intros k d d1 d2 d3 [L E] Hk L3 E1 E2 E3. split; [exact L3|]. intros j Hj. rewrite E3, E2, E1, E by exact Hj.
  rewrite !range_bool by (try exact Hj; apply Hin). destruct (split_pos j Hj) as (Ej & Hr & Hp). unfold expected.
  set (p := j / step) in *. set (r := j mod step) in *.
  destruct (Nat.eqb_spec p k) as [X|N]; cbn [andb].
  - replace (p <? k) with false by (symmetry; apply Nat.ltb_ge; lia). replace (p <? Datatypes.S k) with true by (symmetry; apply Nat.ltb_lt; lia).
    rewrite X. rewrite X in Ej.
    replace (j - (k * step + ox)) with (r - ox) by lia. replace (j - (k * step + oy)) with (r - oy) by lia. replace (j - (k * step + oz)) with (r - oz) by lia.
    destruct (Nat.leb_spec ox r), (Nat.ltb_spec r (ox + 4)), (Nat.leb_spec oy r), (Nat.ltb_spec r (oy + 4)), (Nat.leb_spec oz r), (Nat.ltb_spec r (oz + 4));
      cbn [andb]; try reflexivity; exfalso; lia.
  - replace (p <? Datatypes.S k) with (p <? k) by (destruct (Nat.ltb_spec p k), (Nat.ltb_spec p (Datatypes.S k)); try reflexivity; lia).
    reflexivity.
Qed.

(** memory *)
Variables i o : nat.
Notation M := (mem (cloud cell)).
Definition agrees (k : nat) (m0 m : M) : Prop :=
  state k (c_data (m o)) /\ set_cdata d0 (m o) = set_cdata d0 (m0 o) /\ (forall j, j <> o -> m j = m0 j).

Lemma loop_ok : forall left k fuel (m0 m : M), n = k + left -> left < fuel ->
  (i <> o -> c_data (m0 i) = d0) -> agrees k m0 m ->
  exists m', cloud_loop dec enc (at_loc i) (at_loc o) fuel t step step (length d0 + ox)
     (k * step + ox) (k * step + oy) (k * step + oz) (k * step + ox) (k * step + oy) (k * step + oz) m = Done m' /\ agrees n m0 m'.
Proof.
  induction left as [|left IH]; intros k fuel m0 m Hk Hf Hi (St & Sh & Ot); (destruct fuel as [|fuel]; [lia|]); cbn [cloud_loop].
  - rewrite Hsize. assert (n = k) by lia. subst k. rewrite Nat.eqb_refl. exists m. split; [reflexivity|]. split; [exact St|split; assumption].
  - destruct Hin as (Ix & Iy & Iz).
    replace (k * step + ox =? length d0 + ox) with false by (symmetry; apply Nat.eqb_neq; rewrite Hsize; nia).
    assert (Li : forall o', o' + 4 <= step -> load dec (c_data (rd (at_loc i) m)) (k * step + o') = Some (at_ k o')).
    { intros o' Ho. cbn [rd at_loc]. destruct (Nat.eq_dec i o) as [X|X].
      - rewrite X. apply load_state; [exact St|lia|exact Ho].
      - rewrite (Ot i X), (Hi X). unfold load, at_. assert (k * step + o' + 4 <= n * step) by nia.
        replace (k * step + o' + 4 <=? length d0) with true by (symmetry; apply Nat.leb_le; lia). reflexivity. }
    rewrite !Li by assumption. fold (image k).
    assert (Kn : k < n) by lia. pose proof St as [L0 _].
    destruct (store_some (c_data (m o)) ox k (vx (image k)) L0 Kn Ix) as (d1 & S1 & L1 & E1).
    cbn [rd wr r_cdata member at_loc]. rewrite S1. rewrite !Nat.eqb_refl. cbn [c_data set_cdata].
    destruct (store_some d1 oy k (vy (image k)) L1 Kn Iy) as (d2 & S2 & L2 & E2). rewrite S2, ?Nat.eqb_refl. cbn [c_data set_cdata].
    destruct (store_some d2 oz k (vz (image k)) L2 Kn Iz) as (d3 & S3 & L3 & E3). rewrite S3.
    match goal with |- exists m', cloud_loop _ _ _ _ _ _ _ _ _ _ _ _ _ _ _ ?mm = _ /\ _ => set (m3 := mm) end.
    assert (A3 : agrees (Datatypes.S k) m0 m3).
    { split; [|split].
      - unfold m3. rewrite Nat.eqb_refl. cbn [c_data set_cdata]. exact (done_point k _ d1 d2 d3 St Kn L3 E1 E2 E3).
      - rewrite <- Sh. unfold m3. rewrite Nat.eqb_refl. reflexivity.
      - intros j Hj. unfold m3. replace (j =? o) with false by (symmetry; apply Nat.eqb_neq; exact Hj). apply Ot. exact Hj. }
    destruct (IH (Datatypes.S k) fuel m0 m3 ltac:(lia) ltac:(lia) Hi A3) as (m' & R & A).
    exists m'. split; [|exact A]. rewrite <- R. f_equal; lia.
Qed.

Lemma start : forall m : M, c_data (m o) = d0 -> agrees 0 m m.
Proof. intros m H. split; [|split; [reflexivity|reflexivity]]. rewrite H. split; [reflexivity|]. intros j Hj. reflexivity. Qed.

(** what the final state means *)
Lemma final_bytes : forall d k, state n d -> k < n ->
  firstn 4 (skipn (k * step + ox) d) = enc (vx (image k)) /\
  firstn 4 (skipn (k * step + oy) d) = enc (vy (image k)) /\
  firstn 4 (skipn (k * step + oz) d) = enc (vz (image k)).
Proof.
  intros d k [L E] Hk. destruct Hin as (Ix & Iy & Iz).
  assert (G : forall o' x, o' + 4 <= step -> (forall j, j < 4 -> expected n (k * step + o' + j) = nth_error (enc x) j) ->
     firstn 4 (skipn (k * step + o') d) = enc x).
  { intros o' x Ho H. apply list_ext. intros j. rewrite nth_error_first. destruct (Nat.ltb_spec j 4) as [Hj|Hj].
    - rewrite nth_error_skip, E by nia. apply H. exact Hj.
    - symmetry. apply nth_error_None. rewrite enc4. exact Hj. }
  assert (P : forall o' j, o' + 4 <= step -> j < 4 -> (k * step + o' + j) / step <? n = true).
  { intros o' j Ho Hj. destruct (pos_split k o' j Ho Hj) as [-> _]. apply Nat.ltb_lt. exact Hk. }
  split; [|split]; apply G; try assumption; intros j Hj; unfold expected; rewrite P by assumption.
  - destruct (pos_split k ox j Ix Hj) as [-> ->].
    replace (ox <=? ox + j) with true by (symmetry; apply Nat.leb_le; lia). replace (ox + j <? ox + 4) with true by (symmetry; apply Nat.ltb_lt; lia).
    cbn [andb]. f_equal. lia.
  - destruct (pos_split k oy j Iy Hj) as [-> ->].
    replace ((ox <=? oy + j) && (oy + j <? ox + 4)) with false
      by (symmetry; destruct (Nat.leb_spec ox (oy + j)), (Nat.ltb_spec (oy + j) (ox + 4)); try reflexivity; lia).
    replace (oy <=? oy + j) with true by (symmetry; apply Nat.leb_le; lia). replace (oy + j <? oy + 4) with true by (symmetry; apply Nat.ltb_lt; lia).
    cbn [andb]. f_equal. lia.
  - destruct (pos_split k oz j Iz Hj) as [-> ->].
    replace ((ox <=? oz + j) && (oz + j <? ox + 4)) with false
      by (symmetry; destruct (Nat.leb_spec ox (oz + j)), (Nat.ltb_spec (oz + j) (ox + 4)); try reflexivity; lia).
    replace ((oy <=? oz + j) && (oz + j <? oy + 4)) with false
      by (symmetry; destruct (Nat.leb_spec oy (oz + j)), (Nat.ltb_spec (oz + j) (oy + 4)); try reflexivity; lia).
    replace (oz <=? oz + j) with true by (symmetry; apply Nat.leb_le; lia). replace (oz + j <? oz + 4) with true by (symmetry; apply Nat.ltb_lt; lia).
    cbn [andb]. f_equal. lia.
Qed.
Lemma final_rest : forall d j, state n d ->
  ~ ((ox <= j mod step < ox + 4) \/ (oy <= j mod step < oy + 4) \/ (oz <= j mod step < oz + 4)) -> nth_error d j = nth_error d0 j.
Proof.
  intros d j [L E] H. destruct (Nat.lt_ge_cases j (length d0)) as [Hj|Hj].
  - rewrite E by exact Hj. unfold expected. set (r := j mod step) in *. destruct (j / step <? n); [|reflexivity].
    destruct (Nat.leb_spec ox r), (Nat.ltb_spec r (ox + 4)), (Nat.leb_spec oy r), (Nat.ltb_spec r (oy + 4)), (Nat.leb_spec oz r), (Nat.ltb_spec r (oz + 4));
      cbn [andb]; try reflexivity; exfalso; apply H; lia.
  - rewrite (proj2 (nth_error_None d j)), (proj2 (nth_error_None d0 j)) by lia. reflexivity.
Qed.
End Loop.
