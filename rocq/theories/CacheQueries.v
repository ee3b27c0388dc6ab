(** * Lemmas about reading per-frame histories *)
From Coq Require Import ZArith Bool List Lia Sorting.Sorted Sorting.Permutation.
From Verif Require Import RosTime Scalar LinearMath Cache SpecCache CacheProofs.
Import ListNotations.
Open Scope Z_scope.

Section P.
Context {S : Scalar} {F : Type} (feqb : F -> F -> bool).
Notation storage := (storage S F).
Notation cache := (cache S F).
Implicit Types (l : list storage) (x y z f one two older newer : storage) (t : time) (max : duration) (err : errp).

Lemma lower_bound_found : forall l t prev,
  newest_first l -> (exists x, In x l /\ st_stamp x <= t) ->
  (forall p, prev = Some p -> t < st_stamp p) ->
  (exists p, prev = Some p) \/ (exists y, In y l /\ t < st_stamp y) ->
  exists older newer l1 l2,
    lower_bound_pair prev l t = Some (older, newer) /\
    st_stamp older <= t < st_stamp newer /\
    match prev with Some p => p :: l | None => l end = l1 ++ newer :: older :: l2.
Proof.
  induction l as [|a l IH]; intros t prev N (x & Hx & Lx) Hp Hn; [destruct Hx|].
  apply nf_inv in N as [N Na]. cbn [lower_bound_pair].
  destruct (st_stamp a <=? t) eqn:E.
  - apply Z.leb_le in E. destruct prev as [p|].
    + exists a, p, [], l. split; [reflexivity|]. split; [|reflexivity].
      specialize (Hp p eq_refl). lia.
    + destruct Hn as [(p & Hpn)|(y & [<-|Hy] & Ly)]; [discriminate|lia|].
      specialize (Na _ Hy). lia.
  - apply Z.leb_gt in E. destruct Hx as [->|Hx]; [lia|].
    destruct (IH t (Some a) N) as (o & n & l1 & l2 & E1 & E2 & E3).
    + exists x; auto.
    + intros p Hpe. inversion Hpe; subst; assumption.
    + left; exists a; reflexivity.
    + exists o, n. rewrite E1. destruct prev as [p|].
      * exists (p :: l1), l2. split; [reflexivity|]. split; [assumption|]. cbn. rewrite E3. reflexivity.
      * exists l1, l2. auto.
Qed.

(** What findClosest does on a sorted history, by the position of the requested time. *)
Lemma find_empty : forall t err, findClosest ([] : list storage) t err = Ok (Found0, err).
Proof. reflexivity. Qed.

Lemma find_zero : forall f l err, findClosest (f :: l) 0 err = Ok (Found1 f, err).
Proof. reflexivity. Qed.

Lemma find_newest : forall f l t err, t <> 0 -> st_stamp f = t ->
  findClosest (f :: l) t err = Ok (Found1 f, err).
Proof.
  intros f l t err Ht E. unfold findClosest. rewrite (proj2 (Z.eqb_neq t 0) Ht).
  destruct l as [|g l].
  - rewrite (proj2 (Z.eqb_eq _ _) E). reflexivity.
  - rewrite E, Z.eqb_refl. reflexivity.
Qed.

Lemma find_oldest : forall f l t err, newest_first (f :: l) -> t <> 0 ->
  st_stamp (last l f) = t ->
  findClosest (f :: l) t err = Ok (Found1 (last l f), err).
Proof.
  intros f l t err N Ht E. unfold findClosest. rewrite (proj2 (Z.eqb_neq t 0) Ht).
  destruct l as [|g l].
  - cbn in E |- *. rewrite (proj2 (Z.eqb_eq _ _) E). reflexivity.
  - destruct (t =? st_stamp f) eqn:E1.
    + apply Z.eqb_eq in E1. exfalso. apply nf_inv in N as [_ N].
      assert (Hl : In (last (g :: l) f) (g :: l)) by (apply last_in_tail; discriminate).
      specialize (N _ Hl). lia.
    + rewrite E, Z.eqb_refl. reflexivity.
Qed.

Lemma find_between : forall f l t err, newest_first (f :: l) -> t <> 0 ->
  st_stamp (last l f) < t < st_stamp f ->
  exists older newer l1 l2,
    f :: l = l1 ++ newer :: older :: l2 /\
    st_stamp older <= t < st_stamp newer /\
    findClosest (f :: l) t err = Ok (Found2 older newer, err).
Proof.
  intros f l t err N Ht [L1 L2].
  destruct (lower_bound_found (f :: l) t None N) as (o & n & l1 & l2 & E1 & E2 & E3).
  - exists (last l f). split; [apply last_in|lia].
  - discriminate.
  - right. exists f. split; [cbn; auto|assumption].
  - exists o, n, l1, l2. split; [assumption|]. split; [assumption|].
    unfold findClosest. rewrite (proj2 (Z.eqb_neq t 0) Ht).
    destruct l as [|g l]; [cbn in L1; lia|].
    rewrite (proj2 (Z.eqb_neq t (st_stamp f))) by lia.
    rewrite (proj2 (Z.eqb_neq t (st_stamp (last (g :: l) f)))) by lia.
    rewrite (proj2 (Z.ltb_ge (st_stamp f) t)) by lia.
    rewrite (proj2 (Z.ltb_ge t (st_stamp (last (g :: l) f)))) by lia.
    rewrite E1. reflexivity.
Qed.

Lemma find_future : forall f l t err, newest_first (f :: l) -> t <> 0 -> st_stamp f < t ->
  findClosest (f :: l) t err =
    match l with
    | [] => Ok (Found0, set_err err (EExtrapOnly t (st_stamp f)))
    | _ => err' <- extrap2 t (st_stamp f) err ;; Ok (Found0, err')
    end.
Proof.
  intros f l t err N Ht L. unfold findClosest. rewrite (proj2 (Z.eqb_neq t 0) Ht).
  destruct l as [|g l].
  - rewrite (proj2 (Z.eqb_neq (st_stamp f) t)) by lia. reflexivity.
  - rewrite (proj2 (Z.eqb_neq t (st_stamp f))) by lia.
    assert (Hl : In (last (g :: l) f) (g :: l)) by (apply last_in_tail; discriminate).
    apply nf_inv in N as [_ N]. specialize (N _ Hl).
    rewrite (proj2 (Z.eqb_neq t (st_stamp (last (g :: l) f)))) by lia.
    rewrite (proj2 (Z.ltb_lt (st_stamp f) t)) by lia. reflexivity.
Qed.

Lemma find_past : forall f l t err, newest_first (f :: l) -> t <> 0 -> t < st_stamp (last l f) ->
  findClosest (f :: l) t err =
    match l with
    | [] => Ok (Found0, set_err err (EExtrapOnly t (st_stamp f)))
    | _ => err' <- extrap3 t (st_stamp (last l f)) err ;; Ok (Found0, err')
    end.
Proof.
  intros f l t err N Ht L. unfold findClosest. rewrite (proj2 (Z.eqb_neq t 0) Ht).
  destruct l as [|g l].
  - cbn in L. rewrite (proj2 (Z.eqb_neq (st_stamp f) t)) by lia. reflexivity.
  - assert (Hl : In (last (g :: l) f) (g :: l)) by (apply last_in_tail; discriminate).
    apply nf_inv in N as [_ N]. specialize (N _ Hl).
    rewrite (proj2 (Z.eqb_neq t (st_stamp f))) by lia.
    rewrite (proj2 (Z.eqb_neq t (st_stamp (last (g :: l) f)))) by lia.
    rewrite (proj2 (Z.ltb_ge (st_stamp f) t)) by lia.
    rewrite (proj2 (Z.ltb_lt t (st_stamp (last (g :: l) f)))) by lia. reflexivity.
Qed.

(** ** health of a cache *)
Definition cache_ok (c : cache) : Prop :=
  match c with
  | Dynamic max l => 0 <= max < dur_bound /\ cache_inv max l
  | Static o => exists s : storage, o = Some s
  end.

Lemma interpolate_lt : forall one two t max, 0 <= max < dur_bound ->
  st_stamp one <= t < st_stamp two -> st_stamp two <= st_stamp one + max ->
  interpolate one two t =
    Ok {| st_trans := vinterp (st_trans one) (st_trans two)
            (sdiv (sofns (t - st_stamp one)) (sofns (st_stamp two - st_stamp one)));
          st_rot := qslerp (st_rot one) (st_rot two)
            (sdiv (sofns (t - st_stamp one)) (sofns (st_stamp two - st_stamp one)));
          st_stamp := t; st_frame := st_frame one; st_child := st_child one |}.
Proof.
  intros one two t max Hm [L1 L2] W. unfold interpolate.
  rewrite (proj2 (Z.eqb_neq (st_stamp two) (st_stamp one))) by lia.
  rewrite time_sub_ok by (unfold valid_dur; unfold dur_bound in *; lia).
  rewrite time_sub_ok by (unfold valid_dur; unfold dur_bound in *; lia). reflexivity.
Qed.

(** Times at which a history has data: inside [oldest, newest], or zero for "latest". *)
Definition covers (l : list storage) (t : time) : Prop :=
  l <> [] /\ (t = 0 \/ exists lo hi, In lo l /\ In hi l /\ st_stamp lo <= t <= st_stamp hi).

Lemma position : forall f l t, newest_first (f :: l) ->
  t = 0 \/ (t <> 0 /\ st_stamp f = t) \/ (t <> 0 /\ st_stamp (last l f) = t /\ st_stamp f <> t) \/
  (t <> 0 /\ st_stamp (last l f) < t < st_stamp f) \/ (t <> 0 /\ st_stamp f < t) \/
  (t <> 0 /\ t < st_stamp (last l f)).
Proof.
  intros f l t N. pose proof (nf_head_max _ _ _ N (last_in l f)). lia.
Qed.

Lemma not_covers_future : forall f l t, newest_first (f :: l) -> t <> 0 -> st_stamp f < t ->
  ~ covers (f :: l) t.
Proof.
  intros f l t N Ht L [_ [?|(lo & hi & _ & Hh & B)]]; [lia|].
  pose proof (nf_head_max _ _ _ N Hh). lia.
Qed.
Lemma not_covers_past : forall f l t, newest_first (f :: l) -> t <> 0 -> t < st_stamp (last l f) ->
  ~ covers (f :: l) t.
Proof.
  intros f l t N Ht L [_ [?|(lo & hi & Hl & _ & B)]]; [lia|].
  pose proof (nf_last_min _ _ _ N Hl). lia.
Qed.

Lemma in_mid : forall l1 l2 x y, In x (l1 ++ x :: y :: l2) /\ In y (l1 ++ x :: y :: l2).
Proof. intros. split; apply in_or_app; cbn; auto. Qed.

(** Reading inside the covered range succeeds, with the same parent from both accessors. *)
Lemma getData_covered : forall max l t err, cache_ok (Dynamic max l) -> covers l t ->
  exists d, getData feqb (Dynamic max l) t err = Ok (Some d, err) /\
            getParent (Dynamic max l) t err = Ok (Some (st_frame d), err).
Proof.
  intros max l t err [Hm (N & W & P)] C. destruct l as [|f l]; [destruct C; congruence|].
  cbn [getData getParent].
  destruct (position f l t N) as [->|[(Ht & E)|[(Ht & E & _)|[(Ht & B)|[(Ht & L)|(Ht & L)]]]]].
  - rewrite find_zero. cbn. eauto.
  - rewrite find_newest by assumption. cbn. eauto.
  - rewrite find_oldest by assumption. cbn. eauto.
  - destruct (find_between f l t err N Ht B) as (o & n & l1 & l2 & El & B' & ->). cbn.
    destruct (feqb (st_frame o) (st_frame n)); [|eauto].
    rewrite interpolate_lt with (max := max); [|assumption|lia|].
    + cbn. eauto.
    + destruct (in_mid l1 l2 n o). rewrite <- El in *. auto.
  - destruct (not_covers_future f l t N Ht L C).
  - destruct (not_covers_past f l t N Ht L C).
Qed.

(** Reading outside yields nothing: false, or the range exception when an error text was
    wanted and the distance is not a Duration. *)
Lemma getData_uncovered : forall max l t err, cache_ok (Dynamic max l) -> ~ covers l t ->
  (exists e, getData feqb (Dynamic max l) t err = Ok (None, e) /\
             getParent (Dynamic max l) t err = Ok (None, e) /\ (err = None -> e = None) /\
             (err <> None -> e <> None)) \/
  (err <> None /\ getData feqb (Dynamic max l) t err = Throw RuntimeError ETimeRange /\
   getParent (Dynamic max l) t err = Throw RuntimeError ETimeRange).
Proof.
  intros max l t err [Hm (N & W & P)] C. destruct l as [|f l].
  { left. exists err. cbn. auto. }
  assert (Hf : forall x, In x (f :: l) -> st_stamp x = t -> False).
  { intros x Hx E. apply C. split; [discriminate|]. right. exists x, x. repeat split; auto; lia. }
  cbn [getData getParent].
  destruct (position f l t N) as [->|[(Ht & E)|[(Ht & E & _)|[(Ht & B)|[(Ht & L)|(Ht & L)]]]]].
  - destruct C. split; [discriminate|auto].
  - destruct (Hf f); cbn; auto.
  - destruct (Hf (last l f)); [apply last_in|assumption].
  - destruct C. split; [discriminate|]. right. exists (last l f), f.
    split; [apply last_in|]. split; [cbn; auto|lia].
  - rewrite find_future by assumption. destruct l as [|g l].
    + left. eexists. cbn. split; [reflexivity|]. split; [reflexivity|].
      destruct err; cbn; split; intros; congruence.
    + unfold extrap2. destruct err as [e0|]; cbn.
      * destruct (time_sub t (st_stamp f)); cbn.
        -- left. eexists. split; [reflexivity|]. split; [reflexivity|]. split; congruence.
        -- right. split; [discriminate|auto].
      * left. eexists. split; [reflexivity|]. split; [reflexivity|]. split; congruence.
  - rewrite find_past by assumption. destruct l as [|g l].
    + left. eexists. cbn. split; [reflexivity|]. split; [reflexivity|].
      destruct err; cbn; split; intros; congruence.
    + unfold extrap3. destruct err as [e0|]; cbn [bind lift_time].
      * destruct (time_sub _ t); cbn.
        -- left. eexists. split; [reflexivity|]. split; [reflexivity|]. split; congruence.
        -- right. split; [discriminate|auto].
      * left. eexists. split; [reflexivity|]. split; [reflexivity|]. split; congruence.
Qed.

Lemma covers_dec : forall l t, newest_first l -> covers l t \/ ~ covers l t.
Proof.
  intros [|f l] t N; [right; intros [H _]; congruence|].
  destruct (position f l t N) as [->|[(Ht & E)|[(Ht & E & _)|[(Ht & B)|[(Ht & L)|(Ht & L)]]]]].
  - left. split; [discriminate|auto].
  - left. split; [discriminate|right]. exists f, f. cbn. repeat split; auto; lia.
  - left. split; [discriminate|right]. exists (last l f), (last l f).
    pose proof (last_in l f). repeat split; auto; lia.
  - left. split; [discriminate|right]. exists (last l f), f.
    pose proof (last_in l f). repeat split; cbn; auto; lia.
  - right. apply not_covers_future; assumption.
  - right. apply not_covers_past; assumption.
Qed.

(** getParent and getData always agree on a healthy cache. *)
Lemma getParent_getData : forall c t err, cache_ok c ->
  getParent c t err =
  bind (getData feqb c t err) (fun '(o, e) => Ok (option_map (@st_frame S F) o, e)).
Proof.
  intros [max l|o] t err H.
  - destruct H as [Hm HI]. destruct (covers_dec l t (proj1 HI)) as [C|C].
    + destruct (getData_covered max l t err (conj Hm HI) C) as (d & -> & ->). reflexivity.
    + destruct (getData_uncovered max l t err (conj Hm HI) C) as [(e & -> & -> & _)|(_ & -> & ->)]; reflexivity.
  - destruct H as [s ->]. reflexivity.
Qed.

(** Without an error string a healthy cache never throws. *)
Lemma getData_no_throw : forall c t, cache_ok c -> exists o, getData feqb c t None = Ok (o, None).
Proof.
  intros [max l|o] t H.
  - destruct H as [Hm HI]. destruct (covers_dec l t (proj1 HI)) as [C|C].
    + destruct (getData_covered max l t None (conj Hm HI) C) as (d & -> & _). eauto.
    + destruct (getData_uncovered max l t None (conj Hm HI) C) as [(e & -> & _ & He & _)|(H & _)].
      * rewrite (He eq_refl). eauto.
      * congruence.
  - destruct H as [s ->]. cbn. eauto.
Qed.

(** Whether data is found does not depend on the error string. *)
Lemma getData_err : forall c t err, cache_ok c ->
  (exists d, getData feqb c t None = Ok (Some d, None) /\ getData feqb c t err = Ok (Some d, err)) \/
  (getData feqb c t None = Ok (None, None) /\
   ((exists e, getData feqb c t err = Ok (None, e) /\ (err = None <-> e = None)) \/
    (err <> None /\ getData feqb c t err = Throw RuntimeError ETimeRange))).
Proof.
  intros [max l|o] t err H.
  - destruct H as [Hm HI]. destruct (covers_dec l t (proj1 HI)) as [C|C].
    + left. destruct l as [|f l]; [destruct C; congruence|].
      destruct HI as (N & W & P). cbn [getData].
      destruct (position f l t N) as [->|[(Ht & E)|[(Ht & E & _)|[(Ht & B)|[(Ht & L)|(Ht & L)]]]]].
      * rewrite !find_zero. cbn. eauto.
      * rewrite !find_newest by assumption. cbn. eauto.
      * rewrite !find_oldest by assumption. cbn. eauto.
      * destruct (find_between f l t err N Ht B) as (o & n & l1 & l2 & El & B' & E1).
        assert (E2 : findClosest (f :: l) t None = Ok (Found2 o n, None)).
        { destruct (find_between f l t None N Ht B) as (o' & n' & l1' & l2' & El' & B'' & E2).
          assert (Io : In o (f :: l) /\ In n (f :: l)).
          { rewrite El. split; apply in_mid. }
          rewrite E2. unfold findClosest in E1, E2.
          rewrite (proj2 (Z.eqb_neq t 0) Ht) in E1, E2.
          destruct l as [|g l]; [cbn in B; lia|].
          rewrite (proj2 (Z.eqb_neq t (st_stamp f))) in E1, E2 by lia.
          rewrite (proj2 (Z.eqb_neq t (st_stamp (last (g :: l) f)))) in E1, E2 by lia.
          rewrite (proj2 (Z.ltb_ge (st_stamp f) t)) in E1, E2 by lia.
          rewrite (proj2 (Z.ltb_ge t (st_stamp (last (g :: l) f)))) in E1, E2 by lia.
          destruct (lower_bound_pair None (f :: g :: l) t) as [[a b]|]; [|discriminate].
          inversion E1; inversion E2; subst; reflexivity. }
        rewrite E1, E2. cbn.
        destruct (feqb (st_frame o) (st_frame n)); [|eauto].
        rewrite interpolate_lt with (max := max); [|assumption|lia|].
        -- cbn. eauto.
        -- destruct (in_mid l1 l2 n o). rewrite <- El in *. auto.
      * destruct (not_covers_future f l t N Ht L C).
      * destruct (not_covers_past f l t N Ht L C).
    + right. destruct (getData_uncovered max l t None (conj Hm HI) C) as [(e & E & _ & He & _)|(H & _)]; [|congruence].
      rewrite (He eq_refl) in E. split; [assumption|].
      destruct (getData_uncovered max l t err (conj Hm HI) C) as [(e' & E' & _ & He' & He2)|(H & E' & _)].
      * left. exists e'. split; [assumption|]. destruct err; split; intros; try congruence; auto.
        exfalso. apply He2; [discriminate|assumption].
      * right. auto.
  - destruct H as [s ->]. cbn. left. eauto.
Qed.

(** The range exception cannot occur when request and data are less than 2^31 s apart. *)
Lemma getData_no_range : forall c t err, cache_ok c ->
  (forall max l x, c = Dynamic max l -> In x l -> - dur_bound <= t - st_stamp x < dur_bound /\
                                                 - dur_bound <= st_stamp x - t < dur_bound) ->
  getData feqb c t err <> Throw RuntimeError ETimeRange.
Proof.
  intros [max l|o] t err H Hd.
  - destruct H as [Hm (N & W & P)]. destruct (covers_dec l t N) as [C|C].
    + destruct (getData_covered max l t err (conj Hm (conj N (conj W P))) C) as (d & -> & _).
      discriminate.
    + destruct l as [|f l]; [cbn; discriminate|]. cbn [getData].
      destruct (position f l t N) as [->|[(Ht & E)|[(Ht & E & _)|[(Ht & B)|[(Ht & L)|(Ht & L)]]]]].
      * rewrite find_zero. discriminate.
      * rewrite find_newest by assumption. discriminate.
      * rewrite find_oldest by assumption. discriminate.
      * destruct C. split; [discriminate|]. right. exists (last l f), f.
        split; [apply last_in|]. split; [cbn; auto|lia].
      * rewrite find_future by assumption. destruct l as [|g l]; [discriminate|].
        unfold extrap2. destruct err; [|discriminate].
        destruct (Hd _ _ f eq_refl (or_introl eq_refl)) as [H1 H2].
        rewrite time_sub_ok by exact H1. discriminate.
      * rewrite find_past by assumption. destruct l as [|g l]; [discriminate|].
        unfold extrap3. destruct err; [|discriminate].
        destruct (Hd _ _ (last (g :: l) f) eq_refl) as [H1 H2]; [apply last_in|].
        rewrite time_sub_ok by exact H2. discriminate.
  - destruct H as [s ->]. discriminate.
Qed.
End P.
