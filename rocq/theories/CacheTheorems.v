(** * Per-frame histories: lemmas behind the property theorems of PropsCache.v *)
From Coq Require Import ZArith Bool List Lia Sorting.Sorted Sorting.Permutation.
From Verif Require Import RosTime Scalar LinearMath Cache SpecCache CacheProofs CacheQueries.
Import ListNotations.
Open Scope Z_scope.

Section P.
Context {S : Scalar} {F : Type}.
Notation storage := (storage S F).
Notation cache := (cache S F).
Implicit Types (l : list storage) (x y z f one two older newer : storage) (t : time)
  (max : duration) (err : errp).

Lemma in_two_neighbours : forall l1 l2 n o x, newest_first (l1 ++ n :: o :: l2) ->
  In x (l1 ++ n :: o :: l2) -> st_stamp x <= st_stamp o \/ st_stamp n <= st_stamp x.
Proof.
  intros l1 l2 n o x N Hx. apply nf_app in N as (_ & N & D).
  apply in_app_or in Hx as [Hx|[<-|[<-|Hx]]].
  - right. specialize (D x n Hx (or_introl eq_refl)). lia.
  - right. lia.
  - left. lia.
  - left. apply nf_inv in N as [N _]. apply nf_inv in N as [_ N]. specialize (N _ Hx). lia.
Qed.

(** The two nodes findClosest returns are the neighbours of the requested time. *)
Lemma find_neighbours : forall l t err older newer, newest_first l -> stamps_nonneg l -> t <> 0 ->
  In older l -> In newer l -> st_stamp older <= t < st_stamp newer ->
  (forall x, In x l -> st_stamp x <= st_stamp older \/ st_stamp newer <= st_stamp x) ->
  (st_stamp older = t -> exists x, In x l /\ st_stamp x < t) ->
  findClosest l t err = Ok (Found2 older newer, err).
Proof.
  intros [|f l] t err older newer N P Ht Ho Hn B G E; [destruct Ho|].
  pose proof (nf_last_min _ _ _ N Ho) as M1. pose proof (nf_head_max _ _ _ N Hn) as M2.
  assert (B2 : st_stamp (last l f) < t < st_stamp f).
  { split; [|lia]. destruct (Z.eq_dec (st_stamp older) t) as [e|e]; [|lia].
    destruct (E e) as (x & Hx & Lx). pose proof (nf_last_min _ _ _ N Hx). lia. }
  destruct (find_between f l t err N Ht B2) as (o & n & l1 & l2 & El & B' & ->).
  assert (Io : In o (f :: l)) by (rewrite El; apply in_mid).
  assert (In_ : In n (f :: l)) by (rewrite El; apply in_mid).
  assert (o = older /\ n = newer) as [-> ->]; [|reflexivity].
  pose proof N as N2. rewrite El in N2.
  assert (Ho2 := Ho). assert (Hn2 := Hn). rewrite El in Ho2, Hn2.
  pose proof (in_two_neighbours _ _ _ _ _ N2 Ho2). pose proof (in_two_neighbours _ _ _ _ _ N2 Hn2).
  pose proof (G _ Io). pose proof (G _ In_).
  split; apply (nf_unique_stamp (f :: l)); auto; lia.
Qed.

(** C06 *)
Lemma interpolation_neighbours : forall (feqb : F -> F -> bool) max ops l older newer t err,
  0 <= max < dur_bound -> (forall x, In (Offer x) ops -> 0 <= st_stamp x) ->
  run_cache (Dynamic max []) ops = Dynamic max l ->
  bracketing l older newer t ->
  getData feqb (Dynamic max l) t err =
    Ok (Some (if feqb (st_frame older) (st_frame newer) then
                let ratio := sdiv (sofns (t - st_stamp older))
                                  (sofns (st_stamp newer - st_stamp older)) in
                {| st_trans := vinterp (st_trans older) (st_trans newer) ratio;
                   st_rot := qslerp (st_rot older) (st_rot newer) ratio;
                   st_stamp := t; st_frame := st_frame older; st_child := st_child older |}
              else older), err).
Proof.
  intros feqb max ops l older newer t err Hm Hops E (Ho & Hn & B & G).
  destruct (run_cache_inv max ops) as (l' & E' & N & W & P); [lia|assumption|].
  rewrite E in E'. inversion E'; subst l'.
  cbn [getData]. rewrite find_neighbours with (older := older) (newer := newer); auto; try lia.
  2:{ specialize (P _ Ho). lia. }
  cbn. destruct (feqb (st_frame older) (st_frame newer)); [|reflexivity].
  rewrite interpolate_lt with (max := max); [reflexivity|assumption|lia|].
  apply W; assumption.
Qed.

(** C05 *)
Lemma no_extrapolation : forall (feqb : F -> F -> bool) max ops l t err,
  0 <= max < dur_bound -> (forall x, In (Offer x) ops -> 0 <= st_stamp x) ->
  run_cache (Dynamic max []) ops = Dynamic max l -> t <> 0 ->
  (forall d e, getData feqb (Dynamic max l) t err = Ok (Some d, e) ->
     exists lo hi, In lo l /\ In hi l /\ st_stamp lo <= t <= st_stamp hi) /\
  (forall lo hi, In lo l -> In hi l -> st_stamp lo <= t <= st_stamp hi ->
     exists d, getData feqb (Dynamic max l) t err = Ok (Some d, err)) /\
  (getData feqb (Dynamic max l) t err <> UB).
Proof.
  intros feqb max ops l t err Hm Hops E Ht.
  destruct (run_cache_inv max ops) as (l' & E' & I); [lia|assumption|].
  rewrite E in E'. inversion E'; subst l'.
  assert (OK : cache_ok (Dynamic max l)) by (split; assumption).
  destruct (covers_dec l t (proj1 I)) as [C|C].
  - destruct (getData_covered feqb max l t err OK C) as (d & Hd & _). rewrite Hd.
    split; [|split]; [|eauto|discriminate].
    intros _ _ _. destruct C as [_ [C|C]]; [congruence|exact C].
  - split; [|split].
    + intros d e Hd. exfalso.
      destruct (getData_uncovered feqb max l t err OK C) as [(e' & H & _)|(_ & H & _)];
        rewrite H in Hd; discriminate.
    + intros lo hi Hlo Hhi B. exfalso. apply C. split; [destruct l; [destruct Hlo|discriminate]|].
      right. eauto 10.
    + destruct (getData_uncovered feqb max l t err OK C) as [(e' & -> & _)|(_ & -> & _)]; discriminate.
Qed.

(** C04, ends of the history, any scalar type *)
Lemma stored_stamp_ends : forall (feqb : F -> F -> bool) max ops l x err,
  0 <= max < dur_bound -> (forall x, In (Offer x) ops -> 0 <= st_stamp x) ->
  run_cache (Dynamic max []) ops = Dynamic max l -> In x l ->
  (forall y, In y l -> st_stamp y <= st_stamp x) \/ (forall y, In y l -> st_stamp x <= st_stamp y) ->
  st_stamp x <> 0 ->
  getData feqb (Dynamic max l) (st_stamp x) err = Ok (Some x, err).
Proof.
  intros feqb max ops l x err Hm Hops E Hx He H0.
  destruct (run_cache_inv max ops) as (l' & E' & N & W & P); [lia|assumption|].
  rewrite E in E'. inversion E'; subst l'. destruct l as [|f l]; [destruct Hx|].
  cbn [getData]. destruct He as [He|He].
  - assert (x = f) as ->.
    { apply (nf_unique_stamp (f :: l)); cbn; auto. pose proof (nf_head_max _ _ _ N Hx).
      specialize (He f (or_introl eq_refl)). lia. }
    rewrite find_newest; auto.
  - assert (x = last l f) as ->.
    { apply (nf_unique_stamp (f :: l)); auto; [apply last_in|]. pose proof (nf_last_min _ _ _ N Hx).
      specialize (He _ (last_in l f)). lia. }
    rewrite find_oldest; auto.
Qed.

(** C04, time zero *)
Lemma time_zero_newest : forall (feqb : F -> F -> bool) max ops l x err,
  0 <= max -> (forall x, In (Offer x) ops -> 0 <= st_stamp x) ->
  run_cache (Dynamic max []) ops = Dynamic max l -> In x l ->
  (forall y, In y l -> st_stamp y <= st_stamp x) ->
  getData feqb (Dynamic max l) 0 err = Ok (Some x, err).
Proof.
  intros feqb max ops l x err Hm Hops E Hx He.
  destruct (run_cache_inv max ops) as (l' & E' & N & W & P); [lia|assumption|].
  rewrite E in E'. inversion E'; subst l'. destruct l as [|f l]; [destruct Hx|].
  cbn [getData]. rewrite find_zero. cbn.
  assert (x = f) as ->; [|reflexivity].
  apply (nf_unique_stamp (f :: l)); cbn; auto. pose proof (nf_head_max _ _ _ N Hx).
  specialize (He f (or_introl eq_refl)). lia.
Qed.

(** C02 one step, stated on the whole effect *)
Lemma one_offer : forall max ops l x,
  0 <= max -> (forall x, In (Offer x) ops -> 0 <= st_stamp x) ->
  run_cache (Dynamic max []) ops = Dynamic max l ->
  0 <= st_stamp x -> valid_time (st_stamp x + max) ->
  exists l' r, insertData (Dynamic max l) x = (Dynamic max l', Ok r) /\
    (r = Inserted <->
       (forall y, In y l -> st_stamp y <= st_stamp x + max /\ st_stamp y <> st_stamp x)) /\
    (r <> Inserted -> l' = l) /\
    (r = Inserted -> forall y, In y l' <->
       (y = x \/ In y l) /\ (forall z, In z (x :: l) -> st_stamp z <= st_stamp y + max)).
Proof.
  intros max ops l x Hm Hops E Hx Hv.
  destruct (run_cache_inv max ops) as (l0 & E' & N & W & P); [lia|assumption|].
  rewrite E in E'. inversion E'; subst l0.
  assert (P' : stamps_nonneg (x :: l)) by (intros y [<-|Hy]; auto).
  destruct (insert_cases max l x Hm N P' Hv) as [(y & Hy & L & ->)|[(A & (y & Hy & L) & ->)|(A & B & C)]].
  - exists l, (Rejected EOldData). split; [reflexivity|]. split; [|split; [auto|discriminate]].
    split; [discriminate|]. intros H. destruct (H _ Hy). lia.
  - exists l, (Rejected ERepeatedData). split; [reflexivity|]. split; [|split; [auto|discriminate]].
    split; [discriminate|]. intros H. destruct (H _ Hy). congruence.
  - destruct C as (l' & -> & N' & I'). exists l', Inserted.
    split; [reflexivity|]. split; [|split; [congruence|]].
    + split; [intros _ y Hy; split; auto|auto].
    + intros _ y. rewrite I'. split; intros [H1 H2]; (split; [assumption|]); intros z Hz; apply H2; cbn in *; intuition.
Qed.

(** C03 *)
Lemma permuted_delivery : forall max xs ys,
  0 <= max -> stamps_ok max xs -> NoDup (map (fun x => st_stamp x) xs) -> Permutation xs ys ->
  offer_all (Dynamic max []) xs = offer_all (Dynamic max []) ys.
Proof.
  intros max xs ys Hm Hv Hd Hp.
  assert (Hv2 : stamps_ok max ys).
  { unfold stamps_ok in *. rewrite Forall_forall in *. intros x Hx. apply Hv.
    apply (Permutation_in x (Permutation_sym Hp)). assumption. }
  destruct (offer_all_retained max xs Hm Hv) as (l1 & -> & N1 & I1).
  destruct (offer_all_retained max ys Hm Hv2) as (l2 & -> & N2 & I2).
  f_equal. apply nf_ext; auto. intros x. rewrite I1, I2.
  assert (Hfirst : forall zs, NoDup (map (fun x : storage => st_stamp x) zs) -> In x zs ->
     exists before after, zs = before ++ x :: after /\ forall y, In y before -> st_stamp y <> st_stamp x).
  { intros zs Hz Hin. apply in_split in Hin as (b & a & ->). exists b, a. split; [reflexivity|].
    intros y Hy Es. rewrite map_app in Hz. cbn in Hz. apply NoDup_remove_2 in Hz. apply Hz.
    rewrite <- Es. apply in_or_app. left. apply in_map_iff. eauto. }
  assert (Hd2 : NoDup (map (fun x : storage => st_stamp x) ys)).
  { apply (Permutation_NoDup (Permutation_map _ Hp)). assumption. }
  split; intros [(b & a & Eb & D) R]; (split;
    [apply Hfirst; [assumption|] |
     intros y Hy; apply R]).
  - apply (Permutation_in x Hp). rewrite Eb. apply in_or_app. cbn. auto.
  - apply (Permutation_in y (Permutation_sym Hp)). assumption.
  - apply (Permutation_in x (Permutation_sym Hp)). rewrite Eb. apply in_or_app. cbn. auto.
  - apply (Permutation_in y Hp). assumption.
Qed.
End P.

