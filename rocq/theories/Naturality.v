(** * Renaming the frame ids of a history commutes with every operation on it *)
From Coq Require Import ZArith Bool List Lia.
From Verif Require Import RosTime Scalar LinearMath Cache SpecCache BufferCore SpecCore CacheProofs
  CacheQueries CoreInv.
Import ListNotations.
Open Scope Z_scope.

Section N.
Context {S : Scalar} {A B : Type} (f : A -> B).
Notation mapS := (@map_storage S A B f).
Notation mapC := (@map_cache S A B f).
Implicit Types (l : list (storage S A)) (x y : storage S A) (t : time).

Lemma stamp_map : forall x, st_stamp (mapS x) = st_stamp x.
Proof. reflexivity. Qed.

Lemma last_map : forall l x, last (map mapS l) (mapS x) = mapS (last l x).
Proof. induction l as [|a l IH]; intros x; [reflexivity|]. destruct l; [reflexivity|]. apply IH. Qed.

Lemma insert_sorted_map : forall l x,
  insert_sorted (map mapS l) (mapS x) = option_map (map mapS) (insert_sorted l x).
Proof.
  induction l as [|a l IH]; intros x; [reflexivity|]. cbn [map insert_sorted].
  rewrite !stamp_map. destruct (st_stamp a <=? st_stamp x).
  - destruct (st_stamp a =? st_stamp x); reflexivity.
  - rewrite IH. destruct (insert_sorted l x); reflexivity.
Qed.

Lemma prune_rev_map : forall r latest max,
  prune_rev (map mapS r) latest max = (map mapS (fst (prune_rev r latest max)), snd (prune_rev r latest max)).
Proof.
  induction r as [|a r IH]; intros latest max; [reflexivity|]. cbn [map prune_rev].
  rewrite stamp_map. destruct (time_add (st_stamp a) max); [|reflexivity].
  destruct (t <? latest); [apply IH|reflexivity].
Qed.

Lemma pruneList_map : forall l max,
  pruneList (map mapS l) max = (map mapS (fst (pruneList l max)), snd (pruneList l max)).
Proof.
  intros [|a l] max; [reflexivity|]. unfold pruneList. cbn [map]. rewrite stamp_map.
  change (mapS a :: map mapS l) with (map mapS (a :: l)). rewrite <- map_rev, prune_rev_map.
  destruct (prune_rev (rev (a :: l)) (st_stamp a) max) as [r th]. cbn. rewrite map_rev. reflexivity.
Qed.

Lemma insertData_map : forall (c : cache S A) x,
  insertData (mapC c) (mapS x) = (mapC (fst (insertData c x)), snd (insertData c x)).
Proof.
  intros [max l|o] x; [|reflexivity]. unfold insertData. cbn [map_cache].
  assert (G : forall l0,
    (match insert_sorted (map mapS l0) (mapS x) with
     | Some l' => let '(l'', thrown) := pruneList l' max in
         (Dynamic max l'', if thrown then Throw RuntimeError ETimeRange else Ok Inserted)
     | None => (Dynamic max (map mapS l0), Ok (Rejected ERepeatedData)) end)
    = (mapC (fst (match insert_sorted l0 x with
     | Some l' => let '(l'', thrown) := pruneList l' max in
         (Dynamic max l'', if thrown then Throw RuntimeError ETimeRange else Ok Inserted)
     | None => (Dynamic max l0, Ok (Rejected ERepeatedData)) end)),
       snd (match insert_sorted l0 x with
     | Some l' => let '(l'', thrown) := pruneList l' max in
         (Dynamic max l'', if thrown then Throw RuntimeError ETimeRange else Ok Inserted)
     | None => (Dynamic max l0, Ok (Rejected ERepeatedData)) end))).
  { intros l0. rewrite insert_sorted_map. destruct (insert_sorted l0 x) as [l'|]; [|reflexivity].
    cbn [option_map]. rewrite pruneList_map. destruct (pruneList l' max); reflexivity. }
  destruct l as [|a l]; [apply (G [])|]. cbn [map]. rewrite !stamp_map.
  destruct (time_add (st_stamp x) max); [|reflexivity].
  destruct (t <? st_stamp a); [reflexivity|]. apply (G (a :: l)).
Qed.

Lemma clearList_map : forall c, clearList (mapC c) = mapC (clearList c).
Proof. intros [max l|o]; reflexivity. Qed.

Lemma getLatestTimestamp_map : forall c, getLatestTimestamp (mapC c) = getLatestTimestamp c.
Proof. intros [max [|a l]|o]; reflexivity. Qed.

Lemma getLatestTimeAndParent_map : forall c,
  getLatestTimeAndParent (mapC c) =
  bind (getLatestTimeAndParent c) (fun p => Ok (fst p, option_map f (snd p))).
Proof. intros [max [|a l]|[o|]]; reflexivity. Qed.

Lemma lower_bound_map : forall l prev t,
  lower_bound_pair (option_map mapS prev) (map mapS l) t =
  option_map (fun p => (mapS (fst p), mapS (snd p))) (lower_bound_pair prev l t).
Proof.
  induction l as [|a l IH]; intros prev t; [reflexivity|]. cbn [map lower_bound_pair].
  rewrite stamp_map. destruct (st_stamp a <=? t).
  - destruct prev; reflexivity.
  - apply (IH (Some a)).
Qed.

Definition mapClosest (c : closest S A) : closest S B :=
  match c with
  | Found0 => Found0 | Found1 x => Found1 (mapS x) | Found2 x y => Found2 (mapS x) (mapS y)
  end.

Lemma findClosest_map : forall l t err,
  findClosest (map mapS l) t err =
  bind (findClosest l t err) (fun p => Ok (mapClosest (fst p), snd p)).
Proof.
  intros [|a l] t err; [reflexivity|]. unfold findClosest. cbn [map].
  destruct (t =? 0); [reflexivity|]. destruct l as [|b l]; cbn [map].
  - rewrite stamp_map. destruct (st_stamp a =? t); reflexivity.
  - change (mapS b :: map mapS l) with (map mapS (b :: l)). rewrite last_map, !stamp_map.
    destruct (t =? st_stamp a); [reflexivity|].
    destruct (t =? st_stamp (last (b :: l) a)); [reflexivity|].
    destruct (st_stamp a <? t).
    { unfold extrap2. destruct err; [|reflexivity]. destruct (time_sub t (st_stamp a)); reflexivity. }
    destruct (t <? st_stamp (last (b :: l) a)).
    { unfold extrap3. destruct err; [|reflexivity]. destruct (time_sub _ t); reflexivity. }
    change (mapS a :: map mapS (b :: l)) with (map mapS (a :: b :: l)).
    pose proof (lower_bound_map (a :: b :: l) None t) as LB. cbn [option_map] in LB. rewrite LB.
    destruct (lower_bound_pair None (a :: b :: l) t) as [[u v]|]; reflexivity.
Qed.

Lemma interpolate_map : forall x y t,
  interpolate (mapS x) (mapS y) t = bind (interpolate x y t) (fun d => Ok (mapS d)).
Proof.
  intros x y t. unfold interpolate. rewrite !stamp_map.
  destruct (st_stamp y =? st_stamp x); [reflexivity|].
  destruct (time_sub t (st_stamp x)); [|reflexivity]. cbn [lift_time bind].
  destruct (time_sub (st_stamp y) (st_stamp x)); reflexivity.
Qed.

Lemma lower_bound_in : forall l prev t x y, lower_bound_pair prev l t = Some (x, y) ->
  In x l /\ (In y l \/ prev = Some y).
Proof.
  induction l as [|a l IH]; intros prev t x y E; [discriminate|]. cbn in E.
  destruct (st_stamp a <=? t).
  - destruct prev as [p|]; [|discriminate]. inversion E; subst. cbn; auto.
  - destruct (IH _ _ _ _ E) as [H1 [H2|H2]]; cbn; auto. inversion H2; auto.
Qed.

Lemma findClosest_in : forall l t err n e, findClosest l t err = Ok (n, e) ->
  match n with Found0 => True | Found1 x => In x l | Found2 x y => In x l /\ In y l end.
Proof.
  intros [|a l] t err n e E; unfold findClosest in E.
  { inversion E; subst. exact I. }
  destruct (t =? 0); [inversion E; subst; cbn; auto|].
  destruct l as [|b l].
  - destruct (st_stamp a =? t); inversion E; subst; cbn; auto.
  - destruct (t =? st_stamp a); [inversion E; subst; cbn; auto|].
    destruct (t =? st_stamp (last (b :: l) a)); [inversion E; subst; exact (last_in (b :: l) a)|].
    destruct (st_stamp a <? t).
    { destruct (extrap2 t (st_stamp a) err); inversion E; subst; exact I. }
    destruct (t <? st_stamp (last (b :: l) a)).
    { destruct (extrap3 t (st_stamp (last (b :: l) a)) err); inversion E; subst; exact I. }
    destruct (lower_bound_pair None (a :: b :: l) t) as [[u v]|] eqn:El; inversion E; subst.
    apply lower_bound_in in El as [H1 [H2|H2]]; [auto|discriminate].
Qed.

(** The parent of whatever is read is the parent of a stored sample. *)
Lemma getData_in : forall (eqA : A -> A -> bool) (c : cache S A) t err d e, getData eqA c t err = Ok (Some d, e) ->
  exists x, In x (samples c) /\ st_frame x = st_frame d /\ st_child x = st_child d.
Proof.
  intros eqA [max l|[o|]] t err d e E; cbn in E; [| |discriminate].
  - destruct (findClosest l t err) as [[n e']| |] eqn:Ef; cbn in E; try discriminate.
    apply findClosest_in in Ef. destruct n as [|x|x y]; [discriminate| |].
    + inversion E; subst. exists d. auto.
    + destruct Ef as [Hx Hy]. destruct (eqA (st_frame x) (st_frame y)).
      * unfold interpolate in E. destruct (st_stamp y =? st_stamp x).
        -- cbn in E. inversion E; subst. exists d. auto.
        -- destruct (time_sub t (st_stamp x)); cbn in E; [|discriminate].
           destruct (time_sub (st_stamp y) (st_stamp x)); cbn in E; [|discriminate].
           inversion E; subst. exists x. auto.
      * inversion E; subst. exists d. auto.
  - inversion E; subst. exists o. cbn. auto.
Qed.

Lemma getParent_in : forall (c : cache S A) t err p e, getParent c t err = Ok (Some p, e) ->
  exists x, In x (samples c) /\ st_frame x = p.
Proof.
  intros [max l|[o|]] t err p e E; cbn in E; [| |discriminate].
  - destruct (findClosest l t err) as [[n e']| |] eqn:Ef; cbn in E; try discriminate.
    apply findClosest_in in Ef. destruct n as [|x|x y]; inversion E; subst; [eauto|].
    exists x. split; [tauto|reflexivity].
  - inversion E; subst. exists o. cbn. auto.
Qed.

Lemma getData_map : forall (eqA : A -> A -> bool) (eqB : B -> B -> bool) (c : cache S A) t err,
  (forall x y, In x (samples c) -> In y (samples c) ->
     eqB (f (st_frame x)) (f (st_frame y)) = eqA (st_frame x) (st_frame y)) ->
  getData eqB (mapC c) t err =
  bind (getData eqA c t err) (fun p => Ok (option_map mapS (fst p), snd p)).
Proof.
  intros eqA eqB [max l|[o|]] t err H; cbn; [|reflexivity|reflexivity].
  rewrite findClosest_map. destruct (findClosest l t err) as [[n e]| |] eqn:E; cbn; try reflexivity.
  apply findClosest_in in E. destruct n as [|x|x y]; cbn; try reflexivity.
  rewrite H by (cbn; tauto). destruct (eqA (st_frame x) (st_frame y)); [|reflexivity].
  rewrite interpolate_map. destruct (interpolate x y t); reflexivity.
Qed.

Lemma getParent_map : forall (c : cache S A) t err,
  getParent (mapC c) t err =
  bind (getParent c t err) (fun p => Ok (option_map f (fst p), snd p)).
Proof.
  intros [max l|[o|]] t err; cbn; [|reflexivity|reflexivity].
  rewrite findClosest_map. destruct (findClosest l t err) as [[n e]| |] eqn:E; cbn; try reflexivity.
  destruct n as [|x|x y]; reflexivity.
Qed.

Lemma map_cache_ext : forall (g : A -> B) (c : cache S A),
  (forall x, In x (samples c) -> f (st_frame x) = g (st_frame x) /\ f (st_child x) = g (st_child x)) ->
  mapC c = map_cache g c.
Proof.
  intros g [max l|[o|]] H; cbn in *; try reflexivity.
  - f_equal. apply map_ext_in. intros x Hx. destruct (H x Hx) as [E1 E2].
    unfold map_storage. rewrite E1, E2. reflexivity.
  - destruct (H o) as [E1 E2]; [auto|]. unfold map_storage. rewrite E1, E2. reflexivity.
Qed.

Lemma samples_map : forall c, samples (mapC c) = map mapS (samples c).
Proof. intros [max l|[o|]]; reflexivity. Qed.
End N.
