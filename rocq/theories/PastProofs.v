(** * Proofs for C81: reading a history at a past time after more data *)
From Coq Require Import ZArith Bool List String Lia Arith.
From Verif Require Import RosTime Scalar LinearMath Cache SpecCache CacheProofs CacheQueries CacheTheorems
  BufferCore SpecCore CoreInv Naturality CoreSet Bridge History CoreTheorems SpecPast.
Import ListNotations.
Open Scope Z_scope.

Section C.
Context {S : Scalar} {F : Type} (feqb : F -> F -> bool).
Notation storage := (storage S F).
Implicit Types (l xs : list storage) (x y z : storage) (t : time).

(** What is left of [l0] (asked about at [t]) after samples newer than [t] and than [l0]. *)
Definition grown max t l0 xs l : Prop :=
  cache_inv max l /\
  (forall y, In y l -> In y l0 \/ (In y xs /\ t < st_stamp y /\ forall z, In z l0 -> st_stamp z < st_stamp y)) /\
  (forall y z, In y l0 -> In z l0 -> In z l -> st_stamp z <= st_stamp y -> In y l) /\
  (forall y, In y l0 -> (forall x, In x xs -> st_stamp x <= st_stamp y + max) -> In y l).

Lemma grown_refl : forall max t l0, cache_inv max l0 -> grown max t l0 [] l0.
Proof. intros max t l0 H. split; [assumption|]. split; [auto|]. split; auto. Qed.

Lemma grown_step : forall max t l0 xs l x, 0 <= max -> 0 <= st_stamp x -> t < st_stamp x ->
  (forall z, In z l0 -> st_stamp z < st_stamp x) -> grown max t l0 xs l ->
  exists l', fst (insertData (Dynamic max l) x) = Dynamic max l' /\ grown max t l0 (xs ++ [x]) l'.
Proof.
  intros max t l0 xs l x Hm Hx Ht Hn ((N & W & P) & G2 & G3 & G4).
  assert (Keep : grown max t l0 (xs ++ [x]) l).
  { split; [split; [|split]; assumption|]. split; [|split; [assumption|]].
    - intros y Hy. destruct (G2 y Hy) as [|(A & B)]; [auto|]. right. split; [apply in_or_app; auto|assumption].
    - intros y Hy Hb. apply G4; [assumption|]. intros z Hz. apply Hb, in_or_app. auto. }
  destruct (valid_timeb (st_stamp x + max)) eqn:Ev.
  - unfold valid_timeb in Ev. apply andb_prop in Ev as [E1 E2]. apply Z.leb_le in E1. apply Z.ltb_lt in E2.
    assert (P' : stamps_nonneg (x :: l)) by (intros y [<-|Hy]; auto).
    destruct (insert_cases max l x Hm N P' (conj E1 E2)) as [(y & Hy & Lt & ->)|[(_ & _ & ->)|(W' & D & l' & -> & N' & M)]]; cbn [fst];
      [exists l; auto|exists l; auto|].
    exists l'. split; [reflexivity|]. split; [split; [assumption|split]|].
    + intros u v Hu Hv. apply M in Hu as [_ Hu]. apply M in Hv as [Hv _]. auto.
    + intros y Hy. apply M in Hy as [[->|Hy] _]; auto.
    + split; [|split].
      * intros y Hy. apply M in Hy as [[->|Hy] _].
        -- right. split; [apply in_or_app; cbn; auto|auto].
        -- destruct (G2 y Hy) as [|(A & B)]; [auto|]. right. split; [apply in_or_app; auto|assumption].
      * intros y z Hy Hz Hz' L. apply M in Hz' as [[->|Hzl] Hw]; [specialize (Hn _ Hz); lia|].
        apply M. split; [right; apply (G3 y z); assumption|]. intros w Hw'. specialize (Hw w Hw'). lia.
      * intros y Hy Hb. assert (Hyl : In y l) by (apply G4; [assumption|]; intros w Hw; apply Hb, in_or_app; auto).
        apply M. split; [auto|]. intros w [->|Hw]; [apply Hb, in_or_app; cbn; auto|apply W; assumption].
  - assert (Hv : ~ valid_time (st_stamp x + max)).
    { intros [H1 H2]. unfold valid_timeb in Ev. rewrite (proj2 (Z.leb_le _ _) H1), (proj2 (Z.ltb_lt _ _) H2) in Ev. discriminate. }
    rewrite insert_overflow by assumption. cbn [fst]. destruct l as [|f l]; [|exists (f :: l); auto].
    exists [x]. split; [reflexivity|]. split; [split; [|split]|split; [|split]].
    + apply nf_cons; [constructor|intros y []].
    + intros u v [<-|[]] [<-|[]]. lia.
    + intros y [<-|[]]. assumption.
    + intros y [<-|[]]. right. split; [apply in_or_app; cbn; auto|auto].
    + intros y z Hy Hz [<-|[]] L. specialize (Hn _ Hz). lia.
    + intros y Hy Hb. destruct (G4 y Hy). intros w Hw. apply Hb, in_or_app. auto.
Qed.

Lemma grown_all : forall max t l0 xs, 0 <= max -> cache_inv max l0 ->
  (forall x, In x xs -> 0 <= st_stamp x /\ t < st_stamp x /\ forall z, In z l0 -> st_stamp z < st_stamp x) ->
  exists l, offer_all (Dynamic max l0) xs = Dynamic max l /\ grown max t l0 xs l.
Proof.
  intros max t l0 xs Hm I. induction xs as [|x xs IH] using rev_ind; intros Hx.
  - exists l0. split; [reflexivity|apply grown_refl; assumption].
  - destruct IH as (l & E & G). { intros y Hy. apply Hx, in_or_app. auto. }
    unfold offer_all in *. rewrite fold_left_app, E. cbn [fold_left].
    destruct (Hx x) as (A & B & C). { apply in_or_app. cbn. auto. }
    destruct (grown_step max t l0 xs l x Hm A B C G) as (l' & E' & G'). exists l'. auto.
Qed.

Definition reads max l t : option storage :=
  match getData feqb (Dynamic max l) t None with Ok (Some d, _) => Some d | _ => None end.

Lemma reads_uncovered : forall max l t, cache_ok (Dynamic max l) -> ~ covers l t -> reads max l t = None.
Proof.
  intros max l t H C. unfold reads. destruct (getData_uncovered feqb max l t None H C) as [(e & -> & _)|(B & _)]; [reflexivity|congruence].
Qed.
Lemma reads_covered : forall max l t, cache_ok (Dynamic max l) -> covers l t -> exists d, reads max l t = Some d.
Proof.
  intros max l t H C. unfold reads. destruct (getData_covered feqb max l t None H C) as (d & -> & _). eauto.
Qed.

Lemma covers_some : forall l t, t <> 0 -> (covers l t <-> exists lo hi, In lo l /\ In hi l /\ st_stamp lo <= t <= st_stamp hi).
Proof.
  intros l t Ht. split.
  - intros [_ [?|H]]; [contradiction|exact H].
  - intros (lo & hi & H). split; [intros ->; destruct H as [[] _]|]. right. exists lo, hi. exact H.
Qed.

(** The newest sample at or before [t]. *)
Lemma newest_upto : forall l t, (exists x, In x l /\ st_stamp x <= t) ->
  exists o, In o l /\ st_stamp o <= t /\ forall y, In y l -> st_stamp y <= t -> st_stamp y <= st_stamp o.
Proof.
  intros l t. induction l as [|a l IH]; intros (x & Hx & L); [destruct Hx|].
  assert (D : (exists x, In x l /\ st_stamp x <= t) \/ (forall y, In y l -> t < st_stamp y)).
  { clear. induction l as [|b l IH]; [right; intros y []|]. destruct (Z_le_gt_dec (st_stamp b) t) as [L|L].
    - left. exists b. cbn. auto.
    - destruct IH as [(x & Hx & L')|H]; [left; exists x; cbn; auto|right]. intros y [<-|Hy]; [lia|auto]. }
  destruct D as [D|D].
  - destruct (IH D) as (o & Ho & Lo & Mo). destruct (Z_le_gt_dec (st_stamp a) t) as [La|La].
    + destruct (Z_le_gt_dec (st_stamp a) (st_stamp o)) as [Q|Q].
      * exists o. split; [cbn; auto|]. split; [assumption|]. intros y [<-|Hy] Ly; [assumption|auto].
      * exists a. split; [cbn; auto|]. split; [assumption|]. intros y [<-|Hy] Ly; [lia|]. specialize (Mo y Hy Ly). lia.
    + exists o. split; [cbn; auto|]. split; [assumption|]. intros y [<-|Hy] Ly; [lia|auto].
  - destruct Hx as [<-|Hx]; [|specialize (D _ Hx); lia]. exists a. split; [cbn; auto|]. split; [assumption|].
    intros y [<-|Hy] Ly; [lia|]. specialize (D _ Hy). lia.
Qed.

(** The oldest sample after [t]. *)
Lemma oldest_after : forall l t, (exists x, In x l /\ t < st_stamp x) ->
  exists o, In o l /\ t < st_stamp o /\ forall y, In y l -> t < st_stamp y -> st_stamp o <= st_stamp y.
Proof.
  intros l t. induction l as [|a l IH]; intros (x & Hx & L); [destruct Hx|].
  assert (D : (exists x, In x l /\ t < st_stamp x) \/ (forall y, In y l -> st_stamp y <= t)).
  { clear. induction l as [|b l IH]; [right; intros y []|]. destruct (Z_le_gt_dec (st_stamp b) t) as [L|L].
    - destruct IH as [(x & Hx & L')|H]; [left; exists x; cbn; auto|right]. intros y [<-|Hy]; [lia|auto].
    - left. exists b. cbn. split; [auto|lia]. }
  destruct D as [D|D].
  - destruct (IH D) as (o & Ho & Lo & Mo). destruct (Z_le_gt_dec (st_stamp a) t) as [La|La].
    + exists o. split; [cbn; auto|]. split; [assumption|]. intros y [<-|Hy] Ly; [lia|auto].
    + destruct (Z_le_gt_dec (st_stamp a) (st_stamp o)) as [Q|Q].
      * exists a. split; [cbn; auto|]. split; [lia|]. intros y [<-|Hy] Ly; [lia|]. specialize (Mo y Hy Ly). lia.
      * exists o. split; [cbn; auto|]. split; [assumption|]. intros y [<-|Hy] Ly; [lia|auto].
  - destruct Hx as [<-|Hx]; [|specialize (D _ Hx); lia]. exists a. split; [cbn; auto|]. split; [assumption|].
    intros y [<-|Hy] Ly; [lia|]. specialize (D _ Hy). lia.
Qed.

(** The same two neighbours give the same reading. *)
Lemma reads_neighbours : forall max l t o n, cache_ok (Dynamic max l) -> 0 < t -> In o l -> In n l -> st_stamp o < t < st_stamp n ->
  (forall x, In x l -> st_stamp x <= st_stamp o \/ st_stamp n <= st_stamp x) ->
  reads max l t = if feqb (st_frame o) (st_frame n) then
    Some {| st_trans := vinterp (st_trans o) (st_trans n) (sdiv (sofns (t - st_stamp o)) (sofns (st_stamp n - st_stamp o)));
            st_rot := qslerp (st_rot o) (st_rot n) (sdiv (sofns (t - st_stamp o)) (sofns (st_stamp n - st_stamp o)));
            st_stamp := t; st_frame := st_frame o; st_child := st_child o |} else Some o.
Proof.
  intros max l t o n [Hm (N & W & P)] Ht Ho Hn B G. unfold reads. cbn [getData].
  rewrite find_neighbours with (older := o) (newer := n); auto; try lia. cbn.
  destruct (feqb (st_frame o) (st_frame n)); [|reflexivity].
  rewrite interpolate_lt with (max := max); [reflexivity|assumption|lia|apply W; assumption].
Qed.

(** ** The four facts about a grown history *)
Section G.
Variables (max : duration) (t : time) (l0 xs l : list storage).
Hypothesis (Hm : 0 <= max < dur_bound) (Ht : 0 < t) (I0 : cache_inv max l0) (G : grown max t l0 xs l).

Let Ok0 : cache_ok (Dynamic max l0). Proof. split; assumption. Qed.
Let Ok1 : cache_ok (Dynamic max l). Proof. split; [assumption|apply G]. Qed.

Lemma kept_at : forall x, In x l0 -> st_stamp x <= t -> In x l -> forall o, In o l0 -> st_stamp o <= t ->
  (forall y, In y l0 -> st_stamp y <= t -> st_stamp y <= st_stamp o) -> In o l.
Proof. intros x Hx L Hxl o Ho Lo Mo. destruct G as (_ & _ & G3 & _). apply (G3 o x); auto. Qed.

(** Once its last sample at or before [t] is gone, the history has nothing for [t]. *)
Lemma gone : forall o, In o l0 -> st_stamp o <= t -> (forall y, In y l0 -> st_stamp y <= t -> st_stamp y <= st_stamp o) ->
  ~ In o l -> reads max l t = None.
Proof.
  intros o Ho Lo Mo Hno. apply reads_uncovered; [assumption|]. rewrite covers_some by lia.
  intros (lo & hi & Hlo & _ & B & _). destruct G as (_ & G2 & G3 & _).
  destruct (G2 lo Hlo) as [H|(_ & H & _)]; [|lia]. apply Hno. apply (G3 o lo); auto.
Qed.

Lemma uncovered_stays : ~ covers l0 t -> (l0 = [] \/ exists x, In x l0 /\ t <= st_stamp x) -> reads max l t = None.
Proof.
  intros C D. apply reads_uncovered; [assumption|]. rewrite covers_some by lia. rewrite covers_some in C by lia.
  intros (lo & hi & Hlo & _ & B & _). destruct G as (_ & G2 & _). destruct (G2 lo Hlo) as [H|(_ & H & _)]; [|lia].
  destruct D as [->|(x & Hx & L)]; [destruct H|]. apply C. exists lo, x. auto.
Qed.

Lemma kept_read : covers l0 t -> (forall x, In x l0 -> st_stamp x <> t) ->
  (reads max l t = reads max l0 t \/ reads max l t = None) /\
  ((exists x, In x l0 /\ st_stamp x <= t /\ forall y, In y xs -> st_stamp y <= st_stamp x + max) -> reads max l t = reads max l0 t).
Proof.
  intros C Hne. apply covers_some in C; [|lia]. destruct C as (lo & hi & Hlo & Hhi & B).
  destruct (newest_upto l0 t) as (o & Ho & Lo & Mo); [exists lo; split; [assumption|lia]|].
  destruct (oldest_after l0 t) as (n & Hn & Ln & Mn). { exists hi. split; [assumption|]. pose proof (Hne hi Hhi). lia. }
  assert (Bo : st_stamp o < t < st_stamp n) by (pose proof (Hne o Ho); lia).
  assert (N0 : forall x, In x l0 -> st_stamp x <= st_stamp o \/ st_stamp n <= st_stamp x).
  { intros x Hx. destruct (Z_le_gt_dec (st_stamp x) t); [left; auto|right; apply Mn; [assumption|lia]]. }
  assert (K : In o l -> reads max l t = reads max l0 t).
  { intros Hol. assert (Hnl : In n l) by (destruct G as (_ & _ & G3 & _); apply (G3 n o); auto; lia).
    rewrite (reads_neighbours max l t o n), (reads_neighbours max l0 t o n); auto.
    intros x Hx. destruct G as (_ & G2 & _). destruct (G2 x Hx) as [H|(_ & H & H')]; [auto|]. right. specialize (H' n Hn). lia. }
  assert (Dec : In o l \/ ~ In o l).
  { destruct (proj1 G) as (N1 & _). clear - N1 Ho G I0.
    destruct (in_dec Z.eq_dec (st_stamp o) (map (@st_stamp S F) l)) as [H|H].
    - left. apply in_map_iff in H as (x & E & Hx). destruct G as (_ & G2 & _). destruct (G2 x Hx) as [H|(_ & _ & H)].
      + rewrite <- (nf_unique_stamp l0 x o); auto. apply I0.
      + specialize (H o Ho). lia.
    - right. intros Hx. apply H. apply in_map. assumption. }
  split.
  - destruct Dec as [Hol|Hno]; [left; auto|right; apply (gone o); auto].
  - intros (x & Hx & Lx & Hb). apply K. destruct G as (_ & _ & _ & G4). apply G4; [assumption|].
    intros y Hy. specialize (Hb y Hy). specialize (Mo x Hx Lx). lia.
Qed.
End G.
End C.
