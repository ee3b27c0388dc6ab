(** * canTransform's walk is lookupTransform's walk without the arithmetic *)
From Coq Require Import ZArith Bool List String Lia Arith.
From Verif Require Import RosTime Scalar LinearMath Cache SpecCache CacheProofs CacheQueries
  BufferCore SpecCore CoreInv WalkMain.
Import ListNotations.
Open Scope Z_scope.
Local Opaque MAX_GRAPH_DEPTH.

Section P.
Context {S : Scalar}.
Notation cache := (cache S nat).
Notation core := (core S).
Notation taccum := (@taccum S).
Implicit Types (s : core) (c : cache) (t : time) (err ext : errp).

Lemma gather_forget : forall a c t err, cache_ok c ->
  ca_gather tt c t err = bind (ta_gather a c t err) (fun '(_, p, e) => Ok (tt, p, e)).
Proof.
  intros a c t err H. unfold ca_gather, ta_gather. rewrite (getParent_getData Nat.eqb c t err H).
  destruct (getData Nat.eqb c t err) as [[[d|] e]| |]; reflexivity.
Qed.

Definition fsrc (r : @src_result taccum) : @src_result unit :=
  match r with
  | SDone _ ch => SDone tt ch
  | STop _ top x b ch => STop tt top x b ch
  | SLoop => SLoop
  end.
Definition ftgt (r : @tgt_result taccum) : @tgt_result unit :=
  match r with
  | TDone _ ch => TDone tt ch
  | TStop _ f e ch => TStop tt f e ch
  | TExtrap e => TExtrap e
  | TLoop e => TLoop e
  end.
Definition mapr {X Y} (f : X -> Y) (r : res X) : res Y := bind r (fun x => Ok (f x)).

Lemma walkSource_forget : forall fuel s t target frame top a ext ch, wf s ->
  walkSource ca_gather ca_accum ca_finalize fuel s t target frame top tt ext ch =
  mapr fsrc (walkSource ta_gather ta_accum ta_finalize fuel s t target frame top a ext ch).
Proof.
  induction fuel as [|fuel IH]; intros s t target frame top a ext ch W; cbn [walkSource];
    (destruct (Nat.eqb frame 0); [reflexivity|]); destruct (getFrame s frame) as [c|] eqn:E; try reflexivity;
    destruct (wf_cache s W _ _ E) as (Hok & _ & _); rewrite (gather_forget a c t ext Hok);
    destruct (ta_gather a c t ext) as [[[a1 p] e]| |]; try reflexivity; cbn [bind];
    (destruct (Nat.eqb p 0); [reflexivity|]); (destruct (Nat.eqb frame target); [reflexivity|]); try reflexivity.
  apply IH. assumption.
Qed.
Lemma walkTarget_forget : forall fuel s t source top frame a err ch, wf s ->
  walkTarget ca_gather ca_accum ca_finalize fuel s t source top frame tt err ch =
  mapr ftgt (walkTarget ta_gather ta_accum ta_finalize fuel s t source top frame a err ch).
Proof.
  induction fuel as [|fuel IH]; intros s t source top frame a err ch W; cbn [walkTarget];
    (destruct (Nat.eqb frame top); [reflexivity|]); destruct (getFrame s frame) as [c|] eqn:E; try reflexivity;
    destruct (wf_cache s W _ _ E) as (Hok & _ & _); rewrite (gather_forget a c t err Hok);
    destruct (ta_gather a c t err) as [[[a1 p] e]| |]; try reflexivity; cbn [bind];
    (destruct (Nat.eqb p 0); [reflexivity|]); (destruct (Nat.eqb frame source); [reflexivity|]); try reflexivity.
  apply IH. assumption.
Qed.

Definition fwalk (p : tf2_error * taccum * errp * list nat) : tf2_error * unit * errp * list nat :=
  let '(code, _, e, ch) := p in (code, tt, e, ch).

Lemma walk_at_forget : forall s t target source a err, wf s ->
  walk_at ca_gather ca_accum ca_finalize s t target source tt err =
  mapr fwalk (walk_at ta_gather ta_accum ta_finalize s t target source a err).
Proof.
  intros s t target source a err W. unfold walk_at.
  rewrite (walkSource_forget MAX_GRAPH_DEPTH s t target source source a _ [] W).
  destruct (walkSource ta_gather _ _ _ _ _ _ _ _ _ _ _) as [[a1 ch|a1 top x b ch|]| |]; try reflexivity; cbn [mapr bind fsrc].
  - rewrite (walkTarget_forget MAX_GRAPH_DEPTH s t source top target a1 err [] W).
    destruct (walkTarget ta_gather _ _ _ _ _ _ _ _ _ _ _) as [[a2 rch|a2 f y rch|y|y]| |]; try reflexivity; cbn [mapr bind ftgt].
    + destruct (Nat.eqb f top).
      * destruct (prune_chain ch (rch ++ [f])); reflexivity.
      * destruct b.
        -- destruct (when_error s source target _ y); reflexivity.
        -- destruct (connectivity_error s source target y); reflexivity.
    + destruct (when_error s source target _ y); reflexivity.
    + destruct (loop_error s y); reflexivity.
  - destruct (loop_error s err); reflexivity.
Qed.

Lemma walk_forget : forall s t target source a err, wf s ->
  walkToTopParent ca_gather ca_accum ca_finalize s t target source tt err =
  mapr fwalk (walkToTopParent ta_gather ta_accum ta_finalize s t target source a err).
Proof.
  intros s t target source a err W. destruct (Nat.eq_dec source target) as [->|Ne].
  - rewrite !walk_same. reflexivity.
  - destruct (Z.eq_dec t 0) as [->|Ht].
    + rewrite !walk_zero by assumption. destruct (getLatestCommonTime s target source err) as [[[code ot] e]| |]; try reflexivity.
      cbn [bind]. destruct code; try reflexivity. apply walk_at_forget. assumption.
    + rewrite !walk_time by assumption. apply walk_at_forget. assumption.
Qed.
End P.
