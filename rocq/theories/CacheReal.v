(** * Reading a history at a stored stamp, over the reals *)
From Coq Require Import ZArith Bool List Lia Reals.
From Verif Require Import RosTime Scalar LinearMath Cache SpecCache CacheProofs CacheQueries
  CacheTheorems Instances RealSlerp.
Import ListNotations.
Open Scope Z_scope.

Section P.
Context {F : Type}.

(** Every element of a sorted list that is not first has a direct predecessor. *)
Lemma direct_newer : forall (l : list (storage RS F)) x, newest_first l -> In x l ->
  (forall y, In y l -> st_stamp y <= st_stamp x) \/
  exists n, In n l /\ st_stamp x < st_stamp n /\
    forall y, In y l -> st_stamp y <= st_stamp x \/ st_stamp n <= st_stamp y.
Proof.
  intros l x N Hx. apply in_split in Hx as (l1 & l2 & ->).
  destruct l1 as [|n l1 _] using rev_ind.
  - left. cbn in *. intros y Hy. apply (nf_head_max _ _ _ N Hy).
  - right. rewrite <- app_assoc in *. cbn in *. exists n.
    split; [apply in_or_app; cbn; auto|]. split.
    + apply nf_app in N as (_ & N & _). apply nf_inv in N as [_ N]. apply N. cbn; auto.
    + intros y Hy. apply (in_two_neighbours _ _ _ _ _ N Hy).
Qed.

Lemma stored_stamp_real : forall (feqb : F -> F -> bool) max ops (l : list (storage RS F)) x err,
  0 <= max < dur_bound -> (forall x, In (Offer x) ops -> 0 <= st_stamp x) ->
  run_cache (Dynamic max []) ops = Dynamic max l -> In x l -> st_stamp x <> 0 ->
  getData feqb (Dynamic max l) (st_stamp x) err = Ok (Some x, err).
Proof.
  intros feqb max ops l x err Hm Hops E Hx H0.
  destruct (run_cache_inv max ops) as (l' & E' & N & W & P); [lia|assumption|].
  rewrite E in E'. inversion E'; subst l'.
  destruct (direct_newer l x N Hx) as [D|(n & Hn & L & G)].
  - apply (stored_stamp_ends feqb max ops); auto.
  - assert (DE : (forall y, In y l -> st_stamp x <= st_stamp y) \/ exists y, In y l /\ st_stamp y < st_stamp x).
    { destruct l as [|f l]; [destruct Hx|].
      destruct (Z_lt_ge_dec (st_stamp (last l f)) (st_stamp x)).
      - right. exists (last l f). split; [apply last_in|assumption].
      - left. intros y Hy. pose proof (nf_last_min _ _ _ N Hy). lia. }
    destruct DE as [D|D]; [apply (stored_stamp_ends feqb max ops); auto|].
    cbn [getData]. rewrite find_neighbours with (older := x) (newer := n); auto; try lia.
    cbn. destruct (feqb (st_frame x) (st_frame n)); [|reflexivity].
    rewrite interpolate_lt with (max := max); [|assumption|lia|apply W; assumption].
    cbn. rewrite Z.sub_diag. unfold Rdiv. rewrite !Rmult_0_l.
    rewrite slerp_0, vinterp_0. destruct x; reflexivity.
Qed.
End P.
