(** * Concurrent calls on one buffer always come to an end (C82) *)
From Coq Require Import ZArith Bool List String Arith Lia Wellfounded.
From Verif Require Import RosTime Scalar LinearMath Cache BufferCore Introspection CoreThreads.
Import ListNotations.
Open Scope nat_scope.

Section Live.
Context {S : Scalar}.
Implicit Types (e : machine S).

(** what is left of a call gets smaller *)
Inductive sub : activity S -> activity S -> Prop :=
| sub_peek s k : sub (Outside (k s)) (Outside (Peek k))
| sub_acquire b : sub (Inside b) (Outside (Acquire b))
| sub_leave p : sub (Outside p) (Inside (Leave p))
| sub_access s g k : sub (Inside (k s)) (Inside (Access g k)).
Fixpoint acc_prog (p : prog S) : Acc sub (Outside p)
with acc_scope (b : scope S) : Acc sub (Inside b).
Proof.
  - destruct p as [x|k|b]; constructor; intros y H; inversion H; subst; [apply acc_prog|apply acc_scope].
  - destruct b as [p|g k]; constructor; intros y H; inversion H; subst; [apply acc_prog|apply acc_scope].
Defined.
Inductive osub : option (activity S) -> option (activity S) -> Prop :=
| os_return x : osub None (Some (Outside (Return x)))
| os_some a a' : sub a' a -> osub (Some a') (Some a).
Lemma acc_none : Acc osub None.
Proof. constructor. intros y H. inversion H. Qed.
Lemma acc_o : forall o, Acc osub o.
Proof.
  intros [a|]; [|apply acc_none]. assert (A : Acc sub a) by (destruct a; [apply acc_prog|apply acc_scope]).
  induction A as [a _ IH]. constructor. intros y H. inversion H; subst; [apply acc_none|apply IH; assumption].
Qed.
(** one of several gets smaller *)
Inductive lsub : list (option (activity S)) -> list (option (activity S)) -> Prop :=
| ls_here o o' l : osub o' o -> lsub (o' :: l) (o :: l)
| ls_there o l l' : lsub l' l -> lsub (o :: l') (o :: l).
Lemma acc_l : forall l, Acc lsub l.
Proof.
  induction l as [|o l IH]; [constructor; intros y H; inversion H|]. revert o. induction IH as [l Hl IHl]. intros o.
  pose proof (acc_o o) as A. induction A as [o Ho IHo]. constructor. intros y H. inversion H; subst; [apply IHo; assumption|apply IHl; assumption].
Qed.
Lemma lsub_seq : forall (f f' : nat -> option (activity S)) i m n, osub (f' i) (f i) -> (forall j, j <> i -> f' j = f j) -> m <= i < m + n ->
  lsub (map f' (seq m n)) (map f (seq m n)).
Proof.
  intros f f' i m n H K. revert m. induction n as [|n IH]; intros m R; [lia|]. cbn [seq map]. destruct (Nat.eq_dec m i) as [->|N].
  - replace (map f' (seq (Datatypes.S i) n)) with (map f (seq (Datatypes.S i) n)); [constructor; exact H|].
    apply map_ext_in. intros j J. apply in_seq in J. symmetry. apply K. lia.
  - rewrite (K m N). constructor. apply IH. lia.
Qed.

(** ** the states *)
Definition owned e : Prop := forall i, (exists b, k_thread e i = Some (Inside b)) <-> k_holder e = Some i.
Definition few e : Prop := exists N, forall i, N <= i -> k_thread e i = None.
Definition waits e (i : nat) : Prop := (exists b, k_thread e i = Some (Outside (Acquire b))) /\ k_holder e <> None.
Definition busy e (i : nat) : Prop := k_thread e i <> None /\ ~ waits e i.

Lemma put_eq : forall (f : nat -> option (activity S)) i a, put f i a i = a. Proof. intros. unfold put. rewrite Nat.eqb_refl. reflexivity. Qed.
Lemma put_ne : forall (f : nat -> option (activity S)) i j a, j <> i -> put f i a j = f j. Proof. intros f i j a N. unfold put. apply Nat.eqb_neq in N. rewrite N. reflexivity. Qed.
Lemma put_few : forall f i a, (exists N, forall j, N <= j -> f j = None) -> exists N, forall j, N <= j -> @put S f i a j = None.
Proof. intros f i a (N & H). exists (Datatypes.S (Nat.max N i)). intros j J. rewrite put_ne by lia. apply H. lia. Qed.

Lemma step_inv : forall v e, owned e -> few e -> owned (fst (advance e v)) /\ few (fst (advance e v)).
Proof.
  assert (OUT : forall e i o h, owned e -> (forall b, k_thread e i <> Some (Inside b)) -> (forall b, o <> Some (Inside b)) -> owned (mkMachine (h : core S) (k_holder e) (put (k_thread e) i o))).
  { intros e i o h O N1 N2 j. cbn [k_thread k_holder]. destruct (Nat.eq_dec j i) as [->|N]; [|rewrite put_ne by exact N; apply O]. rewrite put_eq. split.
    - intros (b & E). exfalso. exact (N2 b E).
    - intros E. apply O in E as (b & E). exfalso. exact (N1 b E). }
  intros v e O F. destruct v as [i c|i]; cbn [advance].
  - destruct (k_thread e i) as [a|] eqn:E; [split; assumption|]. cbn [fst]. split; [apply OUT; [exact O|intros b; rewrite E; discriminate|intros b; discriminate]|]. unfold few. cbn [k_thread]. apply put_few, F.
  - destruct (k_thread e i) as [[[x|k|b]|[p|g k]]|] eqn:E; [| | | | |split; assumption].
    + cbn [fst]. split; [apply OUT; [exact O|intros b; rewrite E; discriminate|intros b; discriminate]|]. apply put_few, F.
    + cbn [fst]. split; [apply OUT; [exact O|intros b; rewrite E; discriminate|intros b; discriminate]|]. apply put_few, F.
    + destruct (k_holder e) as [j|] eqn:Eh; [split; assumption|]. cbn [fst]. split; [|apply put_few, F].
      intros j. cbn [k_thread k_holder]. destruct (Nat.eq_dec j i) as [->|N]; [rewrite put_eq; split; [reflexivity|intros _; exists b; reflexivity]|].
      rewrite put_ne by exact N. rewrite (O j), Eh. split; [discriminate|]. intros X. injection X as X. exfalso. apply N. symmetry. exact X.
    + cbn [fst]. split; [|apply put_few, F]. assert (Ho : k_holder e = Some i) by (apply O; exists (Leave p); exact E).
      intros j. cbn [k_thread k_holder]. destruct (Nat.eq_dec j i) as [->|N]; [rewrite put_eq; split; [intros (b & X); discriminate X|discriminate]|].
      rewrite put_ne by exact N. rewrite (O j), Ho. split; [intros X; injection X as X; exfalso; apply N; symmetry; exact X|discriminate].
    + cbn [fst]. split; [|apply put_few, F]. assert (Ho : k_holder e = Some i) by (apply O; exists (Access g k); exact E).
      intros j. cbn [k_thread k_holder]. destruct (Nat.eq_dec j i) as [->|N]; [rewrite put_eq; split; [intros _; exact Ho|intros _; eexists; reflexivity]|].
      rewrite put_ne by exact N. apply O.
Qed.
Lemma run_inv : forall l e, owned e -> few e -> owned (fst (execute e l)) /\ few (fst (execute e l)).
Proof.
  induction l as [|v l IH]; intros e O F; [split; assumption|]. cbn [execute]. destruct (step_inv v e O F) as (O' & F'). destruct (advance e v) as [e' h]. cbn [fst] in O', F'.
  specialize (IH e' O' F'). destruct (execute e' l) as [e'' h']. exact IH.
Qed.
Lemma start_ok : forall ct, owned (start ct) /\ few (start ct).
Proof. intros ct. split; [intros i; cbn; split; [intros (b & E); discriminate E|discriminate]|exists 0; reflexivity]. Qed.

(** somebody can go on *)
Lemma somebody : forall e i, owned e -> k_thread e i <> None -> exists j, busy e j.
Proof.
  intros e i O H. destruct (k_holder e) as [j|] eqn:Eh.
  - destruct (proj2 (O j) Eh) as (b & E). exists j. split; [rewrite E; discriminate|]. intros ((b' & E') & _). rewrite E in E'. discriminate E'.
  - exists i. split; [exact H|]. intros (_ & N). exact (N Eh).
Qed.
(** and what it does makes its call smaller *)
Lemma smaller : forall e i, busy e i -> osub (k_thread (fst (advance e (Go i))) i) (k_thread e i) /\ (forall j, j <> i -> k_thread (fst (advance e (Go i))) j = k_thread e j) /\
  (k_thread (fst (advance e (Go i))) i = None -> exists a, snd (advance e (Go i)) = [Returned i a]).
Proof.
  intros e i (H & W). cbn [advance]. destruct (k_thread e i) as [[[x|k|b]|[p|g k]]|] eqn:E; [| | | | |contradiction].
  - cbn [fst k_thread snd]. rewrite put_eq. split; [constructor|]. split; [intros j N; apply put_ne, N|intros _; exists x; reflexivity].
  - cbn [fst k_thread]. rewrite put_eq. split; [repeat constructor|]. split; [intros j N; apply put_ne, N|discriminate].
  - destruct (k_holder e) as [j|] eqn:Eh; [exfalso; apply W; split; [exists b; exact E|rewrite Eh; discriminate]|]. cbn [fst k_thread]. rewrite put_eq. split; [repeat constructor|]. split; [intros j N; apply put_ne, N|discriminate].
  - cbn [fst k_thread]. rewrite put_eq. split; [repeat constructor|]. split; [intros j N; apply put_ne, N|discriminate].
  - cbn [fst k_thread]. rewrite put_eq. split; [repeat constructor|]. split; [intros j N; apply put_ne, N|discriminate].
Qed.
Lemma beyond : forall e i N, busy e i -> (forall j, N <= j -> k_thread e j = None) -> i < N.
Proof. intros e i N (H & _) F. destruct (le_lt_dec N i) as [L|L]; [exfalso; exact (H (F i L))|exact L]. Qed.

(** ** no infinite execution without new calls *)
Lemma no_chain : forall N l e, Acc lsub l -> l = map (k_thread e) (seq 0 N) -> (forall j, N <= j -> k_thread e j = None) ->
  ~ exists (who : nat -> nat) (es : nat -> machine S), es 0 = e /\ forall n, busy (es n) (who n) /\ es (Datatypes.S n) = fst (advance (es n) (Go (who n))).
Proof.
  intros N l e A. revert e. induction A as [l _ IH]. intros e -> F (who & es & E0 & H).
  destruct (H 0) as (B & E1). rewrite E0 in B, E1. destruct (smaller e (who 0) B) as (O & K & _). pose proof (beyond e (who 0) N B F) as L.
  apply (IH (map (k_thread (es 1)) (seq 0 N))) with (e := es 1).
  - rewrite E1. apply (lsub_seq _ _ (who 0)); [exact O|exact K|lia].
  - reflexivity.
  - intros j J. rewrite E1, K by lia. apply F, J.
  - exists (fun n => who (Datatypes.S n)), (fun n => es (Datatypes.S n)). split; [reflexivity|]. intros n. apply H.
Qed.
(** ** all calls can end *)
Lemma somebody_or_nobody : forall e, few e -> (exists i, k_thread e i <> None) \/ forall i, k_thread e i = None.
Proof.
  intros e (N & F). induction N as [|N IH]; [right; intros i; apply F; lia|]. destruct (k_thread e N) as [a|] eqn:E; [left; exists N; rewrite E; discriminate|].
  apply IH. intros i L. destruct (Nat.eq_dec i N) as [->|D]; [exact E|apply F; lia].
Qed.
Lemma finish_all : forall N l e, Acc lsub l -> l = map (k_thread e) (seq 0 N) -> (forall j, N <= j -> k_thread e j = None) -> owned e ->
  exists ms, (forall v, In v ms -> exists i, v = Go i) /\ forall i, k_thread (fst (execute e ms)) i = None /\ (k_thread e i <> None -> exists a, In (Returned i a) (snd (execute e ms))).
Proof.
  intros N l e A. revert e. induction A as [l _ IH]. intros e -> F O.
  destruct (somebody_or_nobody e (ex_intro _ N F)) as [(i0 & H0)|Nb].
  - destruct (somebody e i0 O H0) as (i & B). destruct (smaller e i B) as (Os & K & Rt). pose proof (beyond e i N B F) as L.
    destruct (step_inv (Go i) e O (ex_intro _ N F)) as (O' & _).
    destruct (IH (map (k_thread (fst (advance e (Go i)))) (seq 0 N))) with (e := fst (advance e (Go i))) as (ms & G & Hm).
    + apply (lsub_seq _ _ i); [exact Os|exact K|lia].
    + reflexivity.
    + intros j J. rewrite K by lia. apply F, J.
    + exact O'.
    + exists (Go i :: ms). split; [intros v [<-|V]; [exists i; reflexivity|exact (G v V)]|]. intros j. cbn [execute]. destruct (Hm j) as (M1 & M2). pose proof (K j) as Kj.
      destruct (advance e (Go i)) as [e' h]. cbn [fst snd] in M1, M2, Kj, Rt. destruct (execute e' ms) as [e'' h']. cbn [fst snd] in M1, M2 |- *. split; [exact M1|]. intros Hj.
      destruct (Nat.eq_dec j i) as [->|D].
      * destruct (k_thread e' i) as [a|] eqn:Ei; [destruct M2 as (x & X); [discriminate|]; exists x; apply in_or_app; right; exact X|].
        destruct (Rt eq_refl) as (x & ->). exists x. apply in_or_app. left. left. reflexivity.
      * destruct M2 as (x & X); [rewrite (Kj D); exact Hj|]. exists x. apply in_or_app. right. exact X.
  - exists []. split; [intros v []|]. intros i. cbn [execute fst snd]. split; [apply Nb|]. intros H. exfalso. exact (H (Nb i)).
Qed.
End Live.
