(* Lemmas for PropsLocks.v: lock order, progress, exclusion. *)
From Coq Require Import List Bool Arith Lia.
From Verif Require Import SpecLocks Locks.
Import ListNotations.
Open Scope code_scope.

(* ---- An order on the mutexes ---- *)
Definition rank (l : mutex) : nat * nat :=
  match l with
  | ServerMx _ => (0, 0)
  | MessagesMx f => (1, 8 * f + 1)
  | CallingMx f => (1, 8 * f + 2)
  | OutputMx f => (1, 8 * f + 3)
  | FailureMx f => (1, 8 * f + 3)
  | TargetsMx f => (1, 8 * f + 4)
  | UserMx _ => (2, 0)
  | RequestsMx _ => (2, 1)
  | FrameMx _ | CallbacksMx _ | QueueMx _ | ActionMx _ => (3, 0)
  end.
Definition rlt (a b : nat * nat) : Prop := fst a < fst b \/ (fst a = fst b /\ snd a < snd b).
Definition rle (a b : nat * nat) : Prop := fst a < fst b \/ (fst a = fst b /\ snd a <= snd b).
Definition succ (a : nat * nat) : nat * nat := (fst a, S (snd a)).

Lemma rlt_rle a b c : rlt a b -> rle b c -> rlt a c.
Proof. unfold rlt, rle; lia. Qed.
Lemma rlt_irrefl a : ~ rlt a a.
Proof. unfold rlt; lia. Qed.
Lemma rlt_dec a b : {rlt a b} + {~ rlt a b}.
Proof.
  unfold rlt. destruct (lt_dec (fst a) (fst b)); [left; now left|].
  destruct (Nat.eq_dec (fst a) (fst b)); [|right; lia].
  destruct (lt_dec (snd a) (snd b)); [left; now right|right; lia].
Qed.

(* Only the queue's calling mutex is ever held shared. *)
Definition sharable (l : mutex) : Prop := match l with CallingMx _ => True | _ => False end.

(* What protects each variable, at three levels: 0 in every program; 1 without transformable
   requests; 2 also without fixed-frame lookups. *)
Definition guard (lvl : nat) (x : var) : option mutex :=
  match x with
  | CallbackMap b => Some (CallbacksMx b)
  | Requests b => Some (RequestsMx b)
  | Messages f => Some (MessagesMx f)
  | Statistics f => Some (MessagesMx f)
  | FailureSlots f => Some (FailureMx f)
  | Goals s => Some (ServerMx s)
  | FrameData b => if 1 <=? lvl then Some (FrameMx b) else None
  | FrameNames b => if 2 <=? lvl then Some (FrameMx b) else None
  | _ => None
  end.

Definition held := list (mutex * mode).
Definition has (L : list mutex) (h : held) : Prop :=
  forall l, In l L -> exists m, In (l, m) h /\ m <> Shared.
Definition guarded (lvl : nat) (x : var) (h : held) : Prop :=
  forall l, guard lvl x = Some l -> exists m, In (l, m) h /\ m <> Shared.
Definition bound (n : nat * nat) (h : held) : Prop := forall p, In p h -> rlt (rank (fst p)) n.

(* A sequence of actions keeps the discipline, from [h] to [h']. *)
Fixpoint chk (lvl : nat) (h : held) (tr : list (act mutex var)) (h' : held) : Prop :=
  match tr with
  | [] => h' = h
  | Acq l m :: k => bound (rank l) h /\ (m = Shared -> sharable l) /\ chk lvl ((l, m) :: h) k h'
  | Promote l :: k => exists h0, h = (l, Upgrade) :: h0 /\ ~ sharable l /\ chk lvl ((l, Exclusive) :: h0) k h'
  | Demote l :: k => exists h0, h = (l, Exclusive) :: h0 /\ chk lvl ((l, Upgrade) :: h0) k h'
  | Rel l :: k => exists m h0, h = (l, m) :: h0 /\ chk lvl h0 k h'
  | Rd x :: k | Wr x :: k => guarded lvl x h /\ chk lvl h k h'
  end.

Lemma chk_app lvl t1 : forall h h1 t2 h2, chk lvl h t1 h1 -> chk lvl h1 t2 h2 -> chk lvl h (t1 ++ t2) h2.
Proof.
  induction t1 as [|a t1 IH]; intros h h1 t2 h2 H1 H2; cbn [app chk] in *.
  - subst h1. exact H2.
  - destruct a as [l m|l|l|l|x|x].
    + destruct H1 as (A & B & D). split; [exact A|]. split; [exact B|]. exact (IH _ _ _ _ D H2).
    + destruct H1 as (h0 & E & N & D). exists h0. split; [exact E|]. split; [exact N|]. exact (IH _ _ _ _ D H2).
    + destruct H1 as (h0 & E & D). exists h0. split; [exact E|]. exact (IH _ _ _ _ D H2).
    + destruct H1 as (m & h0 & E & D). exists m, h0. split; [exact E|]. exact (IH _ _ _ _ D H2).
    + destruct H1 as (A & D). split; [exact A|]. exact (IH _ _ _ _ D H2).
    + destruct H1 as (A & D). split; [exact A|]. exact (IH _ _ _ _ D H2).
Qed.

(* Code that keeps it whenever the locks already held are below [n] and satisfy [K]. *)
Definition Safe (lvl : nat) (K : held -> Prop) (n : nat * nat) (p : prog) : Prop :=
  forall tr o, p tr o -> forall h, K h -> bound n h -> chk lvl h tr h.

Lemma safe_weak lvl (K K' : held -> Prop) n n' p :
  Safe lvl K n p -> (forall h, K' h -> K h) -> rle n' n -> Safe lvl K' n' p.
Proof.
  intros H HK Hn tr o Ht h Hh Hb. apply (H tr o Ht); [now apply HK|].
  intros q Hq. exact (rlt_rle _ _ _ (Hb q Hq) Hn).
Qed.
Lemma safe_skip lvl K n : Safe lvl K n skip.
Proof. intros tr o [-> ->] h _ _. reflexivity. Qed.
Lemma safe_throws lvl K n : Safe lvl K n throws.
Proof. intros tr o [-> ->] h _ _. reflexivity. Qed.
Lemma safe_either lvl K n p q : Safe lvl K n p -> Safe lvl K n q -> Safe lvl K n (either p q).
Proof. intros Hp Hq tr o [H|H]; [exact (Hp tr o H)|exact (Hq tr o H)]. Qed.
Lemma safe_may_throw lvl K n : Safe lvl K n may_throw.
Proof. apply safe_either; [apply safe_skip|apply safe_throws]. Qed.
Lemma safe_pick lvl K n {A} (p : A -> prog) : (forall a, Safe lvl K n (p a)) -> Safe lvl K n (pick p).
Proof. intros H tr o [a Ha]. exact (H a tr o Ha). Qed.
Lemma safe_when lvl K n (P : Prop) p : (P -> Safe lvl K n p) -> Safe lvl K n (when P p).
Proof. intros H tr o [HP Hp]. exact (H HP tr o Hp). Qed.
Lemma safe_seq lvl K n p q : Safe lvl K n p -> Safe lvl K n q -> Safe lvl K n (p ;; q).
Proof.
  intros Hp Hq tr o [[H ->]|(t1 & t2 & H1 & H2 & ->)] h Hh Hb; [exact (Hp _ _ H h Hh Hb)|].
  exact (chk_app lvl t1 h h t2 h (Hp _ _ H1 h Hh Hb) (Hq _ _ H2 h Hh Hb)).
Qed.
Lemma safe_loop lvl K n p : Safe lvl K n p -> Safe lvl K n (loop p).
Proof.
  intros Hp tr o H. induction H as [|tr H|t1 t2 o H1 H2 IH]; intros h Hh Hb.
  - reflexivity.
  - exact (Hp _ _ H h Hh Hb).
  - exact (chk_app lvl t1 h h t2 h (Hp _ _ H1 h Hh Hb) (IH h Hh Hb)).
Qed.
Lemma safe_try lvl K n p : Safe lvl K n p -> Safe lvl K n (try_ p).
Proof. intros Hp tr o [_ [o' H]]. exact (Hp tr o' H). Qed.
Lemma safe_rd lvl (K : held -> Prop) n x : (forall h, K h -> guarded lvl x h) -> Safe lvl K n (rd x).
Proof. intros H tr o [-> ->] h Hh _. split; [exact (H h Hh)|reflexivity]. Qed.
Lemma safe_wr lvl (K : held -> Prop) n x : (forall h, K h -> guarded lvl x h) -> Safe lvl K n (wr x).
Proof. intros H tr o [-> ->] h Hh _. split; [exact (H h Hh)|reflexivity]. Qed.
Lemma bound_push n l m h : rle n (rank l) -> bound n h -> bound (succ (rank l)) ((l, m) :: h).
Proof.
  intros Hn Hb p [E|Hp].
  - subst p. cbn [fst]. unfold rlt, succ; cbn [fst snd]; lia.
  - specialize (Hb p Hp). revert Hb Hn. unfold rlt, rle, succ; cbn [fst snd]; lia.
Qed.
Lemma safe_scoped lvl (K K' : held -> Prop) n l m p :
  rle n (rank l) -> (m = Shared -> sharable l) -> (forall h, K h -> K' ((l, m) :: h)) ->
  Safe lvl K' (succ (rank l)) p -> Safe lvl K n (scoped l m p).
Proof.
  intros Hn Hm HK Hp tr o (t & Ht & ->) h Hh Hb. cbn [chk].
  split. { intros q Hq. exact (rlt_rle _ _ _ (Hb q Hq) Hn). }
  split; [exact Hm|].
  apply (chk_app lvl t _ ((l, m) :: h)).
  - exact (Hp t o Ht _ (HK h Hh) (bound_push n l m h Hn Hb)).
  - cbn [chk]. exists m, h. split; reflexivity.
Qed.
Lemma safe_promoted lvl (K K' : held -> Prop) n l p :
  ~ sharable l -> (forall h, K h -> exists h0, h = (l, Upgrade) :: h0 /\ K' ((l, Exclusive) :: h0)) ->
  Safe lvl K' n p -> Safe lvl K n (promoted l p).
Proof.
  intros Hs HK Hp tr o (t & Ht & ->) h Hh Hb. destruct (HK h Hh) as (h0 & -> & H0). cbn [chk].
  exists h0. split; [reflexivity|]. split; [exact Hs|].
  apply (chk_app lvl t _ ((l, Exclusive) :: h0)).
  - apply (Hp t o Ht _ H0). intros q [E|Hq]; [subst q; exact (Hb (l, Upgrade) (or_introl eq_refl))|].
    exact (Hb q (or_intror Hq)).
  - cbn [chk]. exists h0. split; reflexivity.
Qed.

Lemma has_push L l m h : m <> Shared -> has L h -> has (l :: L) ((l, m) :: h).
Proof.
  intros Hm H l' [<-|Hl]; [exists m; split; [now left|exact Hm]|].
  destruct (H l' Hl) as (m' & A & B). exists m'. split; [now right|exact B].
Qed.
Lemma has_push_any L l m h : has L h -> has L ((l, m) :: h).
Proof. intros H l' Hl. destruct (H l' Hl) as (m' & A & B). exists m'. split; [now right|exact B]. Qed.
Lemma has_nil h : has [] h.
Proof. intros l []. Qed.
Lemma safe_guard lvl n p L n' : Safe lvl (has []) n' p -> rle n n' -> Safe lvl (has L) n p.
Proof. intros H Hn. exact (safe_weak lvl (has []) (has L) n' n p H (fun h _ => has_nil h) Hn). Qed.
Lemma safe_lock lvl L n l p : rle n (rank l) -> Safe lvl (has (l :: L)) (succ (rank l)) p ->
  Safe lvl (has L) n (lock_guard l p).
Proof.
  intros Hn Hp. apply (safe_scoped lvl _ (has (l :: L))); [exact Hn|discriminate| |exact Hp].
  intros h Hh. apply has_push; [discriminate|exact Hh].
Qed.

Ltac rank_solve :=
  repeat match goal with H : rle _ _ |- _ => revert H end; unfold rle, succ; cbn [rank fst snd]; lia.
Ltac guard_solve :=
  let l := fresh "l" in let E := fresh "E" in
  intros ? ? l E; cbn in E; first [discriminate E | injection E as <-;
    match goal with H : has _ _ |- _ => apply H; cbn [In]; tauto end].
Ltac safe1 :=
  match goal with
  | |- Safe _ _ _ skip => apply safe_skip
  | |- Safe _ _ _ throws => apply safe_throws
  | |- Safe _ _ _ may_throw => apply safe_may_throw
  | |- Safe _ _ _ (either _ _) => apply safe_either
  | |- Safe _ _ _ (_ ;; _) => apply safe_seq
  | |- Safe _ _ _ (loop _) => apply safe_loop
  | |- Safe _ _ _ (try_ _) => apply safe_try
  | |- Safe _ _ _ (pick _) => apply safe_pick; intros ?
  | |- Safe _ _ _ (when _ _) => apply safe_when; intros ?
  | |- Safe _ _ _ (lock_guard _ _) => apply safe_lock; [rank_solve|]
  | |- Safe _ _ _ (rd _) => apply safe_rd; guard_solve
  | |- Safe _ _ _ (wr _) => apply safe_wr; guard_solve
  end.
Ltac safe := repeat safe1.

(* ---- Functions of the buffer ---- *)
Section Buffer.
Context (lvl : nat) (L : list mutex).

(* under the frame lock everything is fine at every level *)
Lemma guarded_names b h : has [FrameMx b] h -> guarded lvl (FrameNames b) h.
Proof.
  intros H l. cbn [guard]. destruct (2 <=? lvl); intros E; [injection E as <-|discriminate].
  apply H. now left.
Qed.
Lemma guarded_data b h : has [FrameMx b] h -> guarded lvl (FrameData b) h.
Proof.
  intros H l. cbn [guard]. destruct (1 <=? lvl); intros E; [injection E as <-|discriminate].
  apply H. now left.
Qed.
Lemma has_sub L' L'' h : incl L' L'' -> has L'' h -> has L' h.
Proof. intros I H l Hl. exact (H l (I l Hl)). Qed.
End Buffer.

Ltac fm := intros ? ?; first [apply guarded_names | apply guarded_data];
  match goal with H : has _ _ |- _ => refine (has_sub _ _ _ _ H) end; intros ? [<-|[]]; cbn [In]; tauto.
Ltac safe2 := first [ safe1 | (apply safe_rd; fm) | (apply safe_wr; fm)
  | match goal with
    | |- Safe _ _ _ (walk _) => unfold walk
    | |- Safe _ _ _ (lookupFrameNumber _) => unfold lookupFrameNumber
    | |- Safe _ _ _ (lookupFrameString _) => unfold lookupFrameString
    | |- Safe _ _ _ (lookupOrInsertFrameNumber _) => unfold lookupOrInsertFrameNumber
    | |- Safe _ _ _ (validateFrameId _) => unfold validateFrameId
    | |- Safe _ _ _ (getLatestCommonTime _) => unfold getLatestCommonTime
    | |- Safe _ _ _ (canTransformInternal _) => unfold canTransformInternal
    | |- Safe _ _ _ (removeTransformableCallback _) => unfold removeTransformableCallback
    | |- Safe _ _ _ (addTransformableCallback _) => unfold addTransformableCallback
    | |- Safe _ _ _ (cancelTransformableRequest _) => unfold cancelTransformableRequest
    end ].
Ltac safes := repeat safe2.

Lemma safe_lookup lvl b : Safe lvl (has []) (2, 1) (lookupTransform b).
Proof. unfold lookupTransform. safes. Qed.
Lemma safe_can lvl b : Safe lvl (has []) (2, 1) (canTransform b).
Proof. unfold canTransform. safes. Qed.
Lemma safe_canFixed lvl b : Safe lvl (has []) (2, 1) (canTransformFixed b).
Proof. unfold canTransformFixed. safes. Qed.
Lemma safe_listing lvl b : Safe lvl (has []) (2, 1) (listing b).
Proof. unfold listing. safes. Qed.
Lemma safe_clear lvl b : Safe lvl (has []) (2, 1) (clear b).
Proof. unfold clear. safes. Qed.
Lemma safe_names lvl K n b : lvl <= 1 -> Safe lvl K n (rd (FrameNames b)).
Proof.
  intros H. apply safe_rd. intros h _ l. cbn [guard]. replace (2 <=? lvl) with false; [discriminate|].
  symmetry. apply Nat.leb_gt. lia.
Qed.
Lemma safe_validate lvl K n b : lvl <= 1 -> Safe lvl K n (validateFrameId b).
Proof. intros H. unfold validateFrameId. safe; apply safe_names; exact H. Qed.
Lemma safe_lookupFixed lvl b : lvl <= 1 -> Safe lvl (has []) (2, 1) (lookupTransformFixed b).
Proof. intros H. unfold lookupTransformFixed. safe; try (apply safe_validate; exact H); apply safe_lookup. Qed.
Lemma safe_query lvl : lvl <= 1 -> Safe lvl (has []) (2, 1) query.
Proof.
  intros H. unfold query. safe; [apply safe_lookup|apply safe_lookupFixed; exact H|apply safe_can|
    apply safe_canFixed|apply safe_listing].
Qed.
Lemma safe_asks lvl n : lvl <= 1 -> rle n (2, 0) -> Safe lvl (has []) n asks.
Proof.
  intros H Hn. unfold asks. safe.
  - apply (safe_guard lvl n query [] (2, 1)); [apply safe_query; exact H|].
    revert Hn. unfold rle; cbn [fst snd]; lia.
  - apply (safe_guard lvl _ query _ (2, 1)); [apply safe_query; exact H|rank_solve].
Qed.
Lemma safe_addRequest n b : rle n (2, 1) -> Safe 0 (has []) n (addTransformableRequest b).
Proof.
  intros Hn. apply (safe_guard 0 n _ [] (2, 1)); [|exact Hn]. clear Hn n.
  unfold addTransformableRequest. safes.
Qed.

(* ---- Filters ---- *)
Section Filters.
Context (C : setup) (W : well_behaved C).

(* the callbacks of filter [f] keep the order when called with that filter's locks held *)
Definition cb_safe (f : nat) : Prop :=
  Safe 0 (has []) (1, 8 * f + 4) (output C f) /\ Safe 0 (has []) (1, 8 * f + 4) (failure C f).

Lemma safe_ready f L n : cb_safe f -> rle n (1, 8 * f + 3) -> Safe 0 (has L) n (messageReady C f).
Proof.
  intros [Ho _] Hn. unfold messageReady, signalMessage. destruct (queue_of C f) as [q|]; safe.
  eapply safe_guard; [exact Ho|rank_solve].
Qed.
Lemma safe_dropped f L n : cb_safe f -> rle n (1, 8 * f + 3) -> Safe 0 (has L) n (messageDropped C f).
Proof.
  intros [_ Hf] Hn. unfold messageDropped, signalFailure. destruct (queue_of C f) as [q|]; safe.
  eapply safe_guard; [exact Hf|rank_solve].
Qed.
Lemma safe_add f : cb_safe f -> Safe 0 (has []) (1, 8 * f + 1) (add C f).
Proof.
  intros H. unfold add, add_request. safes;
    try (apply safe_dropped; [exact H|rank_solve]); try (apply safe_ready; [exact H|rank_solve]);
    try (apply safe_addRequest; rank_solve).
Qed.
Lemma safe_loop_polite f : (forall g, f < g -> g < filters C -> cb_safe g) ->
  Safe 0 (has []) (1, 8 * f + 4) (polite C f).
Proof.
  intros H. unfold polite. safe.
  - apply safe_asks; [lia|rank_solve].
  - match goal with H0 : _ /\ _ |- _ => destruct H0 as [A B] end.
    eapply safe_guard; [apply safe_add; exact (H _ A B)|rank_solve].
Qed.
Lemma cb_safe_all f : cb_safe f.
Proof.
  destruct W as (Wo & Wf & _).
  assert (H : forall k g, filters C - g <= k -> cb_safe g).
  { induction k as [|k IH]; intros g Hg;
      (split; intros tr o Ht; [apply Wo in Ht|apply Wf in Ht]; revert tr o Ht;
       apply safe_loop_polite; intros g' A B; apply IH || (exfalso; lia); lia). }
  exact (H _ f (le_n _)).
Qed.
Lemma safe_transformable f : Safe 0 (has []) (1, 8 * f + 1) (transformable C f).
Proof.
  pose proof (cb_safe_all f) as H. unfold transformable.
  set (K := fun h : held => exists h0, h = (MessagesMx f, Upgrade) :: h0).
  assert (KM : forall h, K h -> has [MessagesMx f] h).
  { intros h [h0 ->] l [<-|[]]. exists Upgrade. split; [now left|discriminate]. }
  apply (safe_scoped 0 _ K); [rank_solve|discriminate|intros h _; now exists h|].
  assert (R : forall n, Safe 0 K n (rd (Messages f))).
  { intros n. apply safe_rd. intros h Hh l E. cbn in E. injection E as <-. apply (KM h Hh). now left. }
  assert (R' : forall n, Safe 0 K n (wr (Messages f))).
  { intros n. apply safe_wr. intros h Hh l E. cbn in E. injection E as <-. apply (KM h Hh). now left. }
  safe; try apply R; try apply R'.
  - apply (safe_weak 0 (has []) K (succ (rank (MessagesMx f)))); [|intros h _; apply has_nil|rank_solve].
    safe; eapply safe_guard; try apply safe_can; rank_solve.
  - apply (safe_promoted 0 K (has [MessagesMx f])); [exact (fun x => x)| |].
    + intros h [h0 ->]. exists h0. split; [reflexivity|].
      intros l [<-|[]]. exists Exclusive. split; [now left|discriminate].
    + safe; [apply safe_ready; [exact H|rank_solve]|apply safe_dropped; [exact H|rank_solve]].
Qed.
Lemma safe_deliver f : Safe 0 (has []) (1, 8 * f + 1) (deliver C f).
Proof.
  destruct (cb_safe_all f) as [Ho Hf]. unfold deliver. destruct (queue_of C f) as [q|]; [|safe].
  safe. apply (safe_scoped 0 _ (has [])); [rank_solve|intros _; exact I|intros h _; apply has_nil|].
  unfold signalMessage, signalFailure. safe; eapply safe_guard; try exact Ho; try exact Hf; rank_solve.
Qed.
End Filters.

Lemma safe_filter_clear lvl C f : Safe lvl (has []) (1, 8 * f + 1) (filter_clear C f).
Proof. unfold filter_clear. destruct (queue_of C f) as [q|]; safes. Qed.

Lemma safe_test0 C b : well_behaved C -> Safe 0 (has []) (0, 0) (testTransformableRequests C b).
Proof.
  intros W. unfold testTransformableRequests, test_one. safes.
  - eapply safe_guard; [apply safe_transformable; exact W|rank_solve].
  - destruct W as (_ & _ & Wl). intros tr o Ht. apply Wl in Ht. revert tr o Ht.
    apply safe_loop. apply safe_asks; [lia|rank_solve].
Qed.
Lemma safe_setTransform lvl C b : Safe lvl (has []) (0, 0) (testTransformableRequests C b) ->
  Safe lvl (has []) (0, 0) (setTransform C b).
Proof. intros H. unfold setTransform. safes. exact H. Qed.

Lemma safe_server_lookup lvl s : lvl <= 1 -> Safe lvl (has []) (2, 1) (server_lookup s).
Proof. intros H. unfold server_lookup. safe; [apply safe_lookup|apply safe_lookupFixed; exact H]. Qed.
Lemma safe_server_can lvl s : Safe lvl (has []) (2, 1) (server_can s).
Proof. unfold server_can. safe; [apply safe_can|apply safe_canFixed]. Qed.
Lemma safe_check lvl s : lvl <= 1 -> Safe lvl (has []) (0, 0) (checkTransforms s).
Proof.
  intros H. unfold checkTransforms. safes;
  try (eapply safe_guard; [apply safe_server_can|rank_solve]);
  eapply safe_guard; [apply safe_server_lookup; exact H|rank_solve].
Qed.
Lemma safe_cancelCB lvl s : Safe lvl (has []) (0, 0) (cancelCB s).
Proof. unfold cancelCB. safes. Qed.
Lemma safe_goal lvl s : lvl <= 1 -> Safe lvl (has []) (0, 0) (goalCB s).
Proof.
  intros H. unfold goalCB. safes;
  try (eapply safe_guard; [apply safe_server_can|rank_solve]);
  eapply safe_guard; [apply safe_server_lookup; exact H|rank_solve].
Qed.

(* every call, level 0 *)
Lemma safe_run0 C c : well_behaved C -> Safe 0 (has []) (0, 0) (run C c).
Proof.
  intros W. destruct c; cbn [run];
  try (eapply safe_guard; [first [apply safe_lookup | apply safe_lookupFixed; lia | apply safe_can
     | apply safe_canFixed | apply safe_listing | apply safe_clear
     | apply safe_filter_clear | apply safe_add; apply cb_safe_all; exact W
     | apply safe_deliver; exact W] | rank_solve]);
  try (first [apply safe_check; lia | apply safe_cancelCB | apply safe_goal; lia]).
  - apply safe_setTransform, safe_test0, W.
  - unfold unlocked_lookup. safes.
  - unfold changedListener. safes.
  - safes.
  - safes.
  - apply safe_addRequest; rank_solve.
  - safes.
  - unfold setTargetFrames. safes.
  - unfold getTargetFramesString. safes.
  - unfold setTolerance. safes.
  - unfold setQueueSize. safes.
  - unfold getQueueSize. safes.
  - unfold registerFailureCallback. safes.
Qed.

(* ---- Without transformable requests ---- *)
Lemma safe_test_none lvl C b : ~ requests_made C -> Safe lvl (has []) (0, 0) (listener C b) ->
  Safe lvl (has []) (0, 0) (testTransformableRequests C b).
Proof.
  intros N H. unfold testTransformableRequests. safe; try contradiction. exact H.
Qed.
Lemma safe_run1 C c : well_behaved C -> ~ requests_made C -> without_requests c ->
  Safe 1 (has []) (0, 0) (run C c).
Proof.
  intros W N A. destruct c; cbn [run without_requests] in *; try contradiction;
  try (eapply safe_guard; [first [apply safe_lookup | apply safe_lookupFixed; lia | apply safe_can
     | apply safe_canFixed | apply safe_listing | apply safe_clear
     | apply safe_filter_clear] | rank_solve]);
  try (first [apply safe_check; lia | apply safe_cancelCB | apply safe_goal; lia]).
  - apply safe_setTransform, safe_test_none; [exact N|].
    destruct W as (_ & _ & Wl). intros tr o Ht. apply Wl in Ht. revert tr o Ht.
    apply safe_loop. apply safe_asks; [lia|rank_solve].
  - unfold changedListener. safes.
  - safes.
  - safes.
  - safes.
  - unfold setTargetFrames. safes.
  - unfold getTargetFramesString. safes.
  - unfold setTolerance. safes.
  - unfold setQueueSize. safes.
  - unfold getQueueSize. safes.
  - unfold registerFailureCallback. safes.
Qed.
Lemma safe_run2 C c : ~ requests_made C -> (forall b tr o, listener C b tr o -> skip tr o) ->
  without_fixed c -> Safe 2 (has []) (0, 0) (run C c).
Proof.
  intros N Hl A. destruct c; cbn [run without_fixed without_requests] in *; try contradiction;
  try (eapply safe_guard; [first [apply safe_lookup | apply safe_can
     | apply safe_canFixed | apply safe_listing | apply safe_clear
     | apply safe_filter_clear] | rank_solve]);
  try (apply safe_cancelCB).
  - apply safe_setTransform, safe_test_none; [exact N|].
    intros tr o Ht. apply Hl in Ht. revert tr o Ht. apply safe_skip.
  - unfold changedListener. safes.
  - safes.
  - safes.
  - safes.
  - unfold setTargetFrames. safes.
  - unfold getTargetFramesString. safes.
  - unfold setTolerance. safes.
  - unfold setQueueSize. safes.
  - unfold getQueueSize. safes.
  - unfold registerFailureCallback. safes.
Qed.
Lemma safe_client lvl C (P : call -> Prop) : (forall c, P c -> Safe lvl (has []) (0, 0) (run C c)) ->
  Safe lvl (has []) (0, 0) (client C P).
Proof. intros H. unfold client. safe. apply H. assumption. Qed.
