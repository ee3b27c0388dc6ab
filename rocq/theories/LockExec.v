(* Lemmas for PropsLocks.v: running concrete schedules, for the counterexamples. *)
From Coq Require Import List Bool Arith Lia.
From Verif Require Import SpecLocks Locks LockProofs LockRuns.
Import ListNotations.

Definition eqp (s1 s2 : Pool) : Prop := forall i, s1 i = s2 i.
Lemma set_eqp (s1 s2 : Pool) i t : eqp s1 s2 -> eqp (set s1 i t) (set s2 i t).
Proof. intros H j. unfold set. destruct (Nat.eqb j i); [reflexivity|apply H]. Qed.
Lemma step_eqp (s1 s2 s1' : Pool) i : eqp s1 s2 -> step s1 i s1' -> exists s2', step s2 i s2' /\ eqp s1' s2'.
Proof.
  intros E St. destruct St as [h l m k Hi Hf|h1 h2 l k Hi Ho|h1 h2 l k Hi|h1 h2 l m k Hi|h x k Hi|h x k Hi];
    rewrite E in Hi; eexists; (split; [|apply set_eqp; exact E]).
  - apply (step_acq s2 i h l m k Hi). intros j t m' Hj. rewrite <- E in Hj. exact (Hf j t m' Hj).
  - apply (step_promote s2 i h1 h2 l k Hi). intros j t m' Hj. rewrite <- E in Hj. exact (Ho j t m' Hj).
  - exact (step_demote s2 i h1 h2 l k Hi).
  - exact (step_rel s2 i h1 h2 l m k Hi).
  - exact (step_rd s2 i h x k Hi).
  - exact (step_wr s2 i h x k Hi).
Qed.

Definition is_compatible (m m' : mode) : bool :=
  match m, m' with Shared, Shared | Shared, Upgrade | Upgrade, Shared => true | _, _ => false end.
Definition is_mutex (a b : mutex) : bool := if mutex_eq_dec a b then true else false.
Definition conc := list (thread mutex var).
Definition pool_of (ts : conc) : Pool := fun i => nth_error ts i.
Definition is_free (ts : conc) (l : mutex) (m : mode) : bool :=
  forallb (fun t => forallb (fun p => negb (is_mutex (fst p) l) || is_compatible m (snd p)) (holds t)) ts.
Fixpoint upd (ts : conc) (i : nat) (t : thread mutex var) : conc :=
  match ts, i with [], _ => [] | _ :: r, 0 => t :: r | a :: r, S i => a :: upd r i t end.
Definition others_free (ts : conc) (i : nat) (l : mutex) : bool :=
  forallb (fun j => Nat.eqb j i ||
    match nth_error ts j with Some t => forallb (fun p => negb (is_mutex (fst p) l)) (holds t) | None => true end)
    (List.seq 0 (length ts)).
Definition stepf (ts : conc) (i : nat) : option conc :=
  match nth_error ts i with
  | Some (mkThread h (a :: k)) =>
      match a with
      | Acq l m => if is_free ts l m then Some (upd ts i (mkThread ((l, m) :: h) k)) else None
      | Promote l => match h with
                     | (l', Upgrade) :: h0 => if is_mutex l' l && others_free ts i l
                         then Some (upd ts i (mkThread ((l, Exclusive) :: h0) k)) else None
                     | _ => None end
      | Demote l => match h with
                     | (l', Exclusive) :: h0 => if is_mutex l' l
                         then Some (upd ts i (mkThread ((l, Upgrade) :: h0) k)) else None
                     | _ => None end
      | Rel l => match h with
                     | (l', m) :: h0 => if is_mutex l' l then Some (upd ts i (mkThread h0 k)) else None
                     | _ => None end
      | Rd _ | Wr _ => Some (upd ts i (mkThread h k))
      end
  | _ => None
  end.
Fixpoint runf (ts : conc) (sched : list nat) : option conc :=
  match sched with [] => Some ts | i :: r => match stepf ts i with Some ts' => runf ts' r | None => None end end.

Lemma is_mutex_true a b : is_mutex a b = true <-> a = b.
Proof. unfold is_mutex. destruct (mutex_eq_dec a b); split; congruence. Qed.
Lemma upd_pool ts i t : i < length ts -> eqp (set (pool_of ts) i t) (pool_of (upd ts i t)).
Proof.
  intros Hi j. unfold set, pool_of. revert i j Hi. induction ts as [|a ts IH]; intros i j Hi; cbn [length] in Hi; [lia|].
  destruct i as [|i], j as [|j]; cbn [upd nth_error Nat.eqb]; try reflexivity. apply IH. lia.
Qed.
Lemma is_free_ok ts l m : is_free ts l m = true -> free_for (pool_of ts) l m.
Proof.
  intros H j t m' Hj Hl. unfold is_free in H. rewrite forallb_forall in H.
  specialize (H t (nth_error_In _ _ Hj)). rewrite forallb_forall in H. specialize (H _ Hl). cbn [fst snd] in H.
  apply orb_true_iff in H. destruct H as [H|H].
  - apply negb_true_iff in H. assert (E : is_mutex l l = true) by now apply is_mutex_true. congruence.
  - destruct m, m'; cbn in *; try discriminate; exact I.
Qed.
Lemma others_free_ok ts i l : others_free ts i l = true -> only (pool_of ts) i l.
Proof.
  intros H j t m' Hj Hl. unfold others_free in H. rewrite forallb_forall in H.
  assert (Lj : j < length ts) by (apply nth_error_Some; unfold pool_of in Hj; rewrite Hj; discriminate).
  specialize (H j (proj2 (in_seq _ _ _) (conj (Nat.le_0_l _) Lj))). apply orb_true_iff in H.
  destruct H as [H|H]; [now apply Nat.eqb_eq|]. unfold pool_of in Hj. rewrite Hj in H. rewrite forallb_forall in H.
  specialize (H _ Hl). cbn [fst] in H. apply negb_true_iff in H.
  assert (E : is_mutex l l = true) by now apply is_mutex_true. congruence.
Qed.
Lemma stepf_ok ts i ts' : stepf ts i = Some ts' -> exists s', step (pool_of ts) i s' /\ eqp s' (pool_of ts').
Proof.
  unfold stepf. destruct (nth_error ts i) as [[h [|a k]]|] eqn:E; try discriminate.
  assert (Li : i < length ts) by (apply nth_error_Some; rewrite E; discriminate).
  assert (Hi : pool_of ts i = Some (mkThread h (a :: k))) by exact E.
  destruct a as [l m|l|l|l|x|x].
  - destruct (is_free ts l m) eqn:F; [|discriminate]. intros H; injection H as <-. eexists.
    split; [exact (step_acq _ i h l m k Hi (is_free_ok _ _ _ F))|now apply upd_pool].
  - destruct h as [|[l' m] h0]; [discriminate|]. destruct m; try discriminate.
    destruct (is_mutex l' l && others_free ts i l) eqn:F; [|discriminate]. apply andb_true_iff in F. destruct F as [F1 F2].
    apply is_mutex_true in F1. subst l'. intros H; injection H as <-. eexists.
    split; [exact (step_promote _ i [] h0 l k Hi (others_free_ok _ _ _ F2))|now apply upd_pool].
  - destruct h as [|[l' m] h0]; [discriminate|]. destruct m; try discriminate.
    destruct (is_mutex l' l) eqn:F; [|discriminate]. apply is_mutex_true in F. subst l'. intros H; injection H as <-. eexists.
    split; [exact (step_demote _ i [] h0 l k Hi)|now apply upd_pool].
  - destruct h as [|[l' m] h0]; [discriminate|].
    destruct (is_mutex l' l) eqn:F; [|discriminate]. apply is_mutex_true in F. subst l'. intros H; injection H as <-. eexists.
    split; [exact (step_rel _ i [] h0 l m k Hi)|now apply upd_pool].
  - intros H; injection H as <-. eexists. split; [exact (step_rd _ i h x k Hi)|now apply upd_pool].
  - intros H; injection H as <-. eexists. split; [exact (step_wr _ i h x k Hi)|now apply upd_pool].
Qed.
Lemma runf_ok sched : forall ts ts' s, eqp (pool_of ts) s -> runf ts sched = Some ts' ->
  exists s', reach s s' /\ eqp (pool_of ts') s'.
Proof.
  induction sched as [|i r IH]; intros ts ts' s E H; cbn [runf] in H.
  - injection H as <-. exists s. split; [constructor|exact E].
  - destruct (stepf ts i) as [t1|] eqn:F; [|discriminate]. destruct (stepf_ok _ _ _ F) as (s1 & St & E1).
    destruct (step_eqp _ _ _ _ E St) as (s2 & St2 & E2).
    destruct (IH t1 ts' s2 (fun j => eq_trans (eq_sym (E1 j)) (E2 j)) H) as (s3 & R & E3).
    exists s3. split; [exact (reach_step s i s2 s3 St2 R)|exact E3].
Qed.
Lemma start_conc progs : eqp (pool_of (map (mkThread []) progs)) (start progs).
Proof.
  intros i. unfold pool_of, start. revert i. induction progs as [|a r IH]; intros [|i]; cbn; try reflexivity. apply IH.
Qed.
Lemma run_start sched progs ts : runf (map (mkThread []) progs) sched = Some ts ->
  exists s, reach (start progs) s /\ eqp (pool_of ts) s.
Proof. intros H. exact (runf_ok sched _ _ _ (start_conc progs) H). Qed.

(* a thread waiting for a lock it holds *)
Lemma self_stuck (s : Pool) i t l m m' k : s i = Some t -> In (l, m) (holds t) -> ~ compatible m' m ->
  todo t = Acq l m' :: k -> stuck_for_good s i.
Proof.
  intros Hi Hl Hc Et. split; [exists t; split; [exact Hi|rewrite Et; discriminate]|].
  assert (B : forall s', reach s s' -> s' i = Some t -> forall s'', ~ step s' i s'').
  { intros s' _ H s'' St.
    destruct St as [h l1 m1 k1 Hi' Hf|h1 h2 l1 k1 Hi' Ho|h1 h2 l1 k1 Hi'|h1 h2 l1 m1 k1 Hi'|h x k1 Hi'|h x k1 Hi'];
      rewrite H in Hi'; injection Hi' as ->; cbn [todo holds] in *; try discriminate.
    injection Et as -> -> ->. exact (Hc (Hf i _ m H Hl)). }
  intros s' s'' R. apply B; [exact R|].
  assert (P : forall a b : Pool, reach a b -> a i = Some t -> b i = Some t).
  { intros a b Rab. induction Rab as [a|a j a1 b St Rab IH]; intros Ha; [exact Ha|]. apply IH.
    destruct (Nat.eq_dec j i) as [->|N].
    - exfalso. 
      destruct St as [h l1 m1 k1 Hi' Hf|h1 h2 l1 k1 Hi' Ho|h1 h2 l1 k1 Hi'|h1 h2 l1 m1 k1 Hi'|h x k1 Hi'|h x k1 Hi'];
        rewrite Ha in Hi'; injection Hi' as ->; cbn [todo holds] in *; try discriminate.
      injection Et as -> -> ->. exact (Hc (Hf i _ m Ha Hl)).
    - destruct St; rewrite set_other by (intros E; apply N; now symmetry); exact Ha. }
  exact (P s s' R Hi).
Qed.

(* building action sequences *)
Lemma seq_i (p q : prog) t1 t2 o : p t1 Done -> q t2 o -> SpecLocks.seq p q (t1 ++ t2) o.
Proof. intros Hp Hq. right. exists t1, t2. auto. Qed.
Lemma left_i (p q : prog) tr o : p tr o -> either p q tr o.
Proof. now left. Qed.
Lemma right_i (p q : prog) tr o : q tr o -> either p q tr o.
Proof. now right. Qed.
Lemma lock_i l (p : prog) t o : p t o -> lock_guard l p (Acq l Exclusive :: t ++ [Rel l]) o.
Proof. intros H. exists t. auto. Qed.
Lemma scoped_i l m (p : prog) t o : p t o -> scoped l m p (Acq l m :: t ++ [Rel l]) o.
Proof. intros H. exists t. auto. Qed.
Lemma promoted_i l (p : prog) t o : p t o -> promoted l p (Promote l :: t ++ [Demote l]) o.
Proof. intros H. exists t. auto. Qed.
Lemma pick_i {A} (a : A) (p : A -> prog) tr o : p a tr o -> pick p tr o.
Proof. now exists a. Qed.
Lemma when_i (P : Prop) (p : prog) tr o : P -> p tr o -> when P p tr o.
Proof. now split. Qed.
Lemma once_i (p : prog) tr : p tr Done -> loop p tr Done.
Proof. intros H. rewrite <- (app_nil_r tr). exact (loop_next p tr [] Done H (loop_end p)). Qed.
Lemma try_i (p : prog) tr o : p tr o -> try_ p tr Done.
Proof. intros H. split; [reflexivity|now exists o]. Qed.
Lemma skip_i : (skip : prog) [] Done.
Proof. now split. Qed.
Lemma one_i a : (one a : prog) [a] Done.
Proof. now split. Qed.
Lemma client_i C (P : call -> Prop) c tr : P c -> run C c tr Done -> client C P tr Done.
Proof. intros H1 H2. apply once_i. apply (try_i _ tr Done). exists c. now split. Qed.
Lemma nothrow_i : may_throw [] Done.
Proof. left. now split. Qed.

(* Walk through a program, leaving the branches and loops to be chosen. *)
Ltac det := match goal with
  | |- SpecLocks.seq _ _ _ _ => eapply seq_i
  | |- lock_guard _ _ _ _ => eapply lock_i
  | |- scoped _ _ _ _ _ => eapply scoped_i
  | |- promoted _ _ _ _ => eapply promoted_i
  | |- skip _ _ => exact skip_i
  | |- rd _ _ _ => exact (one_i _)
  | |- wr _ _ _ => exact (one_i _)
  | |- may_throw _ _ => exact nothrow_i
  | |- try_ _ _ _ => eapply try_i
  | |- walk _ _ _ => unfold walk
  | |- lookupFrameNumber _ _ _ => unfold lookupFrameNumber
  | |- lookupFrameString _ _ _ => unfold lookupFrameString
  | |- lookupOrInsertFrameNumber _ _ _ => unfold lookupOrInsertFrameNumber
  | |- validateFrameId _ _ _ => unfold validateFrameId
  | |- getLatestCommonTime _ _ _ => unfold getLatestCommonTime
  | |- canTransformInternal _ _ _ => unfold canTransformInternal
  | |- removeTransformableCallback _ _ _ => unfold removeTransformableCallback
  | |- addTransformableCallback _ _ _ => unfold addTransformableCallback
  | |- cancelTransformableRequest _ _ _ => unfold cancelTransformableRequest
  | |- addTransformableRequest _ _ _ => unfold addTransformableRequest
  | |- lookupTransform _ _ _ => unfold lookupTransform
  | |- lookupTransformFixed _ _ _ => unfold lookupTransformFixed
  | |- canTransform _ _ _ => unfold canTransform
  | |- setTransform _ _ _ _ => unfold setTransform
  | |- testTransformableRequests _ _ _ _ => unfold testTransformableRequests
  | |- test_one _ _ _ => unfold test_one
  | |- transformable _ _ _ _ => unfold transformable
  | |- add _ _ _ _ => unfold add
  | |- add_request _ _ _ _ => unfold add_request
  | |- filter_clear _ _ _ _ => unfold filter_clear
  | |- setTargetFrames _ _ _ => unfold setTargetFrames
  | |- setTolerance _ _ _ => unfold setTolerance
  | |- setQueueSize _ _ _ => unfold setQueueSize
  | |- deliver _ _ _ _ => unfold deliver
  | |- signalMessage _ _ _ _ => unfold signalMessage
  | |- signalFailure _ _ _ _ => unfold signalFailure
  | |- run _ _ _ _ => unfold run
  end.
Ltac go := repeat det.
Ltac L := eapply left_i.
Ltac R := eapply right_i.
Ltac Z := apply loop_end.
Ltac O := eapply once_i.
