(** * Proofs for C81: answers about a past time *)
From Coq Require Import ZArith Bool List String Lia Arith Reals.
From Verif Require Import RosTime Scalar LinearMath Cache SpecCache CacheProofs CacheQueries CacheTheorems
  BufferCore SpecCore CoreInv Naturality CoreSet Bridge History CoreTheorems Instances SpecReal
  LookupBase LookupTheorems LookupTree LookupPose SpecPast PastProofs PastCore PastWalk.
Import ListNotations.
Open Scope Z_scope.

Section P.
Context {S : Scalar}.
Notation core := (core S).
Implicit Types (s : core) (n tgt src : string) (t : time) (ops : list (core_op S)).

Definition sub_links s s' t : Prop := forall n d, link s t n = Some d -> link s' t n = Some d.
Lemma climbs_sub : forall s s' t n ds m, sub_links s s' t -> climbs s t n ds m -> climbs s' t n ds m.
Proof. intros s s' t n ds m H C. induction C; econstructor; eauto. Qed.
Lemma depth_sub : forall s s' t n, sub_links s s' t -> depth_ok s' t n -> depth_ok s t n.
Proof. intros s s' t n H D ds m C. apply (D ds m). eapply climbs_sub; eassumption. Qed.

(** Frames that are connected at [t] are known. *)
Lemma climb_end_known : forall s t n d ds m, wf s -> climbs s t n (d :: ds) m -> known s n /\ known s m.
Proof.
  intros s t n d ds. revert n d. induction ds as [|e ds IH]; intros n d m W C; inversion C; subst.
  - match goal with H : climbs _ _ _ [] _ |- _ => inversion H; subst end.
    match goal with H : link _ _ _ = _ |- _ => destruct (link_parent _ _ _ _ W H) as (A & _ & B) end. auto.
  - match goal with H : climbs _ _ _ (e :: ds) _ |- _ => apply (IH _ _ _ W) in H as [_ H1] end.
    match goal with H : link _ _ _ = _ |- _ => destruct (link_parent _ _ _ _ W H) as (A & _ & B) end. auto.
Qed.
Lemma connected_known : forall s t a b c ds dt, wf s -> a <> b -> climbs s t a ds c -> climbs s t b dt c -> known s a /\ known s b.
Proof.
  intros s t a b c ds dt W Ne C1 C2. destruct ds as [|d ds], dt as [|e dt].
  - inversion C1; inversion C2; subst. contradiction.
  - inversion C1; subst. destruct (climb_end_known _ _ _ _ _ _ W C2). auto.
  - inversion C2; subst. destruct (climb_end_known _ _ _ _ _ _ W C1). auto.
  - destruct (climb_end_known _ _ _ _ _ _ W C1), (climb_end_known _ _ _ _ _ _ W C2). auto.
Qed.
Lemma answered_connected : forall s tgt src t m, reachable s -> t <> 0 -> tgt <> src -> lookupTransform s tgt src t = Ok m ->
  exists c ds dt, climbs s t src ds c /\ climbs s t tgt dt c.
Proof.
  intros s tgt src t m R Ht Ne H. assert (Es : tm_stamp m = t) by (eapply lookup_stamp; eassumption).
  destruct (lookup_pose_cases s tgt src t m R Ne H) as [(es & C & _)|[(et & C & _)|(es & et & c' & C1 & C2 & _)]]; rewrite Es in *.
  - exists tgt, es, []. split; [assumption|constructor].
  - exists src, [], et. split; [constructor|assumption].
  - eauto.
Qed.

Theorem answers_stay_gen : forall s t ops tgt src, reachable s -> early s -> 0 < t < dur_bound -> exact_at s t ->
  later_traffic s t ops -> none_behind s t ops -> none_expires s t ops ->
  agrees (lookupTransform s tgt src t) (lookupTransform (run s ops) tgt src t) /\
  canTransform s tgt src t None = canTransform (run s ops) tgt src t None.
Proof.
  intros s t ops tgt src R He Ht X H Nb Ne.
  assert (R' : reachable (run s ops)) by (apply reachable_run; [assumption|eapply later_ok; [|eassumption]; lia]).
  assert (He' : early (run s ops)) by (eapply early_later; try eassumption; lia).
  assert (L : forall n, link s t n = link (run s ops) t n) by (apply links_same; auto; lia).
  assert (A : agrees (lookupTransform s tgt src t) (lookupTransform (run s ops) tgt src t)).
  { destruct (string_dec tgt src) as [->|D].
    { intros m. unfold lookupTransform. rewrite String.eqb_refl, (proj2 (Z.eqb_neq t 0)) by lia. tauto. }
    assert (SL : sub_links (run s ops) s t) by (intros n d E; rewrite L; assumption).
    assert (K : (known s tgt /\ known s src) \/ ~ (known s tgt /\ known s src)) by (destruct (known_dec s tgt), (known_dec s src); tauto).
    destruct K as [[K1 K2]|K].
    - intros m. apply same_links; auto; (split; [intros _; eapply known_later; try eassumption; lia|auto]).
    - intros m. split; intros E; exfalso; apply K.
      + destruct (lookup_ok_inv s tgt src t m (reachable_wf _ R) D E) as (_ & K1 & _ & K2 & _). auto.
      + destruct (answered_connected (run s ops) tgt src t m R' ltac:(lia) D E) as (c & ds & dt & C1 & C2).
        apply (connected_known s t tgt src c dt ds); auto using reachable_wf; eapply climbs_sub; eassumption. }
  split; [assumption|].
  destruct (can_total s tgt src t (reachable_wf _ R)) as [b Eb]. destruct (can_total (run s ops) tgt src t (reachable_wf _ R')) as [b' Eb'].
  rewrite Eb, Eb'. f_equal. f_equal.
  pose proof (can_iff_lookup s tgt src t R He ltac:(lia)) as I1. pose proof (can_iff_lookup (run s ops) tgt src t R' He' ltac:(lia)) as I2.
  rewrite Eb in I1. rewrite Eb' in I2.
  assert (EQ : b = true <-> b' = true).
  { split; intros ->.
    - destruct (proj1 I1 eq_refl) as [m Hm]. apply A in Hm. assert (Y : Ok (b', None) = Ok (true, None) :> res (bool * errp)) by (apply I2; eauto). congruence.
    - destruct (proj1 I2 eq_refl) as [m Hm]. apply A in Hm. assert (Y : Ok (b, None) = Ok (true, None) :> res (bool * errp)) by (apply I1; eauto). congruence. }
  destruct b, b'; try reflexivity; [symmetry|]; apply EQ; reflexivity.
Qed.
End P.

(** ** over the reals: links may vanish, or appear *)
Lemma unit_later : forall (s : core RS) ops, reachable s -> Forall op_ok ops -> unit_ops ops -> unit_samples s -> unit_samples (run s ops).
Proof.
  intros s ops R. apply reachable_wf in R. revert s R. induction ops as [|o ops IH]; intros s W Hf Uo U; [exact U|]. inversion Hf; subst.
  change (run s (o :: ops)) with (run (step s o) ops). apply IH; [apply wf_step; assumption|assumption| |].
  - intros m a st Hm. apply (Uo m a st). cbn. auto.
  - apply unit_step; try assumption. intros m a st [->|[]]. apply (Uo m a st). cbn. auto.
Qed.

(** An answer from fewer links is the answer from more. *)
Lemma answer_sub : forall (s s' : core RS) t tgt src m, reachable s -> reachable s' -> early s' -> unit_samples s -> unit_samples s' ->
  0 < t < dur_bound -> sub_links s s' t -> depth_ok s' t src -> depth_ok s' t tgt ->
  lookupTransform s tgt src t = Ok m -> lookupTransform s' tgt src t = Ok m.
Proof.
  intros s s' t tgt src m R R' He' U U' Ht Sb Ds Dt H. destruct (string_dec tgt src) as [->|D].
  { unfold lookupTransform in *. rewrite String.eqb_refl, (proj2 (Z.eqb_neq t 0)) in * by lia. assumption. }
  destruct (answered_connected s tgt src t m R ltac:(lia) D H) as (c & ds & dt & C1 & C2).
  pose proof (climbs_sub _ _ _ _ _ _ Sb C1) as C1'. pose proof (climbs_sub _ _ _ _ _ _ Sb C2) as C2'.
  destruct (connected_known s' t tgt src c dt ds (reachable_wf _ R') D C2' C1') as [K1 K2].
  destruct (lookup_ok_inv s tgt src t m (reachable_wf _ R) D H) as (P1 & _ & P2 & _ & _).
  destruct (proj2 (lookup_succeeds_iff s' tgt src t R' He' Ht P1 P2 K1 K2 D Ds Dt)) as [m' H'].
  { exists c. split; eauto. }
  assert (E : tm_stamp m = t) by (eapply lookup_stamp; [exact R| |exact H]; lia).
  assert (E' : tm_stamp m' = t) by (eapply lookup_stamp; [exact R'| |exact H']; lia).
  assert (Ep : msg_pose m = msg_pose m').
  { rewrite (lookup_pose s tgt src t m c ds dt R U D H); rewrite ?E; auto; [|eapply depth_sub; eassumption|eapply depth_sub; eassumption].
    rewrite (lookup_pose s' tgt src t m' c ds dt R' U' D H'); rewrite ?E'; auto. }
  pose proof (lookup_header s tgt src t m R H) as (F1 & F2 & _). pose proof (lookup_header s' tgt src t m' R' H') as (F1' & F2' & _).
  rewrite H'. f_equal. unfold msg_pose in Ep. injection Ep as E3 E4. destruct m, m'; cbn in *. subst. reflexivity.
Qed.

Theorem answer_was_there : forall (s : core RS) t ops tgt src m, reachable s -> early s -> unit_samples s -> unit_ops ops ->
  0 < t < dur_bound -> later_traffic s t ops -> none_behind s t ops -> depth_ok s t src -> depth_ok s t tgt ->
  lookupTransform (run s ops) tgt src t = Ok m -> lookupTransform s tgt src t = Ok m.
Proof.
  intros s t ops tgt src m R He U Uo Ht H Nb Ds Dt Hm.
  assert (Hf : Forall op_ok ops) by (eapply later_ok; [|eassumption]; lia).
  apply (answer_sub (run s ops) s t); auto using reachable_run, unit_later.
  intros n d. apply links_shrink; auto; [lia|apply exact_real; lia].
Qed.
Theorem answer_remains : forall (s : core RS) t ops tgt src m, reachable s -> early s -> unit_samples s -> unit_ops ops ->
  0 < t < dur_bound -> later_traffic s t ops -> none_expires s t ops -> depth_ok (run s ops) t src -> depth_ok (run s ops) t tgt ->
  lookupTransform s tgt src t = Ok m -> lookupTransform (run s ops) tgt src t = Ok m.
Proof.
  intros s t ops tgt src m R He U Uo Ht H Ne Ds Dt Hm.
  assert (Hf : Forall op_ok ops) by (eapply later_ok; [|eassumption]; lia).
  apply (answer_sub s (run s ops) t); auto using reachable_run, unit_later.
  - eapply early_later; try eassumption. lia.
  - intros n d. apply links_grow; auto; [lia|apply exact_real; lia].
Qed.
