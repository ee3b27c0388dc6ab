(** * Message filter with threads: no deadlock, no livelock *)
From Coq Require Import ZArith Bool List String Lia Permutation Wellfounded.
From Verif Require Import RosTime Scalar LinearMath Cache SpecCache BufferCore SpecCore Requests SpecRequests RequestProofs RequestHistory
  MessageFilter SpecFilter FilterProofs FilterThreads SpecFilterThreads FilterThreadProofs FilterThreadReady.
Import ListNotations.
Open Scope list_scope.
Open Scope nat_scope.
Local Opaque MAX_GRAPH_DEPTH.

Section P.
Context {S : Scalar}.
Notation fstate := (fstate S).
Implicit Types (z : fstate) (i : minfo) (th : thread).

Definition is_test (th : thread) : bool := match th with SetTest => true | _ => false end.
Definition tosses (cs : list (string * bool)) : nat := fold_right (fun c n => (if snd c : bool then 1 else 2) + n) 0 cs.
Definition work (L : nat) (th : thread) : nat :=
  match th with
  | AddCopy _ => 5 * L + 3
  | AddAsk _ _ second rest => 5 * List.length rest + 2 + (if second then 2 else 4)
  | AddStore _ _ second rest _ => 5 * List.length rest + 2 + (if second then 1 else 3)
  | AddDecide _ => 2
  | AddQueue _ => 1
  | SetTest => 1
  | SetFire evs => 1 + List.length evs * (2 * L + 5)
  | SetWait _ evs => 1 + List.length evs * (2 * L + 5) + (2 * L + 3)
  | SetCheck _ cs evs => 1 + List.length evs * (2 * L + 5) + 2 + tosses cs
  | SetVerdict _ _ evs => 1 + List.length evs * (2 * L + 5) + 1
  | CfgExpected => 1
  | Gone => 0
  end.
Definition total (L : nat) (ths : list thread) : nat := fold_right (fun th n => work L th + n) 0 ths.
Definition load z : nat * nat := (many is_test (z_threads z), total (List.length (z_targets z)) (z_threads z)).

Lemma total_app : forall L l l', total L (l ++ l') = total L l + total L l'.
Proof. intros L l l'. induction l as [|a l IH]; [reflexivity|]. cbn [app total fold_right]. fold (total L (l ++ l')). fold (total L l). rewrite IH. lia. Qed.
Lemma total_set : forall L ths n old th, nth_error ths n = Some old -> total L (set_nth n th ths) + work L old = total L ths + work L th.
Proof.
  intros L ths n old th H. destruct (set_nth_split ths n old th H) as (l1 & l2 & E1 & E2). rewrite E2. rewrite E1. rewrite !total_app. cbn [total fold_right]. lia.
Qed.
Lemma tosses_fresh : forall l : list string, tosses (map (fun t => (t, false)) l) = 2 * List.length l.
Proof. induction l as [|a l IH]; [reflexivity|]. cbn [map tosses fold_right snd List.length]. fold (tosses (map (fun t : string => (t, false)) l)). rewrite IH. lia. Qed.

(** thread [n] goes on from [old] *)
Definition advances z n old z' : Prop :=
  z_targets z' = z_targets z /\ exists th, z_threads z' = set_nth n th (z_threads z) /\ is_test th = false /\
    (old = SetTest \/ work (List.length (z_targets z)) th < work (List.length (z_targets z)) old).
Lemma adv_goto : forall z n old th z', z_targets z' = z_targets z -> z_threads z' = set_nth n th (z_threads z) -> is_test th = false ->
  (old = SetTest \/ work (List.length (z_targets z)) th < work (List.length (z_targets z)) old) -> advances z n old z'.
Proof. intros z n old th z' A B C D. split; [assumption|]. exists th. auto. Qed.

Definition waits z th : bool :=
  match th with
  | AddCopy _ | SetWait _ _ => z_flock z
  | AddQueue _ => z_mlock z
  | SetFire (e :: _) => existsb (Z.eqb (ev_cb e)) (z_own z) && z_mlock z
  | Gone => true
  | _ => false
  end.
Lemma adv_next : forall z n old i rest, 5 * List.length rest + 3 <= work (List.length (z_targets z)) old -> advances z n old (next_target z n i rest).
Proof. intros z n old i rest W. destruct rest as [|tgt rest]; cbn [next_target]; (eapply adv_goto; proj; try reflexivity; right; cbn in *; lia). Qed.
Lemma adv_answered : forall z n old i tgt second rest h, 5 * List.length rest + 2 + (if second : bool then 1 else 3) <= work (List.length (z_targets z)) old ->
  advances z n old (answered z n i tgt second rest h).
Proof.
  intros z n old i tgt second rest h W. unfold answered. destruct (note_answer _ _) as [[k hs]|].
  - destruct second; cbn [negb andb]; [apply adv_next; lia|]. destruct (negb _); [|apply adv_next; lia]. eapply adv_goto; proj; try reflexivity. right. cbn in *. lia.
  - eapply adv_goto; proj; try reflexivity. right. cbn. lia.
Qed.
Lemma step_cases : forall z n read old, nth_error (z_threads z) n = Some old ->
  (waits z old = true /\ thread_step z n read = z) \/ (waits z old = false /\ advances z n old (thread_step z n read)).
Proof.
  intros z n read th Hn. unfold thread_step. rewrite Hn.
  destruct th as [i|i tgt second rest|i tgt second rest k|i|i| |evs|i evs|i checks evs|i can evs| |]; cbn [waits].
  - destruct (z_flock z); [left; auto|]. right. split; [reflexivity|]. apply adv_next. cbn. lia.
  - right. split; [reflexivity|]. assert (G : advances z n (AddAsk i tgt second rest) (lose (goto z n Gone) [(mi_seq i, Threw)])) by (eapply adv_goto; proj; try reflexivity; right; cbn; destruct second; lia).
    destruct (if second then lift_time _ else _) as [t| |]; try exact G. destruct (add_check _ _ _ _) as [[h|x y]| |]; try exact G.
    + apply adv_answered. cbn. destruct second; lia.
    + eapply adv_goto; proj; try reflexivity. right. cbn. destruct second; lia.
  - right. split; [reflexivity|]. destruct (push_request _ _ _ _ _ _ _) as [b h]. apply (adv_answered (upd_buf z b)). cbn. lia.
  - right. split; [reflexivity|]. destruct (Nat.eqb _ _); (eapply adv_goto; proj; try reflexivity; right; cbn; lia).
  - destruct (z_mlock z); [left; auto|]. right. split; [reflexivity|]. destruct (queue_rest (goto z n Gone) i) as (E1 & E2 & _). eapply adv_goto; [exact E2|exact E1|reflexivity|]. right. cbn. lia.
  - right. split; [reflexivity|]. destruct (testTransformableRequests _) as [b r]. eapply adv_goto; proj; try reflexivity; [destruct r; reflexivity|auto].
  - destruct evs as [|e evs]; [right; split; [reflexivity|]; eapply adv_goto; proj; try reflexivity; right; cbn; lia|].
    assert (Skip : advances z n (SetFire (e :: evs)) (goto z n (SetFire evs))) by (eapply adv_goto; proj; try reflexivity; right; cbn; lia).
    destruct (existsb (Z.eqb (ev_cb e)) (z_own z)); cbn [negb andb]; [|right; auto]. destruct (z_mlock z); [left; auto|]. right. split; [reflexivity|].
    destruct (find_info _ _) as [[[l1 i0] l2]|]; [|exact Skip].
    destruct (Nat.ltb _ _); [|destruct read]; (eapply adv_goto; proj; try reflexivity; right; cbn; lia).
  - destruct (z_flock z); [left; auto|]. right. split; [reflexivity|]. eapply adv_goto; proj; try reflexivity. right. cbn [work]. rewrite tosses_fresh. lia.
  - right. split; [reflexivity|]. destruct checks as [|[tgt second] cs]; [eapply adv_goto; proj; try reflexivity; right; cbn; lia|].
    assert (G : forall m f, advances z n (SetCheck i ((tgt, second) :: cs) evs) (upd_locks (goto z n Gone) m f)) by (intros; eapply adv_goto; proj; try reflexivity; right; cbn; destruct second; lia).
    destruct (if second then lift_time _ else _) as [t| |]; try apply G. destruct (canTransform _ _ _ _ _) as [[[|] er]| |]; try apply G.
    + destruct second; cbn [negb andb]; [eapply adv_goto; proj; try reflexivity; right; cbn [work tosses fold_right snd]; unfold tosses; lia|].
      destruct (negb _); (eapply adv_goto; proj; try reflexivity; right; cbn [work tosses fold_right snd]; unfold tosses; lia).
    + eapply adv_goto; proj; try reflexivity. right. cbn [work tosses fold_right snd]. destruct second; lia.
  - right. split; [reflexivity|]. eapply adv_goto; proj; try reflexivity. right. cbn. lia.
  - right. split; [reflexivity|]. eapply adv_goto; proj; try reflexivity. right. cbn. lia.
  - left. auto.
Qed.

Definition lighter (x y : nat * nat) : Prop := fst x < fst y \/ (fst x = fst y /\ snd x < snd y).
Lemma lighter_wf : well_founded lighter.
Proof.
  intros [a b]. revert b. induction a as [a IHa] using lt_wf_ind. intros b. induction b as [b IHb] using lt_wf_ind.
  constructor. intros [a' b'] [H|[H1 H2]]; cbn in *; [apply IHa; assumption|subst; apply IHb; assumption].
Qed.
Lemma advance_lighter : forall z n old z', nth_error (z_threads z) n = Some old -> advances z n old z' -> lighter (load z') (load z).
Proof.
  intros z n old z' Hn (ET & th & Et & Nt & W). unfold lighter, load. cbn [fst snd]. rewrite ET, Et.
  pose proof (many_set is_test _ _ _ th Hn) as M. pose proof (total_set (List.length (z_targets z)) _ _ _ th Hn) as W'. rewrite Nt in M. cbn [b2n] in M.
  destruct (is_test old) eqn:Eo; cbn [b2n] in M; [left; lia|]. right. split; [lia|]. destruct W as [->|W]; [discriminate Eo|lia].
Qed.
Lemma step_lighter : forall z n read, thread_step z n read = z \/ lighter (load (thread_step z n read)) (load z).
Proof.
  intros z n read. destruct (nth_error (z_threads z) n) as [old|] eqn:Hn.
  - destruct (step_cases z n read old Hn) as [[_ H]|[_ H]]; [auto|]. right. eapply advance_lighter; eassumption.
  - left. unfold thread_step. rewrite Hn. reflexivity.
Qed.
Lemma no_livelock : forall (s : nat -> fstate) (pick : nat -> nat * transformable_result),
  (forall k, s (Datatypes.S k) = fact (s k) (FGo (fst (pick k)) (snd (pick k)))) -> exists k, s (Datatypes.S k) = s k.
Proof.
  intros s pick H. enough (G : forall x, Acc lighter x -> forall k, load (s k) = x -> exists k', s (Datatypes.S k') = s k') by (eapply (G _ (lighter_wf (load (s 0)))); reflexivity).
  induction 1 as [x _ IH]. intros k E. pose proof (H k) as Hk. cbn [fact] in Hk. destruct (step_lighter (s k) (fst (pick k)) (snd (pick k))) as [Q|Q].
  - exists k. rewrite Hk. exact Q.
  - eapply (IH (load (s (Datatypes.S k)))); [|reflexivity]. rewrite Hk, <- E. exact Q.
Qed.

(** ** somebody can always go on *)
Lemma many_ex : forall p ths, 1 <= many p ths -> exists n th, nth_error ths n = Some th /\ p th = true.
Proof.
  intros p ths H. unfold many in H. destruct (filter p ths) as [|th l] eqn:E; [cbn in H; lia|]. assert (I : In th (filter p ths)) by (rewrite E; left; reflexivity).
  apply filter_In in I as [I P]. apply In_nth_error in I as [n I]. eauto.
Qed.
Lemma progress : forall z, inv z -> (exists th, In th (z_threads z) /\ th <> Gone) ->
  exists n old, nth_error (z_threads z) n = Some old /\ waits z old = false.
Proof.
  intros z V (th & I & N). destruct (z_flock z) eqn:F.
  - pose proof (v_f z V) as VF. rewrite F in VF. destruct (many_ex holds_f (z_threads z)) as (n & t & Hn & P); [rewrite VF; cbn; lia|].
    exists n, t. split; [assumption|]. destruct t; try discriminate P; reflexivity.
  - destruct (z_mlock z) eqn:M.
    + pose proof (v_m z V) as VM. rewrite M in VM. destruct (many_ex holds_m (z_threads z)) as (n & t & Hn & P); [rewrite VM; cbn; lia|].
      exists n, t. split; [assumption|]. destruct t; try discriminate P; cbn; assumption || reflexivity.
    + apply In_nth_error in I as [n Hn]. exists n, th. split; [assumption|]. destruct th; cbn; try assumption; try reflexivity; [|congruence].
      destruct evs; [reflexivity|]. rewrite M. apply andb_false_r.
Qed.
Lemma progress_step : forall z, inv z -> ~ quiet z -> exists n, forall read, lighter (load (thread_step z n read)) (load z).
Proof.
  intros z V Q. assert (E : exists th, In th (z_threads z) /\ th <> Gone).
  { assert (D : forall t : thread, {t = Gone} + {t <> Gone}) by (intros []; (left; reflexivity) || (right; discriminate)).
    destruct (Exists_dec (fun t => t <> Gone) (z_threads z)) as [X|X]; [intros t; destruct (D t); [right|left]; auto| |].
    - apply Exists_exists in X. exact X.
    - exfalso. apply Q. intros t Ht. destruct (D t) as [->|Nt]; [reflexivity|]. exfalso. apply X, Exists_exists. eauto. }
  destruct (progress z V E) as (n & old & Hn & W). exists n. intros read. destruct (step_cases z n read old Hn) as [[H _]|[_ H]]; [congruence|].
  eapply advance_lighter; eassumption.
Qed.
Lemma can_finish : forall z, inv z -> exists ops, Forall only_goes ops /\ quiet (frun z ops).
Proof.
  enough (G : forall x, Acc lighter x -> forall z, load z = x -> inv z -> exists ops, Forall only_goes ops /\ quiet (frun z ops)) by (intros z V; eapply (G _ (lighter_wf _)); [reflexivity|assumption]).
  induction 1 as [x _ IH]. intros z E V.
  assert (D : quiet z \/ ~ quiet z).
  { unfold quiet. assert (DD : forall t : thread, {t = Gone} + {t <> Gone}) by (intros []; (left; reflexivity) || (right; discriminate)).
    destruct (Forall_dec (fun t => t = Gone) DD (z_threads z)) as [X|X]; [left; apply Forall_forall; assumption|right; intros Y; apply X, Forall_forall; assumption]. }
  destruct D as [D|D]; [exists []; split; [constructor|assumption]|].
  destruct (progress_step z V D) as (n & H). specialize (H TransformAvailable). rewrite E in H.
  destruct (IH _ H (thread_step z n TransformAvailable) eq_refl (inv_step z n _ V)) as (ops & F & Q).
  exists (FGo n TransformAvailable :: ops). split; [constructor; [exact I|assumption]|exact Q].
Qed.
End P.
