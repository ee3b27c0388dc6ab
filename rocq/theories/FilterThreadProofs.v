(** * Proofs about the message filter with threads *)
From Coq Require Import ZArith Bool List String Lia Permutation.
From Verif Require Import RosTime Scalar LinearMath Cache SpecCache BufferCore SpecCore Requests SpecRequests RequestProofs RequestHistory
  MessageFilter SpecFilter FilterProofs FilterThreads SpecFilterThreads.
Import ListNotations.
Open Scope list_scope.
Open Scope nat_scope.
Local Opaque MAX_GRAPH_DEPTH.

Section P.
Context {S : Scalar}.
Notation fstate := (fstate S).
Implicit Types (z : fstate) (i : minfo) (th : thread).

Lemma set_nth_split : forall {A} (l : list A) n old x, nth_error l n = Some old ->
  exists l1 l2, l = l1 ++ old :: l2 /\ set_nth n x l = l1 ++ x :: l2.
Proof.
  induction l as [|a l IH]; intros [|n] old x H; cbn in H; try discriminate.
  - injection H as <-. exists [], l. split; reflexivity.
  - destruct (IH n old x H) as (l1 & l2 & -> & E2). exists (a :: l1), l2. cbn. rewrite E2. split; reflexivity.
Qed.
Lemma in_set_nth : forall {A} (l : list A) n x y, In y (set_nth n x l) -> y = x \/ In y l.
Proof.
  induction l as [|a l IH]; intros [|n] x y H; cbn in *; [tauto|tauto| |].
  - destruct H as [<-|H]; auto.
  - destruct H as [<-|H]; [auto|]. apply IH in H. tauto.
Qed.

(** counting *)
Definition cnt (l : list nat) (x : nat) : nat := count_occ Nat.eq_dec l x.
Lemma cnt_app : forall l l' x, cnt (l ++ l') x = cnt l x + cnt l' x.
Proof. intros. apply count_occ_app. Qed.
Definition one (k x : nat) : nat := if Nat.eq_dec k x then 1 else 0.
Lemma cnt_cons : forall k l x, cnt (k :: l) x = one k x + cnt l x.
Proof. intros k l x. unfold cnt, one. cbn [count_occ]. destruct (Nat.eq_dec k x); reflexivity. Qed.
Lemma cnt_nil : forall x, cnt [] x = 0. Proof. reflexivity. Qed.

Definition thn (ths : list thread) : list nat := map mi_seq (flat_map in_hands ths).
Definition census z : list nat := thn (z_threads z) ++ map mi_seq (z_msgs z) ++ map o_seq (z_emitted z) ++ map fst (z_lost z).

Lemma thn_set : forall ths n old th x, nth_error ths n = Some old ->
  cnt (thn (set_nth n th ths)) x + cnt (map mi_seq (in_hands old)) x = cnt (thn ths) x + cnt (map mi_seq (in_hands th)) x.
Proof.
  intros ths n old th x H. destruct (set_nth_split ths n old th H) as (l1 & l2 & E1 & E2). rewrite E2. rewrite E1. unfold thn.
  rewrite !flat_map_app, !map_app. cbn [flat_map]. rewrite !map_app, !cnt_app. lia.
Qed.
Lemma thn_app : forall l l', thn (l ++ l') = thn l ++ thn l'.
Proof. intros. unfold thn. rewrite flat_map_app, map_app. reflexivity. Qed.

(** lock holders *)
Definition holds_m (th : thread) : bool := match th with SetWait _ _ | SetCheck _ _ _ | SetVerdict _ _ _ => true | _ => false end.
Definition holds_f (th : thread) : bool := match th with SetCheck _ _ _ | CfgExpected => true | _ => false end.
Definition b2n (b : bool) : nat := if b then 1 else 0.
Definition many (p : thread -> bool) (ths : list thread) : nat := List.length (filter p ths).
Lemma many_set : forall p ths n old th, nth_error ths n = Some old -> many p (set_nth n th ths) + b2n (p old) = many p ths + b2n (p th).
Proof.
  intros p ths n old th H. destruct (set_nth_split ths n old th H) as (l1 & l2 & E1 & E2). rewrite E2. rewrite E1. unfold many.
  rewrite !filter_app, !app_length. cbn [filter]. destruct (p old), (p th); cbn; lia.
Qed.
Lemma many_app : forall p l l', many p (l ++ l') = many p l + many p l'.
Proof. intros. unfold many. rewrite filter_app, app_length. reflexivity. Qed.
Lemma many_one : forall p th, many p [th] = b2n (p th).
Proof. intros p th. unfold many. cbn. destruct (p th); reflexivity. Qed.
Definition held (th : thread) : list minfo := match th with SetWait i _ | SetCheck i _ _ | SetVerdict i _ _ => [i] | _ => [] end.

Definition known z i : Prop := nth_error (z_added z) (mi_seq i) = Some (mi_frame i, mi_stamp i).
Record inv z : Prop := {
  v_cnt : forall x, cnt (census z) x = cnt (seq 0 (List.length (z_added z))) x;
  v_hands : forall th i, In th (z_threads z) -> In i (in_hands th) -> known z i;
  v_msgs : forall i, In i (z_msgs z) -> known z i;
  v_out : forall o, In o (z_emitted z) -> nth_error (z_added z) (o_seq o) = Some (o_frame o, o_stamp o);
  v_m : many holds_m (z_threads z) = b2n (z_mlock z);
  v_f : many holds_f (z_threads z) = b2n (z_flock z);
  v_held : forall th i, In th (z_threads z) -> In i (held th) -> In i (z_msgs z);
  v_exp : ~ In CfgExpected (z_threads z) -> z_expected z = expected_count (z_targets z) (z_tol z)
}.

Lemma many_pos : forall p th ths, In th ths -> p th = true -> 1 <= many p ths.
Proof.
  intros p th ths H P. apply in_split in H as (l1 & l2 & ->). rewrite many_app. change (th :: l2) with ([th] ++ l2).
  rewrite many_app, many_one, P. cbn. lia.
Qed.
Lemma held_holds : forall th i, In i (held th) -> holds_m th = true.
Proof. intros [] j H; cbn in H; try destruct H; reflexivity. Qed.
Lemma cnt_seq_le : forall n x, cnt (seq 0 n) x <= 1.
Proof. intros n x. apply (proj1 (NoDup_count_occ Nat.eq_dec _)). apply seq_NoDup. Qed.
Lemma cnt_in : forall l x, 1 <= cnt l x <-> In x l.
Proof. intros l x. unfold cnt. rewrite (count_occ_In Nat.eq_dec). lia. Qed.
Lemma msgs_once : forall z i, inv z -> In i (z_msgs z) -> cnt (map mi_seq (z_msgs z)) (mi_seq i) = 1.
Proof.
  intros z i V H. pose proof (v_cnt z V (mi_seq i)) as C. pose proof (cnt_seq_le (List.length (z_added z)) (mi_seq i)).
  assert (1 <= cnt (map mi_seq (z_msgs z)) (mi_seq i)) by (apply cnt_in, in_map; assumption).
  unfold census in C. rewrite !cnt_app in C. lia.
Qed.
Lemma cnt_filter_ne : forall k (l : list minfo) x, cnt (map mi_seq (filter (fun j => negb (Nat.eqb (mi_seq j) k)) l)) x =
  if Nat.eq_dec k x then 0 else cnt (map mi_seq l) x.
Proof.
  intros k l x. induction l as [|j l IH]; cbn [filter map]; [destruct (Nat.eq_dec k x); reflexivity|].
  destruct (Nat.eqb_spec (mi_seq j) k) as [E|E]; cbn [negb map]; rewrite ?cnt_cons, IH; unfold one;
    destruct (Nat.eq_dec k x), (Nat.eq_dec (mi_seq j) x); try lia; congruence.
Qed.

(** one thread goes from [old] to [th]; message lists may change *)
Lemma inv_move : forall z n old th z', inv z -> nth_error (z_threads z) n = Some old ->
  z_threads z' = set_nth n th (z_threads z) -> z_added z' = z_added z ->
  (forall x, cnt (map mi_seq (in_hands th)) x + cnt (map mi_seq (z_msgs z')) x + cnt (map o_seq (z_emitted z')) x + cnt (map fst (z_lost z')) x =
             cnt (map mi_seq (in_hands old)) x + cnt (map mi_seq (z_msgs z)) x + cnt (map o_seq (z_emitted z)) x + cnt (map fst (z_lost z)) x) ->
  (forall i, In i (in_hands th) -> known z i) ->
  (forall i, In i (z_msgs z') -> known z i) ->
  (forall o, In o (z_emitted z') -> nth_error (z_added z) (o_seq o) = Some (o_frame o, o_stamp o)) ->
  b2n (z_mlock z') + b2n (holds_m old) = b2n (z_mlock z) + b2n (holds_m th) ->
  b2n (z_flock z') + b2n (holds_f old) = b2n (z_flock z) + b2n (holds_f th) ->
  (forall i, In i (held th) -> In i (z_msgs z')) ->
  (z_mlock z' = false \/ holds_m th = true \/ z_msgs z' = z_msgs z) ->
  (~ In CfgExpected (z_threads z') -> z_expected z' = expected_count (z_targets z') (z_tol z')) -> inv z'.
Proof.
  intros z n old th z' V Hn Et Ea Hc Hh Hm Ho Lm Lf Hd Hk He. destruct V as [C1 C2 C3 C4 C5 C6 C7 C8]. constructor.
  - intros x. specialize (C1 x). unfold census in *. rewrite !cnt_app in *. rewrite Ea, Et. pose proof (thn_set _ _ _ th x Hn). specialize (Hc x). lia.
  - intros t i Ht Hi. rewrite Et in Ht. unfold known. rewrite Ea. apply in_set_nth in Ht as [->|Ht]; [apply Hh; assumption|eapply C2; eassumption].
  - intros i Hi. unfold known. rewrite Ea. apply Hm; assumption.
  - intros o H. rewrite Ea. apply Ho; assumption.
  - rewrite Et. pose proof (many_set holds_m _ _ _ th Hn). lia.
  - rewrite Et. pose proof (many_set holds_f _ _ _ th Hn). lia.
  - intros t i Ht Hi. pose proof (held_holds _ _ Hi) as B. rewrite Et in Ht. pose proof (many_set holds_m _ _ _ th Hn) as MM.
    destruct Hk as [Hk|[Hk|Hk]].
    + pose proof (many_pos holds_m _ _ Ht B) as P. rewrite Hk in Lm. cbn in Lm. lia.
    + destruct (set_nth_split (z_threads z) n old th Hn) as (l1 & l2 & E1 & E2). rewrite E2 in *. rewrite E1 in *.
      assert (Ht' : t = th \/ In t (l1 ++ l2)) by (rewrite in_app_iff in *; cbn in Ht; intuition congruence).
      destruct Ht' as [->|Ht']; [apply Hd; assumption|]. exfalso. pose proof (many_pos holds_m _ _ Ht' B) as P.
      rewrite many_app in *. cbn in MM. change (th :: l2) with ([th] ++ l2) in MM. rewrite !many_app in MM.
      change (old :: l2) with ([old] ++ l2) in MM, C5. rewrite !many_app in MM, C5. rewrite many_one in *. rewrite Hk in *.
      destruct (z_mlock z'), (z_mlock z), (holds_m old); cbn in *; lia.
    + rewrite Hk in *. apply in_set_nth in Ht as [->|Ht]; [apply Hd; assumption|eapply C7; eassumption].
  - assumption.
Qed.

(** things changed by nobody's thread *)
Lemma inv_spawn : forall z th z', inv z -> z_threads z' = z_threads z ++ [th] -> z_added z' = z_added z ->
  z_msgs z' = z_msgs z -> z_emitted z' = z_emitted z -> z_lost z' = z_lost z -> z_mlock z' = z_mlock z ->
  in_hands th = [] -> held th = [] -> holds_m th = false -> b2n (z_flock z') = b2n (z_flock z) + b2n (holds_f th) ->
  (th = CfgExpected \/ z_expected z' = z_expected z /\ z_targets z' = z_targets z /\ z_tol z' = z_tol z) -> inv z'.
Proof.
  intros z th z' [C1 C2 C3 C4 C5 C6 C7 C8] Et Ea Em Eo El Ek Hh Hd Hm Hf He. constructor.
  - intros x. specialize (C1 x). unfold census in *. rewrite Et, Ea, Em, Eo, El, thn_app. rewrite !cnt_app in *. unfold thn at 2. cbn [flat_map]. rewrite Hh. cbn. lia.
  - intros t i Ht Hi. unfold known. rewrite Ea. rewrite Et in Ht. apply in_app_iff in Ht as [Ht|[<-|[]]]; [eapply C2; eassumption|rewrite Hh in Hi; destruct Hi].
  - intros i Hi. unfold known. rewrite Ea. apply C3. rewrite <- Em. assumption.
  - intros o H. rewrite Ea. apply C4. rewrite <- Eo. assumption.
  - rewrite Et, many_app, many_one, Hm, Ek. cbn. lia.
  - rewrite Et, many_app, many_one. lia.
  - intros t i Ht Hi. rewrite Em. rewrite Et in Ht. apply in_app_iff in Ht as [Ht|[<-|[]]]; [eapply C7; eassumption|rewrite Hd in Hi; destruct Hi].
  - rewrite Et. intros N. destruct He as [->|(E1 & E2 & E3)]; [exfalso; apply N, in_app_iff; right; left; reflexivity|].
    rewrite E1, E2, E3. apply C8. intros X. apply N, in_app_iff. auto.
Qed.
Lemma inv_same : forall z z', inv z -> z_threads z' = z_threads z -> z_added z' = z_added z ->
  z_msgs z' = z_msgs z -> z_emitted z' = z_emitted z -> z_lost z' = z_lost z -> z_mlock z' = z_mlock z -> z_flock z' = z_flock z ->
  z_expected z' = z_expected z -> z_targets z' = z_targets z -> z_tol z' = z_tol z -> inv z'.
Proof.
  intros z z' [C1 C2 C3 C4 C5 C6 C7 C8] Et Ea Em Eo El Ek Ef E1 E2 E3. constructor; unfold known, census in *; rewrite ?Et, ?Ea, ?Em, ?Eo, ?El, ?Ek, ?Ef, ?E1, ?E2, ?E3; assumption.
Qed.

Lemma no_cfg_back : forall z n old th, nth_error (z_threads z) n = Some old -> old <> CfgExpected ->
  ~ In CfgExpected (set_nth n th (z_threads z)) -> ~ In CfgExpected (z_threads z).
Proof.
  intros z n old th Hn No N I. apply N. destruct (set_nth_split (z_threads z) n old th Hn) as (l1 & l2 & E1 & E2). rewrite E2. rewrite E1 in I.
  rewrite in_app_iff in *. cbn in *. intuition congruence.
Qed.

Ltac proj := cbn [upd_buf upd_msgs upd_locks upd_threads say lose goto spawn
  z_buf z_cb z_own z_targets z_tol z_expected z_qsize z_msgs z_mlock z_flock z_threads z_added z_emitted z_lost] in *.
Ltac cnts := intros x; rewrite ?map_app; cbn [map app in_hands o_seq verdict fst mi_seq bump]; rewrite ?cnt_app, ?cnt_cons, ?cnt_nil; try lia.
Lemma nth_in : forall {A} (l : list A) n x, nth_error l n = Some x -> In x l.
Proof. intros A l n x H. eapply nth_error_In; eassumption. Qed.

(** a thread moves on without touching the lists *)
Lemma inv_goto : forall z n old th, inv z -> nth_error (z_threads z) n = Some old -> old <> CfgExpected ->
  map mi_seq (in_hands th) = map mi_seq (in_hands old) -> (forall i, In i (in_hands th) -> known z i) ->
  holds_m th = holds_m old -> holds_f th = holds_f old -> (forall i, In i (held th) -> In i (z_msgs z)) -> inv (goto z n th).
Proof.
  intros z n old th V Hn No E1 E2 E3 E4 E5. eapply (inv_move z n old th); proj; try assumption; try reflexivity.
  - intros x. rewrite E1. reflexivity.
  - apply (v_msgs z V).
  - apply (v_out z V).
  - rewrite E3. reflexivity.
  - rewrite E4. reflexivity.
  - auto.
  - intros N. apply (v_exp z V). eapply no_cfg_back; eassumption.
Qed.
Lemma inv_buf : forall z b, inv z -> inv (upd_buf z b).
Proof. intros z b V. eapply inv_same; try eassumption; reflexivity. Qed.
(** a thread of add() ends with a verdict, or loses its message *)
Lemma inv_say : forall z n old i o, inv z -> nth_error (z_threads z) n = Some old -> in_hands old = [i] ->
  holds_m old = false -> holds_f old = false -> o_seq o = mi_seq i -> o_frame o = mi_frame i -> o_stamp o = mi_stamp i -> inv (say (goto z n Gone) o).
Proof.
  intros z n old i o V Hn Hi Lm Lf E1 E2 E3. assert (K : known z i) by (eapply (v_hands z V); [eapply nth_in, Hn|rewrite Hi; left; reflexivity]).
  eapply (inv_move z n old Gone); proj; try assumption; try reflexivity.
  - rewrite Hi. cnts. rewrite E1. lia.
  - intros j [].
  - apply (v_msgs z V).
  - intros o' H. apply in_app_iff in H as [H|[<-|[]]]; [apply (v_out z V); assumption|]. rewrite E1, E2, E3. exact K.
  - rewrite Lm. reflexivity.
  - rewrite Lf. reflexivity.
  - intros j [].
  - auto.
  - intros N. apply (v_exp z V). eapply no_cfg_back; [eassumption| |eassumption]. intros ->. discriminate Hi.
Qed.
Lemma inv_lose : forall z n old i r, inv z -> nth_error (z_threads z) n = Some old -> in_hands old = [i] ->
  holds_m old = false -> holds_f old = false -> inv (lose (goto z n Gone) [(mi_seq i, r)]).
Proof.
  intros z n old i r V Hn Hi Lm Lf. eapply (inv_move z n old Gone); proj; try assumption; try reflexivity.
  - rewrite Hi. cnts.
  - intros j [].
  - apply (v_msgs z V).
  - apply (v_out z V).
  - rewrite Lm. reflexivity.
  - rewrite Lf. reflexivity.
  - intros j [].
  - auto.
  - intros N. apply (v_exp z V). eapply no_cfg_back; [eassumption| |eassumption]. intros ->. discriminate Hi.
Qed.
Lemma inv_next : forall z n old i rest, inv z -> nth_error (z_threads z) n = Some old -> map mi_seq (in_hands old) = [mi_seq i] -> known z i ->
  holds_m old = false -> holds_f old = false -> inv (next_target z n i rest).
Proof.
  intros z n old i rest V Hn Hi K Lm Lf. assert (No : old <> CfgExpected) by (intros ->; discriminate Hi).
  destruct rest as [|tgt rest]; cbn [next_target]; eapply inv_goto; try eassumption; cbn; try (rewrite Hi; reflexivity); try congruence; try (intros j [<-|[]]; exact K); intros j [].
Qed.
Lemma inv_answered : forall z n old i tgt second rest h, inv z -> nth_error (z_threads z) n = Some old -> in_hands old = [i] ->
  holds_m old = false -> holds_f old = false -> inv (answered z n i tgt second rest h).
Proof.
  intros z n old i tgt second rest h V Hn Hi Lm Lf. assert (K : known z i) by (eapply (v_hands z V); [eapply nth_in, Hn|rewrite Hi; left; reflexivity]).
  unfold answered. destruct (note_answer h (mi_success i, mi_handles i)) as [[k hs]|].
  - destruct (negb second && negb (z_tol z =? 0)%Z)%bool.
    + eapply inv_goto; try eassumption; cbn; try (rewrite Hi; reflexivity); try congruence; try (intros j [<-|[]]; exact K); try (intros j []). intros ->. discriminate Hi.
    + eapply inv_next; try eassumption. rewrite Hi. reflexivity.
  - eapply inv_say; try eassumption; reflexivity.
Qed.

Lemma inv_queue : forall z n i, inv z -> nth_error (z_threads z) n = Some (AddQueue i) -> z_mlock z = false -> inv (queue (goto z n Gone) i).
Proof.
  intros z n i V Hn L. assert (K : known z i) by (eapply (v_hands z V); [eapply nth_in, Hn|left; reflexivity]).
  assert (NC : forall ths, ~ In CfgExpected ths -> ths = set_nth n Gone (z_threads z) -> z_expected z = expected_count (z_targets z) (z_tol z)).
  { intros ths N ->. apply (v_exp z V). eapply no_cfg_back; [eassumption|discriminate|eassumption]. }
  assert (Plain : inv (upd_msgs (goto z n Gone) (z_msgs z ++ [i]))).
  { eapply (inv_move z n (AddQueue i) Gone); proj; try assumption; try reflexivity.
    - cnts.
    - intros j [].
    - intros j H. apply in_app_iff in H as [H|[<-|[]]]; [apply (v_msgs z V); assumption|assumption].
    - apply (v_out z V).
    - intros j [].
    - auto.
    - intros N. eapply NC; [exact N|reflexivity]. }
  unfold queue. proj. destruct (negb (Nat.eqb (z_qsize z) 0) && Nat.ltb (z_qsize z) (List.length (z_msgs z) + 1))%bool; [|exact Plain].
  destruct (z_msgs z) as [|front rest] eqn:Em; [proj; rewrite Em; exact Plain|].
  eapply (inv_move z n (AddQueue i) Gone); proj; try assumption; try reflexivity.
  - rewrite Em. cnts.
  - intros j [].
  - intros j H. apply in_app_iff in H as [H|[<-|[]]]; [apply (v_msgs z V); rewrite Em; right; assumption|assumption].
  - intros o H. apply in_app_iff in H as [H|[<-|[]]]; [apply (v_out z V); assumption|]. apply (v_msgs z V). rewrite Em. left. reflexivity.
  - intros j [].
  - auto.
  - intros N. eapply NC; [exact N|reflexivity].
Qed.

Lemma inv_step : forall z n read, inv z -> inv (thread_step z n read).
Proof.
  intros z n read V. unfold thread_step. destruct (nth_error (z_threads z) n) as [th|] eqn:Hn; [|assumption].
  assert (Hin : In th (z_threads z)) by (eapply nth_in, Hn).
  destruct th as [i|i tgt second rest|i tgt second rest k|i|i| |evs|i evs|i checks evs|i can evs| |]; [..|assumption].
  - destruct (z_flock z); [assumption|]. eapply inv_next; try eassumption; try reflexivity. eapply (v_hands z V); [exact Hin|left; reflexivity].
  - assert (LL : inv (lose (goto z n Gone) [(mi_seq i, Threw)])) by (eapply inv_lose; try eassumption; reflexivity).
    destruct (if second then lift_time (time_add (mi_stamp i) (z_tol z)) else Ok (mi_stamp i)) as [t| |]; try exact LL.
    destruct (add_check (b_core (z_buf z)) tgt (mf_stripSlash (mi_frame i)) t) as [[h|x y]| |]; try exact LL.
    + eapply inv_answered; try eassumption; reflexivity.
    + eapply inv_goto; try eassumption; try reflexivity; try discriminate; [|intros j []]. intros j [<-|[]]. eapply (v_hands z V); [exact Hin|left; reflexivity].
  - destruct (push_request _ _ _ _ _ _ _) as [b h]. eapply inv_answered; [apply inv_buf; assumption|exact Hn|reflexivity|reflexivity|reflexivity].
  - destruct (Nat.eqb (mi_success i) (z_expected z)).
    + eapply inv_say; try eassumption; reflexivity.
    + eapply inv_goto; try eassumption; try reflexivity; try discriminate; [|intros j []]. intros j [<-|[]]. eapply (v_hands z V); [exact Hin|left; reflexivity].
  - destruct (z_mlock z) eqn:L; [assumption|]. apply inv_queue; assumption.
  - destruct (testTransformableRequests (z_buf z)) as [b r]. eapply (inv_goto (upd_buf z b)); [apply inv_buf; assumption|exact Hn|discriminate|..]; destruct r; try reflexivity; intros j [].
  - destruct evs as [|e evs]; [eapply inv_goto; try eassumption; try reflexivity; try discriminate; intros j []|].
    assert (Skip : inv (goto z n (SetFire evs))) by (eapply inv_goto; try eassumption; try reflexivity; try discriminate; intros j []).
    destruct (negb (existsb (Z.eqb (ev_cb e)) (z_own z))); [exact Skip|]. destruct (z_mlock z) eqn:L; [assumption|].
    destruct (find_info (ev_handle e) (z_msgs z)) as [[[l1 i0] l2]|] eqn:F; [|exact Skip].
    apply find_info_split in F as (Em & _ & _).
    assert (G : forall th m, holds_m th = m -> holds_f th = false -> in_hands th = [] -> (forall j, In j (held th) -> j = bump i0) ->
      inv (upd_locks (goto (upd_msgs z (l1 ++ bump i0 :: l2)) n th) m (z_flock z))).
    { intros th m M F H D. eapply (inv_move z n (SetFire (e :: evs)) th); proj; try reflexivity; try assumption.
      - rewrite Em, H. cnts.
      - rewrite H. intros j [].
      - intros j Hj. rewrite in_app_iff in Hj. cbn in Hj. pose proof (v_msgs z V) as VM. rewrite Em in VM. destruct Hj as [Hj|[<-|Hj]]; [apply VM; rewrite in_app_iff; auto| |apply VM; rewrite in_app_iff; cbn; auto].
        apply (VM i0). apply in_elt.
      - apply (v_out z V).
      - rewrite L, M. cbn. lia.
      - rewrite F. reflexivity.
      - intros j Hj. rewrite (D j Hj). apply in_elt.
      - rewrite M. destruct m; auto.
      - intros N. apply (v_exp z V). eapply no_cfg_back; [exact Hn|discriminate|exact N]. }
    destruct (Nat.ltb (mi_success (bump i0)) (z_expected z)).
    + specialize (G (SetFire evs) false eq_refl eq_refl eq_refl). assert (G' := G ltac:(intros j [])).
      eapply inv_same; [exact G'|..]; proj; try reflexivity. assumption.
    + destruct read; apply G; try reflexivity; intros j [<-|[]]; reflexivity.
  - destruct (z_flock z) eqn:L; [assumption|].
    assert (M : z_mlock z = true).
    { pose proof (v_m z V) as VM. pose proof (many_pos holds_m _ _ Hin eq_refl). destruct (z_mlock z); [reflexivity|cbn in VM; lia]. }
    eapply (inv_move z n (SetWait i evs) (SetCheck i (map (fun t => (t, false)) (z_targets z)) evs)); proj; try reflexivity; try assumption.
    + intros j [].
    + apply (v_msgs z V).
    + apply (v_out z V).
    + rewrite M. reflexivity.
    + rewrite L. reflexivity.
    + intros j [<-|[]]. eapply (v_held z V); [exact Hin|left; reflexivity].
    + auto.
    + intros N. apply (v_exp z V). eapply no_cfg_back; [exact Hn|discriminate|exact N].
  - assert (M : z_mlock z = true).
    { pose proof (v_m z V) as VM. pose proof (many_pos holds_m _ _ Hin eq_refl). destruct (z_mlock z); [reflexivity|cbn in VM; lia]. }
    assert (F : z_flock z = true).
    { pose proof (v_f z V) as VF. pose proof (many_pos holds_f _ _ Hin eq_refl). destruct (z_flock z); [reflexivity|cbn in VF; lia]. }
    assert (Hi : In i (z_msgs z)) by (eapply (v_held z V); [exact Hin|left; reflexivity]).
    assert (Verd : forall c, inv (upd_locks (goto z n (SetVerdict i c evs)) true false)).
    { intros c. eapply (inv_move z n (SetCheck i checks evs) (SetVerdict i c evs)); proj; try reflexivity; try assumption.
      - intros j [].
      - apply (v_msgs z V).
      - apply (v_out z V).
      - rewrite M. reflexivity.
      - rewrite F. reflexivity.
      - intros j [<-|[]]. assumption.
      - auto.
      - intros N. apply (v_exp z V). eapply no_cfg_back; [exact Hn|discriminate|exact N]. }
    assert (Fail : inv (upd_locks (goto z n Gone) false false)).
    { eapply (inv_move z n (SetCheck i checks evs) Gone); proj; try reflexivity; try assumption.
      - intros j [].
      - apply (v_msgs z V).
      - apply (v_out z V).
      - rewrite M. reflexivity.
      - rewrite F. reflexivity.
      - intros j [].
      - auto.
      - intros N. apply (v_exp z V). eapply no_cfg_back; [exact Hn|discriminate|exact N]. }
    destruct checks as [|[tgt second] cs]; [apply Verd|].
    destruct (if second then lift_time (time_add (mi_stamp i) (z_tol z)) else Ok (mi_stamp i)) as [t| |]; try exact Fail.
    destruct (canTransform _ _ _ _ _) as [[[|] er]| |]; try exact Fail; [|apply Verd].
    destruct (negb second && negb (z_tol z =? 0)%Z)%bool; eapply inv_goto; try eassumption; try reflexivity; try discriminate; try solve [intros j []]; intros j [<-|[]]; assumption.
  - assert (M : z_mlock z = true).
    { pose proof (v_m z V) as VM. pose proof (many_pos holds_m _ _ Hin eq_refl). destruct (z_mlock z); [reflexivity|cbn in VM; lia]. }
    assert (Hi : In i (z_msgs z)) by (eapply (v_held z V); [exact Hin|left; reflexivity]).
    eapply (inv_move z n (SetVerdict i can evs) (SetFire evs)); proj; try reflexivity; try assumption.
    + intros x. cbn [in_hands]. rewrite cnt_filter_ne, !map_app. cbn [map verdict o_seq]. rewrite !cnt_app, cnt_cons, cnt_nil. pose proof (msgs_once z i V Hi) as O. unfold one.
      destruct (Nat.eq_dec (mi_seq i) x) as [<-|]; lia.
    + intros j [].
    + intros j H. apply filter_In in H as [H _]. apply (v_msgs z V); assumption.
    + intros o H. apply in_app_iff in H as [H|[<-|[]]]; [apply (v_out z V); assumption|]. apply (v_msgs z V). assumption.
    + rewrite M. reflexivity.
    + intros j [].
    + auto.
    + intros N. apply (v_exp z V). eapply no_cfg_back; [exact Hn|discriminate|exact N].
  - assert (F : z_flock z = true).
    { pose proof (v_f z V) as VF. pose proof (many_pos holds_f _ _ Hin eq_refl). destruct (z_flock z); [reflexivity|cbn in VF; lia]. }
    eapply (inv_move z n CfgExpected Gone); proj; try reflexivity; try assumption.
    + intros j [].
    + apply (v_msgs z V).
    + apply (v_out z V).
    + rewrite F. reflexivity.
    + intros j [].
    + auto.
Qed.

Lemma known_more : forall (l : list (string * time)) k a b, nth_error l k = Some a -> nth_error (l ++ [b]) k = Some a.
Proof. intros l k a b H. rewrite nth_error_app1; [assumption|]. apply nth_error_Some. congruence. Qed.

(** a new call of add() *)
Lemma inv_new : forall z frame stamp z', inv z ->
  let i := mkInfo (List.length (z_added z)) frame stamp [] 0 in
  z_added z' = z_added z ++ [(frame, stamp)] -> z_msgs z' = z_msgs z -> z_mlock z' = z_mlock z -> z_flock z' = z_flock z ->
  z_expected z' = z_expected z -> z_targets z' = z_targets z -> z_tol z' = z_tol z ->
  (z_threads z' = z_threads z /\ z_emitted z' = z_emitted z /\ (exists r, z_lost z' = z_lost z ++ [(mi_seq i, r)])) \/
  (z_threads z' = z_threads z /\ (exists r, z_emitted z' = z_emitted z ++ [verdict i r]) /\ z_lost z' = z_lost z) \/
  (z_threads z' = z_threads z ++ [AddCopy i] /\ z_emitted z' = z_emitted z /\ z_lost z' = z_lost z) -> inv z'.
Proof.
  intros z frame stamp z' V i Ea Em Ek Ef E1 E2 E3 H. destruct V as [C1 C2 C3 C4 C5 C6 C7 C8].
  assert (K : nth_error (z_added z') (mi_seq i) = Some (frame, stamp)).
  { rewrite Ea. cbn [mi_seq i]. rewrite nth_error_app2, Nat.sub_diag by lia. reflexivity. }
  assert (SQ : seq 0 (List.length (z_added z')) = seq 0 (List.length (z_added z)) ++ [mi_seq i]).
  { rewrite Ea, app_length. cbn [List.length]. rewrite seq_app. reflexivity. }
  assert (TH : z_threads z' = z_threads z \/ z_threads z' = z_threads z ++ [AddCopy i]) by tauto.
  constructor.
  - intros x. specialize (C1 x). rewrite SQ. unfold census in *. rewrite Em. rewrite !cnt_app in *.
    destruct H as [(Et & Eo & r & El)|[(Et & (r & Eo) & El)|(Et & Eo & El)]]; rewrite Et, Eo, El, ?thn_app, ?map_app, ?cnt_app; cbn [map verdict o_seq fst]; try lia.
    unfold thn at 2. cbn [flat_map in_hands app map]. lia.
  - intros th j Ht Hj. unfold known in *. destruct TH as [Et|Et]; rewrite Et in Ht.
    + rewrite Ea. apply known_more. eapply C2; eassumption.
    + apply in_app_iff in Ht as [Ht|[<-|[]]]; [rewrite Ea; apply known_more; eapply C2; eassumption|]. destruct Hj as [<-|[]]. exact K.
  - intros j Hj. unfold known. rewrite Ea. apply known_more. apply C3. rewrite <- Em. assumption.
  - intros o Ho. destruct H as [(Et & Eo & _)|[(Et & (r & Eo) & El)|(Et & Eo & El)]]; rewrite Eo in Ho; try (rewrite Ea; apply known_more, C4; assumption).
    apply in_app_iff in Ho as [Ho|[<-|[]]]; [rewrite Ea; apply known_more, C4; assumption|exact K].
  - destruct TH as [Et|Et]; rewrite Et, Ek; [assumption|]. rewrite many_app, many_one. cbn. lia.
  - destruct TH as [Et|Et]; rewrite Et, Ef; [assumption|]. rewrite many_app, many_one. cbn. lia.
  - intros th j Ht Hj. rewrite Em. destruct TH as [Et|Et]; rewrite Et in Ht; [eapply C7; eassumption|].
    apply in_app_iff in Ht as [Ht|[<-|[]]]; [eapply C7; eassumption|destruct Hj].
  - intros N. rewrite E1, E2, E3. apply C8. intros I. apply N. destruct TH as [Et|Et]; rewrite Et; [|rewrite in_app_iff]; auto.
Qed.

Lemma inv_act : forall z a, inv z -> inv (fact z a).
Proof.
  intros z a V. destruct a as [frame stamp|n read|m au st|l|d|q| | | |cb|cb tgt src t|h]; cbn [fact].
  - destruct (z_targets z) as [|t0 ts] eqn:Et.
    + eapply (inv_new z frame stamp); try eassumption; proj; try reflexivity; try (symmetry; assumption). left. repeat split. eexists. reflexivity.
    + destruct (String.eqb (mf_stripSlash frame) EmptyString).
      * eapply (inv_new z frame stamp); try eassumption; proj; try reflexivity; try (symmetry; assumption). right; left. repeat split. eexists. reflexivity.
      * eapply (inv_new z frame stamp); try eassumption; proj; try reflexivity; try (symmetry; assumption). right; right. repeat split.
  - apply inv_step. assumption.
  - destruct (setTransform _ _ _ _) as [s' [[|]| |]]; try (apply inv_buf; assumption).
    eapply (inv_spawn z SetTest); try eassumption; proj; try reflexivity; cbn; [lia|auto].
  - destruct (z_flock z) eqn:F; [assumption|]. eapply (inv_spawn z CfgExpected); try eassumption; proj; try reflexivity; [rewrite F; reflexivity|auto].
  - destruct (z_flock z) eqn:F; [assumption|]. eapply (inv_spawn z CfgExpected); try eassumption; proj; try reflexivity; [rewrite F; reflexivity|auto].
  - eapply inv_same; try eassumption; reflexivity.
  - destruct (z_mlock z) eqn:L; [assumption|]. destruct (addTransformableCallback _) as [b h].
    destruct V as [C1 C2 C3 C4 C5 C6 C7 C8]. constructor; proj; try assumption.
    + intros x. specialize (C1 x). unfold census in *. proj. rewrite map_app. rewrite !cnt_app in *. cbn [map]. rewrite cnt_nil.
      rewrite map_map. cbn [fst]. change (fun i => mi_seq i) with mi_seq. lia.
    + intros j [].
    + rewrite C5, L. reflexivity.
    + intros th j Ht Hj. exfalso. pose proof (many_pos holds_m _ _ Ht (held_holds _ _ Hj)). rewrite C5, L in H. cbn in H. lia.
  - apply inv_buf. assumption.
  - apply inv_buf. assumption.
  - apply inv_buf. assumption.
  - apply inv_buf. assumption.
  - apply inv_buf. assumption.
Qed.
Lemma inv_init : forall b target q z, new_threaded b target q = Some z -> inv z.
Proof.
  intros b target q z H. unfold new_threaded in H. destruct (addTransformableCallback b) as [b' [h|]]; [|discriminate]. injection H as <-.
  constructor; proj; cbn; intros; try reflexivity; try contradiction.
Qed.
Lemma inv_run : forall ops z, inv z -> inv (frun z ops).
Proof. induction ops as [|a ops IH]; intros z V; [assumption|]. cbn [frun]. apply IH, inv_act, V. Qed.
Lemma inv_reachable : forall z, ft_reachable z -> inv z.
Proof. intros z (b & target & q & z0 & ops & H & ->). apply inv_run. eapply inv_init; eassumption. Qed.

Lemma census_perm : forall z, inv z -> Permutation (census z) (seq 0 (List.length (z_added z))).
Proof. intros z V. apply (Permutation_count_occ Nat.eq_dec). exact (v_cnt z V). Qed.
Lemma emitted_once : forall z, inv z -> NoDup (map o_seq (z_emitted z)).
Proof.
  intros z V. pose proof (Permutation_NoDup (Permutation_sym (census_perm z V)) (seq_NoDup _ _)) as N. unfold census in N.
  assert (R : forall (l l' : list nat), NoDup (l ++ l') -> NoDup l').
  { induction l as [|a l IH]; intros l' H; [assumption|]. cbn in H. inversion H; auto. }
  assert (L : forall (l l' : list nat), NoDup (l ++ l') -> NoDup l).
  { intros l l' H. eapply (R l'). eapply Permutation_NoDup; [apply Permutation_app_comm|exact H]. }
  apply R in N. apply R in N. apply L in N. exact N.
Qed.

(** what an action does to the ghost record of calls *)
Lemma step_added : forall z n read, z_added (thread_step z n read) = z_added z.
Proof.
  intros z n read. unfold thread_step, answered, next_target, queue.
  repeat (match goal with |- context [match ?x with _ => _ end] => destruct x end; proj; try reflexivity).
Qed.
Lemma act_added : forall z a, z_added (fact z a) = z_added z ++ adds_of [a].
Proof.
  intros z a. destruct a as [frame stamp|n read|m au st|l|d|q| | | |cb|cb tgt src t|h]; cbn [fact adds_of flat_map app]; rewrite ?app_nil_r; try apply step_added;
  repeat (match goal with |- context [match ?x with _ => _ end] => destruct x end; proj; try reflexivity); reflexivity.
Qed.
Lemma run_added : forall ops z, z_added (frun z ops) = z_added z ++ adds_of ops.
Proof.
  induction ops as [|a ops IH]; intros z; cbn [frun]; [symmetry; apply app_nil_r|]. rewrite IH, act_added, <- app_assoc. f_equal. unfold adds_of. cbn [flat_map]. rewrite app_nil_r. reflexivity.
Qed.
End P.
