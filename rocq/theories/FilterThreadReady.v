(** * Message filter with threads: bounded queue, justified verdicts *)
From Coq Require Import ZArith Bool List String Lia Permutation.
From Verif Require Import RosTime Scalar LinearMath Cache SpecCache BufferCore SpecCore Requests SpecRequests RequestProofs RequestHistory
  MessageFilter SpecFilter FilterProofs FilterThreads SpecFilterThreads FilterThreadProofs.
Import ListNotations.
Open Scope list_scope.
Open Scope nat_scope.
Local Opaque MAX_GRAPH_DEPTH.

Ltac proj := cbn [upd_buf upd_msgs upd_locks upd_threads say lose goto spawn
  z_buf z_cb z_own z_targets z_tol z_expected z_qsize z_msgs z_mlock z_flock z_threads z_added z_emitted z_lost] in *.

Section P.
Context {S : Scalar}.
Notation fstate := (fstate S).
Implicit Types (z : fstate) (i : minfo) (th : thread).

(** ** queue length *)
Lemma answered_msgs : forall z n i tgt second rest h, z_msgs (answered z n i tgt second rest h) = z_msgs z /\ z_qsize (answered z n i tgt second rest h) = z_qsize z.
Proof.
  intros. unfold answered. destruct (note_answer _ _) as [[k hs]|]; [|split; reflexivity]. destruct (negb second && _)%bool; [split; reflexivity|].
  unfold next_target. destruct rest; split; reflexivity.
Qed.
Lemma queue_len : forall z i Q, 0 < z_qsize z <= Q -> List.length (z_msgs z) <= Q -> List.length (z_msgs (queue z i)) <= Q /\ z_qsize (queue z i) = z_qsize z.
Proof.
  intros z i Q B L. unfold queue. destruct (Nat.eqb_spec (z_qsize z) 0) as [E|_]; [lia|]. cbn [negb andb].
  destruct (Nat.ltb_spec (z_qsize z) (List.length (z_msgs z) + 1)) as [E|E].
  - destruct (z_msgs z) as [|front rest] eqn:Em; [cbn in E; lia|]. proj. rewrite app_length. cbn in *. split; [lia|reflexivity].
  - proj. rewrite app_length. cbn. split; [lia|reflexivity].
Qed.
Lemma filter_len : forall {A} (p : A -> bool) l, List.length (filter p l) <= List.length l.
Proof. induction l as [|a l IH]; cbn; [lia|]. destruct (p a); cbn; lia. Qed.
Lemma step_len : forall z n read Q, 0 < z_qsize z <= Q -> List.length (z_msgs z) <= Q ->
  List.length (z_msgs (thread_step z n read)) <= Q /\ z_qsize (thread_step z n read) = z_qsize z.
Proof.
  intros z n read Q B L. unfold thread_step. destruct (nth_error (z_threads z) n) as [th|]; [|auto].
  destruct th as [i|i tgt second rest|i tgt second rest k|i|i| |evs|i evs|i checks evs|i can evs| |]; [..|auto].
  - destruct (z_flock z); [auto|]. unfold next_target. destruct (z_targets z); proj; auto.
  - destruct (if second then _ else _) as [t| |]; proj; auto. destruct (add_check _ _ _ _) as [[h|x y]| |]; proj; auto. destruct (answered_msgs z n i tgt second rest h) as [-> ->]. auto.
  - destruct (push_request _ _ _ _ _ _ _) as [b h]. destruct (answered_msgs (upd_buf z b) n i tgt second rest h) as [-> ->]. auto.
  - destruct (Nat.eqb _ _); proj; auto.
  - destruct (z_mlock z); [auto|]. apply (queue_len (goto z n Gone)); assumption.
  - destruct (testTransformableRequests _) as [b r]. proj. auto.
  - destruct evs as [|e evs]; [proj; auto|]. destruct (negb _); [proj; auto|]. destruct (z_mlock z); [auto|].
    destruct (find_info _ _) as [[[l1 i0] l2]|] eqn:F; [|proj; auto]. apply find_info_split in F as (Em & _ & _). rewrite Em in L. rewrite app_length in L. cbn in L.
    destruct (Nat.ltb _ _); [|destruct read]; proj; rewrite app_length; cbn; split; try reflexivity; lia.
  - destruct (z_flock z); proj; auto.
  - destruct checks as [|[tgt second] cs]; [proj; auto|]. destruct (if second then _ else _) as [t| |]; proj; auto.
    destruct (canTransform _ _ _ _ _) as [[[|] er]| |]; proj; auto. destruct (negb second && _)%bool; proj; auto.
  - proj. split; [|reflexivity]. pose proof (filter_len (fun j => negb (Nat.eqb (mi_seq j) (mi_seq i))) (z_msgs z)). lia.
  - proj. auto.
Qed.
Lemma act_len : forall z a Q, 0 < z_qsize z <= Q -> List.length (z_msgs z) <= Q -> queue_size_within Q a ->
  List.length (z_msgs (fact z a)) <= Q /\ 0 < z_qsize (fact z a) <= Q.
Proof.
  intros z a Q B L W. destruct a as [frame stamp|n read|m au st|l|d|q| | | |cb|cb tgt src t|h]; cbn [fact queue_size_within] in *.
  - destruct (z_targets z); [proj; auto|]. destruct (String.eqb _ _); proj; auto.
  - destruct (step_len z n read Q B L) as [H ->]. auto.
  - destruct (setTransform _ _ _ _) as [s' [[|]| |]]; proj; auto.
  - destruct (z_flock z); proj; auto.
  - destruct (z_flock z); proj; auto.
  - proj. auto.
  - destruct (z_mlock z); [auto|]. destruct (addTransformableCallback _) as [b h]. proj. cbn. split; [lia|auto].
  - proj. auto.
  - proj. auto.
  - proj. auto.
  - proj. auto.
  - proj. auto.
Qed.
Lemma run_len : forall ops z Q, 0 < z_qsize z <= Q -> List.length (z_msgs z) <= Q -> Forall (queue_size_within Q) ops ->
  List.length (z_msgs (frun z ops)) <= Q.
Proof.
  induction ops as [|a ops IH]; intros z Q B L F; [assumption|]. inversion F; subst. cbn [frun].
  destruct (act_len z a Q B L H1). apply IH; assumption.
Qed.

(** ** justified verdicts *)
Lemma handled_msg : forall z i, inv z -> In (mi_seq i) (thn (z_threads z) ++ map mi_seq (z_msgs z)) -> known z i -> being_handled z (mi_seq i).
Proof.
  intros z i V H K. split; [apply nth_error_Some; unfold known in K; congruence|]. intros I. apply cnt_in in I. apply cnt_in in H.
  pose proof (v_cnt z V (mi_seq i)) as C. pose proof (cnt_seq_le (List.length (z_added z)) (mi_seq i)). unfold census in C. rewrite !cnt_app in *. lia.
Qed.
Lemma handled_hands : forall z th i, inv z -> In th (z_threads z) -> In i (in_hands th) -> being_handled z (mi_seq i).
Proof.
  intros z th i V Ht Hi. apply handled_msg; [assumption| |eapply (v_hands z V); eassumption]. apply in_app_iff. left. unfold thn. apply in_map. apply in_flat_map. eauto.
Qed.
Lemma handled_held : forall z th i, inv z -> In th (z_threads z) -> In i (held th) -> being_handled z (mi_seq i).
Proof.
  intros z th i V Ht Hi. pose proof (v_held z V th i Ht Hi) as I. apply handled_msg; [assumption| |apply (v_msgs z V); assumption]. apply in_app_iff. right. apply in_map. assumption.
Qed.

Section J.
Context (big : list fstate) (T : list string) (tol : duration) (base : nat).
Definition just (k : nat) (frame : string) (tgt : string) (t : time) : Prop :=
  exists zz, In zz big /\ being_handled zz k /\ could_use zz tgt (mf_stripSlash frame) t.
Definition justT (k : nat) (frame : string) (stamp : time) (tgt : string) : Prop := forall t, needed_times tol stamp t -> just k frame tgt t.
Definition justI i (tgt : string) : Prop := justT (mi_seq i) (mi_frame i) (mi_stamp i) tgt.
Definition per : nat := if (tol =? 0)%Z then 1 else 2.

Definition asking i (tgt : string) (second : bool) (rest : list string) : Prop :=
  base <= mi_seq i -> exists done, T = done ++ tgt :: rest /\
    mi_success i + List.length (mi_handles i) = List.length done * per + b2n second /\ (second = true -> tol <> 0%Z) /\
    (mi_handles i = [] -> (forall d, In d done -> justI i d) /\ (second = true -> just (mi_seq i) (mi_frame i) tgt (mi_stamp i))).
Definition asked i : Prop :=
  base <= mi_seq i -> mi_success i + List.length (mi_handles i) = List.length T * per /\ (mi_handles i = [] -> forall d, In d T -> justI i d).
Definition TI th : Prop :=
  match th with
  | AddCopy i => mi_success i = 0 /\ mi_handles i = []
  | AddAsk i tgt second rest => asking i tgt second rest
  | AddStore i tgt second rest _ => asking i tgt second rest
  | AddDecide i | AddQueue i => asked i
  | SetCheck i checks _ => exists done, T = done ++ map fst checks /\ (forall d, In d done -> justI i d) /\
      match checks with
      | [] => True
      | (tgt, second) :: cs => (forall c, In c cs -> snd c = false) /\ (second = true -> tol <> 0%Z /\ just (mi_seq i) (mi_frame i) tgt (mi_stamp i))
      end
  | SetVerdict i true _ => forall d, In d T -> justI i d
  | _ => True
  end.
Record J z : Prop := {
  j_T : z_targets z = T; j_tol : z_tol z = tol; j_exp : z_expected z = expected_count T tol;
  j_cfg : ~ In CfgExpected (z_threads z);
  j_th : forall th, In th (z_threads z) -> TI th;
  j_out : forall o, In o (z_emitted z) -> o_outcome o = Ready -> base <= o_seq o -> forall d, In d T -> justT (o_seq o) (o_frame o) (o_stamp o) d
}.
Definition fine (o : output) : Prop := o_outcome o = Ready -> base <= o_seq o -> forall d, In d T -> justT (o_seq o) (o_frame o) (o_stamp o) d.

Lemma J_move : forall z n th z', J z -> z_threads z' = set_nth n th (z_threads z) -> TI th -> th <> CfgExpected ->
  z_targets z' = z_targets z -> z_tol z' = z_tol z -> z_expected z' = z_expected z ->
  (forall o, In o (z_emitted z') -> In o (z_emitted z) \/ fine o) -> J z'.
Proof.
  intros z n th z' [A B C D E F] Et Ht Nt E1 E2 E3 Ho. constructor; try congruence.
  - rewrite Et. intros I. apply in_set_nth in I as [I|I]; [congruence|auto].
  - rewrite Et. intros t I. apply in_set_nth in I as [->|I]; auto.
  - intros o I R L. destruct (Ho o I) as [I'|I']; [apply F; assumption|apply I'; assumption].
Qed.
Lemma J_goto : forall z n th, J z -> TI th -> th <> CfgExpected -> J (goto z n th).
Proof. intros z n th H Ht Nt. eapply (J_move z n th); try eassumption; try reflexivity. proj. auto. Qed.
Lemma J_same : forall z z', J z -> z_threads z' = z_threads z -> z_targets z' = z_targets z -> z_tol z' = z_tol z -> z_expected z' = z_expected z ->
  (forall o, In o (z_emitted z') -> In o (z_emitted z) \/ fine o) -> J z'.
Proof.
  intros z z' [A B C D E F] Et E1 E2 E3 Ho. constructor; try congruence; rewrite ?Et; try assumption.
  intros o I R L. destruct (Ho o I) as [I'|I']; [apply F; assumption|apply I'; assumption].
Qed.
Lemma in_say : forall z (o o' : output), In o' (z_emitted z ++ [o]) -> fine o -> In o' (z_emitted z) \/ fine o'.
Proof. intros z o o' H F. apply in_app_iff in H as [H|[<-|[]]]; auto. Qed.
Lemma dropped_fine : forall i r, fine (verdict i (Dropped r)).
Proof. intros i r H. discriminate H. Qed.

Lemma J_next : forall z n i rest, J z -> (base <= mi_seq i -> exists done, T = done ++ rest /\
    mi_success i + List.length (mi_handles i) = List.length done * per /\ (mi_handles i = [] -> forall d, In d done -> justI i d)) -> J (next_target z n i rest).
Proof.
  intros z n i rest H K. unfold next_target. destruct rest as [|tgt rest]; apply J_goto; try assumption; try discriminate.
  - intros B. destruct (K B) as (done & E & N & Q). rewrite app_nil_r in E. subst done. auto.
  - intros B. destruct (K B) as (done & E & N & Q). exists done. split; [assumption|]. cbn. split; [lia|]. split; [discriminate|]. intros X. split; [auto|discriminate].
Qed.
Lemma J_answered : forall z n i tgt second rest h, J z -> asking i tgt second rest ->
  (h = 0%Z -> forall t, (if second then time_add (mi_stamp i) tol = Some t else t = mi_stamp i) -> just (mi_seq i) (mi_frame i) tgt t) ->
  J (answered z n i tgt second rest h).
Proof.
  intros z n i tgt second rest h H A Hh. unfold answered. destruct (note_answer h (mi_success i, mi_handles i)) as [[k hs]|] eqn:E.
  2:{ eapply (J_move z n Gone); proj; try reflexivity; try assumption; try discriminate; try exact I. intros o' X. eapply in_say; [exact X|apply dropped_fine]. }
  assert (R : k + List.length hs = mi_success i + List.length (mi_handles i) + 1 /\ (hs = [] -> mi_handles i = [] /\ h = 0%Z)).
  { unfold note_answer in E. cbn [fst snd] in E. destruct (h =? NEVER_TRANSFORMABLE)%Z; [discriminate|]. destruct (Z.eqb_spec h 0) as [Z|Z]; injection E as <- <-.
    - split; [lia|]. auto.
    - rewrite app_length. cbn. split; [lia|]. intros X. destruct (mi_handles i); discriminate. }
  destruct R as [R1 R2]. rewrite (j_tol z H). destruct second; cbn [negb andb].
  - apply J_next; [assumption|]. intros B. destruct (A B) as (done & ET & N & Tz & Q). exists (done ++ [tgt]). cbn [mi_seq mi_success mi_handles].
    rewrite <- app_assoc. split; [exact ET|]. rewrite app_length. cbn in N |- *. specialize (Tz eq_refl). unfold per in *. rewrite (proj2 (Z.eqb_neq tol 0) Tz) in *. split; [lia|].
    intros X d Hd. destruct (R2 X) as [X1 X2]. destruct (Q X1) as [Q1 Q2]. apply in_app_iff in Hd as [Hd|[<-|[]]]; [exact (Q1 d Hd)|].
    intros t [->|[_ Ht]]; [exact (Q2 eq_refl)|]. exact (Hh X2 t Ht).
  - destruct (Z.eqb_spec tol 0) as [Tz|Tz]; cbn [negb].
    + apply J_next; [assumption|]. intros B. destruct (A B) as (done & ET & N & _ & Q). exists (done ++ [tgt]). cbn [mi_seq mi_success mi_handles].
      rewrite <- app_assoc. split; [exact ET|]. rewrite app_length. cbn in N |- *. unfold per in *. rewrite (proj2 (Z.eqb_eq tol 0) Tz) in *. split; [lia|].
      intros X d Hd. destruct (R2 X) as [X1 X2]. destruct (Q X1) as [Q1 Q2]. apply in_app_iff in Hd as [Hd|[<-|[]]]; [exact (Q1 d Hd)|].
      intros t [->|[Tn _]]; [exact (Hh X2 _ eq_refl)|congruence].
    + apply J_goto; [assumption| |discriminate]. intros B. destruct (A B) as (done & ET & N & _ & Q). exists done. cbn [mi_seq mi_success mi_handles].
      split; [exact ET|]. cbn in N |- *. split; [lia|]. split; [auto|]. intros X. destruct (R2 X) as [X1 X2]. destruct (Q X1) as [Q1 Q2]. split; [exact Q1|].
      intros _. exact (Hh X2 _ eq_refl).
Qed.

Lemma check_zero : forall (s : core S) tgt src t, add_check s tgt src t = Ok (Answer 0%Z) -> tgt = src \/ available s tgt src t = true.
Proof.
  intros s tgt src t E. unfold add_check in E. destruct (String.eqb_spec tgt src) as [->|N]; [left; reflexivity|]. right. unfold available.
  destruct (canTransformInternal s (lookupFrameNumber s tgt) (lookupFrameNumber s src) t) as [[|]| |]; cbn [bind] in E; try discriminate; [reflexivity|].
  destruct (if Nat.eqb (lookupFrameNumber s tgt) 0 || Nat.eqb (lookupFrameNumber s src) 0 then Ok false else _)%bool as [[|]| |]; cbn [bind] in E; discriminate.
Qed.
Lemma lift_some : forall (x : option time) t, lift_time x = Ok t -> x = Some t.
Proof. intros [y|] t H; cbn in H; congruence. Qed.

Lemma queue_out : forall z i o, In o (z_emitted (queue z i)) -> In o (z_emitted z) \/ fine o.
Proof.
  intros z i o. unfold queue. destruct (negb _ && _)%bool; [|auto]. destruct (z_msgs z); [auto|]. proj. intros H. eapply in_say; [exact H|apply dropped_fine].
Qed.
Lemma queue_rest : forall z i, z_threads (queue z i) = z_threads z /\ z_targets (queue z i) = z_targets z /\ z_tol (queue z i) = z_tol z /\ z_expected (queue z i) = z_expected z.
Proof. intros z i. unfold queue. destruct (negb _ && _)%bool; [|repeat split]. destruct (z_msgs z); repeat split. Qed.

Lemma J_step : forall z n read, inv z -> In z big -> J z -> J (thread_step z n read).
Proof.
  intros z n read V B H. unfold thread_step. destruct (nth_error (z_threads z) n) as [th|] eqn:Hn; [|assumption].
  assert (Hin : In th (z_threads z)) by (eapply nth_in, Hn). pose proof (j_th z H th Hin) as HT.
  destruct th as [i|i tgt second rest|i tgt second rest k|i|i| |evs|i evs|i checks evs|i can evs| |]; [..|assumption]; cbn [TI] in HT.
  - destruct (z_flock z); [assumption|]. apply J_next; [assumption|]. intros _. destruct HT as [-> ->]. exists []. rewrite (j_T z H). split; [reflexivity|]. split; [reflexivity|]. intros _ d [].
  - assert (LL : J (lose (goto z n Gone) [(mi_seq i, Threw)])) by (eapply (J_move z n Gone); proj; try reflexivity; try assumption; try discriminate; try exact I; auto).
    rewrite (j_tol z H). destruct (if second then lift_time (time_add (mi_stamp i) tol) else Ok (mi_stamp i)) as [t| |] eqn:Et; try exact LL.
    assert (Hand : being_handled z (mi_seq i)) by (eapply handled_hands; [assumption|exact Hin|left; reflexivity]).
    destruct (add_check (b_core (z_buf z)) tgt (mf_stripSlash (mi_frame i)) t) as [[h|x y]| |] eqn:Ec; try exact LL.
    + apply J_answered; try assumption. intros -> t' Ht'. exists z. split; [assumption|]. split; [assumption|].
      assert (t' = t) as ->; [|apply check_zero; assumption]. destruct second; [apply lift_some in Et|]; congruence.
    + apply J_goto; [assumption|exact HT|discriminate].
  - pose proof (push_handle_nz (z_buf z) (ck_cb k) (ck_target k) (ck_source k) tgt (mf_stripSlash (mi_frame i)) (ck_time k)) as NZ.
    destruct (push_request _ _ _ _ _ _ _) as [b h]. cbn in NZ. apply J_answered; [|assumption|intros ->; destruct NZ; congruence].
    eapply J_same; [exact H|..]; proj; try reflexivity. auto.
  - destruct (Nat.eqb_spec (mi_success i) (z_expected z)) as [E|E]; [|apply J_goto; [assumption|exact HT|discriminate]].
    eapply (J_move z n Gone); proj; try reflexivity; try assumption; try discriminate; try exact I. intros o X. eapply in_say; [exact X|].
    intros _ L. destruct (HT L) as [N Q]. rewrite (j_exp z H) in E. unfold expected_count in E. fold per in E.
    assert (mi_handles i = []) by (destruct (mi_handles i); [reflexivity|cbn in N; lia]). exact (Q H0).
  - destruct (z_mlock z); [assumption|]. destruct (queue_rest (goto z n Gone) i) as (E1 & E2 & E3 & E4). eapply (J_move z n Gone); try eassumption; try discriminate; try exact I.
    intros o X. apply queue_out in X. exact X.
  - destruct (testTransformableRequests (z_buf z)) as [b r]. eapply (J_move z n); [exact H|proj; reflexivity|destruct r; exact I|destruct r; discriminate|proj; auto..].
  - destruct evs as [|e evs]; [apply J_goto; [assumption|exact I|discriminate]|].
    assert (Skip : J (goto z n (SetFire evs))) by (apply J_goto; [assumption|exact I|discriminate]).
    destruct (negb (existsb (Z.eqb (ev_cb e)) (z_own z))); [exact Skip|]. destruct (z_mlock z); [assumption|].
    destruct (find_info (ev_handle e) (z_msgs z)) as [[[l1 i0] l2]|]; [|exact Skip].
    destruct (Nat.ltb (mi_success (bump i0)) (z_expected z)); [|destruct read]; (eapply (J_move z n); [exact H|proj; reflexivity|exact I|discriminate|proj; auto..]).
  - destruct (z_flock z); [assumption|]. eapply (J_move z n); [exact H|proj; reflexivity| |discriminate|proj; auto..].
    cbn [TI]. exists []. rewrite (j_T z H), map_map. cbn [fst]. rewrite map_id. split; [reflexivity|]. split; [intros d []|].
    destruct T as [|t0 ts]; cbn [map]; [exact I|]. split; [|discriminate]. intros c Hc. apply in_map_iff in Hc as (x & <- & _). reflexivity.
  - destruct HT as (done & ET & HD & HC). destruct checks as [|[tgt second] cs].
    { eapply (J_move z n); [exact H|proj; reflexivity| |discriminate|proj; auto..]. cbn [TI]. cbn in ET. rewrite app_nil_r in ET. subst done. exact HD. }
    destruct HC as [HC1 HC2]. cbn [map fst] in ET.
    assert (Fail : forall th m f, TI th -> th <> CfgExpected -> J (upd_locks (goto z n th) m f)) by (intros th m f X Y; eapply (J_move z n th); [exact H|proj; reflexivity|exact X|exact Y|proj; auto..]).
    rewrite (j_tol z H). destruct (if second then lift_time (time_add (mi_stamp i) tol) else Ok (mi_stamp i)) as [t| |] eqn:Et; try (apply Fail; [exact I|discriminate]).
    assert (Hand : being_handled z (mi_seq i)) by (eapply handled_held; [assumption|exact Hin|left; reflexivity]).
    destruct (canTransform _ _ _ _ _) as [[[|] er]| |] eqn:Ec; try (apply Fail; [exact I|discriminate]).
    apply can_served in Ec. assert (G : just (mi_seq i) (mi_frame i) tgt t) by (exists z; repeat split; try assumption; apply Hand).
    assert (Next : (forall t', needed_times tol (mi_stamp i) t' -> just (mi_seq i) (mi_frame i) tgt t') -> J (goto z n (SetCheck i cs evs))).
    { intros X. apply J_goto; [assumption| |discriminate]. cbn [TI]. exists (done ++ [tgt]). rewrite <- app_assoc. split; [exact ET|]. split.
      - intros d Hd. apply in_app_iff in Hd as [Hd|[<-|[]]]; [auto|exact X].
      - destruct cs as [|[tgt' second'] cs]; [exact I|]. split; [intros c Hc; apply HC1; right; assumption|]. intros Y. specialize (HC1 _ (or_introl eq_refl)). cbn in HC1. congruence. }
    destruct second; cbn [negb andb].
    + apply lift_some in Et. apply Next. intros t' [->|[_ Ht]]; [exact (proj2 (HC2 eq_refl))|]. assert (t' = t) as -> by congruence. exact G.
    + injection Et as <-. destruct (Z.eqb_spec tol 0) as [Tz|Tz]; cbn [negb].
      * apply Next. intros t' [->|[Tn _]]; [exact G|congruence].
      * apply J_goto; [assumption| |discriminate]. cbn [TI]. exists done. split; [exact ET|]. split; [exact HD|]. split; [exact HC1|]. auto.
  - eapply (J_move z n); [exact H|proj; reflexivity|exact I|discriminate|proj; auto..]. proj. intros o X. eapply in_say; [exact X|].
    destruct can; [|apply dropped_fine]. intros _ L d Hd. exact (HT d Hd).
  - exfalso. exact (j_cfg z H Hin).
Qed.
Lemma J_act : forall z a, inv z -> In z big -> not_reconfiguring a -> base <= List.length (z_added z) -> J z -> J (fact z a).
Proof.
  intros z a V B NR LB H. destruct a as [frame stamp|n read|m au st|l|d|q| | | |cb|cb tgt src t|h]; cbn [fact not_reconfiguring] in *; try contradiction.
  - destruct (z_targets z) as [|t0 ts] eqn:Et.
    + eapply J_same; [exact H|..]; proj; try reflexivity; auto.
    + destruct (String.eqb (mf_stripSlash frame) EmptyString).
      * eapply J_same; [exact H|..]; proj; try reflexivity; auto. intros o X. eapply in_say; [exact X|apply dropped_fine].
      * destruct H as [H1 H2 H3 H4 H5 H6]. constructor; proj; try assumption; try congruence.
        -- intros X. apply in_app_iff in X as [X|[X|[]]]; [auto|discriminate].
        -- intros th X. apply in_app_iff in X as [X|[<-|[]]]; [auto|]. split; reflexivity.
  - apply J_step; assumption.
  - destruct (setTransform _ _ _ _) as [s' [[|]| |]]; try solve [eapply J_same; [exact H|..]; proj; try reflexivity; auto].
    destruct H as [H1 H2 H3 H4 H5 H6]. constructor; proj; try assumption; try congruence.
    + intros X. apply in_app_iff in X as [X|[X|[]]]; [auto|discriminate].
    + intros th X. apply in_app_iff in X as [X|[<-|[]]]; [auto|exact I].
  - eapply J_same; [exact H|..]; proj; try reflexivity; auto.
  - destruct (z_mlock z); [assumption|]. destruct (addTransformableCallback _) as [b h]. eapply J_same; [exact H|..]; proj; try reflexivity; auto.
  - eapply J_same; [exact H|..]; proj; try reflexivity; auto.
  - eapply J_same; [exact H|..]; proj; try reflexivity; auto.
  - eapply J_same; [exact H|..]; proj; try reflexivity; auto.
  - eapply J_same; [exact H|..]; proj; try reflexivity; auto.
  - eapply J_same; [exact H|..]; proj; try reflexivity; auto.
Qed.
Lemma J_run : forall ops z, inv z -> incl (trace z ops) big -> Forall not_reconfiguring ops -> base <= List.length (z_added z) -> J z -> J (frun z ops).
Proof.
  induction ops as [|a ops IH]; intros z V B F L H; [assumption|]. inversion F; subst. cbn [frun]. cbn [trace] in B.
  apply IH; [apply inv_act; assumption| |assumption| |].
  - intros x Hx. apply B. right. exact Hx.
  - rewrite act_added, app_length. lia.
  - apply J_act; try assumption. apply B. left. reflexivity.
Qed.
End J.

Lemma quiet_J : forall z big, inv z -> quiet z -> J big (z_targets z) (z_tol z) (List.length (z_added z)) z.
Proof.
  intros z big V Q. constructor; try reflexivity.
  - apply (v_exp z V). intros H. apply Q in H. discriminate.
  - intros H. apply Q in H. discriminate.
  - intros th H. rewrite (Q th H). exact I.
  - intros o H _ L. exfalso. pose proof (v_out z V o H) as K. assert (o_seq o < List.length (z_added z)) by (apply nth_error_Some; congruence). lia.
Qed.
Lemma ready_justified : forall z ops o, inv z -> quiet z -> Forall not_reconfiguring ops ->
  In o (z_emitted (frun z ops)) -> o_outcome o = Ready -> List.length (z_added z) <= o_seq o ->
  forall tgt, In tgt (z_targets z) -> forall t, needed_times (z_tol z) (o_stamp o) t ->
  exists zz, In zz (trace z ops) /\ being_handled zz (o_seq o) /\ could_use zz tgt (mf_stripSlash (o_frame o)) t.
Proof.
  intros z ops o V Q F H R L tgt Ht t Hn.
  pose proof (J_run (trace z ops) (z_targets z) (z_tol z) (List.length (z_added z)) ops z V (incl_refl _) F (le_n _) (quiet_J z _ V Q)) as JJ.
  exact (j_out _ _ _ _ _ JJ o H R L tgt Ht t Hn).
Qed.
End P.
