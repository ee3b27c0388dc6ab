(** * Message filter with threads: a call that runs alone is the call of MessageFilter.v *)
From Coq Require Import ZArith Bool List String Lia Permutation.
From Verif Require Import RosTime Scalar LinearMath Cache SpecCache BufferCore SpecCore Requests SpecRequests RequestProofs RequestHistory
  MessageFilter SpecFilter FilterProofs FilterThreads SpecFilterThreads FilterThreadProofs FilterThreadReady.
Import ListNotations.
Open Scope list_scope.
Local Opaque MAX_GRAPH_DEPTH.

Section P.
Context {S : Scalar}.
Notation fstate := (fstate S).
Implicit Types (z : fstate) (i : minfo) (th : thread) (ths : list thread).

Lemma goes_nil : forall n, @goes S n []. Proof. intros. constructor. Qed.
Lemma goes_cons : forall n r ops, @goes S n ops -> goes n (FGo n r :: ops).
Proof. intros. constructor; [eauto|assumption]. Qed.
Lemma nth_last : forall ths th, nth_error (ths ++ [th]) (List.length ths) = Some th.
Proof. intros. rewrite nth_error_app2, Nat.sub_diag by lia. reflexivity. Qed.
Lemma set_last : forall ths th th', set_nth (List.length ths) th' (ths ++ [th]) = ths ++ [th'].
Proof. induction ths as [|a ths IH]; intros; cbn; [reflexivity|]. rewrite IH. reflexivity. Qed.

(** [z] with its last thread at [th] and the given locks *)
Definition at_ z ths th m f : fstate := upd_locks (upd_threads z (ths ++ [th])) m f.
Lemma at_goto : forall z ths th m f th', goto (at_ z ths th m f) (List.length ths) th' = at_ z ths th' m f.
Proof. intros. unfold at_, goto. proj. rewrite set_last. reflexivity. Qed.
Lemma at_locks : forall z ths th m f m' f', upd_locks (at_ z ths th m f) m' f' = at_ z ths th m' f'.
Proof. reflexivity. Qed.
Lemma at_nth : forall z ths th m f, nth_error (z_threads (at_ z ths th m f)) (List.length ths) = Some th.
Proof. intros. unfold at_. proj. apply nth_last. Qed.
Lemma at_say : forall z ths th m f o, say (at_ z ths th m f) o = at_ (say z o) ths th m f. Proof. reflexivity. Qed.
Lemma at_lose : forall z ths th m f l, lose (at_ z ths th m f) l = at_ (lose z l) ths th m f. Proof. reflexivity. Qed.
Lemma at_buf : forall z ths th m f b, upd_buf (at_ z ths th m f) b = at_ (upd_buf z b) ths th m f. Proof. reflexivity. Qed.
Lemma at_msgs : forall z ths th m f l, upd_msgs (at_ z ths th m f) l = at_ (upd_msgs z l) ths th m f. Proof. reflexivity. Qed.

Lemma abs_at : forall z ths th m f, abs (at_ z ths th m f) = abs z. Proof. reflexivity. Qed.

(** the end of a call: thread gone, locks free *)
Definition ends z ths (x : filt S) : Prop := exists z', z = at_ z' ths Gone false false /\ abs z' = x.

Lemma queue_alone : forall z i, mi_success i <> z_expected z -> abs (queue z i) = add_finish (abs z) i.
Proof.
  intros z i N. unfold queue, add_finish. cbn [abs f_expected f_qsize f_msgs f_buf]. destruct (Nat.eqb_spec (mi_success i) (z_expected z)) as [E|_]; [contradiction|].
  destruct (negb _ && _)%bool; [|reflexivity]. destruct (z_msgs z) as [|front rest] eqn:Em; [|reflexivity]. unfold abs. proj. rewrite Em. reflexivity.
Qed.
Lemma queue_at : forall z ths m f i, queue (at_ z ths Gone m f) i = at_ (queue z i) ths Gone m f.
Proof.
  intros. unfold queue. cbn [at_ upd_locks upd_threads z_qsize z_msgs z_buf]. destruct (negb _ && _)%bool; [|reflexivity]. destruct (z_msgs z) eqn:E; [|reflexivity].
  unfold at_, upd_msgs. proj. reflexivity.
Qed.
Lemma decide_alone : forall z ths i, exists ops, goes (List.length ths) ops /\ ends (frun (at_ z ths (AddDecide i) false false) ops) ths (add_finish (abs z) i).
Proof.
  intros z ths i. destruct (Nat.eqb_spec (mi_success i) (z_expected z)) as [E|E].
  - exists [FGo (List.length ths) TransformAvailable]. split; [apply goes_cons, goes_nil|]. cbn [frun fact]. unfold thread_step. rewrite at_nth.
    change (z_expected (at_ z ths (AddDecide i) false false)) with (z_expected z). rewrite (proj2 (Nat.eqb_eq _ _) E). rewrite at_goto, at_say.
    eexists. split; [reflexivity|]. unfold add_finish. cbn [abs f_expected]. rewrite (proj2 (Nat.eqb_eq _ _) E). reflexivity.
  - exists [FGo (List.length ths) TransformAvailable; FGo (List.length ths) TransformAvailable]. split; [apply goes_cons, goes_cons, goes_nil|]. cbn [frun fact]. unfold thread_step at 2. rewrite at_nth.
    change (z_expected (at_ z ths (AddDecide i) false false)) with (z_expected z). rewrite (proj2 (Nat.eqb_neq _ _) E). rewrite at_goto. unfold thread_step. rewrite at_nth.
    cbn [at_ upd_locks z_mlock]. fold (at_ z ths (AddQueue i) false false). rewrite at_goto, queue_at. eexists. split; [reflexivity|]. apply queue_alone. assumption.
Qed.

(** what is left of add() after the answers *)
Definition add_rest (x : filt S) (i : minfo) (r : buf S * res (option (nat * list Z))) : filt S :=
  match r with
  | (b, Ok None) => emit (with_buf x b) (verdict i (Dropped OutTheBack))
  | (b, Ok (Some (k, hs))) => add_finish (with_buf x b) (mkInfo (mi_seq i) (mi_frame i) (mi_stamp i) hs k)
  | (b, _) => with_buf x b
  end.
(** one request *)
Lemma ask_alone : forall z ths i tgt (second : bool) rest t, (if second then lift_time (time_add (mi_stamp i) (z_tol z)) else Ok (mi_stamp i)) = Ok t ->
  exists ops, goes (List.length ths) ops /\
  match addTransformableRequest (z_buf z) (z_cb z) tgt (mf_stripSlash (mi_frame i)) t with
  | (b, Ok h) => frun (at_ z ths (AddAsk i tgt second rest) false false) ops = answered (at_ (upd_buf z b) ths (AddAsk i tgt second rest) false false) (List.length ths) i tgt second rest h
  | (b, _) => ends (frun (at_ z ths (AddAsk i tgt second rest) false false) ops) ths (with_buf (abs z) b)
  end.
Proof.
  intros z ths i tgt second rest t Ht. unfold addTransformableRequest.
  assert (One : forall k, thread_step (at_ z ths (AddAsk i tgt second rest) false false) (List.length ths) k =
    match add_check (b_core (z_buf z)) tgt (mf_stripSlash (mi_frame i)) t with
    | Ok (Answer h) => answered (at_ z ths (AddAsk i tgt second rest) false false) (List.length ths) i tgt second rest h
    | Ok (Push ti si) => at_ z ths (AddStore i tgt second rest (mkCk (z_cb z) ti si t)) false false
    | _ => at_ (lose z [(mi_seq i, Threw)]) ths Gone false false
    end).
  { intros k. unfold thread_step. rewrite at_nth. change (z_tol (at_ z ths (AddAsk i tgt second rest) false false)) with (z_tol z). rewrite Ht. rewrite !at_goto, at_lose.
    change (b_core (z_buf (at_ z ths (AddAsk i tgt second rest) false false))) with (b_core (z_buf z)).
    destruct (add_check _ _ _ _) as [[h|x y]| |]; try reflexivity. rewrite at_goto. reflexivity. }
  destruct (add_check (b_core (z_buf z)) tgt (mf_stripSlash (mi_frame i)) t) as [[h|x y]|c e|] eqn:E.
  - exists [FGo (List.length ths) TransformAvailable]. split; [apply goes_cons, goes_nil|]. cbn [frun fact]. rewrite One. destruct z; reflexivity.
  - destruct (push_request (z_buf z) (z_cb z) x y tgt (mf_stripSlash (mi_frame i)) t) as [b h] eqn:Ep.
    exists [FGo (List.length ths) TransformAvailable; FGo (List.length ths) TransformAvailable]. split; [apply goes_cons, goes_cons, goes_nil|]. cbn [frun fact]. rewrite One.
    unfold thread_step. rewrite at_nth. cbn [ck_cb ck_target ck_source ck_time].
    change (z_buf (at_ z ths (AddStore i tgt second rest (mkCk (z_cb z) x y t)) false false)) with (z_buf z). rewrite Ep. rewrite at_buf.
    unfold answered, next_target. rewrite !at_goto. change (z_tol (at_ (upd_buf z b) ths (AddStore i tgt second rest (mkCk (z_cb z) x y t)) false false)) with (z_tol z).
    change (z_tol (at_ (upd_buf z b) ths (AddAsk i tgt second rest) false false)) with (z_tol z).
    destruct (note_answer h _) as [[k hs]|]; [|rewrite ?at_goto; reflexivity]. destruct (negb second && _)%bool; [rewrite ?at_goto; reflexivity|].
    destruct rest; rewrite ?at_goto; reflexivity.
  - exists [FGo (List.length ths) TransformAvailable]. split; [apply goes_cons, goes_nil|]. cbn [frun fact]. rewrite One. eexists. split; reflexivity.
  - exists [FGo (List.length ths) TransformAvailable]. split; [apply goes_cons, goes_nil|]. cbn [frun fact]. rewrite One. eexists. split; reflexivity.
Qed.
Lemma frun_app : forall l1 l2 z, frun z (l1 ++ l2) = frun (frun z l1) l2.
Proof. induction l1 as [|a l1 IH]; intros l2 z; [reflexivity|]. cbn [app frun]. apply IH. Qed.
Lemma goes_app : forall n l1 l2, @goes S n l1 -> goes n l2 -> goes n (l1 ++ l2).
Proof. intros. apply Forall_app. split; assumption. Qed.

Lemma requests_alone : forall rest z ths i, exists ops, goes (List.length ths) ops /\
  forall th, ends (frun (next_target (at_ z ths th false false) (List.length ths) i rest) ops) ths
    (add_rest (abs z) i (add_requests (z_buf z) (z_cb z) (mf_stripSlash (mi_frame i)) (mi_stamp i) (z_tol z) rest (mi_success i, mi_handles i))).
Proof.
  induction rest as [|tgt rest IH]; intros z ths i.
  - destruct (decide_alone z ths i) as (ops & G & E). exists ops. split; [assumption|]. intros th. cbn [next_target add_requests add_rest]. rewrite at_goto.
    destruct i, z. exact E.
  - cbn [next_target add_requests]. destruct (ask_alone z ths i tgt false rest (mi_stamp i) eq_refl) as (ops1 & G1 & E1).
    destruct (addTransformableRequest (z_buf z) (z_cb z) tgt (mf_stripSlash (mi_frame i)) (mi_stamp i)) as [b1 [h| |]];
      [|exists ops1; split; [assumption|]; intros th; rewrite at_goto; exact E1..].
    unfold answered in E1. destruct (note_answer h (mi_success i, mi_handles i)) as [[k hs]|].
    2:{ exists ops1. split; [assumption|]. intros th. rewrite at_goto, E1, at_goto, at_say. eexists. split; reflexivity. }
    cbn [negb andb] in E1. change (z_tol (at_ (upd_buf z b1) ths (AddAsk i tgt false rest) false false)) with (z_tol z) in E1.
    destruct (Z.eqb_spec (z_tol z) 0) as [Tz|Tz]; cbn [negb] in E1.
    + destruct (IH (upd_buf z b1) ths (mkInfo (mi_seq i) (mi_frame i) (mi_stamp i) hs k)) as (ops2 & G2 & E2). exists (ops1 ++ ops2). split; [apply goes_app; assumption|].
      intros th. rewrite at_goto, frun_app, E1. exact (E2 _).
    + rewrite at_goto in E1. destruct (time_add (mi_stamp i) (z_tol z)) as [t2|] eqn:Et.
      2:{ exists (ops1 ++ [FGo (List.length ths) TransformAvailable]). split; [apply goes_app; [assumption|apply goes_cons, goes_nil]|]. intros th. rewrite at_goto, frun_app, E1. cbn [frun fact].
          unfold thread_step. rewrite at_nth. cbn [mi_stamp]. change (z_tol (at_ (upd_buf z b1) ths (AddAsk (mkInfo (mi_seq i) (mi_frame i) (mi_stamp i) hs k) tgt true rest) false false)) with (z_tol z).
          rewrite Et. cbn [lift_time]. rewrite at_goto, at_lose. eexists. split; reflexivity. }
      set (i1 := mkInfo (mi_seq i) (mi_frame i) (mi_stamp i) hs k) in *.
      destruct (ask_alone (upd_buf z b1) ths i1 tgt true rest t2) as (ops2 & G2 & E2); [change (lift_time (time_add (mi_stamp i) (z_tol z)) = Ok t2); rewrite Et; reflexivity|].
      change (z_buf (upd_buf z b1)) with b1 in E2. change (z_cb (upd_buf z b1)) with (z_cb z) in E2. change (mi_frame i1) with (mi_frame i) in E2.
      destruct (addTransformableRequest b1 (z_cb z) tgt (mf_stripSlash (mi_frame i)) t2) as [b2 [h2| |]].
      2,3: exists (ops1 ++ ops2); split; [apply goes_app; assumption|]; intros th; rewrite at_goto, frun_app, E1; exact E2.
      unfold answered in E2. change (mi_success i1) with k in E2. change (mi_handles i1) with hs in E2.
      destruct (note_answer h2 (k, hs)) as [[k2 hs2]|].
      2:{ exists (ops1 ++ ops2). split; [apply goes_app; assumption|]. intros th. rewrite at_goto, frun_app, E1, E2, at_goto, at_say. eexists. split; reflexivity. }
      cbn [negb andb] in E2. destruct (IH (upd_buf (upd_buf z b1) b2) ths (mkInfo (mi_seq i) (mi_frame i) (mi_stamp i) hs2 k2)) as (ops3 & G3 & E3).
      exists (ops1 ++ ops2 ++ ops3). split; [repeat (apply goes_app; try assumption)|]. intros th. rewrite at_goto, frun_app, E1, frun_app, E2. exact (E3 _).
Qed.

Lemma add_alone : forall z frame stamp, z_mlock z = false -> z_flock z = false ->
  exists ops, goes (List.length (z_threads z)) ops /\
    let z' := frun z (FAdd frame stamp :: ops) in
    abs z' = fst (mf_add (abs z) frame stamp) /\ z_mlock z' = false /\ z_flock z' = false /\
    (z_threads z' = z_threads z \/ z_threads z' = z_threads z ++ [Gone]).
Proof.
  intros z frame stamp Lm Lf. cbn [frun fact]. unfold mf_add, add_begin. cbn [note_added abs f_targets].
  destruct (z_targets z) as [|t0 ts] eqn:Et.
  - exists []. split; [apply goes_nil|]. cbn [frun]. unfold abs. proj. rewrite Et. cbn [fst f_added f_emitted f_delivered]. auto.
  - destruct (String.eqb (mf_stripSlash frame) EmptyString) eqn:Ee.
    + exists []. split; [apply goes_nil|]. cbn [frun]. unfold abs. proj. rewrite Et. cbn. auto.
    + set (z1 := mkFS _ _ _ _ _ _ _ _ _ _ _ _ _ _). set (i := mkInfo (List.length (z_added z)) frame stamp [] 0).
      destruct (requests_alone (z_targets z1) z1 (z_threads z1) i) as (ops & G & E).
      exists (FGo (List.length (z_threads z)) TransformAvailable :: ops). split; [apply goes_cons; exact G|]. cbn [frun fact].
      assert (X : spawn z1 (AddCopy i) = at_ z1 (z_threads z1) (AddCopy i) false false).
      { unfold at_, spawn, upd_locks, upd_threads, z1. proj. rewrite Lm, Lf. reflexivity. }
      assert (Y : thread_step (at_ z1 (z_threads z1) (AddCopy i) false false) (List.length (z_threads z)) TransformAvailable =
        next_target (at_ z1 (z_threads z1) (AddCopy i) false false) (List.length (z_threads z1)) i (z_targets z1)).
      { unfold thread_step. change (List.length (z_threads z)) with (List.length (z_threads z1)). rewrite at_nth. reflexivity. }
      rewrite X, Y.
      destruct (E (AddCopy i)) as (z' & E1 & E2). cbn zeta. rewrite E1. rewrite abs_at, E2. split; [|cbn; auto].
      unfold add_rest. change (z_buf z1) with (z_buf z). change (z_cb z1) with (z_cb z). change (z_tol z1) with (z_tol z). change (z_targets z1) with (t0 :: ts).
      cbn [f_buf f_cb f_tol f_targets mi_frame mi_stamp mi_success mi_handles i]. change (mf_stripSlash (mi_frame i)) with (mf_stripSlash frame). cbn [fst].
      destruct (add_requests _ _ _ _ _ _ _) as [b [[[k hs]|]|c e|]]; unfold abs, z1; proj; rewrite ?Et; reflexivity.
Qed.
(** ** setTransform with the callbacks it makes *)
Lemma check_alone : forall targets z ths i evs,
  exists ops, goes (List.length ths) ops /\
  frun (at_ z ths (SetCheck i (map (fun t => (t, false)) targets) evs) true true) ops =
  match still_can (b_core (z_buf z)) targets (mf_stripSlash (mi_frame i)) (mi_stamp i) (z_tol z) with
  | Ok c => at_ z ths (SetVerdict i c evs) true false
  | _ => at_ z ths Gone false false
  end.
Proof.
  induction targets as [|tgt targets IH]; intros z ths i evs.
  - exists [FGo (List.length ths) TransformAvailable]. split; [apply goes_cons, goes_nil|]. cbn [frun fact map still_can]. unfold thread_step. rewrite at_nth, at_goto. reflexivity.
  - cbn [map still_can].
    assert (One : forall k second cs, thread_step (at_ z ths (SetCheck i ((tgt, second) :: cs) evs) true true) (List.length ths) k =
      match (if second then lift_time (time_add (mi_stamp i) (z_tol z)) else Ok (mi_stamp i)) with
      | Ok t =>
        match canTransform (b_core (z_buf z)) tgt (mf_stripSlash (mi_frame i)) t None with
        | Ok (true, _) => if (negb second && negb (z_tol z =? 0)%Z)%bool then at_ z ths (SetCheck i ((tgt, true) :: cs) evs) true true else at_ z ths (SetCheck i cs evs) true true
        | Ok (false, _) => at_ z ths (SetVerdict i false evs) true false
        | _ => at_ z ths Gone false false
        end
      | _ => at_ z ths Gone false false
      end).
    { intros k second cs. unfold thread_step. rewrite at_nth. rewrite !at_goto, !at_locks. reflexivity. }
    pose proof (One TransformAvailable false (map (fun t => (t, false)) targets)) as O1. cbn iota in O1.
    destruct (canTransform (b_core (z_buf z)) tgt (mf_stripSlash (mi_frame i)) (mi_stamp i) None) as [[[|] e1]| |] eqn:E1; cbn [bind] in *.
    2,3,4: exists [FGo (List.length ths) TransformAvailable]; split; [apply goes_cons, goes_nil|]; cbn [frun fact]; rewrite O1; reflexivity.
    cbn [negb andb] in O1. destruct (Z.eqb_spec (z_tol z) 0) as [Tz|Tz]; cbn [negb] in O1.
    + destruct (IH z ths i evs) as (ops & G & E). exists (FGo (List.length ths) TransformAvailable :: ops). split; [apply goes_cons; assumption|]. cbn [frun fact]. rewrite O1. exact E.
    + pose proof (One TransformAvailable true (map (fun t => (t, false)) targets)) as O2. cbn iota in O2.
      destruct (time_add (mi_stamp i) (z_tol z)) as [t2|]; cbn [lift_time bind] in *.
      2:{ exists [FGo (List.length ths) TransformAvailable; FGo (List.length ths) TransformAvailable]. split; [apply goes_cons, goes_cons, goes_nil|]. cbn [frun fact]. rewrite O1, O2. reflexivity. }
      destruct (canTransform (b_core (z_buf z)) tgt (mf_stripSlash (mi_frame i)) t2 None) as [[[|] e2]| |]; cbn [bind] in *.
      2,3,4: exists [FGo (List.length ths) TransformAvailable; FGo (List.length ths) TransformAvailable]; split; [apply goes_cons, goes_cons, goes_nil|]; cbn [frun fact]; rewrite O1, O2; reflexivity.
      cbn [negb andb] in O2. destruct (IH z ths i evs) as (ops & G & E). exists (FGo (List.length ths) TransformAvailable :: FGo (List.length ths) TransformAvailable :: ops).
      split; [apply goes_cons, goes_cons; assumption|]. cbn [frun fact]. rewrite O1, O2. exact E.
Qed.
Lemma filter_out : forall (l1 l2 : list minfo) i, cnt (map mi_seq (l1 ++ i :: l2)) (mi_seq i) = 1%nat ->
  filter (fun j => negb (Nat.eqb (mi_seq j) (mi_seq i))) (l1 ++ i :: l2) = l1 ++ l2.
Proof.
  intros l1 l2 i H. rewrite map_app in H. cbn [map] in H. rewrite cnt_app, cnt_cons in H. unfold one in H. destruct (Nat.eq_dec (mi_seq i) (mi_seq i)) as [_|X]; [|congruence].
  assert (A : forall l : list minfo, cnt (map mi_seq l) (mi_seq i) = 0%nat -> filter (fun j => negb (Nat.eqb (mi_seq j) (mi_seq i))) l = l).
  { induction l as [|j l IH]; intros K; [reflexivity|]. cbn [map] in K. rewrite cnt_cons in K. unfold one in K. cbn [filter]. destruct (Nat.eq_dec (mi_seq j) (mi_seq i)) as [Y|Y]; [lia|].
    rewrite (proj2 (Nat.eqb_neq _ _) Y). cbn [negb]. rewrite IH; [reflexivity|lia]. }
  rewrite filter_app. cbn [filter]. rewrite Nat.eqb_refl. cbn [negb]. rewrite !A by lia. reflexivity.
Qed.
Lemma own_one : forall e c, existsb (Z.eqb e) [c] = (e =? c)%Z.
Proof. intros. cbn. apply orb_false_r. Qed.

Lemma fire_alone : forall evs read z ths, inv (at_ z ths (SetFire evs) false false) -> z_own z = [z_cb z] ->
  exists ops, goes (List.length ths) ops /\ ends (frun (at_ z ths (SetFire evs) false false) ops) ths (fst (fire (abs z) evs read)).
Proof.
  induction evs as [|e evs IH]; intros read z ths V Ow.
  - exists [FGo (List.length ths) TransformAvailable]. split; [apply goes_cons, goes_nil|]. cbn [frun fact fire fst]. unfold thread_step. rewrite at_nth, at_goto. eexists. split; reflexivity.
  - cbn [fire]. change (f_cb (abs z)) with (z_cb z).
    assert (V1 : forall r, inv (thread_step (at_ z ths (SetFire (e :: evs)) false false) (List.length ths) r)) by (intros; apply inv_step; assumption).
    pose proof (v_cnt _ V) as VC.
    assert (One : forall r, thread_step (at_ z ths (SetFire (e :: evs)) false false) (List.length ths) r =
      if negb (ev_cb e =? z_cb z)%Z then at_ z ths (SetFire evs) false false else
      match find_info (ev_handle e) (z_msgs z) with
      | None => at_ z ths (SetFire evs) false false
      | Some (l1, i0, l2) =>
          if Nat.ltb (mi_success (bump i0)) (z_expected z) then at_ (upd_msgs z (l1 ++ bump i0 :: l2)) ths (SetFire evs) false false
          else match r with
               | TransformAvailable => at_ (upd_msgs z (l1 ++ bump i0 :: l2)) ths (SetWait (bump i0) evs) true false
               | TransformFailure => at_ (upd_msgs z (l1 ++ bump i0 :: l2)) ths (SetVerdict (bump i0) false evs) true false
               end
      end).
    { intros r. unfold thread_step. rewrite at_nth. change (z_own (at_ z ths (SetFire (e :: evs)) false false)) with (z_own z). rewrite Ow, own_one. rewrite !at_goto.
      destruct (negb _); [reflexivity|]. change (z_mlock (at_ z ths (SetFire (e :: evs)) false false)) with false. cbn iota.
      change (z_msgs (at_ z ths (SetFire (e :: evs)) false false)) with (z_msgs z). destruct (find_info _ _) as [[[l1 i0] l2]|]; [|reflexivity].
      rewrite at_msgs, !at_goto. change (z_expected (at_ z ths (SetFire (e :: evs)) false false)) with (z_expected z). destruct (Nat.ltb _ _); [reflexivity|].
      rewrite !at_locks. reflexivity. }
    destruct (Z.eqb_spec (ev_cb e) (z_cb z)) as [Ec|Ec]; cbn [negb] in One.
    2:{ specialize (V1 TransformAvailable). rewrite One in V1. destruct (IH (fun k => read (Datatypes.S k)) z ths V1 Ow) as (ops & G & E).
        exists (FGo (List.length ths) TransformAvailable :: ops). split; [apply goes_cons; assumption|]. cbn [frun fact]. rewrite One. exact E. }
    unfold mf_transformable. change (f_msgs (abs z)) with (z_msgs z).
    destruct (find_info (ev_handle e) (z_msgs z)) as [[[l1 i0] l2]|] eqn:F.
    2:{ specialize (V1 TransformAvailable). rewrite One in V1. destruct (IH (fun k => read (Datatypes.S k)) z ths V1 Ow) as (ops & G & E).
        exists (FGo (List.length ths) TransformAvailable :: ops). split; [apply goes_cons; assumption|]. cbn [frun fact]. rewrite One. exact E. }
    change (f_expected (abs z)) with (z_expected z). set (i := bump i0) in *. set (z1 := upd_msgs z (l1 ++ i :: l2)) in *.
    destruct (Nat.ltb (mi_success i) (z_expected z)).
    { specialize (V1 TransformAvailable). rewrite One in V1. destruct (IH (fun k => read (Datatypes.S k)) z1 ths V1 Ow) as (ops & G & E).
      exists (FGo (List.length ths) TransformAvailable :: ops). split; [apply goes_cons; assumption|]. cbn [frun fact]. rewrite One. exact E. }
    assert (Uniq : cnt (map mi_seq (l1 ++ i :: l2)) (mi_seq i) = 1%nat).
    { apply find_info_split in F as (Em & _ & _). assert (I0 : In i0 (z_msgs (at_ z ths (SetFire (e :: evs)) false false))) by (change (In i0 (z_msgs z)); rewrite Em; apply in_elt).
      pose proof (msgs_once _ _ V I0) as U. change (z_msgs (at_ z ths (SetFire (e :: evs)) false false)) with (z_msgs z) in U. rewrite Em in U. rewrite map_app in *. exact U. }
    (* the verdict and the rest *)
    assert (Fin : forall c, inv (at_ z1 ths (SetVerdict i c evs) true false) ->
      exists ops, goes (List.length ths) ops /\ ends (frun (at_ z1 ths (SetVerdict i c evs) true false) ops) ths
        (fst (fire (with_msgs (emit (with_msgs (abs z) (l1 ++ i :: l2)) (verdict i (if c then Ready else Dropped Unknown))) (l1 ++ l2)) evs (fun k => read (Datatypes.S k))))).
    { intros c Vc. set (z2 := say (upd_msgs z1 (l1 ++ l2)) (verdict i (if c then Ready else Dropped Unknown))).
      assert (O2 : thread_step (at_ z1 ths (SetVerdict i c evs) true false) (List.length ths) TransformAvailable = at_ z2 ths (SetFire evs) false false).
      { unfold thread_step. rewrite at_nth. change (z_msgs (at_ z1 ths (SetVerdict i c evs) true false)) with (l1 ++ i :: l2). rewrite (filter_out l1 l2 i Uniq). rewrite at_msgs, at_say, at_goto. reflexivity. }
      pose proof (inv_step _ (List.length ths) TransformAvailable Vc) as V2. rewrite O2 in V2. destruct (IH (fun k => read (Datatypes.S k)) z2 ths V2 Ow) as (ops & G & E).
      exists (FGo (List.length ths) TransformAvailable :: ops). split; [apply goes_cons; assumption|]. cbn [frun fact]. rewrite O2. exact E. }
    destruct (read O) eqn:Er.
    + (* TransformAvailable: the transforms are checked again *)
      pose proof (V1 TransformAvailable) as V2. rewrite One in V2.
      assert (O3 : thread_step (at_ z1 ths (SetWait i evs) true false) (List.length ths) TransformAvailable = at_ z1 ths (SetCheck i (map (fun t => (t, false)) (z_targets z1)) evs) true true).
      { unfold thread_step. rewrite at_nth. change (z_flock (at_ z1 ths (SetWait i evs) true false)) with false. cbn iota. rewrite at_goto. reflexivity. }
      destruct (check_alone (z_targets z1) z1 ths i evs) as (ops1 & G1 & E1).
      pose proof (inv_run (FGo (List.length ths) TransformAvailable :: ops1) _ V2) as V3. cbn [frun fact] in V3. rewrite O3, E1 in V3.
      change (b_core (z_buf z1)) with (b_core (f_buf (abs z))) in *. change (z_targets z1) with (f_targets (abs z)) in *. change (z_tol z1) with (f_tol (abs z)) in *.
      destruct (still_can (b_core (f_buf (abs z))) (f_targets (abs z)) (mf_stripSlash (mi_frame i)) (mi_stamp i) (f_tol (abs z))) as [c| |].
      * destruct (Fin c V3) as (ops & G & E). exists (FGo (List.length ths) TransformAvailable :: FGo (List.length ths) TransformAvailable :: ops1 ++ ops).
        split; [apply goes_cons, goes_cons, goes_app; assumption|]. cbn [frun fact]. rewrite One, O3, frun_app, E1. destruct c; exact E.
      * exists (FGo (List.length ths) TransformAvailable :: FGo (List.length ths) TransformAvailable :: ops1). split; [apply goes_cons, goes_cons; assumption|].
        cbn [frun fact]. rewrite One, O3, E1. eexists. split; reflexivity.
      * exists (FGo (List.length ths) TransformAvailable :: FGo (List.length ths) TransformAvailable :: ops1). split; [apply goes_cons, goes_cons; assumption|].
        cbn [frun fact]. rewrite One, O3, E1. eexists. split; reflexivity.
    + pose proof (V1 TransformFailure) as V2. rewrite One in V2. destruct (Fin false V2) as (ops & G & E).
      exists (FGo (List.length ths) TransformFailure :: ops). split; [apply goes_cons; assumption|]. cbn [frun fact]. rewrite One. exact E.
Qed.

Lemma transform_alone : forall z m au st read, inv z -> z_mlock z = false -> z_flock z = false -> z_own z = [z_cb z] ->
  exists ops, goes (List.length (z_threads z)) ops /\
    let z' := frun z (FInsert m au st :: ops) in
    abs z' = fst (mf_set_transform (abs z) m au st read) /\ z_mlock z' = false /\ z_flock z' = false /\
    (z_threads z' = z_threads z \/ z_threads z' = z_threads z ++ [Gone]).
Proof.
  intros z m au st read V Lm Lf Ow. cbn [frun fact]. unfold mf_set_transform, set_transform. change (f_buf (abs z)) with (z_buf z).
  pose proof (inv_act z (FInsert m au st) V) as V1. cbn [fact] in V1.
  destruct (setTransform (b_core (z_buf z)) m au st) as [s' r] eqn:Es. destruct r as [[|]| |].
  2,3,4: exists []; split; [apply goes_nil|]; cbn; auto.
  set (z1 := upd_buf z (with_core (z_buf z) s')) in *.
  assert (X : spawn z1 SetTest = at_ z1 (z_threads z) SetTest false false).
  { unfold at_, spawn, upd_locks, upd_threads, z1. proj. rewrite Lm, Lf. reflexivity. }
  rewrite X in *. destruct (testTransformableRequests (with_core (z_buf z) s')) as [b r] eqn:Et.
  assert (O1 : thread_step (at_ z1 (z_threads z) SetTest false false) (List.length (z_threads z)) TransformAvailable =
    at_ (upd_buf z1 b) (z_threads z) (match r with Ok evs => SetFire evs | _ => Gone end) false false).
  { unfold thread_step. rewrite at_nth. change (z_buf (at_ z1 (z_threads z) SetTest false false)) with (with_core (z_buf z) s'). rewrite Et, at_buf, at_goto. reflexivity. }
  pose proof (inv_step _ (List.length (z_threads z)) TransformAvailable V1) as V2. rewrite O1 in V2.
  destruct r as [evs|c e|]; cbn [bind].
  2,3: exists [FGo (List.length (z_threads z)) TransformAvailable]; split; [apply goes_cons, goes_nil|]; cbn [frun fact]; rewrite O1; cbn; auto.
  destruct (fire_alone evs read (upd_buf z1 b) (z_threads z) V2 Ow) as (ops & G & (z' & E1 & E2)).
  exists (FGo (List.length (z_threads z)) TransformAvailable :: ops). split; [apply goes_cons; assumption|]. cbn [frun fact]. rewrite O1. cbn zeta. rewrite E1, abs_at, E2. split; [|cbn; auto].
  change (abs (upd_buf z1 b)) with (with_buf (abs z) b). destruct (fire (with_buf (abs z) b) evs read) as [f2 [| |]]; reflexivity.
Qed.
End P.
