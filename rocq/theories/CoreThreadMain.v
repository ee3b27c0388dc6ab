(** * The invariant behind C82 *)
From Coq Require Import ZArith Bool List String Arith Lia.
From Verif Require Import RosTime Scalar LinearMath Cache BufferCore Introspection SpecCore CoreThreads SpecCoreThreads CoreThreadProofs.
Import ListNotations.
Open Scope Z_scope.

Section M.
Context {S : Scalar}.
Notation core := (core S).
Implicit Types (s : core) (b : scope S) (p : prog S) (c : call S) (x before during ext : list (happening S)) (e : machine S).

(** ** The buffer after some effects *)
Lemma after_app : forall s x y, after s (x ++ y) = after (after s x) y.
Proof. intros s x y. unfold after. apply fold_left_app. Qed.
Lemma after_seen : forall s v x, after s (Seen v :: x) = after s x.
Proof. reflexivity. Qed.
Lemma after_range : forall x s, in_range s -> in_range (after s x).
Proof. induction x as [|[v|i c a] x IH]; intros s R; cbn; [exact R|apply IH; exact R|]. apply IH, alone_range, R. Qed.
Lemma growing_run : forall b s s' p, growing b -> run_scope b s = (s', p) -> grow s s'.
Proof.
  fix F 1. intros [q|g k] s s' p G H; cbn in *; [injection H as <- _; apply grow_refl|].
  apply (grow_trans _ (g s)); [apply G|]. apply (F (k s) _ _ p); [apply G|exact H].
Qed.
Lemma alone_grow : forall s c, in_range s -> grow s (fst (alone s c)).
Proof.
  intros s c R. assert (D : is_fixed_lookup c \/ ~ is_fixed_lookup c) by (destruct c; cbn; tauto). destruct D as [F|F].
  - destruct c; try contradiction. apply grow_refl.
  - destruct (simple_call c F) as [(a & _ & E)|(b & _ & G & E)]; [rewrite E; apply grow_refl|]. exact (growing_run _ _ _ _ G (E s R)).
Qed.
Lemma after_grow : forall x s, in_range s -> grow s (after s x).
Proof.
  induction x as [|[v|i c a] x IH]; intros s R; cbn; [apply grow_refl|apply IH; exact R|].
  apply (grow_trans _ (fst (alone s c))); [apply alone_grow; exact R|]. apply IH, alone_range, R.
Qed.

(** ** Names *)
Definition valid s (arg name : string) : Prop := exists id, validateFrameId s arg name = Ok id.
Lemma number_grow : forall s s' n, grow s s' -> lookupFrameNumber s n <> 0%nat -> lookupFrameNumber s' n = lookupFrameNumber s n.
Proof.
  intros s s' n G. unfold lookupFrameNumber. destruct (assoc n (c_ids s)) as [id|] eqn:E; [|congruence]. rewrite (G _ _ E). reflexivity.
Qed.
Lemma valid_grow : forall s s' arg n, grow s s' -> valid s arg n -> valid s' arg n.
Proof.
  intros s s' arg n G (id & H). unfold valid, validateFrameId in *. destruct (is_empty n); [discriminate|]. destruct (startsWithSlash n); [discriminate|].
  cbv zeta in *. destruct (Nat.eqb (lookupFrameNumber s n) 0) eqn:E; [discriminate|]. apply Nat.eqb_neq in E. rewrite (number_grow s s' n G E).
  destruct (Nat.eqb_spec (lookupFrameNumber s n) 0); [contradiction|]. eexists. reflexivity.
Qed.
Lemma refused_before : forall s s' arg n cl er, grow s s' -> validateFrameId s' arg n = Throw cl er -> validateFrameId s arg n = Throw cl er.
Proof.
  intros s s' arg n cl er G H. destruct (validateFrameId s arg n) as [id|cl' er'|] eqn:E.
  - destruct (valid_grow s s' arg n G) as (i & X); [exists id; exact E|congruence].
  - unfold validateFrameId in *. destruct (is_empty n); [congruence|]. destruct (startsWithSlash n); [congruence|]. cbv zeta in *.
    destruct (Nat.eqb (lookupFrameNumber s n) 0); [|discriminate]. destruct (Nat.eqb (lookupFrameNumber s' n) 0); [|discriminate]. congruence.
  - unfold validateFrameId in E. destruct (is_empty n); [discriminate|]. destruct (startsWithSlash n); [discriminate|]. cbv zeta in E.
    destruct (Nat.eqb _ 0); discriminate.
Qed.
Lemma validate_not_ub : forall s arg n, validateFrameId s arg n <> UB.
Proof.
  intros s arg n E. unfold validateFrameId in E. destruct (is_empty n); [discriminate|]. destruct (startsWithSlash n); [discriminate|]. cbv zeta in E.
  destruct (Nat.eqb _ 0); discriminate.
Qed.

(** ** Histories *)
Definition quiet (i : nat) x : Prop := forall y, In y x -> of_thread i y = false.
Lemma thread_app : forall i x y, thread_of i (x ++ y) = thread_of i x ++ thread_of i y.
Proof. intros i x y. apply filter_app. Qed.
Lemma quiet_thread : forall i x, quiet i x -> thread_of i x = [].
Proof. induction x as [|y x IH]; intros H; [reflexivity|]. cbn. rewrite (H y) by (left; reflexivity). apply IH. intros z Hz. apply H. right. exact Hz. Qed.
Lemma quiet_app : forall i x y, quiet i x -> quiet i y -> quiet i (x ++ y).
Proof. intros i x y A B z Hz. apply in_app_or in Hz as [Hz|Hz]; auto. Qed.
Lemma visible_app : forall x y, visible (x ++ y) = visible x ++ visible y.
Proof. intros x y. apply flat_map_app. Qed.
Lemma last_unique : forall (f : happening S -> bool) (b1 : list (happening S)) y1 d1 (b2 : list (happening S)) y2 d2, b1 ++ y1 :: d1 = b2 ++ y2 :: d2 -> f y1 = true -> f y2 = true ->
  (forall y, In y d1 -> f y = false) -> (forall y, In y d2 -> f y = false) -> b1 = b2 /\ y1 = y2 /\ d1 = d2.
Proof.
  induction b1 as [|z b1 IH]; intros y1 d1 [|z2 b2] y2 d2 E F1 F2 Q1 Q2; cbn in E; injection E as E0 E.
  - subst. auto.
  - exfalso. subst. rewrite (Q1 y2) in F2; [discriminate|]. apply in_or_app. right. left. reflexivity.
  - exfalso. subst. rewrite (Q2 y1) in F1; [discriminate|]. apply in_or_app. right. left. reflexivity.
  - subst. destruct (IH _ _ _ _ _ E F1 F2 Q1 Q2) as (-> & -> & ->). auto.
Qed.

(** ** A fixed-frame lookup on its way *)
Section Fixed.
Context (s0 : core).
Notation sp x := (after s0 x).
Definition settled before during tg u sr w fx (a : answer S) : Prop :=
  (exists m1 m2 m3, during = m1 ++ m2 ++ m3 /\
     a = Transform (in_two_halves (sp (before ++ m1)) (sp (before ++ m1 ++ m2)) tg u sr w fx)) \/
  (exists r, a = Transform r /\ name_refused (sp before) tg sr fx r).
Definition valid3 s tg sr fx : Prop :=
  valid s "lookupTransform argument target_frame" tg /\ valid s "lookupTransform argument source_frame" sr /\
  valid s "lookupTransform argument fixed_frame" fx.
Definition stage s before during tg u sr w fx p : Prop :=
  p = lookupFixed_code tg u sr w fx \/
  p = check_name "lookupTransform argument source_frame" sr (check_name "lookupTransform argument fixed_frame" fx (first_lookup tg u sr w fx)) /\
    valid s "lookupTransform argument target_frame" tg \/
  p = check_name "lookupTransform argument fixed_frame" fx (first_lookup tg u sr w fx) /\
    valid s "lookupTransform argument target_frame" tg /\ valid s "lookupTransform argument source_frame" sr \/
  p = first_lookup tg u sr w fx /\ valid3 s tg sr fx \/
  (exists temp1 m1 m2, p = second_lookup tg u sr fx temp1 /\ during = m1 ++ m2 /\ valid3 (sp (before ++ m1)) tg sr fx /\
     lookupTransform (sp (before ++ m1)) fx sr w = Ok temp1) \/
  (exists a, p = Return a /\ settled before during tg u sr w fx a).
Lemma settled_more : forall before during ext tg u sr w fx a, settled before during tg u sr w fx a -> settled before (during ++ ext) tg u sr w fx a.
Proof.
  intros before during ext tg u sr w fx a [(m1 & m2 & m3 & -> & E)|H]; [left|right; exact H].
  exists m1, m2, (m3 ++ ext). rewrite <- !app_assoc. auto.
Qed.
Lemma valid3_grow : forall s s' tg sr fx, grow s s' -> valid3 s tg sr fx -> valid3 s' tg sr fx.
Proof. intros s s' tg sr fx G (A & B & C). repeat split; eapply valid_grow; eassumption. Qed.
Lemma stage_more : forall s s' before during ext tg u sr w fx p, grow s s' ->
  stage s before during tg u sr w fx p -> stage s' before (during ++ ext) tg u sr w fx p.
Proof.
  intros s s' before during ext tg u sr w fx p G [H|[(H & V)|[(H & V & W)|[(H & V)|[(temp1 & m1 & m2 & H & -> & V & L)|(a & H & St)]]]]].
  - left. exact H.
  - right. left. split; [exact H|]. eapply valid_grow; eassumption.
  - do 2 right. left. split; [exact H|]. split; eapply valid_grow; eassumption.
  - do 3 right. left. split; [exact H|]. eapply valid3_grow; eassumption.
  - do 4 right. left. exists temp1, m1, (m2 ++ ext). rewrite <- app_assoc. auto.
  - do 5 right. exists a. split; [exact H|]. apply settled_more. exact St.
Qed.
(** after a step without the lock *)
Lemma stage_peek : forall s before during tg u sr w fx k, grow (sp before) s ->
  stage s before during tg u sr w fx (Peek k) -> stage s before during tg u sr w fx (k s).
Proof.
  assert (A : forall s before during tg u sr w fx arg n p q, grow (sp before) s ->
    In (arg, n) [("lookupTransform argument target_frame", tg); ("lookupTransform argument source_frame", sr); ("lookupTransform argument fixed_frame", fx)]%string ->
    (valid s arg n -> stage s before during tg u sr w fx p) ->
    q = match validateFrameId s arg n with Ok _ => p | Throw cl er => Return (Transform (Throw cl er)) | UB => Return (Transform UB) end ->
    stage s before during tg u sr w fx q).
  { intros s before during tg u sr w fx arg n p q G Hin St ->. destruct (validateFrameId s arg n) as [id|cl er|] eqn:E.
    - apply St. exists id. exact E.
    - do 5 right. eexists. split; [reflexivity|]. right. eexists. split; [reflexivity|]. exists arg, n, cl, er.
      split; [exact Hin|]. split; [|reflexivity]. eapply refused_before; eassumption.
    - exfalso. eapply validate_not_ub. exact E. }
  intros s before during tg u sr w fx k G [H|[(H & V)|[(H & V & W)|[(H & V)|[(temp1 & m1 & m2 & H & -> & V & L)|(a & H & St)]]]]].
  - unfold lookupFixed_code in H. remember (check_name "lookupTransform argument source_frame" sr (check_name "lookupTransform argument fixed_frame" fx (first_lookup tg u sr w fx))) as q eqn:Q.
    unfold check_name in H. injection H as ->. eapply (A _ _ _ _ _ _ _ _ _ _ q); [exact G|left; reflexivity| |reflexivity].
    intros V. right. left. split; [exact Q|exact V].
  - remember (check_name "lookupTransform argument fixed_frame" fx (first_lookup tg u sr w fx)) as q eqn:Q.
    unfold check_name in H. injection H as ->. eapply (A _ _ _ _ _ _ _ _ _ _ q); [exact G|right; left; reflexivity| |reflexivity].
    intros V'. do 2 right. left. split; [exact Q|]. split; assumption.
  - remember (first_lookup tg u sr w fx) as q eqn:Q.
    unfold check_name in H. injection H as ->. eapply (A _ _ _ _ _ _ _ _ _ _ q); [exact G|right; right; left; reflexivity| |reflexivity].
    intros V'. do 3 right. left. split; [exact Q|]. repeat split; assumption.
  - unfold first_lookup, lookup_code in H. discriminate.
  - unfold second_lookup, lookup_code in H. discriminate.
  - discriminate.
Qed.
Lemma halves_valid : forall s1 s2 tg u sr w fx, valid3 s1 tg sr fx ->
  in_two_halves s1 s2 tg u sr w fx =
  (temp1 <- lookupTransform s1 fx sr w ;; temp2 <- lookupTransform s2 tg fx u ;; Ok (combine tg sr temp1 temp2)).
Proof. intros s1 s2 tg u sr w fx ((i & A) & (j & B) & (k & C)). unfold in_two_halves. rewrite A, B, C. reflexivity. Qed.
(** after a lock scope; the buffer is then what the effects so far make it *)
Lemma stage_scope : forall before during tg u sr w fx b0, let s := sp (before ++ during) in
  stage s before during tg u sr w fx (Acquire b0) -> growing b0 /\ exists p, run_scope b0 s = (s, p) /\ stage s before during tg u sr w fx p.
Proof.
  intros before during tg u sr w fx b0 s [H|[(H & V)|[(H & V & W)|[(H & V)|[(temp1 & m1 & m2 & H & E & V & L)|(a & H & St)]]]]]; try discriminate.
  - destruct (lookup_scope fx sr w (fun r1 : res (tmsg S) => match r1 with Ok temp1 => second_lookup tg u sr fx temp1 | Throw c er => Return (Transform (Throw c er)) | UB => Return (Transform UB) end)) as (b & Eb & G & R).
    unfold first_lookup in H. rewrite Eb in H. injection H as ->. split; [exact G|]. eexists. split; [apply R|].
    assert (X : forall r, lookupTransform s fx sr w = r -> (forall m, r <> Ok m) -> settled before during tg u sr w fx (Transform r)).
    { intros r Er N. left. exists during, [], []. rewrite !app_nil_r. split; [reflexivity|]. fold s. rewrite halves_valid by exact V. rewrite Er.
      destruct r as [m|cl er|]; [destruct (N m eq_refl)|reflexivity|reflexivity]. }
    destruct (lookupTransform s fx sr w) as [m|cl er|] eqn:El.
    + do 4 right. left. exists m, during, []. rewrite app_nil_r. auto.
    + do 5 right. eexists. split; [reflexivity|]. apply X; [reflexivity|discriminate].
    + do 5 right. eexists. split; [reflexivity|]. apply X; [reflexivity|discriminate].
  - destruct (lookup_scope tg fx u (fun r2 : res (tmsg S) => match r2 with Ok temp2 => Return (Transform (Ok (combine tg sr temp1 temp2))) | Throw c er => Return (Transform (Throw c er)) | UB => Return (Transform UB) end)) as (b & Eb & G & R).
    unfold second_lookup in H. rewrite Eb in H. injection H as ->. split; [exact G|]. eexists. split; [apply R|]. do 5 right.
    assert (X : settled before during tg u sr w fx (Transform (temp2 <- lookupTransform s tg fx u ;; Ok (combine tg sr temp1 temp2)))).
    { left. exists m1, m2, []. rewrite app_nil_r. split; [exact E|]. rewrite halves_valid by exact V. rewrite L. cbn [bind]. rewrite <- E. reflexivity. }
    destruct (lookupTransform s tg fx u) as [m|cl er|]; eexists; (split; [reflexivity|exact X]).
Qed.

(** ** The invariant *)
Definition thread_ok e x (i : nat) (o : option (activity S)) : Prop :=
  let st := orderly i (thread_of i x) in
  match o with
  | None => st Idle
  | Some (Outside p) =>
      (exists c a, st (Done c a) /\ p = Return a) \/
      (exists c b, st (Waiting c) /\ ~ is_fixed_lookup c /\ code c = Acquire b /\ p = Acquire b) \/
      (exists tg u sr w fx before during, st (Waiting (LookupTransformFixed tg u sr w fx)) /\
         x = before ++ Seen (Called i (LookupTransformFixed tg u sr w fx)) :: during /\ quiet i during /\
         stage (k_core e) before during tg u sr w fx p)
  | Some (Inside b) =>
      k_holder e = Some i /\ growing b /\
      ((exists c b0, st (Waiting c) /\ ~ is_fixed_lookup c /\ code c = Acquire b0 /\ run_scope b (k_core e) = run_scope b0 (sp x)) \/
       (exists tg u sr w fx before during b0, st (Waiting (LookupTransformFixed tg u sr w fx)) /\
         x = before ++ Seen (Called i (LookupTransformFixed tg u sr w fx)) :: during /\ quiet i during /\
         stage (sp x) before during tg u sr w fx (Acquire b0) /\ run_scope b (k_core e) = run_scope b0 (sp x)))
  end.
Record inv e x : Prop := mkInv {
  i_range : in_range s0;
  i_legal : one_by_one s0 x;
  i_free : k_holder e = None -> k_core e = sp x;
  i_grow : grow (sp x) (k_core e);
  i_thread : forall i, thread_ok e x i (k_thread e i);
  i_fixed : fixed_in_halves s0 x
}.

Lemma sp_split : forall before v during, sp (before ++ Seen v :: during) = sp (before ++ during).
Proof. intros. rewrite !after_app. reflexivity. Qed.

(** What other threads do leaves a thread's part of the invariant alone. *)
Lemma keep : forall e x e' ext i o, thread_ok e x i o -> in_range s0 -> quiet i ext -> grow (k_core e) (k_core e') ->
  (k_holder e = Some i -> k_core e' = k_core e /\ sp (x ++ ext) = sp x /\ k_holder e' = Some i) -> thread_ok e' (x ++ ext) i o.
Proof.
  intros e x e' ext i o T R Q G B. unfold thread_ok in *. cbv zeta in *. rewrite thread_app, (quiet_thread i ext Q), app_nil_r.
  destruct o as [[p|b]|]; [| |exact T].
  - destruct T as [T|[T|(tg & u & sr & w & fx & before & during & O & -> & Qd & St)]]; [left; exact T|right; left; exact T|]. do 2 right.
    exists tg, u, sr, w, fx, before, (during ++ ext). split; [exact O|]. split; [rewrite <- app_assoc; reflexivity|]. split; [apply quiet_app; assumption|].
    eapply stage_more; eassumption.
  - destruct T as (H & Gb & T). destruct (B H) as (Ec & Es & Eh). rewrite Ec, Es. split; [exact Eh|]. split; [exact Gb|].
    destruct T as [T|(tg & u & sr & w & fx & before & during & b0 & O & -> & Qd & St & Rn)]; [left; exact T|right].
    exists tg, u, sr, w, fx, before, (during ++ ext), b0. split; [exact O|]. split; [rewrite <- app_assoc; reflexivity|]. split; [apply quiet_app; assumption|].
    split; [|exact Rn]. eapply stage_more; [apply grow_refl|exact St].
Qed.
(** The history of the effects stays legal. *)
Lemma legal_seen : forall x v, one_by_one s0 x -> one_by_one s0 (x ++ [Seen v]).
Proof.
  intros x v H before i c a rest E. destruct (@exists_last _ (Effect i c a :: rest)) as (l & z & El); [discriminate|].
  rewrite El, app_assoc in E. apply app_inj_tail in E as [E Z]. subst z. destruct l as [|y l]; cbn in El; [discriminate|]. injection El as <- El.
  eapply H. exact E.
Qed.
Lemma legal_effect : forall x i c a, one_by_one s0 x -> a = snd (alone (sp x) c) -> one_by_one s0 (x ++ [Effect i c a]).
Proof.
  intros x i c a H Ea before j c' a' rest E. destruct (@exists_last _ (Effect j c' a' :: rest)) as (l & z & El); [discriminate|].
  rewrite El, app_assoc in E. apply app_inj_tail in E as [E Z]. destruct l as [|y l]; cbn in El.
  - injection El as El _. rewrite app_nil_r in E. subst. injection El as -> -> ->. reflexivity.
  - injection El as <- El. eapply H. exact E.
Qed.
(** ... and so do the accounts of fixed-frame lookups, if the new event is no return of one. *)
Lemma fixed_snoc : forall x y, fixed_in_halves s0 x ->
  (forall i a tg u sr w fx before during, y = Seen (Returned i a) ->
     x = before ++ Seen (Called i (LookupTransformFixed tg u sr w fx)) :: during -> quiet i during -> settled before during tg u sr w fx a) ->
  fixed_in_halves s0 (x ++ [y]).
Proof.
  intros x y H N i tg u sr w fx a before during rest E Q.
  destruct (@exists_last _ (Seen (Returned i a) :: rest)) as (l & z & El); [discriminate|].
  assert (E' : x ++ [y] = (before ++ Seen (Called i (LookupTransformFixed tg u sr w fx)) :: during ++ l) ++ [z]).
  { rewrite E, El, <- app_assoc. cbn [app]. rewrite <- app_assoc. reflexivity. }
  apply app_inj_tail in E' as [Ex ->]. destruct l as [|y' l]; cbn in El.
  - injection El as El _. rewrite app_nil_r in Ex. eapply N; [symmetry; exact El|exact Ex|exact Q].
  - injection El as <- El. eapply (H i tg u sr w fx a before during l); [exact Ex|exact Q].
Qed.
Lemma fixed_other : forall x y, fixed_in_halves s0 x -> (forall i a, y <> Seen (Returned i a)) -> fixed_in_halves s0 (x ++ [y]).
Proof. intros x y H N. apply fixed_snoc; [exact H|]. intros i a tg u sr w fx before during E. destruct (N _ _ E). Qed.

Lemma put_same : forall f i (a : option (activity S)), put f i a i = a.
Proof. intros. unfold put. rewrite Nat.eqb_refl. reflexivity. Qed.
Lemma put_other : forall f i j (a : option (activity S)), j <> i -> put f i a j = f j.
Proof. intros. unfold put. destruct (Nat.eqb_spec j i); [contradiction|reflexivity]. Qed.
Lemma quiet_seen_call : forall i j c, j <> i -> quiet j [Seen (Called i c)].
Proof. intros i j c N y [<-|[]]. cbn. apply Nat.eqb_neq. auto. Qed.
Lemma quiet_seen_ret : forall i j (a : answer S), j <> i -> quiet j [Seen (Returned i a)].
Proof. intros i j c N y [<-|[]]. cbn. apply Nat.eqb_neq. auto. Qed.
Lemma quiet_effect : forall i j c a, j <> i -> quiet j [Effect i c a].
Proof. intros i j c a N y [<-|[]]. cbn. apply Nat.eqb_neq. auto. Qed.
Lemma quiet_nil : forall j, quiet j [].
Proof. intros j y []. Qed.
Lemma thread_call : forall i c, thread_of i [Seen (Called i c)] = [Seen (Called i c)].
Proof. intros. cbn. rewrite Nat.eqb_refl. reflexivity. Qed.
Lemma thread_ret : forall i (a : answer S), thread_of i [Seen (Returned i a)] = [Seen (Returned i a)].
Proof. intros. cbn. rewrite Nat.eqb_refl. reflexivity. Qed.
Lemma thread_effect : forall i c a, thread_of i [Effect i c a] = [Effect i c a].
Proof. intros. cbn. rewrite Nat.eqb_refl. reflexivity. Qed.
Lemma fixed_dec : forall c, {is_fixed_lookup c} + {~ is_fixed_lookup c}.
Proof. destruct c; cbn; auto. Qed.

(** ** One move *)
Lemma advance_inv : forall e x v, inv e x -> exists ext, visible ext = snd (advance e v) /\ inv (fst (advance e v)) (x ++ ext).
Proof.
  intros e x v I. pose proof (i_range _ _ I) as R. pose proof (i_legal _ _ I) as L. pose proof (i_free _ _ I) as Fr. pose proof (i_grow _ _ I) as G.
  pose proof (i_thread _ _ I) as T. pose proof (i_fixed _ _ I) as Fx.
  assert (Same : exists ext, visible ext = [] /\ inv e (x ++ ext)) by (exists []; rewrite app_nil_r; split; [reflexivity|exact I]).
  destruct v as [i c|i]; cbn [advance].
  - (* a call is made *)
    destruct (k_thread e i) as [act|] eqn:Et; [exact Same|]. clear Same. pose proof (T i) as Ti. rewrite Et in Ti. unfold thread_ok in Ti. cbv zeta in Ti.
    assert (O1 : orderly i (thread_of i (x ++ [Seen (Called i c)])) (Waiting c)) by (rewrite thread_app, thread_call; apply o_call; exact Ti).
    assert (F1 : fixed_in_halves s0 (x ++ [Seen (Called i c)])) by (apply fixed_other; [exact Fx|discriminate]).
    assert (E1 : sp (x ++ [Seen (Called i c)]) = sp x) by (rewrite after_app; reflexivity).
    destruct (fixed_dec c) as [Fc|Fc].
    + exists [Seen (Called i c)]. split; [reflexivity|]. cbn [fst]. constructor; cbn [k_core k_holder k_thread]; try assumption.
      * apply legal_seen. exact L.
      * rewrite E1. exact Fr.
      * rewrite E1. exact G.
      * intros j. destruct (Nat.eq_dec j i) as [->|N].
        -- rewrite put_same. unfold thread_ok. cbv zeta. do 2 right. destruct c; try contradiction. cbn [code] in *.
           eexists _, _, _, _, _, x, []. split; [exact O1|]. split; [reflexivity|]. split; [apply quiet_nil|]. left. reflexivity.
        -- rewrite put_other by exact N. eapply keep; [apply T|exact R|apply quiet_seen_call; exact N|apply grow_refl|]. intros H. auto.
    + destruct (simple_call c Fc) as [(a & Ec & Ea)|(b & Ec & Gb & Rb)].
      * exists ([Seen (Called i c)] ++ [Effect i c a]). split; [reflexivity|]. cbn [fst]. rewrite app_assoc.
        assert (E2 : sp ((x ++ [Seen (Called i c)]) ++ [Effect i c a]) = sp x) by (rewrite after_app, E1; cbn; rewrite Ea; reflexivity).
        constructor; cbn [k_core k_holder k_thread]; try assumption.
        -- apply legal_effect; [apply legal_seen; exact L|]. rewrite Ea. reflexivity.
        -- rewrite E2. exact Fr.
        -- rewrite E2. exact G.
        -- intros j. destruct (Nat.eq_dec j i) as [->|N].
           ++ rewrite put_same. unfold thread_ok. cbv zeta. left. exists c, a. split; [|exact Ec]. rewrite thread_app, thread_effect. apply o_effect; assumption.
           ++ rewrite put_other by exact N. rewrite <- app_assoc. eapply keep; [apply T|exact R|apply quiet_app; [apply quiet_seen_call|apply quiet_effect]; exact N|apply grow_refl|].
              intros H. rewrite app_assoc. auto.
        -- apply fixed_other; [exact F1|discriminate].
      * exists [Seen (Called i c)]. split; [reflexivity|]. cbn [fst]. constructor; cbn [k_core k_holder k_thread]; try assumption.
        -- apply legal_seen. exact L.
        -- rewrite E1. exact Fr.
        -- rewrite E1. exact G.
        -- intros j. destruct (Nat.eq_dec j i) as [->|N].
           ++ rewrite put_same. unfold thread_ok. cbv zeta. right. left. exists c, b. auto.
           ++ rewrite put_other by exact N. eapply keep; [apply T|exact R|apply quiet_seen_call; exact N|apply grow_refl|]. intros H. auto.
  - destruct (k_thread e i) as [[p|b]|] eqn:Et; [| |exact Same]; pose proof (T i) as Ti; rewrite Et in Ti; unfold thread_ok in Ti; cbv zeta in Ti.
    + destruct p as [a|k|b].
      * (* a call returns *)
        clear Same. exists [Seen (Returned i a)]. split; [reflexivity|]. cbn [fst].
        assert (E1 : sp (x ++ [Seen (Returned i a)]) = sp x) by (rewrite after_app; reflexivity).
        assert (O : orderly i (thread_of i (x ++ [Seen (Returned i a)])) Idle /\ fixed_in_halves s0 (x ++ [Seen (Returned i a)])).
        { rewrite thread_app, thread_ret. destruct Ti as [(c & a' & O & E)|[(c & b & _ & _ & _ & E)|(tg & u & sr & w & fx & before & during & O & Ex & Q & St)]]; [|discriminate|].
          - injection E as <-. split; [eapply o_return; exact O|]. apply fixed_snoc; [exact Fx|].
            intros j a2 tg u sr w fx before during E Ex Q. injection E as <- <-. exfalso. subst x. rewrite thread_app in O. cbn in O. rewrite Nat.eqb_refl in O.
            fold (thread_of i during) in O. rewrite (quiet_thread i during Q) in O. inversion O as [ | |? ? ? ? ? HX| |]. apply app_inj_tail in HX as [_ HX]. discriminate.
          - assert (Sa : settled before during tg u sr w fx a).
            { destruct St as [H|[(H & _)|[(H & _)|[(H & _)|[(temp1 & m1 & m2 & H & _)|(a2 & H & Sa)]]]]];
                try (unfold lookupFixed_code, first_lookup, second_lookup, check_name, lookup_code in H; discriminate). injection H as <-. exact Sa. }
            split; [eapply o_fixed; [exact O|exact Logic.I]|]. apply fixed_snoc; [exact Fx|].
            intros j a2 tg2 u2 sr2 w2 fx2 before2 during2 E Ex2 Q2. injection E as <- <-. rewrite Ex in Ex2.
            destruct (last_unique (of_thread i) _ _ _ _ _ _ Ex2) as (-> & E3 & ->); [cbn; apply Nat.eqb_refl|cbn; apply Nat.eqb_refl|exact Q|exact Q2|].
            injection E3 as <- <- <- <- <-. exact Sa. }
        destruct O as [O F1]. constructor; cbn [k_core k_holder k_thread]; try assumption.
        -- apply legal_seen. exact L.
        -- rewrite E1. exact Fr.
        -- rewrite E1. exact G.
        -- intros j. destruct (Nat.eq_dec j i) as [->|N]; [rewrite put_same; exact O|]. rewrite put_other by exact N.
           eapply keep; [apply T|exact R|apply quiet_seen_ret; exact N|apply grow_refl|]. intros H. auto.
      * (* a name is checked *)
        clear Same. exists []. split; [reflexivity|]. cbn [fst]. rewrite app_nil_r.
        destruct Ti as [(c & a & _ & E)|[(c & b & _ & _ & _ & E)|(tg & u & sr & w & fx & before & during & O & Ex & Q & St)]]; try discriminate.
        constructor; cbn [k_core k_holder k_thread]; try assumption. intros j. destruct (Nat.eq_dec j i) as [->|N].
        -- rewrite put_same. unfold thread_ok. cbv zeta. do 2 right. exists tg, u, sr, w, fx, before, during. cbn [k_core].
           split; [exact O|]. split; [exact Ex|]. split; [exact Q|]. apply stage_peek; [|exact St].
           apply (grow_trans _ (sp x)); [|exact G]. rewrite Ex, after_app. apply after_grow, after_range, R.
        -- rewrite put_other by exact N. rewrite <- (app_nil_r x). eapply keep; [apply T|exact R|apply quiet_nil|apply grow_refl|]. rewrite app_nil_r. auto.
      * (* the mutex is locked *)
        destruct (k_holder e) as [h|] eqn:Eh; [exact Same|]. clear Same. exists []. split; [reflexivity|]. cbn [fst]. rewrite app_nil_r. pose proof (Fr eq_refl) as Ec.
        constructor; cbn [k_core k_holder k_thread]; try assumption; [discriminate|]. intros j. destruct (Nat.eq_dec j i) as [->|N].
        -- rewrite put_same. unfold thread_ok. cbn [k_holder k_core]. cbv zeta. split; [reflexivity|].
           destruct Ti as [(c & a & _ & E)|[(c & b0 & O & Fc & Eb & E)|(tg & u & sr & w & fx & before & during & O & Ex & Q & St)]]; [discriminate| |].
           ++ injection E as <-. split.
              { destruct (simple_call c Fc) as [(a & E2 & _)|(b' & E2 & Gb & _)]; [congruence|]. rewrite Eb in E2. injection E2 as <-. exact Gb. }
              left. exists c, b. rewrite Ec. auto.
           ++ rewrite Ec in St. assert (St' : stage (sp (before ++ during)) before during tg u sr w fx (Acquire b)) by (rewrite Ex, sp_split in St; exact St).
              destruct (stage_scope _ _ _ _ _ _ _ _ St') as (Gb & _). split; [exact Gb|]. right.
              exists tg, u, sr, w, fx, before, during, b. rewrite Ec. auto.
        -- rewrite put_other by exact N. rewrite <- (app_nil_r x). eapply keep; [apply T|exact R|apply quiet_nil|apply grow_refl|].
           rewrite Eh. discriminate.
    + destruct Ti as (Eh & Gb & Ti). clear Same. destruct b as [p|g k].
      * (* the mutex is unlocked *)
        destruct Ti as [(c & b0 & O & Fc & Eb & Rn)|(tg & u & sr & w & fx & before & during & b0 & O & Ex & Q & St & Rn)].
        -- destruct (simple_call c Fc) as [(a & E2 & _)|(b' & E2 & _ & Rb)]; [congruence|]. rewrite Eb in E2. injection E2 as <-.
           rewrite (Rb (sp x) (after_range x s0 R)) in Rn. cbn [run_scope] in Rn. injection Rn as Ec Ep. set (a := snd (alone (sp x) c)) in *.
           exists [Effect i c a]. split; [reflexivity|]. cbn [fst].
           assert (E1 : sp (x ++ [Effect i c a]) = k_core e) by (rewrite after_app; cbn; symmetry; exact Ec).
           constructor; cbn [k_core k_holder k_thread]; try assumption.
           ++ apply legal_effect; [exact L|reflexivity].
           ++ intros _. symmetry. exact E1.
           ++ rewrite E1. apply grow_refl.
           ++ intros j. destruct (Nat.eq_dec j i) as [->|N].
              ** rewrite put_same. unfold thread_ok. cbv zeta. left. exists c, a. split; [|exact Ep]. rewrite thread_app, thread_effect. apply o_effect; assumption.
              ** rewrite put_other by exact N. eapply keep; [apply T|exact R|apply quiet_effect; exact N|apply grow_refl|]. rewrite Eh. intros H. injection H as H. congruence.
           ++ apply fixed_other; [exact Fx|discriminate].
        -- assert (St' : stage (sp (before ++ during)) before during tg u sr w fx (Acquire b0)) by (rewrite Ex, sp_split in St; exact St).
           destruct (stage_scope _ _ _ _ _ _ _ _ St') as (_ & q & Rq & Sq). rewrite Ex, sp_split, Rq in Rn. cbn [run_scope] in Rn. injection Rn as Ec Ep. subst q.
           assert (E1 : k_core e = sp x) by (rewrite Ex, sp_split; exact Ec).
           exists []. split; [reflexivity|]. cbn [fst]. rewrite app_nil_r. constructor; cbn [k_core k_holder k_thread]; try assumption.
           ++ intros _. exact E1.
           ++ intros j. destruct (Nat.eq_dec j i) as [->|N].
              ** rewrite put_same. unfold thread_ok. cbv zeta. cbn [k_core]. do 2 right. exists tg, u, sr, w, fx, before, during. rewrite Ec. auto.
              ** rewrite put_other by exact N. rewrite <- (app_nil_r x). eapply keep; [apply T|exact R|apply quiet_nil|apply grow_refl|]. rewrite Eh. intros H. injection H as H. congruence.
      * (* the data are visited *)
        exists []. split; [reflexivity|]. cbn [fst]. rewrite app_nil_r. cbn [growing] in Gb. destruct (Gb (k_core e)) as [G1 G2].
        constructor; cbn [k_core k_holder k_thread]; try assumption.
        -- rewrite Eh. discriminate.
        -- apply (grow_trans _ (k_core e)); assumption.
        -- intros j. destruct (Nat.eq_dec j i) as [->|N].
           ++ rewrite put_same. unfold thread_ok. cbv zeta. cbn [k_core k_holder]. split; [exact Eh|]. split; [exact G2|exact Ti].
           ++ rewrite put_other by exact N. rewrite <- (app_nil_r x). eapply keep; [apply T|exact R|apply quiet_nil|exact G1|]. rewrite Eh. intros H. injection H as H. congruence.
Qed.
Lemma execute_inv : forall l e x, inv e x -> exists x', visible x' = visible x ++ snd (execute e l) /\ inv (fst (execute e l)) x'.
Proof.
  induction l as [|v l IH]; intros e x I; cbn [execute]; [exists x; cbn [fst snd]; rewrite app_nil_r; auto|].
  destruct (advance_inv e x v I) as (ext & V & I'). destruct (advance e v) as [e' h]. cbn [fst snd] in *.
  destruct (IH e' (x ++ ext) I') as (x' & V' & I''). destruct (execute e' l) as [e'' h']. cbn [fst snd] in *.
  exists x'. split; [|exact I'']. rewrite V', visible_app, V, app_assoc. reflexivity.
Qed.
End Fixed.
Lemma start_inv : forall ct, inv (init_core ct) (start ct) [].
Proof.
  intros ct. constructor; cbn.
  - apply in_range_init.
  - intros before i c a rest E. destruct before; discriminate.
  - reflexivity.
  - apply grow_refl.
  - intros i. apply o_start.
  - intros i tg u sr w fx a before during rest E. destruct before; discriminate.
Qed.
End M.
