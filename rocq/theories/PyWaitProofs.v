(** * Proofs about Python's waiting calls *)
From Coq Require Import ZArith Bool List String Lia.
From Verif Require Import RosTime Scalar LinearMath Cache BufferCore SpecCore SpecWait PyTime PyTimeProofs PyCore SpecPy PyCoreProofs PyBuffer SpecPyWait.
Import ListNotations.
Open Scope Z_scope.

Section P.
Context {S : Scalar}.

Definition ask_can (u : question) (c : core S) : py (bool * errp) :=
  match u with
  | Simple tgt src t => py_can c tgt src t
  | Advanced tgt t1 src t2 fix_ => py_can_full c tgt t1 src t2 fix_
  end.
Lemma can_within_for : forall fuel (w : pworld S) i u timeout, can_within fuel w i u timeout = pwait_for fuel (ask_can u) w i timeout.
Proof. intros. destruct u; reflexivity. Qed.
Lemma lookup_within_for : forall fuel (w : pworld S) i u timeout,
  lookup_within fuel w i u timeout = pthen_lookup (can_within fuel w i u timeout) w (ask u).
Proof. intros. destruct u; reflexivity. Qed.

Lemma ask_total : forall u (s : core S), py_buffer year_2038 s -> times_2038 u -> returns_or_raises (ask u s).
Proof.
  intros u s B T. destruct (buffer_soon s B) as (R & G & He). destruct u as [tgt src t|tgt t1 src t2 fix_]; cbn [ask times_2038] in *.
  - destruct (year_2038_ok t T) as (t' & E & B' & _). apply (py_lookup_is s tgt src t t' R He G E B').
  - destruct T as [T1 T2]. destruct (year_2038_ok t1 T1) as (t1' & E1 & B1' & _). destruct (year_2038_ok t2 T2) as (t2' & E2 & B2' & _).
    apply (py_lookup_full_is s tgt t1 src t2 fix_ t1' t2' R He G E1 B1' E2 B2').
Qed.
Lemma ask_can_is : forall u (s : core S), py_buffer year_2038 s -> times_2038 u ->
  exists b e, ask_can u s = PyOk (b, e) /\ (b = true <-> exists m, ask u s = PyOk m).
Proof.
  intros u s B T. destruct (buffer_soon s B) as (R & G & He). destruct u as [tgt src t|tgt t1 src t2 fix_]; cbn [ask ask_can times_2038] in *.
  - destruct (year_2038_ok t T) as (t' & E & B' & _). exact (py_can_is s tgt src t t' R He G E B').
  - destruct T as [T1 T2]. destruct (year_2038_ok t1 T1) as (t1' & E1 & B1' & _). destruct (year_2038_ok t2 T2) as (t2' & E2 & B2' & _).
    exact (py_can_full_is s tgt t1 src t2 fix_ t1' t2' R He G E1 B1' E2 B2').
Qed.

Section W.
Context (w : pworld S) (u : question) (PW : python_world w) (T : times_2038 u).

Lemma ask_at : forall k, exists b e, ask_can u (p_core (w k)) = PyOk (b, e) /\ (b = true <-> there u w k).
Proof. intros k. apply ask_can_is; [apply PW|exact T]. Qed.

(** one round at [k] that ends in a sleep *)
Definition round (start timeout : Z) (k : nat) : Prop :=
  p_now (w k) < start + timeout /\ ~ there u w (k + 1) /\ start <= p_now (w (k + 2)%nat) + three_secs.
(** how the loop ends in the round at [k] *)
Definition ends (start timeout : Z) (k : nat) (n : nat) (r : waited unit) : Prop :=
  (start + timeout <= p_now (w k) /\ r = WDone tt (k + 1) n) \/
  (p_now (w k) < start + timeout /\ there u w (k + 1) /\ r = WDone tt (k + 2) n) \/
  (p_now (w k) < start + timeout /\ ~ there u w (k + 1) /\ p_now (w (k + 2)%nat) + three_secs < start /\ r = WDone tt (k + 3) n) \/
  (round start timeout k /\ exists x, p_sleep (w (k + 3)%nat) = Some x /\ r = WSleep x).

Lemma ppoll_step : forall fuel i start timeout, 0 <= start + timeout ->
  (exists r, ppoll fuel (ask_can u) w i start timeout = Some r /\ ends start timeout i 0 r) \/
  (round start timeout i /\ p_sleep (w (i + 3)%nat) = None /\
   ppoll fuel (ask_can u) w i start timeout =
     match fuel with
     | O => None
     | Datatypes.S f => match ppoll f (ask_can u) w (i + 4) start timeout with Some (WDone _ j n) => Some (WDone tt j (n + 1)%nat) | r => r end
     end).
Proof.
  intros fuel i start timeout N. destruct (ask_at (i + 1)%nat) as (b & e & E & B).
  assert (R : ppoll fuel (ask_can u) w i start timeout =
    if negb (p_now (w i) <? start + timeout) then Some (WDone tt (i + 1) 0)%nat
    else if b then Some (WDone tt (i + 2) 0)%nat
    else if negb (start <=? p_now (w (i + 2)%nat) + three_secs) then Some (WDone tt (i + 3) 0)%nat
    else match p_sleep (w (i + 3)%nat) with
      | Some x => Some (WSleep x)
      | None => match fuel with
        | O => None
        | Datatypes.S f => match ppoll f (ask_can u) w (i + 4) start timeout with Some (WDone _ j n) => Some (WDone tt j (n + 1)%nat) | r => r end
        end
      end).
  { destruct fuel; cbn [ppoll]; rewrite (proj2 (Z.ltb_ge _ _) N), E; destruct b; reflexivity. }
  rewrite R. clear R. unfold ends, round.
  destruct (Z.ltb_spec (p_now (w i)) (start + timeout)) as [L|L]; cbn [negb].
  2:{ left. eexists. split; [reflexivity|]. left. auto. }
  destruct b.
  { left. eexists. split; [reflexivity|]. right. left. split; [exact L|]. split; [apply B; reflexivity|reflexivity]. }
  assert (M : ~ there u w (i + 1)) by (intros X; apply B in X; discriminate).
  destruct (Z.leb_spec start (p_now (w (i + 2)%nat) + three_secs)) as [K|K]; cbn [negb].
  2:{ left. eexists. split; [reflexivity|]. right. right. left. auto. }
  destruct (p_sleep (w (i + 3)%nat)) as [x|] eqn:Sl.
  { left. eexists. split; [reflexivity|]. right. right. right. split; [auto|eauto]. }
  right. auto.
Qed.

Lemma ends_shift : forall start timeout k n r, ends start timeout k n r -> 
  exists r', ends start timeout k (n + 1) r' /\ r' = match r with WDone _ j n => WDone tt j (n + 1)%nat | r => r end.
Proof.
  intros start timeout k n r H. eexists. split; [|reflexivity]. unfold ends in *.
  destruct H as [(A & ->)|[(A & B & ->)|[(A & B & C & ->)|(A & x & B & ->)]]]; [left|right; left|right; right; left|right; right; right]; auto. split; [exact A|]. eauto.
Qed.

(** If the loop ends: after [n] full rounds, in one of the four ways. *)
Lemma ppoll_ends : forall fuel i start timeout r, 0 <= start + timeout ->
  ppoll fuel (ask_can u) w i start timeout = Some r ->
  exists n, (n <= fuel)%nat /\ (forall m, (m < n)%nat -> round start timeout (i + 4 * m) /\ p_sleep (w (i + 4 * m + 3)%nat) = None) /\
    ends start timeout (i + 4 * n) n r.
Proof.
  induction fuel as [|fuel IH]; intros i start timeout r N H.
  - destruct (ppoll_step 0 i start timeout N) as [(r' & E & D)|(_ & _ & E)]; [|congruence]. rewrite E in H. injection H as <-.
    exists 0%nat. split; [lia|]. split; [intros; lia|]. rewrite Nat.mul_0_r, Nat.add_0_r. exact D.
  - destruct (ppoll_step (Datatypes.S fuel) i start timeout N) as [(r' & E & D)|(K & Sl & E)].
    + rewrite E in H. injection H as <-. exists 0%nat. split; [lia|]. split; [intros; lia|]. rewrite Nat.mul_0_r, Nat.add_0_r. exact D.
    + rewrite E in H. destruct (ppoll fuel (ask_can u) w (i + 4) start timeout) as [r'|] eqn:P; [|discriminate].
      destruct (IH _ _ _ _ N P) as (n & Hn & A & D). destruct (ends_shift _ _ _ _ _ D) as (r2 & D2 & E2).
      exists (n + 1)%nat. split; [lia|]. split.
      * intros [|m] Hm; [rewrite Nat.mul_0_r, Nat.add_0_r; auto|]. replace (i + 4 * Datatypes.S m)%nat with (i + 4 + 4 * m)%nat by lia. apply A. lia.
      * replace (i + 4 * (n + 1))%nat with (i + 4 + 4 * n)%nat by lia. replace r with r2; [exact D2|]. destruct r'; congruence.
Qed.

(** If some round does not end in a completed sleep, the loop ends there at the latest. *)
Lemma ppoll_stops : forall m fuel i start timeout, 0 <= start + timeout -> (m <= fuel)%nat ->
  ~ (round start timeout (i + 4 * m) /\ p_sleep (w (i + 4 * m + 3)%nat) = None) ->
  exists r, ppoll fuel (ask_can u) w i start timeout = Some r /\ (forall j n, r = WDone tt j n -> (n <= m)%nat).
Proof.
  induction m as [|m IH]; intros fuel i start timeout N F X;
    destruct (ppoll_step fuel i start timeout N) as [(r & E & D)|(K & Sl & E)].
  1,3: exists r; split; [exact E|]; intros j n ->; unfold ends in D; destruct D as [(A & D)|[(A & B & D)|[(A & B & C & D)|(A & x & B & D)]]]; try discriminate; injection D; intros; lia.
  - exfalso. apply X. rewrite Nat.mul_0_r, Nat.add_0_r. auto.
  - destruct fuel as [|fuel]; [lia|]. destruct (IH fuel (i + 4)%nat start timeout N) as (r & E' & Hn); [lia|replace (i + 4 + 4 * m)%nat with (i + 4 * Datatypes.S m)%nat by lia; exact X|].
    rewrite E, E'. destruct r as [[] j n|x|p]; [|eexists; split; [reflexivity|discriminate]..].
    eexists. split; [reflexivity|]. intros j' n' H. injection H as <- <-. specialize (Hn j n eq_refl). lia.
Qed.

(** ** The whole call *)
Lemma within_inv : forall fuel i timeout r, can_within fuel w i u timeout = Some r -> timeout <> 0 -> 0 <= p_now (w i) + timeout ->
  exists n r', (forall m, (m < n)%nat -> round (p_now (w i)) timeout (i + 1 + 4 * m) /\ p_sleep (w (i + 1 + 4 * m + 3)%nat) = None) /\
    ends (p_now (w i)) timeout (i + 1 + 4 * n) n r' /\
    match r' with
    | WDone _ j n => exists b, (b = true <-> there u w j) /\ r = WDone b (j + 1)%nat n
    | WSleep x => r = WSleep x
    | WPy p => False
    end.
Proof.
  intros fuel i timeout r H Nz N. rewrite can_within_for in H. unfold pwait_for in H. apply Z.eqb_neq in Nz. rewrite Nz in H.
  destruct (ppoll fuel (ask_can u) w (i + 1) (p_now (w i)) timeout) as [r'|] eqn:P; [|discriminate].
  destruct (ppoll_ends _ _ _ _ _ N P) as (n & _ & A & D). exists n, r'. split; [exact A|]. split; [exact D|].
  destruct r' as [[] j n'|x|p].
  - destruct (ask_at j) as (b & e & E & B). rewrite E in H. injection H as <-. eauto.
  - congruence.
  - unfold ends in D. destruct D as [(_ & D)|[(_ & _ & D)|[(_ & _ & _ & D)|(_ & x & _ & D)]]]; discriminate.
Qed.
Lemma within_ends : forall fuel i timeout r', 0 <= p_now (w i) + timeout -> timeout <> 0 -> ppoll fuel (ask_can u) w (i + 1) (p_now (w i)) timeout = Some r' ->
  exists r, can_within fuel w i u timeout = Some r /\
  match r' with
    | WDone _ j n => exists b, (b = true <-> there u w j) /\ r = WDone b (j + 1)%nat n
    | WSleep x => r = WSleep x
    | WPy p => True
    end.
Proof.
  intros fuel i timeout r' N Nz P. rewrite can_within_for. unfold pwait_for. apply Z.eqb_neq in Nz. rewrite Nz, P.
  destruct r' as [[] j n'|x|p]; try (eexists; split; [reflexivity|auto]; fail).
  destruct (ask_at j) as (b & e & E & B). rewrite E. eauto.
Qed.

Lemma within_zero : forall fuel i, exists b, can_within fuel w i u 0 = Some (WDone b (i + 1)%nat 0%nat) /\ (b = true <-> there u w i).
Proof.
  intros fuel i. rewrite can_within_for. unfold pwait_for. cbn [Z.eqb]. destruct (ask_at i) as (b & e & E & B). rewrite E. eauto.
Qed.
Lemma within_type_error : forall fuel i timeout, timeout <> 0 -> p_now (w i) + timeout < 0 -> can_within fuel w i u timeout = Some (WPy PyTypeError).
Proof.
  intros fuel i timeout Nz N. rewrite can_within_for. unfold pwait_for. apply Z.eqb_neq in Nz. rewrite Nz.
  destruct fuel; cbn [ppoll]; rewrite (proj2 (Z.ltb_lt _ _) N); reflexivity.
Qed.

Lemma within_answer : forall fuel i timeout b j n, can_within fuel w i u timeout = Some (WDone b j n) ->
  exists k, (i <= k)%nat /\ j = (k + 1)%nat /\ (b = true <-> there u w k).
Proof.
  intros fuel i timeout b j n H. destruct (Z.eq_dec timeout 0) as [->|Nz].
  - destruct (within_zero fuel i) as (b' & E & B). rewrite E in H. injection H as <- <- <-. exists i. auto.
  - destruct (Z.lt_ge_cases (p_now (w i) + timeout) 0) as [N|N]; [rewrite within_type_error in H by assumption; discriminate|].
    destruct (within_inv _ _ _ _ H Nz N) as (n' & r' & _ & D & X). destruct r' as [[] j' k|x|p]; [|discriminate|contradiction].
    destruct X as (b' & B & E). injection E as <- -> <-. exists j'. split; [|auto].
    unfold ends in D. destruct D as [(_ & D)|[(_ & _ & D)|[(_ & _ & _ & D)|(_ & x & _ & D)]]]; try discriminate; injection D as -> _; lia.
Qed.

Lemma within_false : forall fuel i timeout j n, can_within fuel w i u timeout = Some (WDone false j n) -> timeout <> 0 ->
  exists k, (i < k)%nat /\ (k + 1 < j)%nat /\
    (p_now (w i) + timeout <= p_now (w k) \/ p_now (w k) + three_secs < p_now (w i) \/ there u w k).
Proof.
  intros fuel i timeout j n H Nz.
  destruct (Z.lt_ge_cases (p_now (w i) + timeout) 0) as [N|N]; [rewrite within_type_error in H by assumption; discriminate|].
  destruct (within_inv _ _ _ _ H Nz N) as (n' & r' & _ & D & X). destruct r' as [[] j' k|x|p]; [|discriminate|contradiction].
  destruct X as (b' & B & E). injection E as <- -> <-.
  unfold ends in D. destruct D as [(A & D)|[(_ & A & D)|[(_ & _ & A & D)|(_ & x & _ & D)]]]; try discriminate; injection D as -> _.
  - exists (i + 1 + 4 * n')%nat. split; [lia|]. split; [lia|]. auto.
  - exists (i + 1 + 4 * n' + 1)%nat. split; [lia|]. split; [lia|]. auto.
  - exists (i + 1 + 4 * n' + 2)%nat. split; [lia|]. split; [lia|]. auto.
Qed.

Lemma within_raises : forall fuel i timeout x, can_within fuel w i u timeout = Some (WSleep x) ->
  exists k1 k2 k3, (i < k1 < k2)%nat /\ (k2 < k3)%nat /\ p_now (w k1) < p_now (w i) + timeout /\ ~ there u w k2 /\ p_sleep (w k3) = Some x.
Proof.
  intros fuel i timeout x H. destruct (Z.eq_dec timeout 0) as [->|Nz]; [destruct (within_zero fuel i) as (b & E & _); congruence|].
  destruct (Z.lt_ge_cases (p_now (w i) + timeout) 0) as [N|N]; [rewrite within_type_error in H by assumption; discriminate|].
  destruct (within_inv _ _ _ _ H Nz N) as (n' & r' & _ & D & X). destruct r' as [[] j' k|y|p]; [destruct X as (b & _ & X); discriminate| |contradiction].
  injection X as <-. unfold ends in D. destruct D as [(A & D)|[(_ & A & D)|[(_ & _ & A & D)|(K & y & Y & D)]]]; try discriminate. injection D as ->.
  destruct K as (K1 & K2 & K3). exists (i + 1 + 4 * n')%nat, (i + 1 + 4 * n' + 1)%nat, (i + 1 + 4 * n' + 3)%nat. repeat split; auto; lia.
Qed.

Lemma within_sleeps : forall fuel i timeout b j n, can_within fuel w i u timeout = Some (WDone b j n) ->
  forall m, (m < n)%nat -> p_now (w (i + 1 + 4 * m)%nat) < p_now (w i) + timeout /\ ~ there u w (i + 1 + 4 * m + 1).
Proof.
  intros fuel i timeout b j n H m Hm. destruct (Z.eq_dec timeout 0) as [->|Nz].
  { destruct (within_zero fuel i) as (b' & E & _). rewrite E in H. injection H as _ _ <-. lia. }
  destruct (Z.lt_ge_cases (p_now (w i) + timeout) 0) as [N|N]; [rewrite within_type_error in H by assumption; discriminate|].
  destruct (within_inv _ _ _ _ H Nz N) as (n' & r' & A & D & X). destruct r' as [[] j' k|y|p]; [|discriminate|contradiction].
  destruct X as (b' & B & E). injection E as _ _ Ek.
  assert (En : k = n') by (unfold ends in D; destruct D as [(_ & D)|[(_ & _ & D)|[(_ & _ & _ & D)|(_ & y & _ & D)]]]; try discriminate; injection D as _ ->; reflexivity).
  subst k. subst n'. destruct (A m Hm) as [(K1 & K2 & _) _]. auto.
Qed.

Lemma within_stops : forall m fuel i timeout, timeout <> 0 -> 0 <= p_now (w i) + timeout -> (m <= fuel)%nat ->
  ~ (round (p_now (w i)) timeout (i + 1 + 4 * m) /\ p_sleep (w (i + 1 + 4 * m + 3)%nat) = None) ->
  (exists x, can_within fuel w i u timeout = Some (WSleep x)) \/
  exists b j n, can_within fuel w i u timeout = Some (WDone b (j + 1)%nat n) /\ (b = true <-> there u w j) /\ (n <= m)%nat /\ (j <= i + 4 * m + 4)%nat.
Proof.
  intros m fuel i timeout Nz N F X. destruct (ppoll_stops m fuel (i + 1)%nat (p_now (w i)) timeout N F X) as (r' & P & Hn).
  destruct (within_ends _ _ _ _ N Nz P) as (r & E & D). destruct (ppoll_ends _ _ _ _ _ N P) as (n & _ & _ & L).
  unfold ends in L. destruct r' as [[] j k|x|p].
  - destruct D as (b & B & ->). right. exists b, j, k. split; [exact E|]. split; [exact B|]. specialize (Hn j k eq_refl). split; [exact Hn|].
    destruct L as [(_ & L)|[(_ & _ & L)|[(_ & _ & _ & L)|(_ & y & _ & L)]]]; try discriminate; injection L as -> ->; lia.
  - subst r. left. eauto.
  - destruct L as [(_ & L)|[(_ & _ & L)|[(_ & _ & _ & L)|(_ & y & _ & L)]]]; discriminate.
Qed.

Lemma within_outcomes : forall fuel i timeout, 0 <= p_now (w i) + timeout ->
  match can_within fuel w i u timeout with Some (WPy _) => False | _ => True end.
Proof.
  intros fuel i timeout N. destruct (Z.eq_dec timeout 0) as [->|Nz]; [destruct (within_zero fuel i) as (b & -> & _); exact I|].
  destruct (can_within fuel w i u timeout) as [r|] eqn:H; [|exact I]. destruct (within_inv _ _ _ _ H Nz N) as (n' & r' & _ & D & X).
  destruct r' as [[] j' k|y|p]; [destruct X as (b & _ & ->); exact I|subst r; exact I|contradiction].
Qed.
End W.

(** ** lookup_transform *)
Lemma lookup_within_is : forall fuel (w : pworld S) i u timeout b j n, can_within fuel w i u timeout = Some (WDone b j n) ->
  lookup_within fuel w i u timeout = Some (match ask u (p_core (w j)) with PyOk m => WDone m (j + 1)%nat n | r => WPy (failed r) end).
Proof. intros fuel w i u timeout b j n H. rewrite lookup_within_for, H. reflexivity. Qed.
End P.
