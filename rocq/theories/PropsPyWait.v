(** * Property C71: Python's queries with a timeout *)
From Coq Require Import ZArith Bool List String Lia Floats.SpecFloat.
From Verif Require Import RosTime Scalar LinearMath Cache BufferCore SpecCore Instances CoreSet ExampleBuffers SpecWait PyTime PyTimeProofs PyCore SpecPy
  PyCoreProofs PyBuffer SpecPyWait PyWaitProofs PropsPy.
Import ListNotations.
Open Scope string_scope.
Open Scope list_scope.
Open Scope Z_scope.

(** ** C71 *)
(** The default, no timeout: one look at the buffer, no sleep. *)
Theorem C71_no_timeout_no_wait :
  forall (S : Scalar) (w : pworld S) u, python_world w -> times_2038 u -> forall fuel i,
  exists b, can_within fuel w i u 0 = Some (WDone b (i + 1)%nat 0%nat) /\ (b = true <-> there u w i).
Proof. intros S w u P T. exact (within_zero w u P T). Qed.
Print Assumptions C71_no_timeout_no_wait.
(** With any timeout the answer is what the buffer answers at the last instant of the call. *)
Theorem C71_answer_is_current :
  forall (S : Scalar) (w : pworld S) u, python_world w -> times_2038 u -> forall fuel i timeout b j n,
  can_within fuel w i u timeout = Some (WDone b j n) ->
  exists k, (i <= k)%nat /\ j = (k + 1)%nat /\ (b = true <-> there u w k).
Proof. intros S w u P T. exact (within_answer w u P T). Qed.
Print Assumptions C71_answer_is_current.
(** False only after the deadline, or after the clock was seen more than 3 s before the start, or
    if the transform was there during the call and is gone again. *)
Theorem C71_false_only_for_a_reason :
  forall (S : Scalar) (w : pworld S) u, python_world w -> times_2038 u -> forall fuel i timeout j n,
  can_within fuel w i u timeout = Some (WDone false j n) -> timeout <> 0 ->
  exists k, (i < k)%nat /\ (k + 1 < j)%nat /\
    (p_now (w i) + timeout <= p_now (w k) \/ p_now (w k) + 3 * 10 ^ 9 < p_now (w i) \/ there u w k).
Proof. intros S w u P T. exact (within_false w u P T). Qed.
Print Assumptions C71_false_only_for_a_reason.
(** An exception escapes only from a sleep, which is entered only while the transform is missing
    and the deadline ahead - or because start + timeout is a negative time. *)
Theorem C71_exceptions_only_from_sleep :
  forall (S : Scalar) (w : pworld S) u, python_world w -> times_2038 u -> forall fuel i timeout,
  (forall x, can_within fuel w i u timeout = Some (WSleep x) ->
     exists k1 k2 k3, (i < k1 < k2)%nat /\ (k2 < k3)%nat /\ p_now (w k1) < p_now (w i) + timeout /\ ~ there u w k2 /\ p_sleep (w k3) = Some x) /\
  (forall r, can_within fuel w i u timeout = Some (WPy r) <-> timeout <> 0 /\ p_now (w i) + timeout < 0 /\ r = PyTypeError).
Proof.
  intros S w u P T fuel i timeout. split; [intros x; exact (within_raises w u P T fuel i timeout x)|].
  intros r. split.
  - intros H. pose proof (within_outcomes w u P T fuel i timeout) as O. rewrite H in O. destruct (Z.lt_ge_cases (p_now (w i) + timeout) 0) as [N|N]; [|exfalso; apply O; lia].
    assert (Nz : timeout <> 0) by (intros ->; destruct (P i); lia). rewrite (within_type_error w u fuel i timeout Nz N) in H. injection H as <-. auto.
  - intros (Nz & N & ->). exact (within_type_error w u fuel i timeout Nz N).
Qed.
Print Assumptions C71_exceptions_only_from_sleep.
(** Every sleep was preceded by a look at the clock (deadline ahead) and at the buffer
    (transform missing); so a call for a transform that is there neither sleeps nor raises. *)
Theorem C71_sleeps_only_if_needed :
  forall (S : Scalar) (w : pworld S) u, python_world w -> times_2038 u -> forall fuel i timeout b j n,
  can_within fuel w i u timeout = Some (WDone b j n) -> forall m, (m < n)%nat ->
  exists k1 k2, (i + 4 * m < k1 < k2)%nat /\ (k2 <= i + 4 * m + 4)%nat /\ p_now (w k1) < p_now (w i) + timeout /\ ~ there u w k2.
Proof.
  intros S w u P T fuel i timeout b j n H m Hm. destruct (within_sleeps w u P T fuel i timeout b j n H m Hm) as [A B].
  exists (i + 1 + 4 * m)%nat, (i + 1 + 4 * m + 1)%nat. repeat split; auto; lia.
Qed.
Print Assumptions C71_sleeps_only_if_needed.
Theorem C71_returns_at_once_if_there :
  forall (S : Scalar) (w : pworld S) u, python_world w -> times_2038 u -> forall fuel i timeout,
  0 <= timeout -> (forall k, (i <= k)%nat -> there u w k) ->
  exists j, can_within fuel w i u timeout = Some (WDone true j 0%nat) /\ (j <= i + 4)%nat.
Proof.
  intros S w u P T fuel i timeout N A. destruct (Z.eq_dec timeout 0) as [->|Nz].
  { destruct (within_zero w u P T fuel i) as (b & E & B). exists (i + 1)%nat. rewrite E. split; [|lia]. f_equal. f_equal. apply B, A. lia. }
  destruct (within_stops w u P T 0 fuel i timeout Nz) as [[x E]|(b & j & n & E & B & Hn & _)].
  - destruct (P i). lia.
  - lia.
  - intros [(_ & K & _) _]. apply K, A. lia.
  - destruct (within_raises w u P T fuel i timeout x E) as (k1 & k2 & k3 & L & _ & _ & K & _). exfalso. apply K, A. lia.
  - assert (X : (i <= j)%nat) by (destruct (within_answer w u P T fuel i timeout b (j + 1) n E) as (k & Lk & Ek & _); lia).
    assert (b = true) as -> by (apply B, A, X). assert (n = 0%nat) by lia. subst n. exists (j + 1)%nat. split; [exact E|].
    destruct (within_inv w u P T fuel i timeout _ E Nz) as (n' & r' & _ & D & Y); [destruct (P i); lia|].
    destruct r' as [[] j' k|y|p]; [|discriminate|contradiction]. destruct Y as (b' & _ & Y). injection Y as _ Ej Ek.
    unfold ends in D. destruct D as [(_ & D)|[(_ & _ & D)|[(_ & K & _ & _)|(_ & y & _ & D)]]]; try discriminate; [injection D; intros; lia..|exfalso; apply K, A; lia].
Qed.
Print Assumptions C71_returns_at_once_if_there.
(** Once the transform is there to stay the call returns within the next two rounds, true unless
    it had returned before; unless a sleep raises. *)
Theorem C71_wakes_up :
  forall (S : Scalar) (w : pworld S) u, python_world w -> times_2038 u -> forall k fuel i timeout,
  0 < timeout -> (k <= fuel)%nat -> (forall k', (i + k <= k')%nat -> there u w k') ->
  (exists x, can_within fuel w i u timeout = Some (WSleep x)) \/
  exists b j n, can_within fuel w i u timeout = Some (WDone b j n) /\ (j <= i + k + 9)%nat /\ (b = true \/ (j <= i + k)%nat).
Proof.
  intros S w u P T k fuel i timeout N F A.
  pose proof (Nat.div_mod (k + 3) 4). pose proof (Nat.mod_upper_bound (k + 3) 4).
  destruct (within_stops w u P T ((k + 3) / 4) fuel i timeout) as [X|(b & j & n & E & B & Hn & Hj)]; [lia|destruct (P i); lia|lia| |left; exact X|].
  - intros [(_ & K & _) _]. apply K, A. lia.
  - right. exists b, (j + 1)%nat, n. split; [exact E|]. split; [lia|]. destruct (le_lt_dec (i + k) j) as [L|L]; [left; apply B, A, L|right; lia].
Qed.
Print Assumptions C71_wakes_up.
(** It comes back: if each of the first m sleeps takes the clock forward by d and m*d >= timeout,
    after at most m sleeps.  (The code sleeps for timeout * CAN_TRANSFORM_POLLING_SCALE = timeout/100.) *)
Theorem C71_returns_after_the_timeout :
  forall (S : Scalar) (w : pworld S) u, python_world w -> times_2038 u -> forall m d fuel i timeout,
  0 < timeout -> (m <= fuel)%nat ->
  (forall k, (k < m)%nat -> p_now (w (i + 1 + 4 * k)%nat) + d <= p_now (w (i + 1 + 4 * (k + 1))%nat)) ->
  p_now (w i) <= p_now (w (i + 1)%nat) -> timeout <= Z.of_nat m * d ->
  (exists x, can_within fuel w i u timeout = Some (WSleep x)) \/
  exists b j n, can_within fuel w i u timeout = Some (WDone b j n) /\ (n <= m)%nat.
Proof.
  intros S w u P T m d fuel i timeout N F A B L.
  destruct (within_stops w u P T m fuel i timeout) as [X|(b & j & n & E & _ & Hn & _)]; [lia|destruct (P i); lia|exact F| |left; exact X|right; eauto].
  intros [(K & _) _].
  assert (G : forall k, (k <= m)%nat -> p_now (w (i + 1)%nat) + Z.of_nat k * d <= p_now (w (i + 1 + 4 * k)%nat)).
  { induction k as [|k IH]; intros Hk; [rewrite Nat.mul_0_r, Nat.add_0_r; lia|]. specialize (A k ltac:(lia)). specialize (IH ltac:(lia)). replace (k + 1)%nat with (Datatypes.S k) in A by lia. rewrite Nat2Z.inj_succ, Z.mul_succ_l. lia. }
  specialize (G m (le_n m)). lia.
Qed.
Print Assumptions C71_returns_after_the_timeout.
(** lookup_transform is the immediate lookup at the instant after the wait, whatever the wait
    answered; if the buffer is the same then, it returns a transform iff can_transform was true. *)
Theorem C71_lookup_is_current :
  forall (S : Scalar) (w : pworld S) u, python_world w -> times_2038 u -> forall fuel i timeout b j n,
  can_within fuel w i u timeout = Some (WDone b j n) ->
  (forall m j' n', lookup_within fuel w i u timeout = Some (WDone m j' n') <-> ask u (p_core (w j)) = PyOk m /\ j' = (j + 1)%nat /\ n' = n) /\
  (forall c e, lookup_within fuel w i u timeout = Some (WPy (PyRaise c e)) <-> ask u (p_core (w j)) = PyRaise c e) /\
  (p_core (w j) = p_core (w (j - 1)%nat) -> (b = true <-> exists m, lookup_within fuel w i u timeout = Some (WDone m (j + 1)%nat n))).
Proof.
  intros S w u P T fuel i timeout b j n H. rewrite (lookup_within_is _ _ _ _ _ _ _ _ H).
  destruct (within_answer w u P T fuel i timeout b j n H) as (k & _ & Ej & B).
  assert (Q := ask_total u (p_core (w j)) (proj1 (P j)) T).
  split; [|split].
  - intros m j' n'. destruct (ask u (p_core (w j))); split; intros X; try discriminate; try (destruct X; discriminate).
    + injection X as <- <- <-. auto.
    + destruct X as (X & -> & ->). injection X as ->. reflexivity.
  - intros c e. destruct (ask u (p_core (w j))); cbn [failed pbind]; split; intros X; try discriminate; congruence.
  - intros C. replace (j - 1)%nat with k in C by lia. rewrite B. unfold there. rewrite <- C.
    destruct Q as [[a ->]|(c & e & -> & _)]; cbn [failed pbind]; split; intros [m X]; try discriminate; eauto.
Qed.
Print Assumptions C71_lookup_is_current.

(** A clock of 20 ns steps from 2020 on; the data arrive at instant 10; a second world in which the
    third sleep ends by a jump of the clock. *)
Definition filled : core D64 := match py_run (init_core (10 * 10 ^ 9)) py_prog with Some s => s | None => init_core 0 end.
Definition t0 : time := 1600000000000000000.
Definition coming (jump : nat) : pworld D64 := fun k =>
  mkPinstant (t0 + 20 * Z.of_nat k) (if (k <? 10)%nat then init_core (10 * 10 ^ 9) else filled) (if (k =? jump)%nat then Some TimeMovedBackwards else None).
Definition wanted : question := Simple "map" "laser" 1600000000123456789.
Definition wanted_full : question := Advanced "map" 1600000000123456789 "laser" 1600000000173456789 "map".
Definition show {A} (r : option (waited A)) : option (nat * nat) := match r with Some (WDone a j n) => Some (j, n) | _ => None end.
Definition answer (r : option (waited bool)) : option bool := match r with Some (WDone b _ _) => Some b | _ => None end.
Definition raised {A} (r : option (waited A)) : option sleep_exn := match r with Some (WSleep x) => Some x | _ => None end.
Lemma filled_ok : py_buffer year_2038 filled.
Proof.
  assert (B : stamps_below year_2038 py_prog) by apply C70_example.
  destruct (C70_python_buffer_is_the_cpp_buffer D64 (10 * 10 ^ 9) py_prog ltac:(unfold dur_bound; lia) B) as (s & _ & E & _).
  unfold filled. rewrite E. exists (10 * 10 ^ 9), py_prog. split; [unfold dur_bound; lia|]. auto.
Qed.
Lemma coming_ok : forall jump, python_world (coming jump).
Proof.
  intros jump k. unfold coming, t0. cbn [p_core p_now]. split; [|lia]. destruct (k <? 10)%nat; [|exact filled_ok].
  exists (10 * 10 ^ 9), []. split; [unfold dur_bound; lia|]. split; [constructor|reflexivity].
Qed.
Lemma there_when : forall k jump u, (10 <= k)%nat -> match ask u filled with PyOk _ => true | _ => false end = true -> there u (coming jump) k.
Proof.
  intros k jump u L H. unfold there, coming. cbn [p_core]. destruct (Nat.ltb_spec k 10); [lia|]. revert H. generalize (ask u filled). intros [a|c e| | |]; try discriminate. eauto.
Qed.
Example C71_example :
  python_world (coming 1000) /\ times_2038 wanted /\ times_2038 wanted_full /\
  (forall k, (0 + 10 <= k)%nat -> there wanted (coming 1000) k) /\
  answer (can_within 50 (coming 1000) 0 wanted 1000) = Some true /\ show (can_within 50 (coming 1000) 0 wanted 1000) = Some (12, 2)%nat /\
  answer (can_within 50 (coming 1000) 0 wanted_full 1000) = Some true /\
  answer (can_within 50 (coming 1000) 0 wanted 60) = Some false /\
  answer (can_within 50 (coming 1000) 0 (Simple "map" "laser" 5) 1000) = Some false /\
  show (lookup_within 50 (coming 1000) 0 wanted 1000) = Some (13, 2)%nat /\
  (forall k, (k < 13)%nat -> p_now (coming 1000 (0 + 1 + 4 * k)%nat) + 80 <= p_now (coming 1000 (0 + 1 + 4 * (k + 1))%nat)).
Proof.
  split; [apply coming_ok|]. split; [split; vm_compute; congruence|]. split; [split; split; vm_compute; congruence|].
  split; [intros k L; apply there_when; [lia|vmr]|].
  split; [vmr|]. split; [vmr|]. split; [vmr|]. split; [vmr|]. split; [vmr|]. split; [vmr|].
  intros k _. unfold coming. cbn [p_now]. lia.
Qed.
(** "Big jumps in time are likely bag loops, so break for them": with a simulated clock, a jump that
    happens during a sleep raises out of can_transform and lookup_transform instead. *)
Theorem C71_clock_jump_ends_the_wait_refuted :
  python_world (coming 8) /\ times_2038 wanted /\
  raised (can_within 50 (coming 8) 0 wanted 1000) = Some TimeMovedBackwards /\ raised (lookup_within 50 (coming 8) 0 wanted 1000) = Some TimeMovedBackwards.
Proof. split; [apply coming_ok|]. split; [split; vm_compute; congruence|]. split; vmr. Qed.
Print Assumptions C71_clock_jump_ends_the_wait_refuted.
