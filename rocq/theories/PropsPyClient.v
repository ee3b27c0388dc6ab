(** * Property C74: BufferClient in Python *)
From Coq Require Import ZArith Bool List String Lia.
From Verif Require Import RosTime Scalar LinearMath Cache BufferCore SpecCore Instances ExampleBuffers GeomMsgs BufferInterface SpecWait TfAction SpecAction ActionProofs PropsAction
  PyTime PyTimeProofs PyCore SpecPy PyCoreProofs PyBuffer SpecPyWait PyWaitProofs PropsPyWait PyInterface SpecPyInterface PyInterfaceProofs PyClient SpecPyClient.
Import ListNotations.
Open Scope Z_scope.
Open Scope string_scope.

Lemma py_remote_goal : forall (S : Scalar) id answer u timeout, py_remote (S:=S) id answer u timeout = py_process_goal (client_goal id u timeout) answer.
Proof. intros. destruct u; reflexivity. Qed.
Lemma process_same : forall (S : Scalar) (r : result S), same_outcome (py_process_result r) (processResult r).
Proof.
  intros S r. unfold py_process_result, processResult. destruct (negb _); [|reflexivity].
  repeat match goal with |- context [if ?b then _ else _] => destruct b; [cbn; auto|] end. cbn. auto.
Qed.
Lemma same_wrap : forall A (p : py A) r r', same_outcome p r -> r = r' -> same_outcome p r'.
Proof. intros A p r r' H <-. exact H. Qed.

(** For every run of the server: an answered request ends in Python as the local lookup ends in
    C++, in a buffer state the server saw - same transform to the nanosecond, same exception
    class and text.  Every other request raises TimeoutException. *)
Theorem C74_remote_equals_local :
  forall (S : Scalar) (ops : list (@server_op S)) sv log id answer u timeout,
  NoDup (goal_ids ops) -> server_run empty_server ops = (sv, log) -> served ops log answer ->
  match answer (client_goal id u timeout) with
  | Success _ => exists o c, In o ops /\ looked_in o c /\ same_outcome (py_remote id answer u timeout) (lookup u c)
  | _ => exists e, py_remote id answer u timeout = PyRaise TimeoutException e
  end.
Proof.
  intros S ops sv log id answer u timeout N H Sv.
  pose proof (remote_local ops sv log id (- timeout) answer u timeout N H Sv ltac:(unfold dur_bound; lia)) as R.
  rewrite py_remote_goal. rewrite client_lookup_goal in R. fold (client_goal id u timeout) in R. unfold processGoal in R.
  destruct (client_goal_question id u timeout) as (_ & T & _). rewrite T in R. replace (dur_add timeout (- timeout)) with (Some 0) in R
    by (unfold dur_add, valid_durb; replace (timeout + - timeout) with 0 by lia; reflexivity).
  cbn [lift_time bind] in R. unfold py_process_goal. destruct (answer (client_goal id u timeout)) as [| |r]; [eauto|eauto|].
  destruct R as (o & c & I & L & X). exists o, c. split; [exact I|]. split; [exact L|]. eapply same_wrap; [apply process_same|exact X].
Qed.
Print Assumptions C74_remote_equals_local.

(** The Python client and the C++ client, given the same replies, do the same. *)
Theorem C74_same_as_the_cpp_client :
  forall (S : Scalar) id padding (answer : goal -> reply S) u timeout, - dur_bound <= timeout + padding < dur_bound ->
  match answer (client_goal id u timeout) with
  | Success _ => same_outcome (py_remote id answer u timeout) (client_lookup id padding answer u timeout)
  | _ => exists e e', py_remote id answer u timeout = PyRaise TimeoutException e /\ client_lookup id padding answer u timeout = Throw TimeoutException e'
  end.
Proof.
  intros S id padding answer u timeout V. rewrite py_remote_goal, client_lookup_goal. fold (client_goal id u timeout). unfold processGoal.
  destruct (client_goal_question id u timeout) as (_ & T & _). rewrite T. replace (dur_add timeout padding) with (Some (timeout + padding)).
  2:{ unfold dur_add, valid_durb. destruct V as [V1 V2]. rewrite (proj2 (Z.leb_le _ _) V1), (proj2 (Z.ltb_lt _ _) V2). reflexivity. }
  cbn [lift_time bind]. unfold py_process_goal. destruct (answer (client_goal id u timeout)) as [| |r]; [eauto|eauto|apply process_same].
Qed.
Print Assumptions C74_same_as_the_cpp_client.

(** can_transform never raises, whatever the server does, and is True exactly if lookup_transform
    returns; lookup_transform returns or raises one of tf2's exceptions. *)
Theorem C74_can_iff_lookup :
  forall (S : Scalar) id (answer : goal -> reply S) u timeout,
  exists b, py_remote_can id answer u timeout = PyOk b /\
    (b = true <-> exists m, py_remote id answer u timeout = PyOk m) /\
    (b = false <-> exists c e, py_remote id answer u timeout = PyRaise c e /\ c <> RuntimeError).
Proof.
  intros S id answer u timeout. replace (py_remote_can id answer u timeout) with (py_caught (py_remote id answer u timeout)) by (destruct u; reflexivity).
  rewrite py_remote_goal.
  assert (D : (exists m, py_process_goal (client_goal id u timeout) answer = PyOk m) \/ exists c e, py_process_goal (client_goal id u timeout) answer = PyRaise c e /\ c <> RuntimeError).
  { unfold py_process_goal. destruct (answer _) as [| |r].
    - right. do 2 eexists. split; [reflexivity|discriminate].
    - right. do 2 eexists. split; [reflexivity|discriminate].
    - unfold py_process_result. destruct (negb _); [right|left; eauto].
      repeat match goal with |- context [if ?b then _ else _] => destruct b; [do 2 eexists; split; [reflexivity|discriminate]|] end.
      do 2 eexists. split; [reflexivity|discriminate]. }
  destruct D as [[m ->]|(c & e & -> & N)]; cbn [py_caught].
  - exists true. split; [reflexivity|]. split; split; try discriminate; eauto. intros (c & e & X & _). discriminate.
  - exists false. split; [reflexivity|]. split; split; try discriminate; eauto. intros (m & X). discriminate.
Qed.
Print Assumptions C74_can_iff_lookup.

(** Buffer and BufferClient are interchangeable where floats are exact: what a server answers from
    the buffer contents c is what a Python Buffer with these contents answers, if the times asked
    for are floats of themselves. *)
Theorem C74_interchangeable_with_a_local_buffer :
  forall (S : Scalar) (ops : list (@server_op S)) sv log id answer u timeout r,
  NoDup (goal_ids ops) -> server_run empty_server ops = (sv, log) -> served ops log answer ->
  answer (client_goal id u timeout) = Success r ->
  (forall o c, In o ops -> looked_in o c -> py_buffer year_2038 c) -> times_2038 u -> floats_exactly u ->
  exists o c, In o ops /\ looked_in o c /\ py_remote id answer u timeout = ask u c.
Proof.
  intros S ops sv log id answer u timeout r N H Sv A B T X. pose proof (C74_remote_equals_local S ops sv log id answer u timeout N H Sv) as R. rewrite A in R.
  destruct R as (o & c & I & L & Q). exists o, c. split; [exact I|]. split; [exact L|]. specialize (B o c I L).
  destruct (buffer_soon c B) as (Rc & G & He).
  assert (Y : (forall m, ask u c = PyOk m <-> lookup u c = Ok m) /\ (forall k e, ask u c = PyRaise k e <-> lookup u c = Throw k e)).
  { destruct u as [tgt src t|tgt t1 src t2 fx]; cbn [ask lookup times_2038 floats_exactly] in *.
    - destruct (year_2038_ok t T) as (t' & E & B' & _). assert (t' = t) by congruence. subst t'. apply (py_lookup_is c tgt src t t Rc He G E B').
    - destruct T as [T1 T2]. destruct X as [X1 X2]. destruct (year_2038_ok t1 T1) as (t1' & E1 & B1 & _). destruct (year_2038_ok t2 T2) as (t2' & E2 & B2 & _).
      assert (t1' = t1) by congruence. assert (t2' = t2) by congruence. subst t1' t2'. apply (py_lookup_full_is c tgt t1 src t2 fx t1 t2 Rc He G E1 B1 E2 B2). }
  destruct Y as [Y1 Y2]. unfold same_outcome in Q. destruct (py_remote id answer u timeout) as [m|k e| | |], (lookup u c) as [m'|k' e'|]; try contradiction.
  - subst m'. symmetry. apply Y1. reflexivity.
  - destruct Q as [<- <-]. symmetry. apply Y2. reflexivity.
Qed.
Print Assumptions C74_interchangeable_with_a_local_buffer.

(** transform in front of a BufferClient: moved by the transform the client got, its exceptions
    passed on. *)
Theorem C74_transform_through_a_client :
  forall (S : Scalar) (r : registries S (py unit)) id answer o h u timeout new_type f,
  header_of o = Some h -> get r (class_of o) = Return f ->
  snd (py_transform_to r (client_at id answer) o u timeout new_type) =
    match py_remote id answer (to_frame u h) timeout with
    | PyOk m => obind (f o (to_message m)) (fun res => finish r res new_type)
    | p => Raise (XLookup (failed p))
    end.
Proof.
  intros S r id answer o h u timeout new_type f Hh G. rewrite py_transform_to_is. unfold get, dget in G.
  destruct (type_map r (class_of o)) as [f'|]; [|discriminate]. injection G as ->. rewrite Hh. cbn [snd].
  assert (L : lookup_to (client_at id answer) u h timeout = py_as_outcome (py_remote id answer (to_frame u h) timeout)) by (destruct u as [t|[[t t1] fx]]; reflexivity).
  rewrite L. destruct (py_remote id answer (to_frame u h) timeout); reflexivity.
Qed.
Print Assumptions C74_transform_through_a_client.

(** ** Cases *)
Definition show_py (r : py (tmsg D64)) : option exn_class * option string :=
  match r with PyOk m => (None, Some (tm_child m)) | PyRaise c _ => (Some c, None) | _ => (None, None) end.
Example C74_example :
  served server_ops (snd (server_run empty_server server_ops)) from_run /\
  show_py (py_remote 1 from_run (Simple "base" "beacon" 15) 100) = (None, Some "beacon") /\
  show_py (py_remote 2 from_run (Simple "base" "beacon" 50) 100) = (Some ExtrapolationException, None) /\
  show_py (py_remote 4 from_run (Advanced "base" 15 "y" 7 "map") 0) = (Some ConnectivityException, None) /\
  show_py (py_remote 5 from_run (Simple "y" "base" 0) 900) = (Some TimeoutException, None) /\
  floats_exactly (Simple "base" "beacon" 15).
Proof. split; [apply from_log_served|]. split; [vmr|]. split; [vmr|]. split; [vmr|]. split; [vmr|]. cbn [floats_exactly]. vmr. Qed.

(** Not interchangeable in general: fed with one and the same message, the server knows the stamp,
    the Python buffer its float; so asked for the stamp, the two answer with different times, and
    asked for the instant 72 ns earlier only the local one answers. *)
Definition one_msg : tmsg D64 := mkTmsg 1600000000123456789 "map" "laser" (v64 1 0 0) id64.
Definition cpp_side : core D64 := run (init_core (10 * 10 ^ 9)) [OSet one_msg "" false].
Definition python_side : core D64 := match py_run (init_core (10 * 10 ^ 9)) [PSet one_msg ""] with Some s => s | None => init_core 0 end.
Definition goal_of (k : nat) (u : question) : @server_op D64 := SGoal (client_goal k u 0) 0 (mkSight cpp_side 0 cpp_side).
Definition at_stamp := Simple "map" "laser" 1600000000123456789.
Definition earlier := Simple "map" "laser" 1600000000123456717.
Definition two_goals : list (@server_op D64) := [goal_of 1 at_stamp; goal_of 2 earlier].
Definition two_answers : goal -> reply D64 := from_log two_goals (snd (server_run empty_server two_goals)).
Definition stamp_got (r : py (tmsg D64)) : option time := match r with PyOk m => Some (tm_stamp m) | _ => None end.
Theorem C74_client_and_buffer_differ_refuted :
  NoDup (goal_ids two_goals) /\ served two_goals (snd (server_run empty_server two_goals)) two_answers /\
  stamp_got (py_remote 1 two_answers at_stamp 0) = Some 1600000000123456789 /\
  stamp_got (ask at_stamp python_side) = Some 1600000000123456717 /\
  fst (show_py (py_remote 2 two_answers earlier 0)) = Some ExtrapolationException /\
  stamp_got (ask earlier python_side) = Some 1600000000123456717.
Proof.
  split; [repeat constructor; cbn; intuition congruence|]. split; [apply from_log_served|]. split; [vmr|]. split; [vmr|]. split; vmr.
Qed.
Print Assumptions C74_client_and_buffer_differ_refuted.
