(** * Properties C69 and C70: times and buffers seen from Python *)
From Coq Require Import ZArith Bool List String Lia Arith Reals Lra Floats.SpecFloat.
From Verif Require Import RosTime Scalar LinearMath Cache BufferCore SpecCore Instances CoreSet LookupTheorems ExampleBuffers PyTime PyTimeProofs PyCore SpecPy PyCoreProofs.
From Verif Require PropsChain.
Import ListNotations.
Open Scope Z_scope.
Open Scope string_scope.
Local Opaque MAX_GRAPH_DEPTH.

(** ** C69: the trip of a time through a Python float *)
(** Below 2^23 s (simulated time, 97 days) it is exact. *)
Theorem C69_exact_below_2_23_s : forall t, 0 <= t < 2 ^ 23 * 10 ^ 9 -> py_time t = Ok t.
Proof. exact trip_exact. Qed.
Print Assumptions C69_exact_below_2_23_s.
(** Below 2^31 s a stamp moves by at most 119 ns. *)
Theorem C69_off_by_at_most_119_ns : forall t, 0 <= t < 2 ^ 31 * 10 ^ 9 -> exists t', py_time t = Ok t' /\ 0 <= t' /\ Z.abs (t' - t) <= 119.
Proof.
  intros t H. destruct (trip_iff t ltac:(lia)) as [[_ E]|[N _]]; [|lia]. exists (sec_ns (FloatErr.rnd (secR t))). split; [exact E|].
  split; [apply (time_valid t); [lia|exact E]|]. apply (trip_close 31 t 119); [lia|exact H|].
  replace (Raux.bpow Zaux.radix2 (31 - 54)) with (/ 8388608)%R by (cbn; lra). change (IZR (119 + 1)) with 120%R. lra.
Qed.
Print Assumptions C69_off_by_at_most_119_ns.
(** Every ros::Time: all but the last 238 ns of the range arrive, off by at most 238 ns; those
    make ros::Time::fromSec throw. *)
Theorem C69_all_but_the_last_238_ns : forall t, valid_time t ->
  (t < time_bound - 238 /\ exists t', py_time t = Ok t' /\ valid_time t' /\ Z.abs (t' - t) <= 238) \/
  (time_bound - 238 <= t /\ py_time t = Throw RuntimeError ETimeRange).
Proof.
  intros t H. unfold valid_time, time_bound in *. destruct (trip_iff t H) as [[L E]|[L E]]; [left|right; auto]. split; [exact L|].
  exists (sec_ns (FloatErr.rnd (secR t))). split; [exact E|]. split; [apply (time_valid t); [lia|exact E]|]. apply (trip_close 32 t 238); [lia|exact H|].
  replace (Raux.bpow Zaux.radix2 (32 - 54)) with (/ 4194304)%R by (cbn; lra). change (IZR (238 + 1)) with 239%R. lra.
Qed.
Print Assumptions C69_all_but_the_last_238_ns.
(** Order is kept. *)
Theorem C69_order_is_kept : forall a b a' b', 0 <= a <= b -> b < time_bound -> py_time a = Ok a' -> py_time b = Ok b' -> a' <= b'.
Proof. intros a b a' b' H B. unfold time_bound in B. apply trip_mono; lia. Qed.
Print Assumptions C69_order_is_kept.
(** A time that has made the trip once makes every further one unchanged. *)
Theorem C69_second_trip_is_exact : forall t t', valid_time t -> py_time t = Ok t' -> py_time t' = Ok t'.
Proof. intros t t' H. unfold valid_time, time_bound in H. apply trip_idem. lia. Qed.
Print Assumptions C69_second_trip_is_exact.
Example C69_example :
  py_time 1600000000123456789 = Ok 1600000000123456717 /\ py_time 1600000000123456717 = Ok 1600000000123456717 /\
  py_time (2 ^ 23 * 10 ^ 9 - 1) = Ok (2 ^ 23 * 10 ^ 9 - 1).
Proof. split; [vmr|]. split; vmr. Qed.
(** It is not exact in general, and from 2^23 s on stamps 1 ns apart may coincide. *)
Theorem C69_exact_refuted : exists t t', valid_time t /\ py_time t = Ok t' /\ t' <> t.
Proof. exists (2 ^ 23 * 10 ^ 9 + 1), (2 ^ 23 * 10 ^ 9 + 2). split; [split; vm_compute; congruence|]. split; [vmr|vm_compute; discriminate]. Qed.
Print Assumptions C69_exact_refuted.
Theorem C69_distinct_stamps_coincide_refuted : exists a b t, valid_time a /\ valid_time b /\ a <> b /\ py_time a = Ok t /\ py_time b = Ok t.
Proof.
  exists 1600000000000000000, 1600000000000000050, 1600000000000000000. split; [split; vm_compute; congruence|]. split; [split; vm_compute; congruence|].
  split; [discriminate|]. split; vmr.
Qed.
Print Assumptions C69_distinct_stamps_coincide_refuted.

(** ** C70: the bindings *)
(** A buffer fed by a Python program is the C++ buffer fed by the same program with every stamp
    taken through a float; and programs before 2038 always get to the end. *)
Theorem C70_python_buffer_is_the_cpp_buffer :
  forall (S : Scalar) ct (ops : list (@py_op S)), 0 <= ct < dur_bound -> stamps_below year_2038 ops ->
  exists s ops', py_run (init_core ct) ops = Some s /\ Forall2 restamped ops ops' /\ Forall op_ok ops' /\ s = run (init_core ct) ops'.
Proof.
  intros S ct ops C B. destruct (run_survives ops (init_core ct) (CoreInv.wf_init ct C) B) as [s E].
  destruct (run_restamped year_2038 ops _ s ltac:(unfold year_2038; lia) B E) as (ops' & F & V & X). subst s. exists (run (init_core ct) ops'), ops'. split; [exact E|]. auto.
Qed.
Print Assumptions C70_python_buffer_is_the_cpp_buffer.
(** Below 2^23 s it is the very same buffer. *)
Theorem C70_same_buffer_below_2_23_s :
  forall (S : Scalar) ct (ops : list (@py_op S)), 0 <= ct < dur_bound -> stamps_below day_97 ops ->
  py_run (init_core ct) ops = Some (run (init_core ct) (map in_cpp ops)).
Proof.
  intros S ct ops C B. destruct (run_survives ops (init_core ct) (CoreInv.wf_init ct C)) as [s E].
  { revert B. apply Forall_impl. intros [m a|m a|]; unfold day_97, year_2038; try exact (fun x => x); lia. }
  rewrite E. f_equal. exact (run_exact ops _ s B E).
Qed.
Print Assumptions C70_same_buffer_below_2_23_s.
(** Before 2038 a query in Python is the C++ query at the rounded times: the same value, the
    same exception class and text, and nothing that would end the interpreter. *)
Theorem C70_lookup_is_the_cpp_lookup :
  forall (S : Scalar) (s : core S) tgt src t, py_buffer year_2038 s -> 0 <= t < year_2038 ->
  exists t', py_time t = Ok t' /\ Z.abs (t' - t) <= 119 /\
    returns_or_raises (py_lookup s tgt src t) /\
    (forall m, py_lookup s tgt src t = PyOk m <-> lookupTransform s tgt src t' = Ok m) /\
    (forall c e, py_lookup s tgt src t = PyRaise c e <-> lookupTransform s tgt src t' = Throw c e).
Proof.
  intros S s tgt src t H B. destruct (buffer_soon s H) as (R & G & He). destruct (year_2038_ok t B) as (t' & E & B' & D).
  exists t'. split; [exact E|]. split; [exact D|]. exact (py_lookup_is s tgt src t t' R He G E B').
Qed.
Print Assumptions C70_lookup_is_the_cpp_lookup.
Theorem C70_full_lookup_is_the_cpp_lookup :
  forall (S : Scalar) (s : core S) tgt t1 src t2 fixed, py_buffer year_2038 s -> 0 <= t1 < year_2038 -> 0 <= t2 < year_2038 ->
  exists t1' t2', py_time t1 = Ok t1' /\ Z.abs (t1' - t1) <= 119 /\ py_time t2 = Ok t2' /\ Z.abs (t2' - t2) <= 119 /\
    returns_or_raises (py_lookup_full s tgt t1 src t2 fixed) /\
    (forall m, py_lookup_full s tgt t1 src t2 fixed = PyOk m <-> lookupTransformFixed s tgt t1' src t2' fixed = Ok m) /\
    (forall c e, py_lookup_full s tgt t1 src t2 fixed = PyRaise c e <-> lookupTransformFixed s tgt t1' src t2' fixed = Throw c e).
Proof.
  intros S s tgt t1 src t2 fixed H B1 B2. destruct (buffer_soon s H) as (R & G & He). destruct (year_2038_ok t1 B1) as (t1' & E1 & B1' & D1). destruct (year_2038_ok t2 B2) as (t2' & E2 & B2' & D2).
  exists t1', t2'. do 4 (split; [assumption|]). exact (py_lookup_full_is s tgt t1 src t2 fixed t1' t2' R He G E1 B1' E2 B2').
Qed.
Print Assumptions C70_full_lookup_is_the_cpp_lookup.
(** can_transform answers whether lookup_transform would succeed. *)
(** A buffer created without a cache time keeps 10 s, as the C++ default. *)
Theorem C70_default_cache_time : forall S : Scalar, (py_init None : core S) = init_core 10000000000.
Proof. reflexivity. Qed.
Print Assumptions C70_default_cache_time.

Theorem C70_can_iff_lookup :
  forall (S : Scalar) (s : core S) tgt src t, py_buffer year_2038 s -> 0 <= t < year_2038 ->
  exists b e, py_can s tgt src t = PyOk (b, e) /\ (b = true <-> exists m, py_lookup s tgt src t = PyOk m).
Proof.
  intros S s tgt src t H B. destruct (buffer_soon s H) as (R & G & He). destruct (year_2038_ok t B) as (t' & E & B' & _). exact (py_can_is s tgt src t t' R He G E B').
Qed.
Print Assumptions C70_can_iff_lookup.
Theorem C70_can_full_iff_lookup_full :
  forall (S : Scalar) (s : core S) tgt t1 src t2 fixed, py_buffer year_2038 s -> 0 <= t1 < year_2038 -> 0 <= t2 < year_2038 ->
  exists b e, py_can_full s tgt t1 src t2 fixed = PyOk (b, e) /\ (b = true <-> exists m, py_lookup_full s tgt t1 src t2 fixed = PyOk m).
Proof.
  intros S s tgt t1 src t2 fixed H B1 B2. destruct (buffer_soon s H) as (R & G & He). destruct (year_2038_ok t1 B1) as (t1' & E1 & B1' & _). destruct (year_2038_ok t2 B2) as (t2' & E2 & B2' & _).
  exact (py_can_full_is s tgt t1 src t2 fixed t1' t2' R He G E1 B1' E2 B2').
Qed.
Print Assumptions C70_can_full_iff_lookup_full.
(** The stamp of the answer is within 119 ns of the time asked for (equal to it below 2^23 s). *)
Theorem C70_stamp_of_the_answer :
  forall (S : Scalar) (s : core S) tgt src t m, py_buffer year_2038 s -> 0 < t < year_2038 -> py_lookup s tgt src t = PyOk m ->
  tm_frame m = tgt /\ tm_child m = src /\ Z.abs (tm_stamp m - t) <= 119 /\ (t < 2 ^ 23 * 10 ^ 9 -> tm_stamp m = t).
Proof.
  intros S s tgt src t m H B L. destruct (buffer_soon s H) as (R & G & He). destruct (C70_lookup_is_the_cpp_lookup S s tgt src t H ltac:(lia)) as (t' & E & D & _ & L' & _).
  apply L' in L. destruct (lookup_header s tgt src t' m R L) as (F1 & F2 & F3 & _).
  assert (X : t < 2 ^ 23 * 10 ^ 9 -> t' = t) by (intros X; rewrite trip_exact in E by lia; injection E as ->; reflexivity).
  assert (N : t' <> 0) by (destruct (Z.lt_ge_cases t (2 ^ 23 * 10 ^ 9)); lia).
  rewrite (F3 N). auto.
Qed.
Print Assumptions C70_stamp_of_the_answer.
(** The stamp of "the latest" can be asked for again: the same transform comes back. *)
Theorem C70_latest_then_at_its_stamp :
  forall (S : Scalar) (s : core S) tgt src m, py_buffer time_bound s ->
  py_lookup s tgt src 0 = PyOk m -> py_lookup s tgt src (tm_stamp m) = PyOk m.
Proof. intros S s tgt src m. apply (py_repeat time_bound). unfold time_bound. lia. Qed.
Print Assumptions C70_latest_then_at_its_stamp.
(** get_latest_common_time: a value exactly when the frames are known and connected; that value
    is the stamp of the latest transform.  Other outcomes are exceptions of tf2. *)
Theorem C70_latest_common_time :
  forall (S : Scalar) (s : core S) tgt src, py_buffer year_2038 s ->
  returns_or_raises (py_latest s tgt src) /\
  (forall t, py_latest s tgt src = PyOk t <-> plain tgt /\ plain src /\ known s tgt /\ known s src /\ latest_common_time s tgt src = Ok (NO_ERROR, Some t)) /\
  (forall m, tgt <> src -> py_lookup s tgt src 0 = PyOk m -> py_latest s tgt src = PyOk (tm_stamp m)).
Proof.
  intros S s tgt src H. destruct (buffer_soon s H) as (R & G & He). destruct (py_latest_is s tgt src R G) as [A B]. split; [exact A|]. split; [exact B|].
  intros m Ne L. apply B. destruct (C70_lookup_is_the_cpp_lookup S s tgt src 0 H ltac:(unfold year_2038; lia)) as (t' & E & _ & _ & L' & _).
  rewrite trip_exact in E by lia. injection E as <-. apply L' in L. pose proof (reachable_wf s R) as W.
  destruct (lookup_ok_inv s tgt src 0 m W Ne L) as (P1 & K1 & P2 & K2 & _). destruct (lookup_header s tgt src 0 m R L) as (_ & _ & _ & F). auto 10.
Qed.
Print Assumptions C70_latest_common_time.
(** _chain: the C++ chain at the rounded times; so, with C35, the path through the tree. *)
Theorem C70_chain_is_the_cpp_chain :
  forall (S : Scalar) (s : core S) tgt t1 src t2 fixed, 0 <= t1 < year_2038 -> 0 <= t2 < year_2038 ->
  exists t1' t2', py_time t1 = Ok t1' /\ Z.abs (t1' - t1) <= 119 /\ py_time t2 = Ok t2' /\ Z.abs (t2' - t2) <= 119 /\
    (forall l, py_chain s tgt t1 src t2 fixed = PyOk l <-> chainAsVector s tgt t1' src t2' fixed = Ok l) /\
    (forall c e, c <> RuntimeError -> (py_chain s tgt t1 src t2 fixed = PyRaise c e <-> chainAsVector s tgt t1' src t2' fixed = Throw c e)).
Proof.
  intros S s tgt t1 src t2 fixed B1 B2. destruct (year_2038_ok t1 B1) as (t1' & E1 & B1' & D1). destruct (year_2038_ok t2 B2) as (t2' & E2 & B2' & D2).
  exists t1', t2'. do 4 (split; [assumption|]). unfold py_chain, arg_time. rewrite E1, E2. cbn [bare pbind].
  destruct (chainAsVector s tgt t1' src t2' fixed) as [l|c e|]; cbn [wrap].
  - split; [intros l'; split; congruence|intros c e _; split; discriminate].
  - split; [intros l'; destruct c; split; discriminate|intros c' e' N; destruct c; split; congruence].
  - split; [intros l'; split; discriminate|intros c' e' N; split; discriminate].
Qed.
Print Assumptions C70_chain_is_the_cpp_chain.
Theorem C70_chain_is_the_tree_path :
  forall (S : Scalar) (s : core S) target source t t' m l, py_buffer year_2038 s -> 0 <= t < year_2038 -> 0 <= t' < year_2038 ->
  target <> source -> py_lookup s target source t = PyOk m ->
  depth_ok s (tm_stamp m) source -> depth_ok s (tm_stamp m) target ->
  tree_path s (tm_stamp m) source target l -> ~ turns_at_parent s (tm_stamp m) source target ->
  py_chain s target t' source t target = PyOk l /\ py_chain s target t source t' source = PyOk l.
Proof.
  intros S s target source t t' m l H B B' Ne L Ds Dt P N. destruct (buffer_soon s H) as (R & _).
  destruct (C70_lookup_is_the_cpp_lookup S s target source t H B) as (r & E & _ & _ & L' & _). apply L' in L.
  split.
  - destruct (C70_chain_is_the_cpp_chain S s target t' source t target B' B) as (r' & r2 & _ & _ & E2 & _ & C & _).
    rewrite E in E2. injection E2 as <-. apply C. exact (proj1 (PropsChain.C35_chain_is_tree_path S s target source r r' m l R Ne L Ds Dt P N)).
  - destruct (C70_chain_is_the_cpp_chain S s target t source t' source B B') as (r2 & r' & E2 & _ & _ & _ & C & _).
    rewrite E in E2. injection E2 as <-. apply C. exact (proj2 (PropsChain.C35_chain_is_tree_path S s target source r r' m l R Ne L Ds Dt P N)).
Qed.
Print Assumptions C70_chain_is_the_tree_path.

(** A robot in 2020: map -> base at two times 50 ms apart, base -> laser static. *)
Definition pm (f c : string) (t : time) (x : Z) : tmsg D64 := msg f c t (v64 x 0 0) id64.
Definition py_prog : list (@py_op D64) :=
  [ PSet (pm "map" "base" 1600000000123456789 1) "node"; PSetStatic (pm "base" "laser" 1600000000000000000 3) "node";
    PSet (pm "map" "base" 1600000000173456789 2) "node"; PClear;
    PSet (pm "map" "base" 1600000000123456789 1) "node"; PSet (pm "map" "base" 1600000000173456789 2) "node" ].
Definition stamp_of (r : py (tmsg D64)) : option Z := match r with PyOk m => Some (tm_stamp m) | _ => None end.
Definition query_prog {A} (dflt : A) (ops : list (@py_op D64)) (q : core D64 -> A) : A :=
  match py_run (init_core (10 * 10 ^ 9)) ops with Some s => q s | None => dflt end.
Example C70_example :
  stamps_below year_2038 py_prog /\ (exists s, py_run (init_core (10 * 10 ^ 9)) py_prog = Some s /\ py_buffer year_2038 s) /\
  query_prog None py_prog (fun s => stamp_of (py_lookup s "map" "laser" 0)) = Some 1600000000173456907 /\
  query_prog None py_prog (fun s => stamp_of (py_lookup s "map" "laser" 1600000000123456789)) = Some 1600000000123456717 /\
  query_prog None py_prog (fun s => match py_lookup s "map" "ghost" 0 with PyRaise LookupException _ => Some tt | _ => None end) = Some tt.
Proof.
  assert (B : stamps_below year_2038 py_prog) by (repeat constructor; vm_compute; congruence).
  split; [exact B|]. split.
  - destruct (C70_python_buffer_is_the_cpp_buffer D64 (10 * 10 ^ 9) py_prog ltac:(unfold dur_bound; lia) B) as (s & _ & E & _). exists s. split; [exact E|].
    exists (10 * 10 ^ 9), py_prog. split; [unfold dur_bound; lia|]. auto.
  - split; [vmr|]. split; vmr.
Qed.
Example C70_chain_example :
  query_prog None py_prog (fun s => match py_chain s "map" 1600000000123456789 "laser" 1600000000123456789 "map" with PyOk l => Some l | _ => None end)
    = Some ["laser"; "base"; "map"] /\
  query_prog None py_prog (fun s => match py_chain s "laser" 1600000000123456789 "map" 1600000000123456789 "laser" with PyOk l => Some l | _ => None end)
    = Some ["map"; "base"; "laser"].
Proof. split; vmr. Qed.

(** What a C++ user gets and a Python user does not.  set_transform says nothing about a refused
    transform, and two stamps that coincide after the trip are one sample: the second transform is
    dropped and a lookup at its own stamp gives the first one. *)
Definition twins : list (@py_op D64) := [ PSet (pm "map" "base" 1600000000000000000 1) "a"; PSet (pm "map" "base" 1600000000000000050 2) "a" ].
Theorem C70_second_of_two_close_transforms_is_lost_refuted :
  stamps_below year_2038 twins /\
  query_prog None twins (fun s => match py_lookup s "map" "base" 1600000000000000050 with
    | PyOk m => Some (tm_stamp m, SFcompare (vx (tm_trans m)) (f64_of_Z 1)) | _ => None end) = Some (1600000000000000000, Some Datatypes.Eq).
Proof. split; [repeat constructor; vm_compute; congruence|vmr]. Qed.
Print Assumptions C70_second_of_two_close_transforms_is_lost_refuted.
(** From 2^31 s on the interpreter dies: of the null pointer in place of the stamp, or of the C++
    exception fromSec throws, or of the std::runtime_error of can_transform or lookup_transform
    (transforms of 1970, asked for in 2038). *)
Definition late (t : time) : list (@py_op D64) := [ PSet (pm "map" "base" t 1) "a" ].
Definition past : list (@py_op D64) := [ PSet (pm "q" "p" 1 0) "a"; PSet (pm "q" "p" 2 0) "a"; PSetStatic (pm "p" "x" 0 1) "a"; PSetStatic (pm "p" "y" 0 2) "a" ].
Theorem C70_crash_from_2038_refuted :
  stamps_below time_bound (late (2 ^ 31 * 10 ^ 9)) /\
  query_prog None (late (2 ^ 31 * 10 ^ 9)) (fun s => match py_lookup s "map" "base" 0 with PyCrash => Some tt | _ => None end) = Some tt /\
  query_prog None (late (2 ^ 31 * 10 ^ 9)) (fun s => match py_latest s "map" "base" with PyTypeError => Some tt | _ => None end) = Some tt /\
  query_prog None (late 1) (fun s => match py_can s "map" "base" (time_bound - 1) with PyAbort => Some tt | _ => None end) = Some tt /\
  stamps_below year_2038 past /\
  query_prog None past (fun s => match py_can s "x" "y" (2 ^ 31 * 10 ^ 9 + 1000) with PyAbort => Some tt | _ => None end) = Some tt /\
  query_prog None past (fun s => match py_lookup s "x" "y" (2 ^ 31 * 10 ^ 9 + 1000) with PyAbort => Some tt | _ => None end) = Some tt.
Proof.
  split; [repeat constructor; vm_compute; congruence|]. split; [vmr|]. split; [vmr|]. split; [vmr|].
  split; [repeat constructor; vm_compute; congruence|]. split; vmr.
Qed.
Print Assumptions C70_crash_from_2038_refuted.
