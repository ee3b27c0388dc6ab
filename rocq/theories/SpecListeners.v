(** * Specification vocabulary for the lifetime of transform listeners (C88) *)
From Coq Require Import ZArith Bool List String.
From Verif Require Import RosTime Scalar LinearMath Cache BufferCore SpecCore Requests SpecRequests TfTopics SpecTopics Listeners.
Import ListNotations.
Open Scope Z_scope.

Section Spec.
Context {S : Scalar}.
Notation tmsg := (tmsg S).
Notation arrival := (arrival S).
Notation note := (note S).
Notation proc_op := (proc_op S).

(** The buffer calls in a log *)
Definition calls_in (log : list note) : list (core_op S) :=
  flat_map (fun x => match x with Took _ _ => [] | Cleared _ => [OClear] | Put _ m who st => [OSet m who st] end) log.
(** What listener [k] did, and the messages it took, in order *)
Definition by_listener (k : nat) (log : list note) : list note :=
  filter (fun x => match x with Took j _ | Cleared j | Put j _ _ _ => Nat.eqb j k end) log.
Definition taken (k : nat) (log : list note) : list arrival :=
  flat_map (fun x => match x with Took j a => if Nat.eqb j k then [a] else [] | _ => [] end) log.
(** What a listener owes for the messages it has taken, given the clock at the one before: clear the
    buffer if the clock went back, then set each transform *)
Fixpoint owed_notes (k : nat) (last : time) (h : list arrival) : list note :=
  match h with
  | [] => []
  | a :: h' => Took k a :: (if a_now a <? last then [Cleared k] else []) ++ map (fun m => Put k m (a_who a) (a_static a)) (a_msg a) ++ owed_notes k (a_now a) h'
  end.
(** The messages roscpp queued for listener [k] *)
Definition queued_for (k : nat) (ops : list proc_op) : list (string * bool * list tmsg) :=
  flat_map (fun o => match o with Arrive j who st msg => if Nat.eqb j k then [(who, st, msg)] else [] | _ => [] end) ops.
Definition no_loss (k : nat) (ops : list proc_op) : Prop := forall i, ~ In (Lose k i) ops.
Inductive subsequence {A} : list A -> list A -> Prop :=
| sub_nil : forall l, subsequence [] l
| sub_take : forall x l l', subsequence l l' -> subsequence (x :: l) (x :: l')
| sub_skip : forall x l l', subsequence l l' -> subsequence l (x :: l').
Definition message_of (a : arrival) : string * bool * list tmsg := (a_who a, a_static a, a_msg a).

(** All stamps in range; clock readings are ros::Time values less than 68 years apart *)
Definition clocks (ops : list proc_op) : list time :=
  flat_map (fun o => match o with Step _ now | Spin _ now => [now] | _ => [] end) ops.
Definition calm (ct : duration) (ops : list proc_op) : Prop :=
  (forall k who st msg m, In (Arrive k who st msg) ops -> In m msg -> in_range ct m) /\
  (forall t, In t (clocks ops) -> valid_time t) /\
  (forall t t', In t (clocks ops) -> In t' (clocks ops) -> t - t' < dur_bound).

(** Whether the buffer lets queries wait: what the last construction of a listener with a thread, or
    the last setUsingDedicatedThread(), said *)
Definition waits_allowed (ops : list proc_op) : bool :=
  fold_left (fun b o => match o with NewListener true => true | SetUsingDedicatedThread v => v | _ => b end) ops false.

(** How often listener [k]'s thread got to run *)
Definition turns (k : nat) (ops : list proc_op) : nat :=
  List.length (filter (fun o => match o with Step j _ => Nat.eqb j k | _ => false end) ops).

(** Transforms put into the buffer *)
Definition put_in (log : list note) (m : tmsg) (st : bool) : Prop := exists k who, In (Put k m who st) log.
Definition same_puts (log log' : list note) : Prop := forall m st, ~ malformed m -> (put_in log m st <-> put_in log' m st).
Definition consistent (log : list note) : Prop :=
  forall m st m' st', put_in log m st -> put_in log m' st' -> ~ malformed m -> ~ malformed m' ->
  stripSlash (tm_child m) = stripSlash (tm_child m') ->
  st = st' /\ (st = true \/ tm_stamp m = tm_stamp m' -> strip_msg m = strip_msg m').
(** The destructor of listener [k] has returned. *)
Definition destroyed (p : process S) (k : nat) : Prop := nth_error (p_slots p) k = Some Gone.
(** Listener [k] has a thread of its own, whose destructor has not returned. *)
Definition threaded (p : process S) (k : nat) : Prop := exists v, nth_error (p_slots p) k = Some (Alive v) /\ v_where v <> NoThread.
(** No callback of listener [k] is under way. *)
Definition between_callbacks (p : process S) (k : nat) : Prop := forall v, nth_error (p_slots p) k = Some (Alive v) -> v_work v = None.
(** The messages waiting for listener [k] *)
Definition waiting (p : process S) (k : nat) : list (string * bool * list tmsg) := match nth_error (p_slots p) k with Some (Alive v) => v_queue v | _ => [] end.
(** No listener has seen the clock jump back. *)
Definition steady_clocks (log : list note) : Prop := forall k, ~ goes_back 0 (taken k log).
End Spec.
