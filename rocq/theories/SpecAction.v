(** * Specification vocabulary for BufferServer and BufferClient *)
From Coq Require Import ZArith Bool List String.
From Verif Require Import RosTime Scalar LinearMath Cache BufferCore SpecCore TfBuffer SpecWait TfAction.
Import ListNotations.
Open Scope Z_scope.

(** The question a goal message asks. *)
Definition goal_question (g : goal) : question :=
  if g_advanced g then Advanced (g_target g) (g_target_time g) (g_source g) (g_source_time g) (g_fixed g)
  else Simple (g_target g) (g_source g) (g_source_time g).

Section Spec.
Context {S : Scalar}.

(** Everything that can happen to a server, in any order. *)
Inductive server_op :=
| SGoal (g : goal) (now0 : time) (o : sight S)   (* a goal arrives: goalCB up to the lock *)
| SPush (id : nat)                               (* the rest of goalCB for goal [id] *)
| SCancel (id : nat)                             (* a cancel request for goal [id] *)
| STick (sights : nat -> sight S).               (* the timer fires *)
Definition server_step (sv : server) (o : server_op) : server * list (action_event S) * res unit :=
  match o with
  | SGoal g now0 o => goalCB_begin sv g now0 o
  | SPush id => goalCB_push sv id
  | SCancel id => cancelCB sv id
  | STick sights => checkTransforms sv sights
  end.
(** A run, with what every step reported and whether an exception escaped from it. *)
Definition log_entry : Type := server_op * list (action_event S) * res unit.
Fixpoint server_run (sv : server) (ops : list server_op) : server * list log_entry :=
  match ops with
  | [] => (sv, [])
  | o :: ops' => let '(sv', evs, x) := server_step sv o in
                 let '(sv'', log) := server_run sv' ops' in (sv'', (o, evs, x) :: log)
  end.
Definition events_in (log : list log_entry) : list (action_event S) := flat_map (fun e => snd (fst e)) log.

Definition accepts (id : nat) (e : action_event S) : bool := match e with Accepted i => Nat.eqb i id | _ => false end.
Definition finishes (id : nat) (e : action_event S) : bool :=
  match e with Succeeded i _ => Nat.eqb i id | Canceled i => Nat.eqb i id | _ => false end.
(** how often goal [id] was accepted; finished; is waiting in the server; died with its goalCB *)
Definition times_accepted (id : nat) (log : list log_entry) : nat := List.length (filter (accepts id) (events_in log)).
Definition times_finished (id : nat) (log : list log_entry) : nat := List.length (filter (finishes id) (events_in log)).
Definition holds (id : nat) (x : goal * time) : bool := Nat.eqb (g_id (fst x)) id.
Definition waiting (id : nat) (sv : server) : nat :=
  List.length (filter (holds id) (s_active sv)) + List.length (filter (holds id) (s_starting sv)).
Definition died (id : nat) (e : log_entry) : bool :=
  match e with
  | (SGoal g _ _, _, Ok _) => false
  | (SGoal g _ _, _, _) => Nat.eqb (g_id g) id
  | _ => false
  end.
Definition times_died (id : nat) (log : list log_entry) : nat := List.length (filter (died id) log).

(** goal identities are distinct (actionlib's guarantee) *)
Definition goal_ids (ops : list server_op) : list nat :=
  flat_map (fun o => match o with SGoal g _ _ => [g_id g] | _ => [] end) ops.

(** the goal is to be answered: the transform can be computed, or its deadline is past *)
Definition due (g : goal) (end_time : time) (o : sight S) : Prop :=
  can (goal_question g) (v_can o) None = Ok (true, None) \/ end_time < v_now o.

(** A blank geometry_msgs/TransformStamped: zero stamp, empty frame names, zero numbers. *)
Definition blank (m : tmsg S) : Prop :=
  tm_stamp m = 0 /\ tm_frame m = EmptyString /\ tm_child m = EmptyString /\
  tm_trans m = V3 szero szero szero /\ tm_rot m = Q4 szero szero szero szero.

(** The answer the client of a local buffer would get, as a result message: error code and text,
    and no transform, iff the lookup throws. *)
Definition answers (r : result S) (looked_up : res (tmsg S)) : Prop :=
  match looked_up with
  | Ok m => r_error r = 0 /\ r_transform r = m
  | Throw c e => r_error r <> 0 /\ r_string r = e /\
      r_error r = match c with
                  | LookupException => 1 | ConnectivityException => 2 | ExtrapolationException => 3
                  | InvalidArgumentException => 4 | TimeoutException => 5 | TransformException => 6
                  | RuntimeError => 7 end /\ c <> RuntimeError /\ blank (r_transform r)
  | UB => False
  end.

(** buffers in use, sampled and asked below 2^31 s *)
Definition good_sight (o : sight S) : Prop :=
  reachable (v_can o) /\ reachable (v_lookup o) /\ early (v_can o) /\ early (v_lookup o).
Definition op_in_range (o : server_op) : Prop :=
  match o with
  | SGoal g now0 o => good_sight o /\ times_early (goal_question g) /\ valid_time (now0 + g_timeout g)
  | STick sights => forall k, good_sight (sights k)
  | _ => True
  end.

(** The client's two ways of asking, for the same question. *)
Definition client_lookup id padding answer (u : question) timeout : res (tmsg S) :=
  match u with
  | Simple tgt src t => client_lookupTransform id padding answer tgt src t timeout
  | Advanced tgt t1 src t2 fix_ => client_lookupTransformFixed id padding answer tgt t1 src t2 fix_ timeout
  end.
Definition client_can id padding answer (u : question) timeout errstr : res (bool * errp) :=
  match u with
  | Simple tgt src t => client_canTransform (S:=S) id padding answer tgt src t timeout errstr
  | Advanced tgt t1 src t2 fix_ => client_canTransformFixed id padding answer tgt t1 src t2 fix_ timeout errstr
  end.
(** The goal message the client sends. *)
Definition client_goal (id : nat) (u : question) (timeout : duration) : goal :=
  match u with
  | Simple tgt src t => simple_goal id tgt src t timeout
  | Advanced tgt t1 src t2 f => advanced_goal id tgt t1 src t2 f timeout
  end.
(** the buffers a step of the server looked transforms up in *)
Definition looked_in (o : server_op) (c : core S) : Prop :=
  match o with SGoal _ _ o => c = v_lookup o | STick sights => exists n, c = v_lookup (sights n) | _ => False end.
(** successful replies come from the server: it got that very goal and reported that result *)
Definition served (ops : list server_op) (log : list log_entry) (answer : goal -> reply S) : Prop :=
  forall g r, answer g = Success r -> (exists now0 o, In (SGoal g now0 o) ops) /\ In (Succeeded (g_id g) r) (events_in log).
End Spec.
