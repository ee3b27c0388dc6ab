(** * Specification vocabulary for the message filter *)
From Coq Require Import ZArith Bool List String.
From Verif Require Import RosTime Scalar LinearMath Cache BufferCore SpecCore Requests SpecRequests MessageFilter.
Import ListNotations.
Open Scope Z_scope.

(** What can happen to a filter and the buffer it uses. *)
Inductive mf_op (S : Scalar) :=
| MAdd (frame : string) (stamp : time)
| MSetTargets (targets : list string)
| MSetTolerance (tol : duration)
| MSetQueueSize (n : nat)
| MClear
| MSpin                                              (* the node runs one queued callback *)
| MTransform (m : tmsg S) (authority : string) (is_static : bool)
    (read : nat -> transformable_result)             (* what callbacks read through their result argument *)
| MOther (o : req_op S).                             (* another client of the same buffer *)
Arguments MAdd {S} frame stamp.
Arguments MSetTargets {S} targets.
Arguments MSetTolerance {S} tol.
Arguments MSetQueueSize {S} n.
Arguments MClear {S}.
Arguments MSpin {S}.
Arguments MTransform {S} m authority is_static read.
Arguments MOther {S} o.

Section Spec.
Context {S : Scalar}.
Notation filt := (filt S).

(** Other clients keep to their own callbacks and requests. *)
Definition polite (f : filt) (o : req_op S) : bool :=
  match o with
  | RSet _ _ _ => false                              (* that is MTransform *)
  | RClear | RAddCallback => true
  | RRemoveCallback cb | RAddRequest cb _ _ _ => negb (cb =? f_cb f)
  | RCancel h => negb (existsb (fun r => (rq_cb r =? f_cb f) && (rq_handle r =? h mod uint32)) (b_reqs (f_buf f)))
  end.
Definition mf_step (f : filt) (o : mf_op S) : filt :=
  match o with
  | MAdd frame stamp => fst (mf_add f frame stamp)
  | MSetTargets l => setTargetFrames f l
  | MSetTolerance d => setTolerance f d
  | MSetQueueSize n => setQueueSize f n
  | MClear => mf_clear f
  | MSpin => mf_spin f
  | MTransform m a st read => fst (mf_set_transform f m a st read)
  | MOther o => if polite f o then with_buf f (fst (fst (req_step (f_buf f) o))) else f
  end.
Fixpoint mf_run (f : filt) (ops : list (mf_op S)) : filt :=
  match ops with [] => f | o :: ops' => mf_run (mf_step f o) ops' end.

(** Some history, starting with the construction of the filter on a buffer in any state. *)
Definition mf_reachable (f : filt) : Prop :=
  exists b target q cbq f0 ops, new_filter b target q cbq = Some f0 /\ f = mf_run f0 ops.

(** The transforms a message needs. *)
Definition needed_times (tol : duration) (stamp : time) (t : time) : Prop := t = stamp \/ (tol <> 0 /\ time_add stamp tol = Some t).
Definition transformable_now (s : core S) (targets : list string) (tol : duration) (frame : string) (stamp : time) : Prop :=
  forall tgt, In tgt targets ->
    (tgt = frame \/ available s tgt frame stamp = true) /\
    (tol <> 0 -> exists t, time_add stamp tol = Some t /\ (tgt = frame \/ available s tgt frame t = true)).

(** An accepted transform whose callbacks read the result that was decided for them. *)
Definition accepted (f : filt) (m : tmsg S) (authority : string) (is_static : bool) (read : nat -> transformable_result) : Prop :=
  snd (setTransform (b_core (f_buf f)) m authority is_static) = Ok true /\
  forall v evs k e, snd (set_transform (f_buf f) m authority is_static) = Ok (v, evs) -> nth_error evs k = Some e -> read k = ev_result e.

(** The verdicts a step adds. *)
Definition new_verdicts (f f' : filt) (l : list output) : Prop := f_emitted f' = f_emitted f ++ l.

(** Histories in which (a) frames and tolerance are changed only while no message is queued,
    (b) all times stay in range: message stamp + largest tolerance [T] + cache time is a
    ros::Time, and (c) fewer than 2^32 requests are made and callbacks registered. *)
Definition calm_op (T : duration) (f : filt) (o : mf_op S) : Prop :=
  match o with
  | MAdd _ stamp => 0 <= stamp /\ stamp + T + c_cache_time (b_core (f_buf f)) < time_bound
  | MSetTargets l => f_msgs f = [] /\ Z.of_nat (List.length l) < 2 ^ 16
  | MSetTolerance d => f_msgs f = [] /\ 0 <= d <= T
  | MTransform m _ _ _ => valid_time (tm_stamp m)
  | MOther o => req_op_ok o /\ match o with RAddRequest _ _ _ t => t + c_cache_time (b_core (f_buf f)) < time_bound | _ => True end
  | MSetQueueSize _ | MClear | MSpin => True
  end.
Inductive calm (T : duration) : filt -> Prop :=
| calm_new : forall b target q cbq f, 0 <= T -> req_reachable b -> times_in_range b -> b_rq_counter b < 2 ^ 32 ->
    Z.of_nat (List.length (b_cbs b)) < 2 ^ 32 - 1 ->
    new_filter b target q cbq = Some f -> calm T f
| calm_step : forall f o, calm T f -> calm_op T f o -> b_rq_counter (f_buf (mf_step f o)) < 2 ^ 32 ->
    Z.of_nat (List.length (b_cbs (f_buf (mf_step f o)))) < 2 ^ 32 -> calm T (mf_step f o).

(** queue sizes stay between 1 and [Q] *)
Definition sizes_within (Q : nat) (o : mf_op S) : Prop := match o with MSetQueueSize n => (0 < n <= Q)%nat | _ => True end.
(** the filter's own record of what was added *)
Definition added_by (o : mf_op S) : list (string * time) := match o with MAdd frame stamp => [(frame, stamp)] | _ => [] end.
End Spec.
