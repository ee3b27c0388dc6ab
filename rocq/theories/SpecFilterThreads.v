(** * Specification vocabulary for the message filter with threads *)
From Coq Require Import ZArith Bool List String.
From Verif Require Import RosTime Scalar LinearMath Cache BufferCore Requests SpecRequests MessageFilter SpecFilter FilterThreads.
Import ListNotations.
Open Scope Z_scope.

(** the message a thread inside add() is working on *)
Definition in_hands (th : thread) : list minfo :=
  match th with
  | AddCopy i | AddAsk i _ _ _ | AddStore i _ _ _ _ | AddDecide i | AddQueue i => [i]
  | _ => []
  end.

Section Spec.
Context {S : Scalar}.

(** a filter just constructed on a buffer in any state, and then any schedule of any calls *)
Definition ft_reachable (z : fstate S) : Prop :=
  exists b target q z0 ops, new_threaded b target q = Some z0 /\ z = frun z0 ops.

(** the messages given to add() in a schedule *)
Definition adds_of (ops : list (faction S)) : list (string * time) :=
  flat_map (fun a => match a with FAdd frame stamp => [(frame, stamp)] | _ => [] end) ops.

(** no call is in progress *)
Definition quiet (z : fstate S) : Prop := forall th, In th (z_threads z) -> th = Gone.

(** the frames and the tolerance are left alone *)
Definition not_reconfiguring (a : faction S) : Prop := match a with FSetTargets _ | FSetTolerance _ => False | _ => True end.
(** only calls already begun go on *)
Definition only_goes (a : faction S) : Prop := match a with FGo _ _ => True | _ => False end.
Definition queue_size_within (Q : nat) (a : faction S) : Prop := match a with FSetQueueSize n => (0 < n <= Q)%nat | _ => True end.

(** the transform can be had at this moment (of a frame to itself it always can) *)
Definition could_use (z : fstate S) (tgt src : string) (t : time) : Prop :=
  tgt = src \/ available (b_core (z_buf z)) tgt src t = true.

(** [z] is a moment between the call of add() for message [k] and the verdict on it *)
Definition being_handled (z : fstate S) (k : nat) : Prop :=
  (k < List.length (z_added z))%nat /\ ~ In k (map o_seq (z_emitted z)).

(** nothing but thread [n] runs *)
Definition goes (n : nat) (ops : list (faction S)) : Prop := Forall (fun a => exists r, a = FGo n r) ops.
(** the state as MessageFilter.v describes it (no callback queue) *)
Definition abs (z : fstate S) : filt S :=
  {| f_buf := z_buf z; f_cb := z_cb z; f_targets := z_targets z; f_tol := z_tol z; f_expected := z_expected z; f_qsize := z_qsize z;
     f_msgs := z_msgs z; f_cbq := false; f_outbox := []; f_delivered := z_emitted z; f_added := z_added z; f_emitted := z_emitted z |}.
End Spec.
