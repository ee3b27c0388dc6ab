(** * Specification vocabulary for broadcasters and listeners *)
From Coq Require Import ZArith Bool List String.
From Verif Require Import RosTime Scalar LinearMath Cache BufferCore SpecCore Requests SpecRequests TfTopics.
Import ListNotations.
Open Scope Z_scope.

Section Spec.
Context {S : Scalar}.

(** [m] is the most recent of the transforms [sent] for its child frame. *)
Definition latest_for_child (sent : list (tmsg S)) (m : tmsg S) : Prop :=
  exists before after, sent = before ++ m :: after /\
    forall m', In m' after -> tm_child m' <> tm_child m.

(** What receiving published messages on /tf_static does to a buffer. *)
Definition receive_static (published : list (tfmessage S)) : list (core_op S) :=
  flat_map (map (fun m => OSet m "publisher" true)) published.

(** One message as a TransformListener sees it: clock reading, publisher, topic, transforms. *)
Record arrival := mkArrival { a_now : time; a_who : string; a_static : bool; a_msg : list (tmsg S) }.

(** The API calls a listener owes for one arrival, given the clock at the previous one. *)
Definition calls_for (last : time) (a : arrival) : list (req_op S) :=
  (if a_now a <? last then [RClear] else []) ++ map (fun m => RSet m (a_who a) (a_static a)) (a_msg a).
Fixpoint calls_for_all (last : time) (h : list arrival) : list (req_op S) :=
  match h with [] => [] | a :: h' => calls_for last a ++ calls_for_all (a_now a) h' end.

Definition listen (warn : bool) (l : listener S) (a : arrival) : listener S * list event * res unit :=
  subscription_callback warn l (a_now a) (a_msg a) (a_who a) (a_static a).
(** A sequence of arrivals; an escaping exception ends it. *)
Fixpoint listen_all (warn : bool) (l : listener S) (h : list arrival) : listener S * list event * res unit :=
  match h with
  | [] => (l, [], Ok tt)
  | a :: h' =>
      let '(l', evs, r) := listen warn l a in
      match r with
      | Ok _ => let '(l'', evs', r') := listen_all warn l' h' in (l'', evs ++ evs', r')
      | _ => (l', evs, r)
      end
  end.

(** The clock readings go back between two consecutive arrivals, or between [last] and the first. *)
Fixpoint goes_back (last : time) (h : list arrival) : Prop :=
  match h with [] => False | a :: h' => a_now a < last \/ goes_back (a_now a) h' end.
Definition last_clock (last : time) (h : list arrival) : time := fold_left (fun _ a => a_now a) h last.

(** Every backward jump of the clock is shorter than 2^31 s (68 years). *)
Fixpoint short_jumps (last : time) (h : list arrival) : Prop :=
  match h with [] => True | a :: h' => last - a_now a < dur_bound /\ short_jumps (a_now a) h' end.

(** Stamps for which setTransform stays inside ros::Time's range with storage time [ct]. *)
Definition in_range (ct : duration) (m : tmsg S) : Prop :=
  valid_time (tm_stamp m) /\ valid_time (tm_stamp m + ct).
Definition arrival_ok (ct : duration) (a : arrival) : Prop :=
  valid_time (a_now a) /\ Forall (in_range ct) (a_msg a).
End Spec.
Arguments arrival : clear implicits.
