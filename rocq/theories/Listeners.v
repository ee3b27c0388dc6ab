(** * The lifetime of TransformListeners, and several on one buffer

    tf2_ros/src/transform_listener.cpp and transform_listener.h: construction with and without a
    thread of its own, the thread's loop, the destructor; the callback of TfTopics.v split where other
    threads can get in between (each setTransform and clear() locks the buffer).
    Simplifications: the buffer is the BufferCore of BufferCore.v and no transformable requests are made
    on it; roscpp's subscription queues are lists of messages from which any message may get lost (they
    hold 100 per topic); callAvailable() handles as many messages as were queued when it was called;
    a listener without thread is served by a thread of the user's, one message at a time, and roscpp ends the service
    before the destructor of the subscriber returns; an exception that leaves a listener's thread ends the process. *)
From Coq Require Import ZArith Bool List String.
From Verif Require Import RosTime Scalar LinearMath Cache BufferCore SpecCore Requests SpecRequests TfTopics SpecTopics.
Import ListNotations.
Open Scope Z_scope.

Section Listeners.
Context {S : Scalar}.
Notation tmsg := (tmsg S).
Notation tfmessage := (tfmessage S).
Notation core := (core S).
Notation arrival := (arrival S).

(** Where a listener's thread is in dedicatedListenerThread(), transform_listener.h 81-87 *)
Inductive where_ :=
| NoThread                  (* constructed with spin_thread = false *)
| Testing                   (* about to evaluate the loop condition *)
| Calling (left : nat)      (* in callAvailable(), with so many callbacks to go *)
| Exited.

(** transform_listener.h 70-79; [v_work] is the callback being run: what is left of its message *)
Record live := mkLive {
  v_run : bool;                                        (* using_dedicated_thread_ *)
  v_where : where_;
  v_last : time;                                       (* last_update_ *)
  v_queue : list (string * bool * tfmessage);
  v_work : option (string * bool * list tmsg)
}.
Inductive slot := Alive (v : live) | Gone.

(** What can be seen from outside: a message is taken from a queue (with the clock reading), a clear(),
    a setTransform() *)
Inductive note := Took (k : nat) (a : arrival) | Cleared (k : nat) | Put (k : nat) (m : tmsg) (who : string) (st : bool).

Record process := mkProc {
  p_core : core;
  p_waits : bool;                (* the buffer's using_dedicated_thread_, buffer_core.h 243-245 *)
  p_slots : list slot;
  p_log : list note;             (* oldest first *)
  p_crashed : bool
}.
(** buffer_core.cpp 170-178 *)
Definition init_process (ct : duration) : process := mkProc (init_core ct) false [] [] false.

Inductive proc_op :=
| NewListener (spin_thread : bool)                     (* constructor, 38-58 *)
| Arrive (k : nat) (who : string) (st : bool) (msg : tfmessage)  (* roscpp queues a message for listener k *)
| Lose (k i : nat)                                     (* roscpp drops the i-th message in its queue *)
| Step (k : nat) (now : time)                          (* listener k's own thread goes on *)
| Spin (k : nat) (now : time)                          (* the user's thread serves listener k *)
| BeginDestroy (k : nat)                               (* 61-63 *)
| EndDestroy (k : nat)                                 (* 64-69: join() returns, or there is no thread *)
| SetUsingDedicatedThread (v : bool).                  (* buffer_core.h 243 *)

Fixpoint set_slot (l : list slot) (k : nat) (x : slot) : list slot :=
  match l, k with
  | [], _ => []
  | _ :: l', O => x :: l'
  | y :: l', Datatypes.S k' => y :: set_slot l' k' x
  end.
Definition drop_nth {A} (i : nat) (l : list A) : list A := firstn i l ++ skipn (Datatypes.S i) l.

(** A callback is over *)
Definition called_back (v : live) : live :=
  mkLive (v_run v) (match v_where v with Calling (Datatypes.S n) => Calling n | w => w end) (v_last v) (v_queue v) None.

(** One atomic piece of transform_listener.cpp 95-131, by listener [k]: take a message, compare clocks, clear the buffer
    and remember the clock (106-112); or one setTransform (119-130).  Results: buffer, listener, log, whether an
    exception leaves the callback. *)
Definition work_step (warn : bool) (s : core) (k : nat) (v : live) (now : time) : core * live * list note * bool :=
  match v_work v with
  | Some (who, st, m :: ms) =>
      let '(s', r) := setTransform s m who st in
      match r with
      | Throw RuntimeError _ | UB => (s', called_back v, [Put k m who st], true)
      | _ => (s', mkLive (v_run v) (v_where v) (v_last v) (v_queue v) (Some (who, st, ms)), [Put k m who st], false)
      end
  | Some (_, _, []) => (s, called_back v, [], false)
  | None =>
      match v_queue v with
      | [] => (s, called_back v, [], false)
      | (who, st, msg) :: q =>
          let a := Took k (mkArrival now who st msg) in
          let v' := mkLive (v_run v) (v_where v) (v_last v) q None in
          let jump := now <? v_last v in
          match (if jump && warn then lift_time (time_sub (v_last v) now) else Ok 0) with
          | Ok _ => ((if jump then clear s else s), mkLive (v_run v) (v_where v) now q (Some (who, st, msg)), a :: (if jump then [Cleared k] else []), false)
          | _ => (s, called_back v', [a], true)
          end
      end
  end.

Definition put_slot (p : process) (k : nat) (v : live) : process := mkProc (p_core p) (p_waits p) (set_slot (p_slots p) k (Alive v)) (p_log p) (p_crashed p).
Definition worked (warn : bool) (p : process) (k : nat) (v : live) (now : time) (own : bool) : process :=
  let '(s, v', notes, out) := work_step warn (p_core p) k v now in
  mkProc s (p_waits p) (set_slot (p_slots p) k (Alive v')) (p_log p ++ notes) (out && own).

Definition proc_step (warn : bool) (p : process) (o : proc_op) : process :=
  if p_crashed p then p else
  match o with
  | NewListener spin =>
      mkProc (p_core p) (if spin then true else p_waits p)
        (p_slots p ++ [Alive (mkLive spin (if spin then Testing else NoThread) 0 [] None)]) (p_log p) false
  | SetUsingDedicatedThread v => mkProc (p_core p) v (p_slots p) (p_log p) false
  | Arrive k who st msg =>
      match nth_error (p_slots p) k with
      | Some (Alive v) => put_slot p k (mkLive (v_run v) (v_where v) (v_last v) (v_queue v ++ [(who, st, msg)]) (v_work v))
      | _ => p
      end
  | Lose k i =>
      match nth_error (p_slots p) k with
      | Some (Alive v) => put_slot p k (mkLive (v_run v) (v_where v) (v_last v) (drop_nth i (v_queue v)) (v_work v))
      | _ => p
      end
  | Step k now =>
      match nth_error (p_slots p) k with
      | Some (Alive v) =>
          match v_where v with
          | Testing => put_slot p k (mkLive (v_run v) (if v_run v then Calling (List.length (v_queue v)) else Exited) (v_last v) (v_queue v) (v_work v))
          | Calling O => put_slot p k (mkLive (v_run v) Testing (v_last v) (v_queue v) (v_work v))
          | Calling (Datatypes.S _) => worked warn p k v now true
          | NoThread | Exited => p
          end
      | _ => p
      end
  | Spin k now =>
      match nth_error (p_slots p) k with
      | Some (Alive v) => match v_where v with NoThread => worked warn p k v now false | _ => p end
      | _ => p
      end
  | BeginDestroy k =>
      match nth_error (p_slots p) k with
      | Some (Alive v) => put_slot p k (mkLive false (v_where v) (v_last v) (v_queue v) (v_work v))
      | _ => p
      end
  | EndDestroy k =>
      match nth_error (p_slots p) k with
      | Some (Alive v) =>
          match v_where v, v_work v with
          | NoThread, None | Exited, _ => if v_run v then p else mkProc (p_core p) (p_waits p) (set_slot (p_slots p) k Gone) (p_log p) false
          | _, _ => p
          end
      | _ => p
      end
  end.
Definition proc_run (warn : bool) (ct : duration) (ops : list proc_op) : process := fold_left (proc_step warn) ops (init_process ct).
End Listeners.
Arguments process : clear implicits.
Arguments proc_op : clear implicits.
Arguments note : clear implicits.
Arguments live : clear implicits.
Arguments slot : clear implicits.
