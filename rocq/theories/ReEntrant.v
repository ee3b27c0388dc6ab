(** * tf2::BufferCore: user code called from inside setTransform, and the transforms-changed signal

    Model of tf2/src/buffer_core.cpp 202-287 and 1411-1491 with the user code they call: the request
    callbacks (1484-1487) and the listeners of _transforms_changed_ (1490; connected and disconnected
    at 1354-1365).  No lock is held while user code runs (lock.unlock() at 1482; the scoped locks of
    setTransform and of the callback table have ended), so it may make any public call, setTransform
    included: the calls nest.
    Simplifications: one thread (several threads: C34, C80, C82); user code is any function of what
    has happened so far to a list of public calls; it does not catch exceptions, so an exception ends
    everything up to the outermost call; boost::signals2 calls the listeners connected when the signal
    was raised, in the order they were connected, except those disconnected before their turn; a callback
    that removes itself does not use its own bound state afterwards. *)
From Coq Require Import ZArith Bool List String.
From Verif Require Import RosTime Scalar LinearMath Cache BufferCore Requests SpecRequests.
Import ListNotations.
Open Scope Z_scope.

Section ReEntrant.
Context {S : Scalar}.
Notation buf := (buf S).
Notation req_op := (req_op S).

(** Whose code runs: a request callback with its arguments, or a listener *)
Inductive who := ByRequest (e : event) (d : delivery) | ByChange (l : nat).
(** What code does: a public call, connecting a listener (1354-1358), disconnecting one (1361-1365),
    throwing *)
Inductive act := Call (o : req_op) | Listen | Unlisten (l : nat) | Raise.
(** What is still to be done, in the order it will be *)
Inductive todo := Act (a : act) | Deliver (e : event) | Signal | Tell (l : nat).
(** What has happened *)
Inductive item :=
| Called (o : req_op) (a : answer) (evs : list event)   (* a public call, its answer, the notifications it will make *)
| Notified (e : event) (d : delivery)                   (* a request callback is called *)
| Signalled (ls : list nat)                             (* _transforms_changed_(), with the listeners connected *)
| Changed (l : nat)                                     (* a listener is called *)
| Listened (l : nat)
| Unlistened (l : nat)
| Raised.

Record world := mkWorld {
  w_buf : buf;
  w_listeners : list nat;
  w_next : nat;               (* the next connection *)
  w_stack : list todo;
  w_log : list item;          (* oldest first *)
  w_ub : bool                 (* undefined behaviour has happened *)
}.
Definition init_world (cache_time : duration) : world := mkWorld (init_buf cache_time) [] 0 [] [] false.

Definition thrown (a : answer) : bool :=
  match a with
  | ABool (Ok _) | AHandle (Ok _) | AVoid | ACallback _ => false
  | _ => true
  end.
Definition accepted (o : req_op) (a : answer) : bool :=
  match o, a with RSet _ _ _, ABool (Ok true) => true | _, _ => false end.

(** One step.  A callback is called through a reference into the table of callbacks
    (boost::ref(it->second), 1460): if it was removed meanwhile the reference dangles. *)
Definition step (user : list item -> who -> list act) (w : world) : option world :=
  if w_ub w then None
  else match w_stack w with
  | [] => None
  | Act (Call o) :: rest =>
      let '(b', a, evs) := req_step (w_buf w) o in
      let next := if thrown a then [] else if accepted o a then map Deliver evs ++ Signal :: rest else rest in
      Some (mkWorld b' (w_listeners w) (w_next w) next (w_log w ++ [Called o a evs]) false)
  | Act Listen :: rest =>
      Some (mkWorld (w_buf w) (w_listeners w ++ [w_next w]) (Datatypes.S (w_next w)) rest (w_log w ++ [Listened (w_next w)]) false)
  | Act (Unlisten l) :: rest =>
      Some (mkWorld (w_buf w) (filter (fun k => negb (Nat.eqb k l)) (w_listeners w)) (w_next w) rest (w_log w ++ [Unlistened l]) false)
  | Act Raise :: _ => Some (mkWorld (w_buf w) (w_listeners w) (w_next w) [] (w_log w ++ [Raised]) false)
  | Deliver e :: rest =>
      if registered (b_cbs (w_buf w)) (ev_cb e) then
        let d := deliver (b_reqs (w_buf w)) e in
        Some (mkWorld (w_buf w) (w_listeners w) (w_next w) (map Act (user (w_log w) (ByRequest e d)) ++ rest) (w_log w ++ [Notified e d]) false)
      else Some (mkWorld (w_buf w) (w_listeners w) (w_next w) rest (w_log w) true)
  | Signal :: rest =>
      Some (mkWorld (w_buf w) (w_listeners w) (w_next w) (map Tell (w_listeners w) ++ rest) (w_log w ++ [Signalled (w_listeners w)]) false)
  | Tell l :: rest =>
      if existsb (Nat.eqb l) (w_listeners w) then
        Some (mkWorld (w_buf w) (w_listeners w) (w_next w) (map Act (user (w_log w) (ByChange l)) ++ rest) (w_log w ++ [Changed l]) false)
      else Some (mkWorld (w_buf w) (w_listeners w) (w_next w) rest (w_log w) false)
  end.
(** The program outside makes a call when the last one has returned. *)
Definition begin (w : world) (a : act) : world :=
  mkWorld (w_buf w) (w_listeners w) (w_next w) [Act a] (w_log w) (w_ub w).
End ReEntrant.
Arguments act : clear implicits.
Arguments todo : clear implicits.
Arguments item : clear implicits.
Arguments world : clear implicits.
