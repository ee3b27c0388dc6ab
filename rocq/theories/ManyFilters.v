(** * Several tf2_ros::MessageFilters on one buffer

    Model of tf2_ros/include/tf2_ros/message_filter.h and of the callback loop of
    tf2/src/buffer_core.cpp 1482-1487 for any number of filters that share a BufferCore and come and
    go.  Each filter is the record of MessageFilter.v; its [f_buf] is a copy of the shared buffer,
    refreshed before every call.  Simplifications: those of MessageFilter.v (each public call is
    one atomic step); the connection to an input (message_connection_) is left out: add() is called
    directly. *)
From Coq Require Import ZArith Bool List String.
From Verif Require Import RosTime Scalar LinearMath Cache BufferCore Requests SpecRequests MessageFilter SpecFilter.
Import ListNotations.
Open Scope Z_scope.

Section Many.
Context {S : Scalar}.

Record world := mkWorld {
  w_buf : buf S;                        (* the shared BufferCore *)
  w_filters : list (option (filt S));   (* by number of construction; None = destroyed *)
  w_dead : list Z                       (* callback_handle_ of the destroyed ones *)
}.

(** filter [k] as it sees the buffer now *)
Definition seen (w : world) (k : nat) : option (filt S) :=
  match nth_error (w_filters w) k with
  | Some (Some f) => Some (with_buf f (w_buf w))
  | _ => None
  end.
Fixpoint set_nth {A} (l : list A) (k : nat) (x : A) : list A :=
  match l, k with
  | [], _ => []
  | _ :: l', O => x :: l'
  | y :: l', Datatypes.S k' => y :: set_nth l' k' x
  end.
(** filter [k] has done something: its new state, and the buffer it left *)
Definition put (w : world) (k : nat) (f : filt S) : world :=
  {| w_buf := f_buf f; w_filters := set_nth (w_filters w) k (Some f); w_dead := w_dead w |}.

(** The filter whose callback is registered under [cb]. *)
Fixpoint owner (fs : list (option (filt S))) (cb : Z) : option nat :=
  match fs with
  | [] => None
  | Some f :: fs' => if cb =? f_cb f then Some O else option_map Datatypes.S (owner fs' cb)
  | None :: fs' => option_map Datatypes.S (owner fs' cb)
  end.
(** buffer_core.cpp 1484-1487: the callbacks in order.  One that belongs to a destroyed filter is a
    call through a dangling [this]; an exception ends the loop and leaves setTransform. *)
Fixpoint fire_all (w : world) (evs : list event) (read : nat -> transformable_result) : world * res unit :=
  match evs with
  | [] => (w, Ok tt)
  | e :: evs' =>
      if existsb (Z.eqb (ev_cb e)) (w_dead w) then (w, UB)
      else
        match owner (w_filters w) (ev_cb e) with
        | None => fire_all w evs' (fun k => read (Datatypes.S k))
        | Some k =>
            match seen w k with
            | None => (w, UB)
            | Some f =>
                match mf_transformable f (ev_handle e) (read O) with
                | (f1, Ok _) => fire_all (put w k f1) evs' (fun k => read (Datatypes.S k))
                | (f1, Throw c x) => (put w k f1, Throw c x)
                | (f1, UB) => (put w k f1, UB)
                end
            end
        end
  end.
(** setTransform on the shared buffer *)
Definition w_set_transform (w : world) (m : tmsg S) (authority : string) (is_static : bool)
    (read : nat -> transformable_result) : world * res bool :=
  let '(b, r) := set_transform (w_buf w) m authority is_static in
  let w1 := mkWorld b (w_filters w) (w_dead w) in
  match r with
  | Ok (v, evs) =>
      match fire_all w1 evs read with
      | (w2, Ok _) => (w2, Ok v)
      | (w2, Throw c e) => (w2, Throw c e)
      | (w2, UB) => (w2, UB)
      end
  | Throw c e => (w1, Throw c e)
  | UB => (w1, UB)
  end.

(** 96-107 the constructor, on the shared buffer *)
Definition w_new (w : world) (target : string) (queue_size : nat) (has_cbq : bool) : world :=
  match new_filter (w_buf w) target queue_size has_cbq with
  | Some f => mkWorld (f_buf f) (w_filters w ++ [Some f]) (w_dead w)
  | None => w
  end.
(** 215-225 the destructor: clear(), which removes the callback and registers it anew (285-286),
    and then the object is gone *)
Definition w_destroy (w : world) (k : nat) : world :=
  match seen w k with
  | Some f => let f' := mf_clear f in mkWorld (f_buf f') (set_nth (w_filters w) k None) (f_cb f' :: w_dead w)
  | None => w
  end.
End Many.
Arguments world : clear implicits.
