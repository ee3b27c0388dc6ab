(** * tf2_ros::MessageFilter

    Model of tf2_ros/include/tf2_ros/message_filter.h over the BufferCore model.
    Simplifications: the message is its header (frame id, stamp) and a ghost sequence number
    [mi_seq] telling calls of add() apart; debug output, statistics counters (successful_,
    dropped_, incoming_... 693-697) and the never-called checkFailures are dropped;
    message_count_ is the length of the list (it is kept equal to it, fewer than 2^32 messages);
    the user's callbacks are output, not code; each public call is one atomic step. *)
From Coq Require Import ZArith Bool List String.
From Verif Require Import RosTime Scalar LinearMath Cache BufferCore Requests.
Import ListNotations.
Open Scope Z_scope.

(** 62-72 *)
Inductive failure_reason := Unknown | OutTheBack | EmptyFrameID.
Inductive outcome := Ready | Dropped (r : failure_reason).

(** 675-684 MessageInfo *)
Record minfo := mkInfo {
  mi_seq : nat; mi_frame : string; mi_stamp : time;   (* event: raw frame id, stamp *)
  mi_handles : list Z;
  mi_success : nat
}.
(** one user-visible verdict on an added message *)
Record output := mkOut { o_seq : nat; o_frame : string; o_stamp : time; o_outcome : outcome }.

(** 655-665 (same text as BufferCore's) *)
Definition mf_stripSlash : string -> string := stripSlash.

Section MF.
Context {S : Scalar}.
Notation buf := (buf S).

Record filt := mkFilt {
  f_buf : buf;                  (* bc_, shared with other clients *)
  f_cb : Z;                     (* callback_handle_ *)
  f_targets : list string;      (* target_frames_ *)
  f_tol : duration;             (* time_tolerance_ *)
  f_expected : nat;             (* expected_success_count_ *)
  f_qsize : nat;                (* queue_size_; 0 = unbounded *)
  f_msgs : list minfo;          (* messages_ *)
  f_cbq : bool;                 (* callback_queue_ != NULL *)
  f_outbox : list output;       (* what this filter has in callback_queue_ *)
  f_delivered : list output;    (* signalMessage / signalFailure calls so far *)
  f_added : list (string * time);  (* ghost: the add() calls so far; a message's number is its position *)
  f_emitted : list output       (* ghost: messageReady / messageDropped calls so far *)
}.

Definition with_buf (f : filt) (b : buf) : filt :=
  {| f_buf := b; f_cb := f_cb f; f_targets := f_targets f; f_tol := f_tol f; f_expected := f_expected f; f_qsize := f_qsize f;
     f_msgs := f_msgs f; f_cbq := f_cbq f; f_outbox := f_outbox f; f_delivered := f_delivered f; f_added := f_added f; f_emitted := f_emitted f |}.
Definition with_msgs (f : filt) (l : list minfo) : filt :=
  {| f_buf := f_buf f; f_cb := f_cb f; f_targets := f_targets f; f_tol := f_tol f; f_expected := f_expected f; f_qsize := f_qsize f;
     f_msgs := l; f_cbq := f_cbq f; f_outbox := f_outbox f; f_delivered := f_delivered f; f_added := f_added f; f_emitted := f_emitted f |}.

(** 617-641 messageDropped, messageReady *)
Definition emit (f : filt) (o : output) : filt :=
  {| f_buf := f_buf f; f_cb := f_cb f; f_targets := f_targets f; f_tol := f_tol f; f_expected := f_expected f; f_qsize := f_qsize f;
     f_msgs := f_msgs f; f_cbq := f_cbq f;
     f_outbox := if f_cbq f then f_outbox f ++ [o] else f_outbox f;
     f_delivered := if f_cbq f then f_delivered f else f_delivered f ++ [o];
     f_added := f_added f; f_emitted := f_emitted f ++ [o] |}.
Definition verdict (i : minfo) (o : outcome) : output :=
  {| o_seq := mi_seq i; o_frame := mi_frame i; o_stamp := mi_stamp i; o_outcome := o |}.

(** 246 and 272 *)
Definition expected_count (targets : list string) (tol : duration) : nat :=
  (List.length targets * (if (tol =? 0)%Z then 1 else 2))%nat.
(** 241-254 setTargetFrames *)
Definition setTargetFrames (f : filt) (targets : list string) : filt :=
  let t := map mf_stripSlash targets in
  {| f_buf := f_buf f; f_cb := f_cb f; f_targets := t; f_tol := f_tol f; f_expected := expected_count t (f_tol f); f_qsize := f_qsize f;
     f_msgs := f_msgs f; f_cbq := f_cbq f; f_outbox := f_outbox f; f_delivered := f_delivered f; f_added := f_added f; f_emitted := f_emitted f |}.
(** 268-273 setTolerance *)
Definition setTolerance (f : filt) (tol : duration) : filt :=
  {| f_buf := f_buf f; f_cb := f_cb f; f_targets := f_targets f; f_tol := tol; f_expected := expected_count (f_targets f) tol; f_qsize := f_qsize f;
     f_msgs := f_msgs f; f_cbq := f_cbq f; f_outbox := f_outbox f; f_delivered := f_delivered f; f_added := f_added f; f_emitted := f_emitted f |}.
(** 431-434 setQueueSize *)
Definition setQueueSize (f : filt) (n : nat) : filt :=
  {| f_buf := f_buf f; f_cb := f_cb f; f_targets := f_targets f; f_tol := f_tol f; f_expected := f_expected f; f_qsize := n;
     f_msgs := f_msgs f; f_cbq := f_cbq f; f_outbox := f_outbox f; f_delivered := f_delivered f; f_added := f_added f; f_emitted := f_emitted f |}.

(** 278-295 clear.  (addTransformableCallback cannot fail to find a handle here: one was just
    freed.  The old handle is kept in that case.) *)
Definition mf_clear (f : filt) : filt :=
  let '(b, h) := addTransformableCallback (removeTransformableCallback (f_buf f) (f_cb f)) in
  {| f_buf := b; f_cb := match h with Some h => h | None => f_cb f end;
     f_targets := f_targets f; f_tol := f_tol f; f_expected := f_expected f; f_qsize := f_qsize f;
     f_msgs := []; f_cbq := f_cbq f; f_outbox := if f_cbq f then [] else f_outbox f; f_delivered := f_delivered f; f_added := f_added f; f_emitted := f_emitted f |}.

(** 96-107 constructor (and 130-177, which differ in connecting an input), 444-457 init *)
Definition new_filter (b : buf) (target : string) (queue_size : nat) (has_cbq : bool) : option filt :=
  match addTransformableCallback b with
  | (b', Some h) =>
      Some (setTargetFrames
        {| f_buf := b'; f_cb := h; f_targets := []; f_tol := 0; f_expected := 1; f_qsize := queue_size; f_msgs := [];
           f_cbq := has_cbq; f_outbox := []; f_delivered := []; f_added := []; f_emitted := [] |} [target])
  | (_, None) => None
  end.

(** 311-361, the requests made for one message.  [None] = some request was answered "never" *)
Definition note_answer (h : Z) (acc : nat * list Z) : option (nat * list Z) :=
  if h =? NEVER_TRANSFORMABLE then None
  else if h =? 0 then Some (Datatypes.S (fst acc), snd acc)
  else Some (fst acc, snd acc ++ [h]).
Fixpoint add_requests (b : buf) (cb : Z) (src : string) (stamp : time) (tol : duration) (targets : list string)
    (acc : nat * list Z) : buf * res (option (nat * list Z)) :=
  match targets with
  | [] => (b, Ok (Some acc))
  | tgt :: rest =>
      match addTransformableRequest b cb tgt src stamp with
      | (b1, Ok h) =>
          match note_answer h acc with
          | None => (b1, Ok None)
          | Some acc1 =>
              if tol =? 0 then add_requests b1 cb src stamp tol rest acc1
              else
                match time_add stamp tol with
                | None => (b1, Throw RuntimeError ETimeRange)
                | Some t2 =>
                    match addTransformableRequest b1 cb tgt src t2 with
                    | (b2, Ok h2) =>
                        match note_answer h2 acc1 with
                        | None => (b2, Ok None)
                        | Some acc2 => add_requests b2 cb src stamp tol rest acc2
                        end
                    | (b2, Throw c e) => (b2, Throw c e)
                    | (b2, UB) => (b2, UB)
                    end
                end
          end
      | (b1, Throw c e) => (b1, Throw c e)
      | (b1, UB) => (b1, UB)
      end
  end.

Definition note_added (f : filt) (frame : string) (stamp : time) : filt :=
  {| f_buf := f_buf f; f_cb := f_cb f; f_targets := f_targets f; f_tol := f_tol f; f_expected := f_expected f; f_qsize := f_qsize f;
     f_msgs := f_msgs f; f_cbq := f_cbq f; f_outbox := f_outbox f; f_delivered := f_delivered f; f_added := f_added f ++ [(frame, stamp)]; f_emitted := f_emitted f |}.

(** 365-399: second half of add(): deliver, or queue (dropping the oldest message when full) *)
Definition add_finish (f : filt) (i : minfo) : filt :=
  if Nat.eqb (mi_success i) (f_expected f) then emit f (verdict i Ready)
  else
    let f1 :=
      if negb (Nat.eqb (f_qsize f) 0) && Nat.ltb (f_qsize f) (List.length (f_msgs f) + 1) then
        match f_msgs f with
        | front :: rest =>
            let b := fold_left cancelTransformableRequest (mi_handles front) (f_buf f) in
            with_msgs (emit (with_buf f b) (verdict front (Dropped Unknown))) rest
        | [] => f                (* not reachable: front() of an empty list *)
        end
      else f in
    with_msgs f1 (f_msgs f1 ++ [i]).

(** 297-364: first half of add(): either the call is over, or the message goes to [add_finish] *)
Inductive add_begun := AddOver (r : res unit) | AddInfo (i : minfo).
Definition add_begin (f0 : filt) (frame : string) (stamp : time) : filt * add_begun :=
  let f := note_added f0 frame stamp in
  let info n hs := {| mi_seq := List.length (f_added f0); mi_frame := frame; mi_stamp := stamp; mi_handles := hs; mi_success := n |} in
  match f_targets f with
  | [] => (f, AddOver (Ok tt))
  | _ =>
      let src := mf_stripSlash frame in
      if String.eqb src EmptyString then (emit f (verdict (info O []) (Dropped EmptyFrameID)), AddOver (Ok tt))
      else
        let '(b, r) := add_requests (f_buf f) (f_cb f) src stamp (f_tol f) (f_targets f) (O, []) in
        let f1 := with_buf f b in
        match r with
        | Ok None => (emit f1 (verdict (info O []) (Dropped OutTheBack)), AddOver (Ok tt))
        | Ok (Some (n, hs)) => (f1, AddInfo (info n hs))
        | Throw c e => (f1, AddOver (Throw c e))
        | UB => (f1, AddOver UB)
        end
  end.
(** 297-405 add *)
Definition mf_add (f : filt) (frame : string) (stamp : time) : filt * res unit :=
  match add_begin f frame stamp with
  | (f1, AddOver r) => (f1, r)
  | (f1, AddInfo i) => (add_finish f1 i, Ok tt)
  end.

(** 466-480: the first queued message that has this handle, with what is before and after it *)
Fixpoint find_info (h : Z) (l : list minfo) : option (list minfo * minfo * list minfo) :=
  match l with
  | [] => None
  | i :: l' =>
      if existsb (Z.eqb h) (mi_handles i) then Some ([], i, l')
      else match find_info h l' with Some (l1, j, l2) => Some (i :: l1, j, l2) | None => None end
  end.
Definition bump (i : minfo) : minfo :=
  {| mi_seq := mi_seq i; mi_frame := mi_frame i; mi_stamp := mi_stamp i; mi_handles := mi_handles i; mi_success := Datatypes.S (mi_success i) |}.

(** 501-521: can all the transforms still be performed? *)
Fixpoint still_can (s : core S) (targets : list string) (src : string) (stamp : time) (tol : duration) : res bool :=
  match targets with
  | [] => Ok true
  | tgt :: rest =>
      ' (c, _) <- canTransform s tgt src stamp None ;;
      if c then
        if tol =? 0 then still_can s rest src stamp tol
        else
          t2 <- lift_time (time_add stamp tol) ;;
          ' (c2, _) <- canTransform s tgt src t2 None ;;
          if c2 then still_can s rest src stamp tol else Ok false
      else Ok false
  end.

(** 459-548 transformable.  [result] is whatever the callback reads through the reference it is
    given (see Requests.deliver: the object no longer exists). *)
Definition mf_transformable (f : filt) (h : Z) (result : transformable_result) : filt * res unit :=
  match find_info h (f_msgs f) with
  | None => (f, Ok tt)
  | Some (l1, i0, l2) =>
      let i := bump i0 in
      let f1 := with_msgs f (l1 ++ i :: l2) in
      if Nat.ltb (mi_success i) (f_expected f) then (f1, Ok tt)
      else
        let can := match result with
                   | TransformAvailable => still_can (b_core (f_buf f)) (f_targets f) (mf_stripSlash (mi_frame i)) (mi_stamp i) (f_tol f)
                   | TransformFailure => Ok false
                   end in
        match can with
        | Ok true => (with_msgs (emit f1 (verdict i Ready)) (l1 ++ l2), Ok tt)
        | Ok false => (with_msgs (emit f1 (verdict i (Dropped Unknown))) (l1 ++ l2), Ok tt)
        | Throw c e => (f1, Throw c e)
        | UB => (f1, UB)
        end
  end.

(** buffer_core.cpp 1484-1487 for the callbacks that are this filter's; other clients' callbacks
    are not run.  [read k] is what the k-th callback reads as result.  An exception ends the loop
    and leaves setTransform. *)
Fixpoint fire (f : filt) (evs : list event) (read : nat -> transformable_result) : filt * res unit :=
  match evs with
  | [] => (f, Ok tt)
  | e :: evs' =>
      if ev_cb e =? f_cb f then
        match mf_transformable f (ev_handle e) (read O) with
        | (f1, Ok _) => fire f1 evs' (fun k => read (Datatypes.S k))
        | (f1, Throw c x) => (f1, Throw c x)
        | (f1, UB) => (f1, UB)
        end
      else fire f evs' (fun k => read (Datatypes.S k))
  end.

(** setTransform on the shared buffer, from any thread *)
Definition mf_set_transform (f : filt) (m : tmsg S) (authority : string) (is_static : bool)
    (read : nat -> transformable_result) : filt * res bool :=
  let '(b, r) := set_transform (f_buf f) m authority is_static in
  let f1 := with_buf f b in
  match r with
  | Ok (v, evs) =>
      match fire f1 evs read with
      | (f2, Ok _) => (f2, Ok v)
      | (f2, Throw c e) => (f2, Throw c e)
      | (f2, UB) => (f2, UB)
      end
  | Throw c e => (f1, Throw c e)
  | UB => (f1, UB)
  end.

(** The node spins: CBQueueCallback::call (596-608) of the first pending callback. *)
Definition mf_spin (f : filt) : filt :=
  match f_outbox f with
  | [] => f
  | o :: rest =>
      {| f_buf := f_buf f; f_cb := f_cb f; f_targets := f_targets f; f_tol := f_tol f; f_expected := f_expected f; f_qsize := f_qsize f;
         f_msgs := f_msgs f; f_cbq := f_cbq f; f_outbox := rest; f_delivered := f_delivered f ++ [o]; f_added := f_added f; f_emitted := f_emitted f |}
  end.
End MF.
Arguments filt : clear implicits.
